(** Property theorems C49-C51: equivariance under the symmetries of the pixel grid.
    Reading guide.  [moved2 A X X'] (EquiSpec.v): the tensor X' is the image stack X rotated by the matrix A about its
    centre (last two axes), all leading axes being untouched; [carried2 rel A X X'] is the same with the entries v of X and
    v' of X' related by rel.  [constructed] as in Prop_Conv.v.
    [padded_by d padding k dl lp]: the padding argument puts the same amount lp on both sides of every axis (EquiLayer.v).
    [covered d k st dl lp s]: the stride st is 1, or divides the extent that a kernel of size k moves over in an image of
    size s with padding lp.  [usize d k st dl lp s]: output size of such a convolution.  [first_pad m padding lp]: padding
    of the first (1x1) stage of the separable convolution.  2d: the symmetries are the quarter turns; 3d: the orthogonal
    matrices with entries -1, 0, 1 ([signed3]). *)
From Coq Require Import String ZArith Permutation.
From Verif Require Import Prelude RMath Mat Interp SO2 SO2Facts O2 O2Facts SO3 SO3Facts O3 O3Facts Repulse RepulseFacts Tensor TensorFacts SignedPerm Functional
  FunctionalFacts Kernel KernelFacts GroupKernelFacts KernelMore Conv ConvSpec ConvFacts ConvInit Equi EquiLayer EquiSpec EquiSpecFacts EquiKernel EquiGroups.
Open Scope R_scope.

Lemma carried_sp_impl d sp (r1 r2 : list nat -> R -> R -> Prop) X X' : (forall pre v v', r1 pre v v' -> r2 pre v v') ->
  carried_sp d sp r1 X X' -> carried_sp d sp r2 X X'.
Proof. intros H (lead & s & s' & A & B & C & E & V). exists lead, s, s'. do 4 (split; [assumption|]). intros. apply H. auto. Qed.

(** ** C49 *)
Theorem C49_lifting_SE2 : forall T (L : gconv R V2) cin out s groups st padding dl m bias lp mode pm mask grid weight (X X' Y : tensor R) N h w H q,
  constructed 2 L cin out [s; s] (lifting_kernel_SE2 T cin out s groups mode pm mask grid) groups [st; st] padding [dl; dl] m bias ->
  (2 <= s)%nat -> padded_by 2 padding s dl lp ->
  has_shape weight (out :: cin / groups :: [s; s])%nat -> H <> [] ->
  has_shape X (N :: cin :: [h; w]) -> covered 2 s st dl lp [h; w] ->
  let g := IZR q * (PI / 2) in
  moved2 (so2_angle_to_matrix g) X X' ->
  lifting_forward L weight X H = Ok (Y, H) ->
  exists Y', lifting_forward L weight X' (map (so2_left_apply_angle g) H) = Ok (Y', map (so2_left_apply_angle g) H) /\
    moved2 (so2_angle_to_matrix g) Y Y'.
Proof.
  intros T L cin out s groups st padding dl m bias lp mode pm mask grid weight X X' Y N h w H q Hc Hs Hpad Hw HH HX Hex g HM E.
  destruct (symmetry2 _ (quarter_signed q)) as (sp & Hok & Et & Hiff). fold g in Et, Hiff.
  set (k := lifting_kernel_SE2 T cin out s groups mode pm mask grid) in *.
  pose proof (moves_SE2 k s true T "" 0 mode pm g sp H Hs eq_refl eq_refl eq_refl eq_refl Hok Et) as K.
  assert (exists smp, op_sample_Rn (k_ops k) = Ok smp) as [smp Hsmp].
  { destruct (constructed_spec _ _ _ _ _ _ _ _ _ _ _ _ Hc) as (_ & _ & Ek & _).
    unfold lifting_forward in E. rewrite (proj1 HX), Ek in E. unfold lifting_kernel_forward in E.
    destruct (op_sample_Rn (k_ops k)); [eauto|discriminate]. }
  destruct (lifting_layer 2 L cin out s k groups st padding dl m bias lp Hc Hpad eq_refl eq_refl eq_refl _ _ _ _ g sp _ 1
    smp weight H X X' N [h; w] Y K Hsmp Hw HH HX eq_refl Hex) as (Y' & E' & V); [|exact E|].
  - apply Hiff in HM. revert HM. apply carried_sp_impl. intros pre v v' ->. unfold factor_rel. ring.
  - exists Y'. split; [exact E'|]. apply Hiff. revert V. apply carried_sp_impl. unfold sign_rel. intros pre v v' A. lra.
Qed.
Print Assumptions C49_lifting_SE2.

Theorem C49_lifting_SE3 : forall T (L : gconv M3 V3) cin out s groups st padding dl m bias lp mode pm mask grid weight (X X' Y : tensor R) N d h w H g,
  constructed 3 L cin out [s; s; s] (lifting_kernel_SE3 T cin out s groups mode pm mask grid) groups [st; st; st] padding [dl; dl; dl] m bias ->
  (2 <= s)%nat -> padded_by 3 padding s dl lp ->
  has_shape weight (out :: cin / groups :: [s; s; s])%nat -> H <> [] ->
  has_shape X (N :: cin :: [d; h; w]) -> covered 3 s st dl lp [d; h; w] ->
  signed3 g -> det3 g = 1 ->
  moved3 g X X' ->
  lifting_forward L weight X H = Ok (Y, H) ->
  exists Y', lifting_forward L weight X' (map (mul3 g) H) = Ok (Y', map (mul3 g) H) /\
    moved3 g Y Y'.
Proof.
  intros T L cin out s groups st padding dl m bias lp mode pm mask grid weight X X' Y N d h w H g Hc Hs Hpad Hw HH HX Hex Hg Hdet HM E.
  destruct (symmetry3 g Hg) as (sp & Hok & Et & Hiff).
  set (k := lifting_kernel_SE3 T cin out s groups mode pm mask grid) in *.
  pose proof (moves_SE3 k s mask T "" 0 mode pm g sp H Hs eq_refl eq_refl eq_refl eq_refl Hok Et) as K.
  assert (exists smp, op_sample_Rn (k_ops k) = Ok smp) as [smp Hsmp].
  { destruct (constructed_spec _ _ _ _ _ _ _ _ _ _ _ _ Hc) as (_ & _ & Ek & _).
    unfold lifting_forward in E. rewrite (proj1 HX), Ek in E. unfold lifting_kernel_forward in E.
    destruct (op_sample_Rn (k_ops k)); [eauto|discriminate]. }
  destruct (lifting_layer 3 L cin out s k groups st padding dl m bias lp Hc Hpad eq_refl eq_refl eq_refl _ _ _ _ g sp _ 1
    smp weight H X X' N [d; h; w] Y K Hsmp Hw HH HX eq_refl Hex) as (Y' & E' & V); [|exact E|].
  - apply Hiff in HM. revert HM. apply carried_sp_impl. intros pre v v' ->. unfold factor_rel. ring.
  - exists Y'. split; [exact E'|]. apply Hiff. revert V. apply carried_sp_impl. unfold sign_rel. intros pre v v' A. lra.
Qed.
Print Assumptions C49_lifting_SE3.

(** ** C50 *)
Theorem C50_group_SE2 : forall T (L : gconv R V2) k cin out s groups st padding dl m bias lp gmode given mode pm mask grid weight (X X' Y : tensor R) N h w in_H out_H q,
  kernel_SE2 T cin out s groups gmode given mode pm mask grid = Ok k ->
  constructed 2 L cin out [s; s] k groups [st; st] padding [dl; dl] m bias ->
  (2 <= s)%nat -> padded_by 2 padding s dl lp ->
  has_shape weight (List.length grid :: out :: cin / groups :: [s; s])%nat -> out_H <> [] ->
  has_shape X (N :: cin :: List.length in_H :: [h; w]) -> covered 2 s st dl lp [h; w] ->
  let g := IZR q * (PI / 2) in
  moved2 (so2_angle_to_matrix g) X X' ->
  full_forward L weight X in_H out_H = Ok (Y, out_H) ->
  exists Y', full_forward L weight X' (map (so2_left_apply_angle g) in_H) (map (so2_left_apply_angle g) out_H) = Ok (Y', map (so2_left_apply_angle g) out_H) /\
    moved2 (so2_angle_to_matrix g) Y Y'.
Proof.
  intros T L k cin out s groups st padding dl m bias lp gmode given mode pm mask grid weight X X' Y N h w in_H out_H q Hk Hc Hs Hpad Hw HH HX Hex g HM E.
  destruct (symmetry2 _ (quarter_signed q)) as (sp & Hok & Et & Hiff). fold g in Et, Hiff.
  unfold kernel_SE2 in Hk. destruct (width_SE2 given grid) as [wd|]; [|discriminate]. injection Hk as <-.
  set (k := Build_gkernel _ _ _ _ _ _ _ _ _ _ _) in *.
  assert (has_shape weight (full_weight_shape k)) as Hw' by (unfold full_weight_shape; replace (k_gdim k) with (List.length grid) by (unfold k_gdim, k; cbn; lia); exact Hw).
  pose proof (moves_SE2 k s true T gmode wd mode pm g sp out_H Hs eq_refl eq_refl eq_refl eq_refl Hok Et) as K.
  destruct (group_layer 2 L cin out s k groups st padding dl m bias lp Hc Hpad eq_refl eq_refl eq_refl _ _ _ _ g sp _ 1
    weight in_H out_H X X' N [h; w] Y K) as (Y' & E' & V); try assumption.
  - intros wt rows Hr. eexists. exact (sampled_SE2 k T gmode wd mode pm _ _ in_H out_H rows eq_refl Hr).
  - intros a b _ _. apply so2_relative.
  - reflexivity.
  - apply Hiff in HM. revert HM. apply carried_sp_impl. intros pre v v' ->. unfold factor_rel. ring.
  - exists Y'. split; [exact E'|]. apply Hiff. revert V. apply carried_sp_impl. unfold sign_rel. intros pre v v' A. lra.
Qed.
Print Assumptions C50_group_SE2.

Theorem C50_separable_SE2 : forall T (L : gconv R V2) k cin out s groups st padding dl m bias lp gmode given mode pm mask grid weight_H weight (X X' Y : tensor R) N h w in_H out_H q,
  kernel_SE2 T cin out s groups gmode given mode pm mask grid = Ok k ->
  constructed 2 L cin out [s; s] k groups [st; st] padding [dl; dl] m bias ->
  (2 <= s)%nat -> padded_by 2 padding s dl lp ->
  has_shape weight_H [List.length grid; out; cin / groups]%nat -> has_shape weight (out :: 1 :: [s; s])%nat -> out_H <> [] ->
  has_shape X (N :: cin :: List.length in_H :: [h; w]) -> covered 2 1 st dl (first_pad m padding lp) [h; w] ->
  covered 2 s st dl lp (usize 2 1 st dl (first_pad m padding lp) [h; w]) ->
  let g := IZR q * (PI / 2) in
  moved2 (so2_angle_to_matrix g) X X' ->
  separable_forward L weight_H weight X in_H out_H = Ok (Y, out_H) ->
  exists Y', separable_forward L weight_H weight X' (map (so2_left_apply_angle g) in_H) (map (so2_left_apply_angle g) out_H) = Ok (Y', map (so2_left_apply_angle g) out_H) /\
    moved2 (so2_angle_to_matrix g) Y Y'.
Proof.
  intros T L k cin out s groups st padding dl m bias lp gmode given mode pm mask grid weight_H weight X X' Y N h w in_H out_H q Hk Hc Hs Hpad HwH Hw HH HX Hex1 Hex2 g HM E.
  destruct (symmetry2 _ (quarter_signed q)) as (sp & Hok & Et & Hiff). fold g in Et, Hiff.
  unfold kernel_SE2 in Hk. destruct (width_SE2 given grid) as [wd|]; [|discriminate]. injection Hk as <-.
  set (k := Build_gkernel _ _ _ _ _ _ _ _ _ _ _) in *.
  assert (has_shape weight_H (group_weight_shape k)) as HwH' by (unfold group_weight_shape; replace (k_gdim k) with (List.length grid) by (unfold k_gdim, k; cbn; lia); exact HwH).
  pose proof (moves_SE2 k s true T gmode wd mode pm g sp out_H Hs eq_refl eq_refl eq_refl eq_refl Hok Et) as K.
  destruct (separable_layer 2 L cin out s k groups st padding dl m bias lp Hc Hpad eq_refl eq_refl eq_refl _ _ _ _ g sp _ 1
    weight_H weight in_H out_H X X' N [h; w] Y K) as (Y' & E' & V); try assumption.
  - intros wt rows Hr. eexists. exact (sampled_SE2 k T gmode wd mode pm _ _ in_H out_H rows eq_refl Hr).
  - intros a b _ _. apply so2_relative.
  - reflexivity.
  - apply Hiff in HM. revert HM. apply carried_sp_impl. intros pre v v' ->. unfold factor_rel. ring.
  - exists Y'. split; [exact E'|]. apply Hiff. revert V. apply carried_sp_impl. unfold sign_rel. intros pre v v' A. lra.
Qed.
Print Assumptions C50_separable_SE2.

Theorem C50_group_SE3 : forall T (L : gconv M3 V3) k cin out s groups st padding dl m bias lp gmode given mode pm mask grid weight (X X' Y : tensor R) N d h w in_H out_H g,
  kernel_SE3 T cin out s groups gmode given mode pm mask grid = Ok k ->
  constructed 3 L cin out [s; s; s] k groups [st; st; st] padding [dl; dl; dl] m bias ->
  (2 <= s)%nat -> padded_by 3 padding s dl lp ->
  has_shape weight (List.length grid :: out :: cin / groups :: [s; s; s])%nat -> out_H <> [] ->
  has_shape X (N :: cin :: List.length in_H :: [d; h; w]) -> covered 3 s st dl lp [d; h; w] ->
  signed3 g -> det3 g = 1 ->
  moved3 g X X' ->
  full_forward L weight X in_H out_H = Ok (Y, out_H) ->
  exists Y', full_forward L weight X' (map (mul3 g) in_H) (map (mul3 g) out_H) = Ok (Y', map (mul3 g) out_H) /\
    moved3 g Y Y'.
Proof.
  intros T L k cin out s groups st padding dl m bias lp gmode given mode pm mask grid weight X X' Y N d h w in_H out_H g Hk Hc Hs Hpad Hw HH HX Hex Hg Hdet HM E.
  destruct (symmetry3 g Hg) as (sp & Hok & Et & Hiff).
  unfold kernel_SE3 in Hk. destruct (width_SE3 given grid) as [wd|]; [|discriminate]. injection Hk as <-.
  set (k := Build_gkernel _ _ _ _ _ _ _ _ _ _ _) in *.
  assert (has_shape weight (full_weight_shape k)) as Hw' by (unfold full_weight_shape; replace (k_gdim k) with (List.length grid) by (unfold k_gdim, k; cbn; lia); exact Hw).
  pose proof (moves_SE3 k s mask T gmode wd mode pm g sp out_H Hs eq_refl eq_refl eq_refl eq_refl Hok Et) as K.
  destruct (group_layer 3 L cin out s k groups st padding dl m bias lp Hc Hpad eq_refl eq_refl eq_refl _ _ _ _ g sp _ 1
    weight in_H out_H X X' N [d; h; w] Y K) as (Y' & E' & V); try assumption.
  - intros wt rows Hr. eexists. exact (sampled_SE3 k T gmode wd mode pm _ _ in_H out_H rows eq_refl Hr).
  - intros a b _ _. apply mul3_relative, Hg.
  - reflexivity.
  - apply Hiff in HM. revert HM. apply carried_sp_impl. intros pre v v' ->. unfold factor_rel. ring.
  - exists Y'. split; [exact E'|]. apply Hiff. revert V. apply carried_sp_impl. unfold sign_rel. intros pre v v' A. lra.
Qed.
Print Assumptions C50_group_SE3.

Theorem C50_separable_SE3 : forall T (L : gconv M3 V3) k cin out s groups st padding dl m bias lp gmode given mode pm mask grid weight_H weight (X X' Y : tensor R) N d h w in_H out_H g,
  kernel_SE3 T cin out s groups gmode given mode pm mask grid = Ok k ->
  constructed 3 L cin out [s; s; s] k groups [st; st; st] padding [dl; dl; dl] m bias ->
  (2 <= s)%nat -> padded_by 3 padding s dl lp ->
  has_shape weight_H [List.length grid; out; cin / groups]%nat -> has_shape weight (out :: 1 :: [s; s; s])%nat -> out_H <> [] ->
  has_shape X (N :: cin :: List.length in_H :: [d; h; w]) -> covered 3 1 st dl (first_pad m padding lp) [d; h; w] ->
  covered 3 s st dl lp (usize 3 1 st dl (first_pad m padding lp) [d; h; w]) ->
  signed3 g -> det3 g = 1 ->
  moved3 g X X' ->
  separable_forward L weight_H weight X in_H out_H = Ok (Y, out_H) ->
  exists Y', separable_forward L weight_H weight X' (map (mul3 g) in_H) (map (mul3 g) out_H) = Ok (Y', map (mul3 g) out_H) /\
    moved3 g Y Y'.
Proof.
  intros T L k cin out s groups st padding dl m bias lp gmode given mode pm mask grid weight_H weight X X' Y N d h w in_H out_H g Hk Hc Hs Hpad HwH Hw HH HX Hex1 Hex2 Hg Hdet HM E.
  destruct (symmetry3 g Hg) as (sp & Hok & Et & Hiff).
  unfold kernel_SE3 in Hk. destruct (width_SE3 given grid) as [wd|]; [|discriminate]. injection Hk as <-.
  set (k := Build_gkernel _ _ _ _ _ _ _ _ _ _ _) in *.
  assert (has_shape weight_H (group_weight_shape k)) as HwH' by (unfold group_weight_shape; replace (k_gdim k) with (List.length grid) by (unfold k_gdim, k; cbn; lia); exact HwH).
  pose proof (moves_SE3 k s mask T gmode wd mode pm g sp out_H Hs eq_refl eq_refl eq_refl eq_refl Hok Et) as K.
  destruct (separable_layer 3 L cin out s k groups st padding dl m bias lp Hc Hpad eq_refl eq_refl eq_refl _ _ _ _ g sp _ 1
    weight_H weight in_H out_H X X' N [d; h; w] Y K) as (Y' & E' & V); try assumption.
  - intros wt rows Hr. eexists. exact (sampled_SE3 k T gmode wd mode pm _ _ in_H out_H rows eq_refl Hr).
  - intros a b _ _. apply mul3_relative, Hg.
  - reflexivity.
  - apply Hiff in HM. revert HM. apply carried_sp_impl. intros pre v v' ->. unfold factor_rel. ring.
  - exists Y'. split; [exact E'|]. apply Hiff. revert V. apply carried_sp_impl. unfold sign_rel. intros pre v v' A. lra.
Qed.
Print Assumptions C50_separable_SE3.

(** ** C51.  b_o below is the bias of the output channel, c the coefficient of the group element (its "determinant"):
    what is equivariant is the output before the bias, and only up to the factor c.  For the group layers the input may
    already carry a factor eps (for instance the sign picked up in an earlier layer). *)
Lemma o2_quarter_signed c q : c = 1 \/ c = -1 -> signed2 (o2_acting_matrix (mkO2 c (IZR q * (PI / 2)))).
Proof.
  intros Hc. destruct (quarter_signed q) as (O & A & B & C & D0). set (M := so2_angle_to_matrix (IZR q * (PI / 2))) in *.
  unfold o2_acting_matrix. cbn [o2c o2a]. fold M.
  assert (forall x, unit_entry x -> unit_entry (c * x)) as Hu.
  { intros x Hx. destruct Hc as [-> | ->]; [rewrite Rmult_1_l; assumption|]. replace (-1 * x) with (- x) by ring. apply unit_neg. assumption. }
  split; [|unfold scal2; cbn [b00 b01 b10 b11]; auto].
  assert (mul2 (scal2 c M) (tr2 (scal2 c M)) = scal2 (c * c) (mul2 M (tr2 M))) as -> by (unfold mul2, scal2, tr2; cbn; f_equal; ring).
  rewrite O. destruct Hc as [-> | ->]; unfold scal2, I2; cbn; f_equal; ring.
Qed.

Theorem C51_lifting_E2 : forall T (L : gconv O2 V2) cin out s groups st padding dl m bias lp n1 n2 mode pm mask grid weight (X X' Y : tensor R) N h w H c q,
  constructed 2 L cin out [s; s] (lifting_kernel_E2 T cin out s groups n1 n2 mode pm mask grid) groups [st; st] padding [dl; dl] m bias ->
  (2 <= s)%nat -> padded_by 2 padding s dl lp ->
  has_shape weight (out :: cin / groups :: [s; s])%nat -> H <> [] ->
  has_shape X (N :: cin :: [h; w]) -> covered 2 s st dl lp [h; w] ->
  let g := mkO2 c (IZR q * (PI / 2)) in
  c = 1 \/ c = -1 ->
  moved2 (o2_acting_matrix g) X X' ->
  lifting_forward L weight X H = Ok (Y, H) ->
  exists Y', lifting_forward L weight X' (map (o2_left_apply_angle g) H) = Ok (Y', map (o2_left_apply_angle g) H) /\
    carried2 (fun pre v v' => v' - bias_value 2 bias (nth 1 pre 0%nat) = c * (v - bias_value 2 bias (nth 1 pre 0%nat))) (o2_acting_matrix g) Y Y'.
Proof.
  intros T L cin out s groups st padding dl m bias lp n1 n2 mode pm mask grid weight X X' Y N h w H c q Hc Hs Hpad Hw HH HX Hex g Hg HM E.
  destruct (symmetry2 _ (o2_quarter_signed c q Hg)) as (sp & Hok & Et & Hiff). fold g in Et, Hiff.
  set (k := lifting_kernel_E2 T cin out s groups n1 n2 mode pm mask grid) in *.
  pose proof (moves_E2 k s mask T "" 0 0 n1 n2 mode pm g sp H Hs eq_refl eq_refl eq_refl eq_refl Hg Hok Et) as K.
  assert (exists smp, op_sample_Rn (k_ops k) = Ok smp) as [smp Hsmp].
  { destruct (constructed_spec _ _ _ _ _ _ _ _ _ _ _ _ Hc) as (_ & _ & Ek & _).
    unfold lifting_forward in E. rewrite (proj1 HX), Ek in E. unfold lifting_kernel_forward in E.
    destruct (op_sample_Rn (k_ops k)); [eauto|discriminate]. }
  destruct (lifting_layer 2 L cin out s k groups st padding dl m bias lp Hc Hpad eq_refl eq_refl eq_refl _ _ _ _ g sp _ 1
    smp weight H X X' N [h; w] Y K Hsmp Hw HH HX eq_refl Hex) as (Y' & E' & V); [|exact E|].
  - apply Hiff in HM. revert HM. apply carried_sp_impl. intros pre v v' ->. unfold factor_rel. ring.
  - exists Y'. split; [exact E'|]. apply Hiff. revert V. apply carried_sp_impl. unfold sign_rel. intros pre v v' A. try unfold g in A; cbn [o2c] in *; rewrite A; ring.
Qed.
Print Assumptions C51_lifting_E2.

Theorem C51_group_E2 : forall T (L : gconv O2 V2) k cin out s groups st padding dl m bias lp n1 n2 gmode rot ref mode pm mask grid weight (X X' Y : tensor R) N h w in_H out_H c q eps,
  kernel_E2 T cin out s groups n1 n2 gmode rot ref mode pm mask grid = Ok k ->
  constructed 2 L cin out [s; s] k groups [st; st] padding [dl; dl] m bias ->
  (2 <= s)%nat -> padded_by 2 padding s dl lp ->
  has_shape weight (n1 + n2 :: out :: cin / groups :: [s; s])%nat -> out_H <> [] ->
  Forall o2_wf in_H -> Forall o2_wf out_H ->
  has_shape X (N :: cin :: List.length in_H :: [h; w]) -> covered 2 s st dl lp [h; w] ->
  let g := mkO2 c (IZR q * (PI / 2)) in
  c = 1 \/ c = -1 ->
  carried2 (fun _ v v' => v' = eps * v) (o2_acting_matrix g) X X' ->
  full_forward L weight X in_H out_H = Ok (Y, out_H) ->
  exists Y', full_forward L weight X' (map (o2_left_apply_angle g) in_H) (map (o2_left_apply_angle g) out_H) = Ok (Y', map (o2_left_apply_angle g) out_H) /\
    carried2 (fun pre v v' => v' - bias_value 2 bias (nth 1 pre 0%nat) = (eps * c) * (v - bias_value 2 bias (nth 1 pre 0%nat))) (o2_acting_matrix g) Y Y'.
Proof.
  intros T L k cin out s groups st padding dl m bias lp n1 n2 gmode rot ref mode pm mask grid weight X X' Y N h w in_H out_H c q eps Hk Hc Hs Hpad Hw HH Hwi Hwo HX Hex g Hg HM E.
  destruct (symmetry2 _ (o2_quarter_signed c q Hg)) as (sp & Hok & Et & Hiff). fold g in Et, Hiff.
  unfold kernel_E2 in Hk. destruct (width_E2_rot rot n1 grid) as [rw|]; [|discriminate]. cbn [bind] in Hk. destruct (width_E2_ref ref n1 grid) as [fw|]; [|discriminate]. injection Hk as <-.
  set (k := Build_gkernel _ _ _ _ _ _ _ _ _ _ _) in *.
  assert (k_gdim k = n1 + n2)%nat as Hd by (unfold k_gdim, k; cbn; lia).
  assert (has_shape weight (full_weight_shape k)) as Hw' by (unfold full_weight_shape; rewrite Hd; exact Hw).
  pose proof (moves_E2 k s mask T gmode rw fw n1 n2 mode pm g sp out_H Hs eq_refl eq_refl eq_refl eq_refl Hg Hok Et) as K.
  destruct (group_layer 2 L cin out s k groups st padding dl m bias lp Hc Hpad eq_refl eq_refl eq_refl _ _ _ _ g sp _ eps
    weight in_H out_H X X' N [h; w] Y K) as (Y' & E' & V); try assumption.
  - intros wt rows Hr. eexists. exact (sampled_E2 k T gmode rw fw n1 n2 mode pm _ _ in_H out_H rows eq_refl Hd Hwi Hwo Hr).
  - intros a b _ _. apply o2_relative; exact Hg.
  - reflexivity.
  - apply Hiff in HM. revert HM. apply carried_sp_impl. intros pre v v' ->. unfold factor_rel. ring.
  - exists Y'. split; [exact E'|]. apply Hiff. revert V. apply carried_sp_impl. unfold sign_rel. intros pre v v' A. try unfold g in A; cbn [o2c] in *; rewrite A; ring.
Qed.
Print Assumptions C51_group_E2.

Theorem C51_separable_E2 : forall T (L : gconv O2 V2) k cin out s groups st padding dl m bias lp n1 n2 gmode rot ref mode pm mask grid weight_H weight (X X' Y : tensor R) N h w in_H out_H c q eps,
  kernel_E2 T cin out s groups n1 n2 gmode rot ref mode pm mask grid = Ok k ->
  constructed 2 L cin out [s; s] k groups [st; st] padding [dl; dl] m bias ->
  (2 <= s)%nat -> padded_by 2 padding s dl lp ->
  has_shape weight_H [n1 + n2; out; cin / groups]%nat -> has_shape weight (out :: 1 :: [s; s])%nat -> out_H <> [] ->
  Forall o2_wf in_H -> Forall o2_wf out_H ->
  has_shape X (N :: cin :: List.length in_H :: [h; w]) -> covered 2 1 st dl (first_pad m padding lp) [h; w] ->
  covered 2 s st dl lp (usize 2 1 st dl (first_pad m padding lp) [h; w]) ->
  let g := mkO2 c (IZR q * (PI / 2)) in
  c = 1 \/ c = -1 ->
  carried2 (fun _ v v' => v' = eps * v) (o2_acting_matrix g) X X' ->
  separable_forward L weight_H weight X in_H out_H = Ok (Y, out_H) ->
  exists Y', separable_forward L weight_H weight X' (map (o2_left_apply_angle g) in_H) (map (o2_left_apply_angle g) out_H) = Ok (Y', map (o2_left_apply_angle g) out_H) /\
    carried2 (fun pre v v' => v' - bias_value 2 bias (nth 1 pre 0%nat) = (eps * c) * (v - bias_value 2 bias (nth 1 pre 0%nat))) (o2_acting_matrix g) Y Y'.
Proof.
  intros T L k cin out s groups st padding dl m bias lp n1 n2 gmode rot ref mode pm mask grid weight_H weight X X' Y N h w in_H out_H c q eps Hk Hc Hs Hpad HwH Hw HH Hwi Hwo HX Hex1 Hex2 g Hg HM E.
  destruct (symmetry2 _ (o2_quarter_signed c q Hg)) as (sp & Hok & Et & Hiff). fold g in Et, Hiff.
  unfold kernel_E2 in Hk. destruct (width_E2_rot rot n1 grid) as [rw|]; [|discriminate]. cbn [bind] in Hk. destruct (width_E2_ref ref n1 grid) as [fw|]; [|discriminate]. injection Hk as <-.
  set (k := Build_gkernel _ _ _ _ _ _ _ _ _ _ _) in *.
  assert (k_gdim k = n1 + n2)%nat as Hd by (unfold k_gdim, k; cbn; lia).
  assert (has_shape weight_H (group_weight_shape k)) as HwH' by (unfold group_weight_shape; rewrite Hd; exact HwH).
  pose proof (moves_E2 k s mask T gmode rw fw n1 n2 mode pm g sp out_H Hs eq_refl eq_refl eq_refl eq_refl Hg Hok Et) as K.
  destruct (separable_layer 2 L cin out s k groups st padding dl m bias lp Hc Hpad eq_refl eq_refl eq_refl _ _ _ _ g sp _ eps
    weight_H weight in_H out_H X X' N [h; w] Y K) as (Y' & E' & V); try assumption.
  - intros wt rows Hr. eexists. exact (sampled_E2 k T gmode rw fw n1 n2 mode pm _ _ in_H out_H rows eq_refl Hd Hwi Hwo Hr).
  - intros a b _ _. apply o2_relative; exact Hg.
  - reflexivity.
  - apply Hiff in HM. revert HM. apply carried_sp_impl. intros pre v v' ->. unfold factor_rel. ring.
  - exists Y'. split; [exact E'|]. apply Hiff. revert V. apply carried_sp_impl. unfold sign_rel. intros pre v v' A. try unfold g in A; cbn [o2c] in *; rewrite A; ring.
Qed.
Print Assumptions C51_separable_E2.

Theorem C51_lifting_E3 : forall T (L : gconv O3 V3) cin out s groups st padding dl m bias lp n1 n2 mode pm mask grid weight (X X' Y : tensor R) N d h w H g,
  constructed 3 L cin out [s; s; s] (lifting_kernel_E3 T cin out s groups n1 n2 mode pm mask grid) groups [st; st; st] padding [dl; dl; dl] m bias ->
  (2 <= s)%nat -> padded_by 3 padding s dl lp ->
  has_shape weight (out :: cin / groups :: [s; s; s])%nat -> H <> [] ->
  has_shape X (N :: cin :: [d; h; w]) -> covered 3 s st dl lp [d; h; w] ->
  o3_wf g -> signed3 (o3_as_matrix g) ->
  moved3 (o3_as_matrix g) X X' ->
  lifting_forward L weight X H = Ok (Y, H) ->
  exists Y', lifting_forward L weight X' (map (o3_left_apply_O3 g) H) = Ok (Y', map (o3_left_apply_O3 g) H) /\
    carried3 (fun pre v v' => v' - bias_value 3 bias (nth 1 pre 0%nat) = o3c g * (v - bias_value 3 bias (nth 1 pre 0%nat))) (o3_as_matrix g) Y Y'.
Proof.
  intros T L cin out s groups st padding dl m bias lp n1 n2 mode pm mask grid weight X X' Y N d h w H g Hc Hs Hpad Hw HH HX Hex Hg Hsg HM E.
  destruct (symmetry3 _ Hsg) as (sp & Hok & Et & Hiff).
  set (k := lifting_kernel_E3 T cin out s groups n1 n2 mode pm mask grid) in *.
  pose proof (moves_E3 k s mask T "" 0 0 n1 n2 mode pm g sp H Hs eq_refl eq_refl eq_refl eq_refl Hg Hok Et) as K.
  assert (exists smp, op_sample_Rn (k_ops k) = Ok smp) as [smp Hsmp].
  { destruct (constructed_spec _ _ _ _ _ _ _ _ _ _ _ _ Hc) as (_ & _ & Ek & _).
    unfold lifting_forward in E. rewrite (proj1 HX), Ek in E. unfold lifting_kernel_forward in E.
    destruct (op_sample_Rn (k_ops k)); [eauto|discriminate]. }
  destruct (lifting_layer 3 L cin out s k groups st padding dl m bias lp Hc Hpad eq_refl eq_refl eq_refl _ _ _ _ g sp _ 1
    smp weight H X X' N [d; h; w] Y K Hsmp Hw HH HX eq_refl Hex) as (Y' & E' & V); [|exact E|].
  - apply Hiff in HM. revert HM. apply carried_sp_impl. intros pre v v' ->. unfold factor_rel. ring.
  - exists Y'. split; [exact E'|]. apply Hiff. revert V. apply carried_sp_impl. unfold sign_rel. intros pre v v' A. try unfold g in A; cbn [o2c] in *; rewrite A; ring.
Qed.
Print Assumptions C51_lifting_E3.

Theorem C51_group_E3 : forall T (L : gconv O3 V3) k cin out s groups st padding dl m bias lp n1 n2 gmode rot ref mode pm mask grid weight (X X' Y : tensor R) N d h w in_H out_H g eps,
  kernel_E3 T cin out s groups n1 n2 gmode rot ref mode pm mask grid = Ok k ->
  constructed 3 L cin out [s; s; s] k groups [st; st; st] padding [dl; dl; dl] m bias ->
  (2 <= s)%nat -> padded_by 3 padding s dl lp ->
  has_shape weight (n1 + n2 :: out :: cin / groups :: [s; s; s])%nat -> out_H <> [] ->
  Forall o3_wf in_H -> Forall o3_wf out_H ->
  has_shape X (N :: cin :: List.length in_H :: [d; h; w]) -> covered 3 s st dl lp [d; h; w] ->
  o3_wf g -> signed3 (o3_as_matrix g) ->
  carried3 (fun _ v v' => v' = eps * v) (o3_as_matrix g) X X' ->
  full_forward L weight X in_H out_H = Ok (Y, out_H) ->
  exists Y', full_forward L weight X' (map (o3_left_apply_O3 g) in_H) (map (o3_left_apply_O3 g) out_H) = Ok (Y', map (o3_left_apply_O3 g) out_H) /\
    carried3 (fun pre v v' => v' - bias_value 3 bias (nth 1 pre 0%nat) = (eps * o3c g) * (v - bias_value 3 bias (nth 1 pre 0%nat))) (o3_as_matrix g) Y Y'.
Proof.
  intros T L k cin out s groups st padding dl m bias lp n1 n2 gmode rot ref mode pm mask grid weight X X' Y N d h w in_H out_H g eps Hk Hc Hs Hpad Hw HH Hwi Hwo HX Hex Hg Hsg HM E.
  destruct (symmetry3 _ Hsg) as (sp & Hok & Et & Hiff).
  unfold kernel_E3 in Hk. destruct (width_E3_rot rot n1 grid) as [rw|]; [|discriminate]. cbn [bind] in Hk. destruct (width_E3_ref ref n1 grid) as [fw|]; [|discriminate]. injection Hk as <-.
  set (k := Build_gkernel _ _ _ _ _ _ _ _ _ _ _) in *.
  assert (k_gdim k = n1 + n2)%nat as Hd by (unfold k_gdim, k; cbn; lia).
  assert (has_shape weight (full_weight_shape k)) as Hw' by (unfold full_weight_shape; rewrite Hd; exact Hw).
  pose proof (moves_E3 k s mask T gmode rw fw n1 n2 mode pm g sp out_H Hs eq_refl eq_refl eq_refl eq_refl Hg Hok Et) as K.
  destruct (group_layer 3 L cin out s k groups st padding dl m bias lp Hc Hpad eq_refl eq_refl eq_refl _ _ _ _ g sp _ eps
    weight in_H out_H X X' N [d; h; w] Y K) as (Y' & E' & V); try assumption.
  - intros wt rows Hr. eexists. exact (sampled_E3 k T gmode rw fw n1 n2 mode pm _ _ in_H out_H rows eq_refl Hd Hwi Hwo Hr).
  - intros a b _ _. apply o3_relative; [exact (proj1 Hg)|apply (proj2 Hg)].
  - reflexivity.
  - apply Hiff in HM. revert HM. apply carried_sp_impl. intros pre v v' ->. unfold factor_rel. ring.
  - exists Y'. split; [exact E'|]. apply Hiff. revert V. apply carried_sp_impl. unfold sign_rel. intros pre v v' A. try unfold g in A; cbn [o2c] in *; rewrite A; ring.
Qed.
Print Assumptions C51_group_E3.

Theorem C51_separable_E3 : forall T (L : gconv O3 V3) k cin out s groups st padding dl m bias lp n1 n2 gmode rot ref mode pm mask grid weight_H weight (X X' Y : tensor R) N d h w in_H out_H g eps,
  kernel_E3 T cin out s groups n1 n2 gmode rot ref mode pm mask grid = Ok k ->
  constructed 3 L cin out [s; s; s] k groups [st; st; st] padding [dl; dl; dl] m bias ->
  (2 <= s)%nat -> padded_by 3 padding s dl lp ->
  has_shape weight_H [n1 + n2; out; cin / groups]%nat -> has_shape weight (out :: 1 :: [s; s; s])%nat -> out_H <> [] ->
  Forall o3_wf in_H -> Forall o3_wf out_H ->
  has_shape X (N :: cin :: List.length in_H :: [d; h; w]) -> covered 3 1 st dl (first_pad m padding lp) [d; h; w] ->
  covered 3 s st dl lp (usize 3 1 st dl (first_pad m padding lp) [d; h; w]) ->
  o3_wf g -> signed3 (o3_as_matrix g) ->
  carried3 (fun _ v v' => v' = eps * v) (o3_as_matrix g) X X' ->
  separable_forward L weight_H weight X in_H out_H = Ok (Y, out_H) ->
  exists Y', separable_forward L weight_H weight X' (map (o3_left_apply_O3 g) in_H) (map (o3_left_apply_O3 g) out_H) = Ok (Y', map (o3_left_apply_O3 g) out_H) /\
    carried3 (fun pre v v' => v' - bias_value 3 bias (nth 1 pre 0%nat) = (eps * o3c g) * (v - bias_value 3 bias (nth 1 pre 0%nat))) (o3_as_matrix g) Y Y'.
Proof.
  intros T L k cin out s groups st padding dl m bias lp n1 n2 gmode rot ref mode pm mask grid weight_H weight X X' Y N d h w in_H out_H g eps Hk Hc Hs Hpad HwH Hw HH Hwi Hwo HX Hex1 Hex2 Hg Hsg HM E.
  destruct (symmetry3 _ Hsg) as (sp & Hok & Et & Hiff).
  unfold kernel_E3 in Hk. destruct (width_E3_rot rot n1 grid) as [rw|]; [|discriminate]. cbn [bind] in Hk. destruct (width_E3_ref ref n1 grid) as [fw|]; [|discriminate]. injection Hk as <-.
  set (k := Build_gkernel _ _ _ _ _ _ _ _ _ _ _) in *.
  assert (k_gdim k = n1 + n2)%nat as Hd by (unfold k_gdim, k; cbn; lia).
  assert (has_shape weight_H (group_weight_shape k)) as HwH' by (unfold group_weight_shape; rewrite Hd; exact HwH).
  pose proof (moves_E3 k s mask T gmode rw fw n1 n2 mode pm g sp out_H Hs eq_refl eq_refl eq_refl eq_refl Hg Hok Et) as K.
  destruct (separable_layer 3 L cin out s k groups st padding dl m bias lp Hc Hpad eq_refl eq_refl eq_refl _ _ _ _ g sp _ eps
    weight_H weight in_H out_H X X' N [d; h; w] Y K) as (Y' & E' & V); try assumption.
  - intros wt rows Hr. eexists. exact (sampled_E3 k T gmode rw fw n1 n2 mode pm _ _ in_H out_H rows eq_refl Hd Hwi Hwo Hr).
  - intros a b _ _. apply o3_relative; [exact (proj1 Hg)|apply (proj2 Hg)].
  - reflexivity.
  - apply Hiff in HM. revert HM. apply carried_sp_impl. intros pre v v' ->. unfold factor_rel. ring.
  - exists Y'. split; [exact E'|]. apply Hiff. revert V. apply carried_sp_impl. unfold sign_rel. intros pre v v' A. try unfold g in A; cbn [o2c] in *; rewrite A; ring.
Qed.
Print Assumptions C51_separable_E3.

