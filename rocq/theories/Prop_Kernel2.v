(** Property theorems C39-C42, C59. Same reading guide as Prop_Kernel.v. *)
From Coq Require Import String.
From Verif Require Import Prelude RMath Mat Interp InterpFacts SO2 SO2Facts O2 O2Facts SO3 SO3Facts SO3More O3 O3Facts OSplit OSplitFacts Repulse RepulseFacts
  Tensor TensorFacts SignedPerm Functional FunctionalFacts Kernel KernelFacts GroupKernelFacts KernelMore WidthFacts MaskFacts InterpExample Prop_Kernel.
Open Scope R_scope.

(** ** C39 *)
Theorem C39_subgroup_kernel_formula : forall G P (D : Dflt P) (k : gkernel G P) inv mul act det weight in_H out_H V,
  gops_ok (k_ops k) inv mul act det -> k_gdim k <> 0%nat -> prodn (k_size k) = 1%nat ->
  has_shape weight [k_gdim k; k_out k; k_in k / k_groups k]%nat ->
  sampled k inv mul [k_out k; k_in k / k_groups k]%nat weight in_H out_H V ->
  exists W, subgroup_kernel_forward k weight in_H out_H = Ok W /\
    has_shape W (k_out k :: List.length in_H :: (k_in k / k_groups k)%nat :: List.length out_H :: k_size k) /\
    (List.length in_H = List.length out_H ->
     forall o i g c j h x, (o < k_out k)%nat -> nth_error out_H i = Some g -> (c < k_in k / k_groups k)%nat ->
       nth_error in_H j = Some h -> valid (k_size k) x ->
       at_ W (o :: i :: c :: j :: x) = nth (c * k_out k + o) (V (mul (inv g) h)) 0) /\
    (forall o a c b x i j g h, (o < k_out k)%nat -> (c < k_in k / k_groups k)%nat ->
       (a < List.length in_H)%nat -> (b < List.length out_H)%nat -> valid (k_size k) x ->
       nth_error out_H i = Some g -> nth_error in_H j = Some h ->
       (a * List.length out_H + b = i * List.length in_H + j)%nat ->
       at_ W (o :: a :: c :: b :: x) = nth (c * k_out k + o) (V (mul (inv g) h)) 0).
Proof.
  intros G P D k inv mul act det weight in_H out_H V Hops Hgd H1 Hw Hs.
  destruct (subgroup_formula k inv mul act det Hops Hgd weight in_H out_H V H1 Hw Hs) as (W & E & Hsh & A).
  exists W. split; [assumption|]. split; [assumption|]. split; [|assumption].
  intros Heq o i g c j h x Ho Hi Hc Hj Hx.
  pose proof (nth_error_Some_lt _ _ _ Hi). pose proof (nth_error_Some_lt _ _ _ Hj).
  apply (A o i c j x i j g h); try assumption; lia.
Qed.
Print Assumptions C39_subgroup_kernel_formula.

(** A spatial extent other than one cell cannot be represented: the view raises (unless empty). *)
Theorem C39_needs_one_cell : forall G P (D : Dflt P) (k : gkernel G P) inv mul act det weight in_H out_H V,
  gops_ok (k_ops k) inv mul act det -> k_gdim k <> 0%nat -> prodn (k_size k) <> 1%nat ->
  has_shape weight [k_gdim k; k_out k; k_in k / k_groups k]%nat ->
  sampled k inv mul [k_out k; k_in k / k_groups k]%nat weight in_H out_H V ->
  in_H <> [] -> out_H <> [] -> (0 < k_out k)%nat -> (0 < k_in k / k_groups k)%nat ->
  subgroup_kernel_forward k weight in_H out_H = Err RuntimeError.
Proof.
  intros G P D k inv mul act det weight in_H out_H V Hops Hgd H1 Hw Hs Hin Hout Ho Hc.
  unfold subgroup_kernel_forward.
  destruct (sample_group_spec k inv mul act det Hops Hgd _ weight in_H out_H V Hw Hs) as (w & E & Hsh & _).
  rewrite E. cbn [bind].
  assert (0 < List.length in_H)%nat by (destruct in_H; [congruence|simpl; lia]).
  assert (0 < List.length out_H)%nat by (destruct out_H; [congruence|simpl; lia]).
  rewrite view_err; [reflexivity|].
  destruct Hsh as [-> _]. rewrite !prodn_cons, prodn_nil. unfold k_cin.
  set (a := List.length in_H) in *. set (b := List.length out_H) in *. set (c := (k_in k / k_groups k)%nat) in *.
  set (o := k_out k) in *. set (p := prodn (k_size k)) in *. intros Heq.
  assert (0 < a * b * c * o)%nat as Hpos by nia.
  assert ((a * b * c * o) * p = (a * b * c * o) * 1)%nat as Hp by nia.
  apply Nat.mul_cancel_l in Hp; lia.
Qed.
Print Assumptions C39_needs_one_cell.

(** The determinant given to a subgroup kernel is never used. *)
Definition with_det {G P} (k : gkernel G P) (d : option (list G -> list R)) : gkernel G P :=
  {| k_in := k_in k; k_out := k_out k; k_groups := k_groups k; k_size := k_size k; k_gsize := k_gsize k;
     k_grid_H := k_grid_H k; k_grid_Rn := k_grid_Rn k; k_mask := k_mask k;
     k_ops := {| op_inverse := op_inverse (k_ops k); op_left_apply_to_H := op_left_apply_to_H (k_ops k);
                 op_left_apply_to_Rn := op_left_apply_to_Rn (k_ops k); op_det := d;
                 op_sample_H := op_sample_H (k_ops k); op_sample_Rn := op_sample_Rn (k_ops k) |} |}.
Theorem C39_det_ignored : forall G P (D : Dflt P) (k : gkernel G P) d weight in_H out_H,
  subgroup_kernel_forward (with_det k d) weight in_H out_H = subgroup_kernel_forward k weight in_H out_H.
Proof. reflexivity. Qed.
Print Assumptions C39_det_ignored.

(** The SO3 subgroup kernel of the library: the value at a relative rotation is the quaternion-grid
    interpolation at the quaternion of that rotation. *)
Theorem C39_SO3 : forall T cin out groups gmode given grid k weight in_H out_H W,
  kernel_SO3 T cin out groups gmode given grid = Ok k ->
  has_shape weight [List.length grid; out; cin / groups]%nat ->
  subgroup_kernel_forward k weight in_H out_H = Ok W ->
  exists w, default_width given (so3_nearest_neighbour_distance grid) = Ok w /\
    has_shape W [out; List.length in_H; cin / groups; List.length out_H; 1; 1; 1]%nat /\
    let V := fun q : M3 => one_row (so3_grid_sample T gmode w (prodn [out; cin / groups]%nat) [so3_matrix_to_quat q]
               (param_rows (List.length grid) [out; cin / groups]%nat weight) grid) in
    forall o a c b i j g h, (o < out)%nat -> (c < cin / groups)%nat -> (a < List.length in_H)%nat -> (b < List.length out_H)%nat ->
      nth_error out_H i = Some g -> nth_error in_H j = Some h ->
      (a * List.length out_H + b = i * List.length in_H + j)%nat ->
      at_ W [o; a; c; b; 0; 0; 0]%nat = nth (c * out + o) (V (mul3 (tr3 g) h)) 0.
Proof.
  intros T cin out groups gmode given grid k weight in_H out_H W Hk Hw HW.
  unfold kernel_SO3 in Hk. destruct (default_width given _) as [w|] eqn:Ew; [|discriminate]. cbn [bind] in Hk.
  injection Hk as <-. set (k := Build_gkernel _ _ _ _ _ _ _ _ _ _ _) in *.
  assert (k_gdim k = List.length grid) as Hd by (unfold k_gdim, k; simpl; lia).
  assert (gops_ok (k_ops k) so3_matrix_inverse mul3 act1_SE3 None) as Hops.
  { pose proof (gops_ok_SE3 T gmode w "" "") as H. destruct H. constructor; assumption. }
  assert (has_shape weight (group_weight_shape k)) as Hw' by (unfold group_weight_shape; rewrite Hd; exact Hw).
  destruct (subgroup_inv k _ _ _ _ Hops weight in_H out_H W Hw' HW) as (Hd0 & rows & Hrows).
  exists w. split; [reflexivity|].
  assert (sampled k so3_matrix_inverse mul3 [k_out k; k_cin k] weight in_H out_H
    (fun q => one_row (so3_grid_sample T gmode w (prodn [k_out k; k_cin k]) [so3_matrix_to_quat q]
               (param_rows (k_gdim k) [k_out k; k_cin k] weight) grid))) as Hsam.
  { cbn [op_sample_H k_ops k] in Hrows. set (prm := param_rows (k_gdim k) [k_out k; k_cin k] weight) in *.
    assert (rowwise (fun q s g => so3_grid_sample T gmode w (prodn [k_out k; k_cin k]) q s g)) as Hrw.
    { intros q s g o Ho. unfold so3_grid_sample in *. destruct (String.eqb gmode "nearest").
      - exact (NN_rows _ _ _ _ _ _ Ho).
      - destruct (String.eqb gmode "rbf"); [|discriminate]. destruct (RBF_rows _ _ _ _ _ _ _ _ _ Ho) as (H1 & _ & H2); split; assumption. }
    pose proof (rowwise_map _ _ _ _ _ Hrw Hrows) as Hm.
    rewrite map_map in Hm. split.
    - intros q Hq.
      assert (rows_len (prodn [k_out k; k_cin k]) (fun q s g => so3_grid_sample T gmode w (prodn [k_out k; k_cin k]) q s g)) as HL.
      { intros q' s g o Hs Ho r Hr. unfold so3_grid_sample in Ho. destruct (String.eqb gmode "nearest").
        - exact (NN_rows_len _ _ _ _ _ _ _ Hs Ho _ Hr).
        - destruct (String.eqb gmode "rbf"); [|discriminate]. destruct (RBF_rows _ _ _ _ _ _ _ _ _ Ho) as (_ & H1 & _). auto. }
      apply (HL _ _ _ _ (param_rows_len _ _ weight) Hrows). rewrite Hm.
      apply (in_map (fun q => one_row (so3_grid_sample T gmode w (prodn [k_out k; k_cin k]) [so3_matrix_to_quat q] prm grid))). assumption.
    - cbn [op_sample_H k_ops k]. fold prm. rewrite Hrows. f_equal. assumption. }
  destruct (subgroup_formula k _ _ _ _ Hops Hd0 weight in_H out_H _ eq_refl Hw' Hsam) as (W' & E & Hsh & A).
  assert (W' = W) by congruence. subst W'. split; [exact Hsh|].
  intros V o a c b i j g h Ho Hc Ha Hb Hi Hj Hab.
  rewrite (A o a c b [0; 0; 0]%nat i j g h) by (try assumption; repeat apply valid_cons; try lia; apply valid_nil).
  rewrite Hd. reflexivity.
Qed.
Print Assumptions C39_SO3.

Example C39_nonvacuous : forall T, torch_ok T -> exists k W,
  kernel_SO3 T 2 3 1 "nearest" 1 [mkQ 0 0 0 1; mkQ 1 0 0 0] = Ok k /\
  subgroup_kernel_forward k (build [2; 3; 2]%nat (fun idx => INR (nth 0 idx 0%nat))) [I3; I3] [I3; I3] = Ok W /\
  shape W = [3; 2; 2; 2; 1; 1; 1]%nat.
Proof.
  intros T HT. unfold kernel_SO3. rewrite default_width_given by lra. cbn [bind].
  eexists. set (k := Build_gkernel _ _ _ _ _ _ _ _ _ _ _).
  set (weight := build [2; 3; 2]%nat _).
  destruct (NN_spec T HT (fun a b => so3_geodesic_distance a b so3_eps)
    (map so3_matrix_to_quat (relatives so3_matrix_inverse mul3 [I3; I3] [I3; I3]))
    [mkQ 0 0 0 1; mkQ 1 0 0 0] (param_rows 2 [3; 2]%nat weight)) as (rows & Hr & _).
  { discriminate. } { rewrite param_rows_count. reflexivity. }
  pose proof (NN_rows _ _ _ _ _ _ Hr) as [Hlen _].
  assert (exists W, subgroup_kernel_forward k weight [I3; I3] [I3; I3] = Ok W) as (W & HW).
  { unfold subgroup_kernel_forward, sample_group.
    assert (has_shape weight (2 :: [3; 2])%nat) as Hw by (split; [reflexivity|apply wft_build]).
    change (k_gdim k) with 2%nat. rewrite (view_trail_ok 2 (prodn [3; 2]%nat)) by (try lia; reflexivity).
    cbn [bind shape nth].
    rewrite (to_rows_param weight 2 _ Hw). cbn [op_sample_H k_ops k]. unfold so3_grid_sample. cbn [String.eqb Ascii.eqb Bool.eqb].
    change (@concat M3 _) with (relatives so3_matrix_inverse mul3 [I3; I3] [I3; I3]).
    rewrite Hr. cbn [bind]. unfold view. cbn [shape]. rewrite Hlen. cbn. eauto. }
  exists W. split; [reflexivity|]. split; [assumption|].
  destruct (C39_SO3 T 2 3 1 "nearest" 1 [mkQ 0 0 0 1; mkQ 1 0 0 0] k weight [I3; I3] [I3; I3] W) as (w & _ & [Hs _] & _).
  - unfold kernel_SO3. rewrite default_width_given by lra. reflexivity.
  - split; [reflexivity|apply wft_build].
  - assumption.
  - exact Hs.
Qed.

(** ** C40 *)
(** The four groups' common left translations leave the relative elements unchanged. *)
Theorem C40_relative_elements :
  (forall g a b, so2_left_apply_angle (so2_inverse_angle (so2_left_apply_angle g a)) (so2_left_apply_angle g b)
                 = so2_left_apply_angle (so2_inverse_angle a) b) /\
  (forall g a b, o2_wf g -> o2_left_apply_angle (o2_inverse (o2_left_apply_angle g a)) (o2_left_apply_angle g b)
                 = o2_left_apply_angle (o2_inverse a) b) /\
  (forall g a b, isSO3 g -> mul3 (so3_matrix_inverse (mul3 g a)) (mul3 g b) = mul3 (so3_matrix_inverse a) b) /\
  (forall g a b, o3_wf g -> o3_left_apply_O3 (o3_inverse (o3_left_apply_O3 g a)) (o3_left_apply_O3 g b)
                 = o3_left_apply_O3 (o3_inverse a) b).
Proof.
  split; [exact so2_relative|]. split; [exact o2_relative|]. split.
  - intros g a b [[H _] _]. apply mul3_relative. assumption.
  - intros g a b [Hc [[H _] _]]. apply o3_relative; assumption.
Qed.
Print Assumptions C40_relative_elements.

(** "moving both grids by g changes nothing in the group weights": the separable layer's group
    weights, the whole subgroup kernel, and, for the full kernel, the interpolated images V that are
    then rotated spatially. *)
Definition group_weights_invariant {G P} {D : Dflt P} (k : gkernel G P) (inv : G -> G) (mul : G -> G -> G)
    (act : G -> P -> P) (det : option (G -> R)) (g : G) (in_H out_H : list G) : Prop :=
  (forall weight_H weight WH W, has_shape weight (k_out k :: 1%nat :: k_size k) ->
     separable_kernel_forward k weight_H weight in_H out_H = Ok (WH, W) ->
     exists W', separable_kernel_forward k weight_H weight (map (mul g) in_H) (map (mul g) out_H) = Ok (WH, W')) /\
  (forall weight, subgroup_kernel_forward k weight (map (mul g) in_H) (map (mul g) out_H)
                  = subgroup_kernel_forward k weight in_H out_H) /\
  (forall weight W, has_shape weight (k_gdim k :: k_out k :: (k_in k / k_groups k)%nat :: k_size k) ->
     full_kernel_forward k weight in_H out_H = Ok W ->
     exists smp V W', op_sample_Rn (k_ops k) = Ok smp /\
       full_kernel_forward k weight (map (mul g) in_H) (map (mul g) out_H) = Ok W' /\ shape W' = shape W /\
       forall o i a c j b x o' c', (o < k_out k)%nat -> nth_error out_H i = Some a ->
         (c < k_in k / k_groups k)%nat -> nth_error in_H j = Some b -> valid (k_size k) x ->
         (o' < k_out k)%nat -> (c' < k_in k / k_groups k)%nat ->
         (o' * (k_in k / k_groups k) + c' = c * k_out k + o)%nat ->
         let im := image_of (k_out k) (k_in k / k_groups k) (k_size k) (V (mul (inv a) b)) o' c' in
         at_ W (o :: i :: c :: j :: x) =
           maskf (k_mask k) x * smp (k_size k) im (act (inv a) (at_ (k_grid_Rn k) x)) / detf det a /\
         at_ W' (o :: i :: c :: j :: x) =
           maskf (k_mask k) x * smp (k_size k) im (act (inv (mul g a)) (at_ (k_grid_Rn k) x)) / detf det (mul g a)).

Lemma group_weights_invariant_gen {G P} {D : Dflt P} (k : gkernel G P) inv mul act det g in_H out_H :
  gops_ok (k_ops k) inv mul act det -> has_shape (k_grid_Rn k) (k_size k) -> mask_ok (k_mask k) (k_size k) ->
  prodn (k_size k) <> 0%nat ->
  (forall weight rows, op_sample_H (k_ops k) (prodn (k_out k :: k_cin k :: k_size k)) (relatives inv mul in_H out_H)
        (param_rows (k_gdim k) (k_out k :: k_cin k :: k_size k) weight) (k_grid_H k) = Ok rows ->
     exists V, sampled k inv mul (k_out k :: k_cin k :: k_size k) weight in_H out_H V) ->
  (forall a b, In a out_H -> In b in_H -> mul (inv (mul g a)) (mul g b) = mul (inv a) b) ->
  (exists smp, op_sample_Rn (k_ops k) = Ok smp) ->
  group_weights_invariant k inv mul act det g in_H out_H.
Proof.
  intros Hops Hg Hm Hks HV Hrel [smp Hsmp]. split; [|split].
  - intros weight_H weight WH W Hw HW.
    exact (separable_moved k inv mul act det Hops Hg Hm Hks smp g weight_H weight in_H out_H WH W Hrel Hsmp Hw HW).
  - intros weight. exact (subgroup_moved k inv mul act det Hops g weight in_H out_H Hrel).
  - intros weight W Hw HW.
    destruct (full_inv k inv mul act det Hops weight in_H out_H W Hw HW) as (Hd & smp' & rows & Hsmp' & Hrows).
    assert (smp' = smp) by congruence. subst smp'. destruct (HV weight rows Hrows) as [V Hs].
    destruct (full_formula k inv mul act det Hops Hg Hm Hks Hd smp weight in_H out_H V Hsmp Hw Hs) as (W0 & E & [Hsh _] & A).
    assert (W0 = W) by congruence. subst W0.
    assert (sampled k inv mul (k_out k :: k_cin k :: k_size k) weight (map (mul g) in_H) (map (mul g) out_H) V) as Hs'.
    { unfold sampled in *. rewrite relatives_moved by assumption. exact Hs. }
    destruct (full_formula k inv mul act det Hops Hg Hm Hks Hd smp weight _ _ V Hsmp Hw Hs') as (W' & E' & [Hsh' _] & A').
    exists smp, V, W'. split; [assumption|]. split; [assumption|]. split.
    { rewrite Hsh, Hsh', !map_length. reflexivity. }
    intros o i a c j b x o' c' Ho Hi Hc Hj Hx Ho' Hc' Hoc im. split.
    + apply (A o i a c j b x o' c'); assumption.
    + rewrite (A' o i (mul g a) c j (mul g b) x o' c'); try assumption.
      * rewrite Hrel by (eapply nth_error_In; eassumption). reflexivity.
      * rewrite nth_error_map, Hi. reflexivity.
      * rewrite nth_error_map, Hj. reflexivity.
Qed.

Theorem C40_SE2 : forall T cin out s groups gmode given mode pm mask grid k g in_H out_H smp, (0 < s)%nat ->
  kernel_SE2 T cin out s groups gmode given mode pm mask grid = Ok k -> sample_R2 mode pm = Ok smp ->
  group_weights_invariant k so2_inverse_angle so2_left_apply_angle act1_SE2 None g in_H out_H.
Proof.
  intros T cin out s groups gmode given mode pm mask grid k g in_H out_H smp Hs Hk Hsmp.
  unfold kernel_SE2 in Hk. destruct (width_SE2 given grid) as [w|]; [|discriminate]. injection Hk as <-.
  set (k := Build_gkernel _ _ _ _ _ _ _ _ _ _ _).
  apply group_weights_invariant_gen.
  - exact (gops_ok_SE2 T gmode w mode pm). - exact (grid_R2_shape s). - exact (mask_R2_shape s). - exact (square_nonzero s Hs).
  - intros weight rows Hr. eexists. exact (sampled_SE2 k T gmode w mode pm _ weight in_H out_H rows eq_refl Hr).
  - intros a b _ _. apply so2_relative.
  - exists smp. exact Hsmp.
Qed.
Print Assumptions C40_SE2.
Theorem C40_SE3 : forall T cin out s groups gmode given mode pm mask grid k g in_H out_H smp, (0 < s)%nat ->
  kernel_SE3 T cin out s groups gmode given mode pm mask grid = Ok k -> sample_R3 mode pm = Ok smp -> isSO3 g ->
  group_weights_invariant k so3_matrix_inverse mul3 act1_SE3 None g in_H out_H.
Proof.
  intros T cin out s groups gmode given mode pm mask grid k g in_H out_H smp Hs Hk Hsmp Hg.
  unfold kernel_SE3 in Hk. destruct (width_SE3 given grid) as [w|]; [|discriminate]. injection Hk as <-.
  set (k := Build_gkernel _ _ _ _ _ _ _ _ _ _ _).
  apply group_weights_invariant_gen.
  - exact (gops_ok_SE3 T gmode w mode pm). - exact (grid_R3_shape s). - exact (opt_mask_R3 mask s). - exact (cube_nonzero s Hs).
  - intros weight rows Hr. eexists. exact (sampled_SE3 k T gmode w mode pm _ weight in_H out_H rows eq_refl Hr).
  - intros a b _ _. destruct Hg as [[H _] _]. apply mul3_relative. assumption.
  - exists smp. exact Hsmp.
Qed.
Print Assumptions C40_SE3.
Theorem C40_E2 : forall T cin out s groups n m gmode rot ref mode pm mask grid k g in_H out_H smp, (0 < s)%nat ->
  kernel_E2 T cin out s groups n m gmode rot ref mode pm mask grid = Ok k -> sample_R2 mode pm = Ok smp -> o2_wf g ->
  Forall o2_wf in_H -> Forall o2_wf out_H ->
  group_weights_invariant k o2_inverse o2_left_apply_angle act1_E2 (Some o2_det) g in_H out_H.
Proof.
  intros T cin out s groups n m gmode rot ref mode pm mask grid k g in_H out_H smp Hs Hk Hsmp Hg Hin Hout.
  unfold kernel_E2 in Hk. destruct (width_E2_rot rot n grid) as [rw|]; [|discriminate]. cbn [bind] in Hk.
  destruct (width_E2_ref ref n grid) as [fw|]; [|discriminate]. injection Hk as <-.
  set (k := Build_gkernel _ _ _ _ _ _ _ _ _ _ _).
  assert (k_gdim k = n + m)%nat as Hd by (unfold k_gdim, k; simpl; lia).
  apply group_weights_invariant_gen.
  - exact (gops_ok_E2 T gmode rw fw n m mode pm). - exact (grid_R2_shape s). - exact (opt_mask_R2 mask s). - exact (square_nonzero s Hs).
  - intros weight rows Hr. eexists. exact (sampled_E2 k T gmode rw fw n m mode pm _ weight in_H out_H rows eq_refl Hd Hin Hout Hr).
  - intros a b _ _. apply o2_relative. assumption.
  - exists smp. exact Hsmp.
Qed.
Print Assumptions C40_E2.
Theorem C40_E3 : forall T cin out s groups n m gmode rot ref mode pm mask grid k g in_H out_H smp, (0 < s)%nat ->
  kernel_E3 T cin out s groups n m gmode rot ref mode pm mask grid = Ok k -> sample_R3 mode pm = Ok smp -> o3_wf g ->
  Forall o3_wf in_H -> Forall o3_wf out_H ->
  group_weights_invariant k o3_inverse o3_left_apply_O3 act1_E3 (Some o3_det) g in_H out_H.
Proof.
  intros T cin out s groups n m gmode rot ref mode pm mask grid k g in_H out_H smp Hs Hk Hsmp Hg Hin Hout.
  unfold kernel_E3 in Hk. destruct (width_E3_rot rot n grid) as [rw|]; [|discriminate]. cbn [bind] in Hk.
  destruct (width_E3_ref ref n grid) as [fw|]; [|discriminate]. injection Hk as <-.
  set (k := Build_gkernel _ _ _ _ _ _ _ _ _ _ _).
  assert (k_gdim k = n + m)%nat as Hd by (unfold k_gdim, k; simpl; lia).
  apply group_weights_invariant_gen.
  - exact (gops_ok_E3 T gmode rw fw n m mode pm). - exact (grid_R3_shape s). - exact (opt_mask_R3 mask s). - exact (cube_nonzero s Hs).
  - intros weight rows Hr. eexists. exact (sampled_E3 k T gmode rw fw n m mode pm _ weight in_H out_H rows eq_refl Hd Hin Hout Hr).
  - intros a b _ _. destruct Hg as [Hc [[H _] _]]. apply o3_relative; assumption.
  - exists smp. exact Hsmp.
Qed.
Print Assumptions C40_E3.

(** ** C41 *)
(** A width other than 0 is used as given. *)
Theorem C41_given_width_is_used : forall given, given <> 0 ->
  (forall grid, width_SE2 given grid = Ok given) /\ (forall grid, width_SE3 given grid = Ok given) /\
  (forall n grid, width_E2_rot given n grid = Ok given) /\ (forall n grid, width_E2_ref given n grid = Ok given) /\
  (forall n grid, width_E3_rot given n grid = Ok given) /\ (forall n grid, width_E3_ref given n grid = Ok given).
Proof. intros given H. repeat split; intros; apply default_width_given; assumption. Qed.
Print Assumptions C41_given_width_is_used.

(** SE(3): 0.8 times the mean of the nearest-neighbour distances of the reference grid. *)
Theorem C41_SE3_default_width : forall grid, Forall isSO3 grid ->
  ((2 <= List.length grid)%nat -> exists d, width_SE3 0 grid = Ok (8 / 10 * (sumR d / INR (List.length grid))) /\
     List.length d = List.length grid /\
     forall i a, nth_error grid i = Some a ->
       exists m, nth_error d i = Some m /\
         (exists j b, j <> i /\ nth_error grid j = Some b /\
            m = so3_geodesic_distance (so3_matrix_to_quat a) (so3_matrix_to_quat b) so3_eps) /\
         (forall j b, j <> i -> nth_error grid j = Some b ->
            m <= so3_geodesic_distance (so3_matrix_to_quat a) (so3_matrix_to_quat b) so3_eps)) /\
  ((List.length grid < 2)%nat -> width_SE3 0 grid = Err IndexError).
Proof.
  intros grid HU. split.
  - intros Hl. destruct (so3_width_mean grid HU Hl) as (d & Ed & Hlen & Hd). exists d.
    split; [|split; assumption]. unfold width_SE3. rewrite default_width_zero, Ed. cbn [bind]. unfold meanR. rewrite Hlen. reflexivity.
  - intros Hl. unfold width_SE3, so3_nearest_neighbour_distance_matrix. rewrite default_width_zero, so3_nn_short; [reflexivity|].
    rewrite map_length. assumption.
Qed.
Print Assumptions C41_SE3_default_width.

(** SE(2) and E(2): one constant for every grid; an empty half raises. *)
Theorem C41_SE2_E2_default_width_is_constant :
  (forall grid, grid <> [] -> width_SE2 0 grid = Ok (8 / 10 * acos (1 - so2_eps))) /\
  width_SE2 0 [] = Err IndexError /\
  (forall n grid, firstn n grid <> [] -> width_E2_rot 0 n grid = Ok (8 / 10 * acos (1 - so2_eps))) /\
  (forall n grid, skipn n grid <> [] -> width_E2_ref 0 n grid = Ok (8 / 10 * acos (1 - so2_eps))) /\
  (forall n grid, firstn n grid = [] -> width_E2_rot 0 n grid = Err IndexError) /\
  (forall n grid, skipn n grid = [] -> width_E2_ref 0 n grid = Err IndexError).
Proof.
  split; [intros; apply so2_width_const; assumption|]. split; [apply so2_width_empty|].
  split; [|split; [|split]].
  - intros n grid H. apply so2_width_const. destruct (firstn n grid); [congruence|discriminate].
  - intros n grid H. apply so2_width_const. destruct (skipn n grid); [congruence|discriminate].
  - intros n grid H. unfold width_E2_rot. rewrite H. apply so2_width_empty.
  - intros n grid H. unfold width_E2_ref. rewrite H. apply so2_width_empty.
Qed.
Print Assumptions C41_SE2_E2_default_width_is_constant.
(** ... which is less than 0.8 times the mean neighbour distance of every separated grid with at
    least two elements ([d] any list meeting the documented contract of the neighbour distance). *)
Theorem C41_SE2_default_width_too_small : forall grid d, so2_nn_contract grid d -> grid <> [] ->
  (forall i j a b, i <> j -> nth_error grid i = Some a -> nth_error grid j = Some b -> acos (1 - so2_eps) < arc a b) ->
  exists w, width_SE2 0 grid = Ok w /\ w < 8 / 10 * (sumR d / INR (List.length d)).
Proof.
  intros grid d [Hlen Hc] Hne Hsep. exists (8 / 10 * acos (1 - so2_eps)). split; [apply so2_width_const; assumption|].
  assert (acos (1 - so2_eps) < meanR d); [|unfold meanR in *; lra]. apply meanR_gt.
  - intros ->. destruct grid; [congruence|discriminate].
  - intros x Hx. apply In_nth_error in Hx. destruct Hx as [i Hi]. pose proof (nth_error_Some_lt _ _ _ Hi) as Li. rewrite Hlen in Li.
    destruct (nth_error grid i) as [a|] eqn:Ea; [|apply nth_error_None in Ea; lia].
    destruct (Hc i a x Ea Hi) as [_ (j & b & Hj & Eb & ->)].
    rewrite so2_geodesic_arc by apply so2_eps_range.
    assert (Hs := Hsep i j a b (not_eq_sym Hj) Ea Eb).
    pose proof so2_eps_range as He.
    assert (acos (1 - so2_eps) < acos (-1 + so2_eps)) by (apply acos_decr_lt; unfold so2_eps in *; lra).
    unfold clamp, Rmin, Rmax. destruct (Rle_dec (arc a b) (acos (1 - so2_eps))); [lra|].
    destruct (Rle_dec (arc a b) (acos (-1 + so2_eps))); lra.
Qed.
Print Assumptions C41_SE2_default_width_too_small.

(** E(3), both halves: the mean of second-smallest values of acos |c_a c_b + trace(a^T b)| (clipped)
    instead of the distance acos |<q_a, q_b>|, where 4 <q_a, q_b>^2 = 1 + trace(a^T b). *)
Theorem C41_E3_default_width : forall half, Forall o3_wf half ->
  (forall n grid, firstn n grid = half -> width_E3_rot 0 n grid = default_width 0 (so3_nearest_neighbour_distance_flat (map o3_flat half))) /\
  (forall n grid, skipn n grid = half -> width_E3_ref 0 n grid = default_width 0 (so3_nearest_neighbour_distance_flat (map o3_flat half))) /\
  ((List.length half < 2)%nat -> default_width 0 (so3_nearest_neighbour_distance_flat (map o3_flat half)) = Err IndexError) /\
  ((2 <= List.length half)%nat -> exists d,
     default_width 0 (so3_nearest_neighbour_distance_flat (map o3_flat half)) = Ok (8 / 10 * (sumR d / INR (List.length half))) /\
     List.length d = List.length half /\
     forall i a, nth_error half i = Some a ->
       exists m, nth_error d i = Some m /\
         (exists j b, j <> i /\ nth_error half j = Some b /\ m = flat_distance a b) /\
         (forall j b, j <> i -> nth_error half j = Some b -> m <= flat_distance a b)).
Proof.
  intros half Hw. split; [intros n grid <-; reflexivity|]. split; [intros n grid <-; reflexivity|]. split.
  - intros Hl. rewrite default_width_zero, flat_short; [reflexivity|]. rewrite map_length. assumption.
  - intros Hl. destruct (flat_nn_spec half Hw Hl) as (d & Ed & Hlen & Hd). exists d.
    split; [|split; assumption]. rewrite default_width_zero, Ed. cbn [bind]. unfold meanR. rewrite Hlen. reflexivity.
Qed.
Print Assumptions C41_E3_default_width.
(** For every half in which each element has another within 120 degrees, and no two (almost)
    coincide, this is the constant 0.8 acos(1 - 1e-7), less than the SE(3) width of the same rotations. *)
Theorem C41_E3_default_width_too_small : forall half, Forall o3_wf half -> (2 <= List.length half)%nat ->
  (forall i a, nth_error half i = Some a -> exists j b, j <> i /\ nth_error half j = Some b /\
     o3c a = o3c b /\ 0 <= trace3 (mul3 (tr3 (o3r a)) (o3r b))) ->
  (forall i j a b, i <> j -> nth_error half i = Some a -> nth_error half j = Some b ->
     1 + trace3 (mul3 (tr3 (o3r a)) (o3r b)) < 4 * ((1 - so3_eps) * (1 - so3_eps))) ->
  exists we ws, default_width 0 (so3_nearest_neighbour_distance_flat (map o3_flat half)) = Ok we /\
    width_SE3 0 (map o3r half) = Ok ws /\ we = 8 / 10 * acos (1 - so3_eps) /\ we < ws.
Proof. exact e3_width_too_small. Qed.
Print Assumptions C41_E3_default_width_too_small.
(** Both hypotheses hold for the identity and a quarter turn; both kinds of grids exist. *)
Example C41_nonvacuous :
  (exists we ws, width_E3_rot 0 2 [mkO3 1 I3; mkO3 1 (so3_matrix_z (PI / 2)); mkO3 (-1) I3] = Ok we /\
    width_SE3 0 [I3; so3_matrix_z (PI / 2)] = Ok ws /\ we < ws) /\
  so2_nn_contract [0; PI] [so2_geodesic_distance 0 PI so2_eps; so2_geodesic_distance PI 0 so2_eps].
Proof.
  split.
  - assert (trace3 (mul3 (tr3 I3) (so3_matrix_z (PI / 2))) = 1) as T1.
    { unfold trace3, mul3, tr3, I3, so3_matrix_z. cbn. rewrite cos_PI2, sin_PI2. ring. }
    assert (trace3 (mul3 (tr3 (so3_matrix_z (PI / 2))) I3) = 1) as T2.
    { unfold trace3, mul3, tr3, I3, so3_matrix_z. cbn. rewrite cos_PI2, sin_PI2. ring. }
    assert (so3_eps <= / 10) as He by (unfold so3_eps; apply Rinv_le_contravar; lra).
    destruct (C41_E3_default_width_too_small [mkO3 1 I3; mkO3 1 (so3_matrix_z (PI / 2))]) as (we & ws & A & B & _ & C).
    + repeat constructor; try (left; reflexivity); try apply so3_matrix_z_SO3;
        unfold o3r; try (destruct (so3_matrix_z_SO3 0) as [[H1 H2] H3]); unfold mul3, tr3, I3, det3; cbn; try (mext; ring); ring.
    + simpl; lia.
    + intros i a Hi. destruct i as [|[|i]]; [| |destruct i; discriminate]; injection Hi as <-.
      * exists 1%nat, (mkO3 1 (so3_matrix_z (PI / 2))). cbn [o3c o3r]. split; [lia|]. split; [reflexivity|]. split; [reflexivity|lra].
      * exists 0%nat, (mkO3 1 I3). cbn [o3c o3r]. split; [lia|]. split; [reflexivity|]. split; [reflexivity|lra].
    + intros i j a b Hij Hi Hj. assert (2 < 4 * ((1 - so3_eps) * (1 - so3_eps))) by (pose proof so3_eps_range; nra).
      destruct i as [|[|i]]; [| |destruct i; discriminate]; destruct j as [|[|j]]; try (destruct j; discriminate);
        try lia; injection Hi as <-; injection Hj as <-; cbn [o3c o3r]; lra.
    + exists we, ws. split; [exact A|]. split; [exact B|exact C].
  - split; [reflexivity|]. intros i a d Hi Hd.
    destruct i as [|[|i]]; [| |destruct i; discriminate]; injection Hi as <-; injection Hd as <-; (split; [intros j b Hj Hb|]).
    + destruct j as [|[|j]]; [lia| |destruct j; discriminate]. injection Hb as <-. lra.
    + exists 1%nat, PI. auto.
    + destruct j as [|[|j]]; [|lia|destruct j; discriminate]. injection Hb as <-. lra.
    + exists 0%nat, 0. auto.
Qed.

(** ** C42.  [masked_version k m n W W']: W' has the shape of W and each entry of W' at (n leading
    indices, position x) is mask(x) times the entry of W.  With mask=False the entries are those of
    C36-C38 with factor 1. *)
Theorem C42_SE2_ignores_the_option : forall T cin out s groups mode pm grid weight,
  (forall H, lifting_kernel_forward (lifting_kernel_SE2 T cin out s groups mode pm false grid) weight H =
             lifting_kernel_forward (lifting_kernel_SE2 T cin out s groups mode pm true grid) weight H) /\
  (forall gmode given, kernel_SE2 T cin out s groups gmode given mode pm false grid =
                       kernel_SE2 T cin out s groups gmode given mode pm true grid).
Proof. intros. split; reflexivity. Qed.
Print Assumptions C42_SE2_ignores_the_option.
(** With mask=False the corner weights are still dropped, whatever the stored weight. *)
Theorem C42_SE2_corners_always_dropped : forall T cin out s groups mode pm mask grid smp weight H W, (0 < s)%nat ->
  sample_R2 mode pm = Ok smp -> has_shape weight [out; cin / groups; s; s]%nat ->
  lifting_kernel_forward (lifting_kernel_SE2 T cin out s groups mode pm mask grid) weight H = Ok W ->
  forall o i c x y, (o < out)%nat -> (i < List.length H)%nat -> (c < cin / groups)%nat ->
    (x = 0 \/ x = s - 1)%nat -> (y = 0 \/ y = s - 1)%nat -> at_ W [o; i; c; x; y] = 0.
Proof.
  intros T cin out s groups mode pm mask grid smp weight H W Hs Hsmp Hw HW o i c x y Ho Hi Hc Hx Hy.
  destruct (lifting_formula (lifting_kernel_SE2 T cin out s groups mode pm mask grid) _ _ _ _
    (gops_ok_SE2 T "" 0 mode pm) (grid_R2_shape s) (mask_R2_shape s) (square_nonzero s Hs) smp weight H Hsmp Hw)
    as (W' & E & Hsh & A).
  assert (W' = W) by congruence. subst W'. destruct (lt_nth H i Hi) as [g Hg].
  rewrite (A o i g c [x; y]) by (try assumption; repeat apply valid_cons; try lia; apply valid_nil).
  cbn [maskf k_mask lifting_kernel_SE2]. rewrite corner_dropped_2 by (try assumption; lia). unfold Rdiv. ring.
Qed.
Print Assumptions C42_SE2_corners_always_dropped.

Theorem C42_SE3_lifting : forall T cin out s groups mode pm grid smp weight H, (0 < s)%nat ->
  sample_R3 mode pm = Ok smp -> has_shape weight [out; cin / groups; s; s; s]%nat ->
  exists W W', lifting_kernel_forward (lifting_kernel_SE3 T cin out s groups mode pm false grid) weight H = Ok W /\
    lifting_kernel_forward (lifting_kernel_SE3 T cin out s groups mode pm true grid) weight H = Ok W' /\
    masked_version (lifting_kernel_SE3 T cin out s groups mode pm false grid) (create_spherical_mask_R3 s) 3 W W'.
Proof.
  intros T cin out s groups mode pm grid smp weight H Hs Hsmp Hw.
  exact (lifting_mask (lifting_kernel_SE3 T cin out s groups mode pm false grid) _ _ _ _ (gops_ok_SE3 T "" 0 mode pm) (grid_R3_shape s) eq_refl
    (cube_nonzero s Hs) _ (mask_R3_shape s) smp weight H Hsmp Hw).
Qed.
Print Assumptions C42_SE3_lifting.
Theorem C42_SE3_group : forall T cin out s groups gmode given mode pm grid k in_H out_H, (0 < s)%nat ->
  kernel_SE3 T cin out s groups gmode given mode pm false grid = Ok k ->
  exists k', kernel_SE3 T cin out s groups gmode given mode pm true grid = Ok k' /\
    (forall weight W, has_shape weight [List.length grid; out; cin / groups; s; s; s]%nat ->
       full_kernel_forward k weight in_H out_H = Ok W ->
       exists W', full_kernel_forward k' weight in_H out_H = Ok W' /\ masked_version k (create_spherical_mask_R3 s) 4 W W') /\
    (forall weight_H weight WH W, has_shape weight_H [List.length grid; out; cin / groups]%nat -> has_shape weight [out; 1; s; s; s]%nat ->
       separable_kernel_forward k weight_H weight in_H out_H = Ok (WH, W) ->
       exists W', separable_kernel_forward k' weight_H weight in_H out_H = Ok (WH, W') /\
         masked_version k (create_spherical_mask_R3 s) 3 W W').
Proof.
  intros T cin out s groups gmode given mode pm grid k in_H out_H Hs Hk.
  unfold kernel_SE3 in *. destruct (width_SE3 given grid) as [w|]; [|discriminate]. cbn [bind] in *.
  set (kk := Build_gkernel _ _ _ _ _ _ _ _ _ _ _) in Hk. injection Hk as <-. rename kk into k.
  assert (k_gdim k = List.length grid) as Hd by (unfold k_gdim, k; simpl; lia).
  pose proof (gops_ok_SE3 T gmode w mode pm) as Hops0.
  exists (set_mask k (Some (create_spherical_mask_R3 s))). split; [reflexivity|]. split.
  - intros weight W Hw HW.
    assert (has_shape weight (full_weight_shape k)) as Hw' by (unfold full_weight_shape; rewrite Hd; exact Hw).
    destruct (full_inv k _ _ _ _ Hops0 weight in_H out_H W Hw' HW) as (Hd0 & smp & rows & Hsmp & Hrows).
    pose proof (sampled_SE3 k T gmode w mode pm _ weight in_H out_H rows eq_refl Hrows) as Hsam.
    destruct (full_mask k _ _ _ _ Hops0 (grid_R3_shape s) eq_refl (cube_nonzero s Hs) _ (mask_R3_shape s) smp weight in_H out_H _ Hsmp Hd0 Hw' Hsam)
      as (W0 & W' & E & E' & M).
    assert (W0 = W) by congruence. subst W0. exists W'. split; assumption.
  - intros weight_H weight WH W HwH Hw HW.
    assert (has_shape weight_H (group_weight_shape k)) as HwH' by (unfold group_weight_shape; rewrite Hd; exact HwH).
    destruct (separable_inv k _ _ _ _ Hops0 weight_H weight in_H out_H (WH, W) HwH' HW) as (Hd0 & smp & rows & Hsmp & Hrows).
    pose proof (sampled_SE3 k T gmode w mode pm _ weight_H in_H out_H rows eq_refl Hrows) as Hsam.
    destruct (separable_mask k _ _ _ _ Hops0 (grid_R3_shape s) eq_refl (cube_nonzero s Hs) _ (mask_R3_shape s) smp weight_H weight in_H out_H _ Hsmp Hd0 HwH' Hw Hsam)
      as (WH0 & W0 & W' & E & E' & M).
    assert (WH0 = WH /\ W0 = W) as [-> ->] by (split; congruence). exists W'. split; assumption.
Qed.
Print Assumptions C42_SE3_group.

Theorem C42_E2_lifting : forall T cin out s groups n m mode pm grid smp weight H, (0 < s)%nat ->
  sample_R2 mode pm = Ok smp -> has_shape weight [out; cin / groups; s; s]%nat ->
  exists W W', lifting_kernel_forward (lifting_kernel_E2 T cin out s groups n m mode pm false grid) weight H = Ok W /\
    lifting_kernel_forward (lifting_kernel_E2 T cin out s groups n m mode pm true grid) weight H = Ok W' /\
    masked_version (lifting_kernel_E2 T cin out s groups n m mode pm false grid) (create_spherical_mask_R2 s) 3 W W'.
Proof.
  intros T cin out s groups n m mode pm grid smp weight H Hs Hsmp Hw.
  exact (lifting_mask (lifting_kernel_E2 T cin out s groups n m mode pm false grid) _ _ _ _ (gops_ok_E2 T "" 0 0 n m mode pm) (grid_R2_shape s) eq_refl
    (square_nonzero s Hs) _ (mask_R2_shape s) smp weight H Hsmp Hw).
Qed.
Print Assumptions C42_E2_lifting.
Theorem C42_E2_group : forall T cin out s groups n m gmode rot ref mode pm grid k in_H out_H, (0 < s)%nat ->
  Forall o2_wf in_H -> Forall o2_wf out_H ->
  kernel_E2 T cin out s groups n m gmode rot ref mode pm false grid = Ok k ->
  exists k', kernel_E2 T cin out s groups n m gmode rot ref mode pm true grid = Ok k' /\
    (forall weight W, has_shape weight [n + m; out; cin / groups; s; s]%nat ->
       full_kernel_forward k weight in_H out_H = Ok W ->
       exists W', full_kernel_forward k' weight in_H out_H = Ok W' /\ masked_version k (create_spherical_mask_R2 s) 4 W W') /\
    (forall weight_H weight WH W, has_shape weight_H [n + m; out; cin / groups]%nat -> has_shape weight [out; 1; s; s]%nat ->
       separable_kernel_forward k weight_H weight in_H out_H = Ok (WH, W) ->
       exists W', separable_kernel_forward k' weight_H weight in_H out_H = Ok (WH, W') /\
         masked_version k (create_spherical_mask_R2 s) 3 W W').
Proof.
  intros T cin out s groups n m gmode rot ref mode pm grid k in_H out_H Hs Hin Hout Hk.
  unfold kernel_E2 in *. destruct (width_E2_rot rot n grid) as [rw|]; [|discriminate]. cbn [bind] in *.
  destruct (width_E2_ref ref n grid) as [fw|]; [|discriminate]. cbn [bind] in *.
  set (kk := Build_gkernel _ _ _ _ _ _ _ _ _ _ _) in Hk. injection Hk as <-. rename kk into k.
  assert (k_gdim k = n + m)%nat as Hd by (unfold k_gdim, k; simpl; lia).
  pose proof (gops_ok_E2 T gmode rw fw n m mode pm) as Hops0.
  exists (set_mask k (Some (create_spherical_mask_R2 s))). split; [reflexivity|]. split.
  - intros weight W Hw HW.
    assert (has_shape weight (full_weight_shape k)) as Hw' by (unfold full_weight_shape; rewrite Hd; exact Hw).
    destruct (full_inv k _ _ _ _ Hops0 weight in_H out_H W Hw' HW) as (Hd0 & smp & rows & Hsmp & Hrows).
    pose proof (sampled_E2 k T gmode rw fw n m mode pm _ weight in_H out_H rows eq_refl Hd Hin Hout Hrows) as Hsam.
    destruct (full_mask k _ _ _ _ Hops0 (grid_R2_shape s) eq_refl (square_nonzero s Hs) _ (mask_R2_shape s) smp weight in_H out_H _ Hsmp Hd0 Hw' Hsam)
      as (W0 & W' & E & E' & M).
    assert (W0 = W) by congruence. subst W0. exists W'. split; assumption.
  - intros weight_H weight WH W HwH Hw HW.
    assert (has_shape weight_H (group_weight_shape k)) as HwH' by (unfold group_weight_shape; rewrite Hd; exact HwH).
    destruct (separable_inv k _ _ _ _ Hops0 weight_H weight in_H out_H (WH, W) HwH' HW) as (Hd0 & smp & rows & Hsmp & Hrows).
    pose proof (sampled_E2 k T gmode rw fw n m mode pm _ weight_H in_H out_H rows eq_refl Hd Hin Hout Hrows) as Hsam.
    destruct (separable_mask k _ _ _ _ Hops0 (grid_R2_shape s) eq_refl (square_nonzero s Hs) _ (mask_R2_shape s) smp weight_H weight in_H out_H _ Hsmp Hd0 HwH' Hw Hsam)
      as (WH0 & W0 & W' & E & E' & M).
    assert (WH0 = WH /\ W0 = W) as [-> ->] by (split; congruence). exists W'. split; assumption.
Qed.
Print Assumptions C42_E2_group.

Theorem C42_E3_lifting : forall T cin out s groups n m mode pm grid smp weight H, (0 < s)%nat ->
  sample_R3 mode pm = Ok smp -> has_shape weight [out; cin / groups; s; s; s]%nat ->
  exists W W', lifting_kernel_forward (lifting_kernel_E3 T cin out s groups n m mode pm false grid) weight H = Ok W /\
    lifting_kernel_forward (lifting_kernel_E3 T cin out s groups n m mode pm true grid) weight H = Ok W' /\
    masked_version (lifting_kernel_E3 T cin out s groups n m mode pm false grid) (create_spherical_mask_R3 s) 3 W W'.
Proof.
  intros T cin out s groups n m mode pm grid smp weight H Hs Hsmp Hw.
  exact (lifting_mask (lifting_kernel_E3 T cin out s groups n m mode pm false grid) _ _ _ _ (gops_ok_E3 T "" 0 0 n m mode pm) (grid_R3_shape s) eq_refl
    (cube_nonzero s Hs) _ (mask_R3_shape s) smp weight H Hsmp Hw).
Qed.
Print Assumptions C42_E3_lifting.
Theorem C42_E3_group : forall T cin out s groups n m gmode rot ref mode pm grid k in_H out_H, (0 < s)%nat ->
  Forall o3_wf in_H -> Forall o3_wf out_H ->
  kernel_E3 T cin out s groups n m gmode rot ref mode pm false grid = Ok k ->
  exists k', kernel_E3 T cin out s groups n m gmode rot ref mode pm true grid = Ok k' /\
    (forall weight W, has_shape weight [n + m; out; cin / groups; s; s; s]%nat ->
       full_kernel_forward k weight in_H out_H = Ok W ->
       exists W', full_kernel_forward k' weight in_H out_H = Ok W' /\ masked_version k (create_spherical_mask_R3 s) 4 W W') /\
    (forall weight_H weight WH W, has_shape weight_H [n + m; out; cin / groups]%nat -> has_shape weight [out; 1; s; s; s]%nat ->
       separable_kernel_forward k weight_H weight in_H out_H = Ok (WH, W) ->
       exists W', separable_kernel_forward k' weight_H weight in_H out_H = Ok (WH, W') /\
         masked_version k (create_spherical_mask_R3 s) 3 W W').
Proof.
  intros T cin out s groups n m gmode rot ref mode pm grid k in_H out_H Hs Hin Hout Hk.
  unfold kernel_E3 in *. destruct (width_E3_rot rot n grid) as [rw|]; [|discriminate]. cbn [bind] in *.
  destruct (width_E3_ref ref n grid) as [fw|]; [|discriminate]. cbn [bind] in *.
  set (kk := Build_gkernel _ _ _ _ _ _ _ _ _ _ _) in Hk. injection Hk as <-. rename kk into k.
  assert (k_gdim k = n + m)%nat as Hd by (unfold k_gdim, k; simpl; lia).
  pose proof (gops_ok_E3 T gmode rw fw n m mode pm) as Hops0.
  exists (set_mask k (Some (create_spherical_mask_R3 s))). split; [reflexivity|]. split.
  - intros weight W Hw HW.
    assert (has_shape weight (full_weight_shape k)) as Hw' by (unfold full_weight_shape; rewrite Hd; exact Hw).
    destruct (full_inv k _ _ _ _ Hops0 weight in_H out_H W Hw' HW) as (Hd0 & smp & rows & Hsmp & Hrows).
    pose proof (sampled_E3 k T gmode rw fw n m mode pm _ weight in_H out_H rows eq_refl Hd Hin Hout Hrows) as Hsam.
    destruct (full_mask k _ _ _ _ Hops0 (grid_R3_shape s) eq_refl (cube_nonzero s Hs) _ (mask_R3_shape s) smp weight in_H out_H _ Hsmp Hd0 Hw' Hsam)
      as (W0 & W' & E & E' & M).
    assert (W0 = W) by congruence. subst W0. exists W'. split; assumption.
  - intros weight_H weight WH W HwH Hw HW.
    assert (has_shape weight_H (group_weight_shape k)) as HwH' by (unfold group_weight_shape; rewrite Hd; exact HwH).
    destruct (separable_inv k _ _ _ _ Hops0 weight_H weight in_H out_H (WH, W) HwH' HW) as (Hd0 & smp & rows & Hsmp & Hrows).
    pose proof (sampled_E3 k T gmode rw fw n m mode pm _ weight_H in_H out_H rows eq_refl Hd Hin Hout Hrows) as Hsam.
    destruct (separable_mask k _ _ _ _ Hops0 (grid_R3_shape s) eq_refl (cube_nonzero s Hs) _ (mask_R3_shape s) smp weight_H weight in_H out_H _ Hsmp Hd0 HwH' Hw Hsam)
      as (WH0 & W0 & W' & E & E' & M).
    assert (WH0 = WH /\ W0 = W) as [-> ->] by (split; congruence). exists W'. split; assumption.
Qed.
Print Assumptions C42_E3_group.

(** ** C59.  H = [identity]. *)
Lemma slice_at (t : tensor R) s pre x : valid s x -> at_ (mkT s (slice t s pre)) x = at_ t (pre ++ x).
Proof.
  intros H. change (mkT s (slice t s pre)) with (build s (fun y => at_ t (pre ++ y))). rewrite at_build by assumption. reflexivity.
Qed.
Lemma id_act2 v : app2 (so2_angle_to_matrix (- 0)) v = v.
Proof. unfold app2, so2_angle_to_matrix. rewrite Ropp_0, cos_0, sin_0. destruct v; cbn. f_equal; ring. Qed.
Lemma id_act2' v : scalv2 1 (app2 (so2_angle_to_matrix (0 * -1)) v) = v.
Proof. rewrite Rmult_0_l. unfold scalv2, app2, so2_angle_to_matrix. rewrite cos_0, sin_0. destruct v; cbn. f_equal; ring. Qed.
Lemma id_act3 v : app3 (tr3 I3) v = v.
Proof. unfold app3, tr3, I3. destruct v; cbn. f_equal; ring. Qed.
Lemma id_act3' v : scalv3 1 (app3 (tr3 I3) v) = v.
Proof. rewrite id_act3. unfold scalv3. destruct v; cbn. f_equal; ring. Qed.

(** The sampler reproduces a stored 3D image at the grid points (2D: its transpose). *)
Definition reproduces3 (smp : sampler V3) (s : nat) : Prop := forall im x y z, (x < s)%nat -> (y < s)%nat -> (z < s)%nat ->
  smp [s; s; s] im (at_ (create_grid_R3 s) [x; y; z]) = at_ (mkT [s; s; s] im) [x; y; z].
Definition transposes2 (smp : sampler V2) (s : nat) : Prop := forall im x y, (x < s)%nat -> (y < s)%nat ->
  smp [s; s] im (at_ (create_grid_R2 s) [x; y]) = at_ (mkT [s; s] im) [y; x].

Lemma identity_SE3 T cin out s groups mode pm (mask : bool) grid smp weight : (0 < s)%nat ->
  sample_R3 mode pm = Ok smp -> reproduces3 smp s -> has_shape weight [out; cin / groups; s; s; s]%nat ->
  exists W, lifting_kernel_forward (lifting_kernel_SE3 T cin out s groups mode pm mask grid) weight [I3] = Ok W /\
    forall o c x y z, (o < out)%nat -> (c < cin / groups)%nat -> (x < s)%nat -> (y < s)%nat -> (z < s)%nat ->
      at_ W [o; 0; c; x; y; z]%nat = (if mask then at_ (create_spherical_mask_R3 s) [x; y; z] else 1) * at_ weight [o; c; x; y; z].
Proof.
  intros Hs Hsmp Hr Hw. destruct (C36_SE3 T cin out s groups mode pm mask grid smp weight [I3] Hs Hsmp Hw) as (W & E & _ & A).
  exists W. split; [assumption|]. intros o c x y z Ho Hc Hx Hy Hz.
  rewrite (A o 0%nat I3 c x y z) by (try assumption; reflexivity). rewrite id_act3, Hr by assumption.
  rewrite slice_at by (repeat apply valid_cons; try assumption; apply valid_nil). reflexivity.
Qed.
Lemma identity_E3 T cin out s groups n m mode pm (mask : bool) grid smp weight : (0 < s)%nat ->
  sample_R3 mode pm = Ok smp -> reproduces3 smp s -> has_shape weight [out; cin / groups; s; s; s]%nat ->
  exists W, lifting_kernel_forward (lifting_kernel_E3 T cin out s groups n m mode pm mask grid) weight [mkO3 1 I3] = Ok W /\
    forall o c x y z, (o < out)%nat -> (c < cin / groups)%nat -> (x < s)%nat -> (y < s)%nat -> (z < s)%nat ->
      at_ W [o; 0; c; x; y; z]%nat = (if mask then at_ (create_spherical_mask_R3 s) [x; y; z] else 1) * at_ weight [o; c; x; y; z].
Proof.
  intros Hs Hsmp Hr Hw. destruct (C36_E3 T cin out s groups n m mode pm mask grid smp weight [mkO3 1 I3] Hs Hsmp Hw) as (W & E & _ & A).
  exists W. split; [assumption|]. intros o c x y z Ho Hc Hx Hy Hz.
  rewrite (A o 0%nat (mkO3 1 I3) c x y z) by (try assumption; reflexivity). cbn [o3c o3r]. rewrite id_act3', Hr by assumption.
  rewrite slice_at by (repeat apply valid_cons; try assumption; apply valid_nil). cbn [app]. field.
Qed.
Lemma identity_SE2 T cin out s groups mode pm mask grid smp weight : (0 < s)%nat ->
  sample_R2 mode pm = Ok smp -> transposes2 smp s -> has_shape weight [out; cin / groups; s; s]%nat ->
  exists W, lifting_kernel_forward (lifting_kernel_SE2 T cin out s groups mode pm mask grid) weight [0] = Ok W /\
    forall o c x y, (o < out)%nat -> (c < cin / groups)%nat -> (x < s)%nat -> (y < s)%nat ->
      at_ W [o; 0; c; x; y]%nat = at_ (create_spherical_mask_R2 s) [x; y] * at_ weight [o; c; y; x].
Proof.
  intros Hs Hsmp Hr Hw. destruct (C36_SE2 T cin out s groups mode pm mask grid smp weight [0] Hs Hsmp Hw) as (W & E & _ & A).
  exists W. split; [assumption|]. intros o c x y Ho Hc Hx Hy.
  rewrite (A o 0%nat 0 c x y) by (try assumption; reflexivity). rewrite id_act2, Hr by assumption.
  rewrite slice_at by (repeat apply valid_cons; try assumption; apply valid_nil). reflexivity.
Qed.
Lemma identity_E2 T cin out s groups n m mode pm (mask : bool) grid smp weight : (0 < s)%nat ->
  sample_R2 mode pm = Ok smp -> transposes2 smp s -> has_shape weight [out; cin / groups; s; s]%nat ->
  exists W, lifting_kernel_forward (lifting_kernel_E2 T cin out s groups n m mode pm mask grid) weight [mkO2 1 0] = Ok W /\
    forall o c x y, (o < out)%nat -> (c < cin / groups)%nat -> (x < s)%nat -> (y < s)%nat ->
      at_ W [o; 0; c; x; y]%nat = (if mask then at_ (create_spherical_mask_R2 s) [x; y] else 1) * at_ weight [o; c; y; x].
Proof.
  intros Hs Hsmp Hr Hw. destruct (C36_E2 T cin out s groups n m mode pm mask grid smp weight [mkO2 1 0] Hs Hsmp Hw) as (W & E & _ & A).
  exists W. split; [assumption|]. intros o c x y Ho Hc Hx Hy.
  rewrite (A o 0%nat (mkO2 1 0) c x y) by (try assumption; reflexivity). cbn [o2c o2a]. rewrite id_act2', Hr by assumption.
  rewrite slice_at by (repeat apply valid_cons; try assumption; apply valid_nil). cbn [app]. field.
Qed.

Definition reproduced_at_identity (T : torch_env) (mode : string) (s : nat) : Prop :=
  forall cin out groups n m (mask : bool),
  (forall grid weight, has_shape weight [out; cin / groups; s; s; s]%nat ->
   exists W, lifting_kernel_forward (lifting_kernel_SE3 T cin out s groups mode "border" mask grid) weight [I3] = Ok W /\
    forall o c x y z, (o < out)%nat -> (c < cin / groups)%nat -> (x < s)%nat -> (y < s)%nat -> (z < s)%nat ->
      at_ W [o; 0; c; x; y; z]%nat = (if mask then at_ (create_spherical_mask_R3 s) [x; y; z] else 1) * at_ weight [o; c; x; y; z]) /\
  (forall grid weight, has_shape weight [out; cin / groups; s; s; s]%nat ->
   exists W, lifting_kernel_forward (lifting_kernel_E3 T cin out s groups n m mode "border" mask grid) weight [mkO3 1 I3] = Ok W /\
    forall o c x y z, (o < out)%nat -> (c < cin / groups)%nat -> (x < s)%nat -> (y < s)%nat -> (z < s)%nat ->
      at_ W [o; 0; c; x; y; z]%nat = (if mask then at_ (create_spherical_mask_R3 s) [x; y; z] else 1) * at_ weight [o; c; x; y; z]) /\
  (forall grid weight, has_shape weight [out; cin / groups; s; s]%nat ->
   exists W, lifting_kernel_forward (lifting_kernel_SE2 T cin out s groups mode "border" mask grid) weight [0] = Ok W /\
    forall o c x y, (o < out)%nat -> (c < cin / groups)%nat -> (x < s)%nat -> (y < s)%nat ->
      at_ W [o; 0; c; x; y]%nat = at_ (create_spherical_mask_R2 s) [x; y] * at_ weight [o; c; y; x]) /\
  (forall grid weight, has_shape weight [out; cin / groups; s; s]%nat ->
   exists W, lifting_kernel_forward (lifting_kernel_E2 T cin out s groups n m mode "border" mask grid) weight [mkO2 1 0] = Ok W /\
    forall o c x y, (o < out)%nat -> (c < cin / groups)%nat -> (x < s)%nat -> (y < s)%nat ->
      at_ W [o; 0; c; x; y]%nat = (if mask then at_ (create_spherical_mask_R2 s) [x; y] else 1) * at_ weight [o; c; y; x]).

(** Nearest sampling with border padding: 3D weights are reproduced, 2D weights are transposed
    (times the mask factor), for every kernel size. *)
Theorem C59_nearest : forall T s, (1 <= s)%nat -> reproduced_at_identity T "nearest" s.
Proof.
  intros T s Hs cin out groups n m mask.
  assert (reproduces3 (gs3 false GsBorder) s) as R3 by (intros im x y z; apply nearest_identity_3; assumption).
  assert (transposes2 (gs2 false GsBorder) s) as R2 by (intros im x y; apply nearest_identity_2; assumption).
  repeat split; intros grid weight Hw.
  - apply (identity_SE3 T cin out s groups "nearest" "border" mask grid _ weight Hs eq_refl R3 Hw).
  - apply (identity_E3 T cin out s groups n m "nearest" "border" mask grid _ weight Hs eq_refl R3 Hw).
  - apply (identity_SE2 T cin out s groups "nearest" "border" mask grid _ weight Hs eq_refl R2 Hw).
  - apply (identity_E2 T cin out s groups n m "nearest" "border" mask grid _ weight Hs eq_refl R2 Hw).
Qed.
Print Assumptions C59_nearest.
(** Bilinear sampling: the same up to kernel size 3. *)
Theorem C59_bilinear_small : forall T s, (1 <= s <= 3)%nat -> reproduced_at_identity T "bilinear" s.
Proof.
  intros T s Hs cin out groups n m mask. assert (0 < s)%nat as H0 by lia.
  assert (reproduces3 (gs3 true GsBorder) s) as R3 by (intros im x y z; apply linear_identity_3_small; assumption).
  assert (transposes2 (gs2 true GsBorder) s) as R2 by (intros im x y; apply linear_identity_2_small; assumption).
  repeat split; intros grid weight Hw.
  - apply (identity_SE3 T cin out s groups "bilinear" "border" mask grid _ weight H0 eq_refl R3 Hw).
  - apply (identity_E3 T cin out s groups n m "bilinear" "border" mask grid _ weight H0 eq_refl R3 Hw).
  - apply (identity_SE2 T cin out s groups "bilinear" "border" mask grid _ weight H0 eq_refl R2 Hw).
  - apply (identity_E2 T cin out s groups n m "bilinear" "border" mask grid _ weight H0 eq_refl R2 Hw).
Qed.
Print Assumptions C59_bilinear_small.
(** From size 4 on some weight is not reproduced, neither in 3D nor (as a transpose) in 2D; in SE(2)
    at a position the mask keeps. *)
Theorem C59_bilinear_big : forall T s, (4 <= s)%nat ->
  (exists weight W, has_shape weight [1; 1; s; s; s]%nat /\
     lifting_kernel_forward (lifting_kernel_SE3 T 1 1 s 1 "bilinear" "border" false [I3]) weight [I3] = Ok W /\
     at_ W [0; 0; 0; 0; 0; 1]%nat <> at_ weight [0; 0; 0; 0; 1]%nat) /\
  (exists weight W, has_shape weight [1; 1; s; s; s]%nat /\
     lifting_kernel_forward (lifting_kernel_E3 T 1 1 s 1 1 0 "bilinear" "border" false [mkO3 1 I3]) weight [mkO3 1 I3] = Ok W /\
     at_ W [0; 0; 0; 0; 0; 1]%nat <> at_ weight [0; 0; 0; 0; 1]%nat) /\
  (exists weight W x y, has_shape weight [1; 1; s; s]%nat /\ (x < s)%nat /\ (y < s)%nat /\
     at_ (create_spherical_mask_R2 s) [x; y] = 1 /\
     lifting_kernel_forward (lifting_kernel_SE2 T 1 1 s 1 "bilinear" "border" true [0]) weight [0] = Ok W /\
     at_ W [0; 0; 0; x; y]%nat <> at_ weight [0; 0; y; x]%nat) /\
  (exists weight W x y, has_shape weight [1; 1; s; s]%nat /\ (x < s)%nat /\ (y < s)%nat /\
     at_ (create_spherical_mask_R2 s) [x; y] = 1 /\
     lifting_kernel_forward (lifting_kernel_E2 T 1 1 s 1 1 0 "bilinear" "border" true [mkO2 1 0]) weight [mkO2 1 0] = Ok W /\
     at_ W [0; 0; 0; x; y]%nat <> at_ weight [0; 0; y; x]%nat).
Proof.
  intros T s Hs.
  set (w3 := build [1; 1; s; s; s]%nat (fun idx => INR (nth 4 idx 0%nat))).
  assert (has_shape w3 [1; 1; s; s; s]%nat) as Hw3 by (split; [reflexivity|apply wft_build]).
  assert (forall x y z, (x < s)%nat -> (y < s)%nat -> (z < s)%nat -> at_ w3 [0; 0; x; y; z]%nat = INR z) as Aw3.
  { intros x y z Hx Hy Hz. unfold w3. rewrite at_build by (repeat apply valid_cons; try lia; apply valid_nil). reflexivity. }
  assert (gs3 true GsBorder [s; s; s] (slice w3 [s; s; s] [0; 0]%nat) (at_ (create_grid_R3 s) [0; 0; 1]%nat) <> 1) as N3.
  { destruct (linear_big_3 s (slice w3 [s; s; s] [0; 0]%nat) Hs) as (c & Hc & ->).
    rewrite !slice_at by (repeat apply valid_cons; try lia; apply valid_nil). cbn [app]. rewrite !Aw3 by lia. simpl. lra. }
  destruct (linear_big_2_masked s Hs) as (im & Him & Hmask & Hne).
  set (w2 := mkT [1; 1; s; s]%nat im).
  assert (has_shape w2 [1; 1; s; s]%nat) as Hw2.
  { split; [reflexivity|]. unfold wft, w2. cbn [data shape]. rewrite !prodn_cons, prodn_nil. lia. }
  assert (slice w2 [s; s] [0; 0]%nat = im) as Es.
  { unfold slice. transitivity (map (fun y => nth (ravel [s; s] y) im 0) (indices [s; s])).
    - apply map_ext. intros y. unfold at_, w2. cbn [data shape]. f_equal.
    - rewrite map_indices_flat with (f := fun i => nth i im 0). replace (prodn [s; s]) with (List.length im) by (rewrite !prodn_cons, prodn_nil; lia).
      clear. induction im as [|a l IH]; [reflexivity|]. cbn [List.length seq map nth]. f_equal.
      rewrite <- seq_shift, map_map. exact IH. }
  assert (at_ w2 [0; 0; s / 2; 1]%nat = at_ (mkT [s; s] im) [s / 2; 1]%nat) as Ew2.
  { unfold at_, w2. cbn [data shape]. f_equal. }
  assert (s / 2 < s)%nat as Hh by (apply Nat.div_lt; lia).
  split; [|split; [|split]].
  - destruct (C36_SE3 T 1 1 s 1 "bilinear" "border" false [I3] _ w3 [I3] ltac:(lia) eq_refl Hw3) as (W & E & _ & A).
    exists w3, W. split; [assumption|]. split; [assumption|].
    rewrite (A 0 0 I3 0 0 0 1)%nat by (try lia; try reflexivity; apply Nat.lt_0_1). rewrite id_act3, Rmult_1_l, Aw3 by lia. exact N3.
  - destruct (C36_E3 T 1 1 s 1 1 0 "bilinear" "border" false [mkO3 1 I3] _ w3 [mkO3 1 I3] ltac:(lia) eq_refl Hw3) as (W & E & _ & A).
    exists w3, W. split; [assumption|]. split; [assumption|].
    rewrite (A 0 0 (mkO3 1 I3) 0 0 0 1)%nat by (try lia; try reflexivity; apply Nat.lt_0_1). cbn [o3c o3r].
    rewrite id_act3', Rmult_1_l, Aw3 by lia. unfold Rdiv. rewrite Rinv_1, Rmult_1_r. exact N3.
  - destruct (C36_SE2 T 1 1 s 1 "bilinear" "border" true [0] _ w2 [0] ltac:(lia) eq_refl Hw2) as (W & E & _ & A).
    exists w2, W, 1%nat, (s / 2)%nat. split; [assumption|]. split; [lia|]. split; [assumption|]. split; [assumption|]. split; [assumption|].
    rewrite (A 0%nat 0%nat 0 0%nat 1%nat (s / 2)%nat) by (try lia; try reflexivity; apply Nat.lt_0_1).
    rewrite Hmask, id_act2, Rmult_1_l, Es, Ew2. exact Hne.
  - destruct (C36_E2 T 1 1 s 1 1 0 "bilinear" "border" true [mkO2 1 0] _ w2 [mkO2 1 0] ltac:(lia) eq_refl Hw2) as (W & E & _ & A).
    exists w2, W, 1%nat, (s / 2)%nat. split; [assumption|]. split; [lia|]. split; [assumption|]. split; [assumption|]. split; [assumption|].
    rewrite (A 0%nat 0%nat (mkO2 1 0) 0%nat 1%nat (s / 2)%nat) by (try lia; try reflexivity; apply Nat.lt_0_1). cbn [o2c o2a].
    rewrite Hmask, id_act2', Rmult_1_l, Es, Ew2. unfold Rdiv. rewrite Rinv_1, Rmult_1_r. exact Hne.
Qed.
Print Assumptions C59_bilinear_big.

(** C38, C40, C42: the separable kernel does return, for equal and for different grid sizes. *)
Example C38_nonvacuous : forall T, torch_ok T -> forall in_H out_H, exists k WH W,
  kernel_SE2 T 2 3 3 1 "nearest" 1 "bilinear" "border" true [0; PI] = Ok k /\
  separable_kernel_forward k (build [2; 3; 2]%nat (fun idx => INR (nth 0 idx 0%nat)))
    (build [3; 1; 3; 3]%nat (fun idx => INR (nth 2 idx 0%nat))) in_H out_H = Ok (WH, W) /\
  shape WH = [3; List.length in_H; 2; List.length out_H; 1; 1]%nat /\ shape W = [3; List.length out_H; 1; 3; 3]%nat.
Proof.
  intros T HT in_H out_H. unfold kernel_SE2, width_SE2. rewrite default_width_given by lra. cbn [bind].
  eexists. set (k := Build_gkernel _ _ _ _ _ _ _ _ _ _ _).
  set (wH := build [2; 3; 2]%nat _). set (w := build [3; 1; 3; 3]%nat _).
  assert (has_shape wH (group_weight_shape k)) as HwH by (split; [reflexivity|apply wft_build]).
  assert (has_shape w (separable_weight_shape k)) as Hw by (split; [reflexivity|apply wft_build]).
  destruct (so2_nearest_total T HT 1 (prodn [3; 2]%nat)
    (relatives so2_inverse_angle so2_left_apply_angle in_H out_H)
    (param_rows (k_gdim k) [3; 2]%nat wH) (k_grid_H k)) as (rows & Hr).
  { discriminate. } { rewrite param_rows_count. reflexivity. }
  pose proof (sampled_SE2 k T "nearest" 1 "bilinear" "border" _ wH in_H out_H rows eq_refl Hr) as Hsam.
  destruct (separable_formula k _ _ _ _ (gops_ok_SE2 T "nearest" 1 "bilinear" "border") (grid_R2_shape 3) (mask_R2_shape 3)
    (square_nonzero 3 ltac:(lia)) ltac:(discriminate) (gs2 true GsBorder) wH w in_H out_H _ eq_refl HwH Hw Hsam)
    as (WH & W & E & [H1 _] & [H2 _] & _).
  exists WH, W. split; [reflexivity|]. split; [exact E|]. split; [exact H1|exact H2].
Qed.
