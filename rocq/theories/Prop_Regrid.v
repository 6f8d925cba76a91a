(** Property theorems C70: the order in which group elements are listed does not matter.
    Reading guide.  [regrid f H H'] (RegridSpec.v): the j-th element of H' is the (f j)-th element of H; [regrouped d f n n' X X']: X has n feature
    maps per channel and X' has n', and the j-th one of X' is the (f j)-th one of X.  [permutes n f] (LayersSpec.v): f is one-to-one on 0..n-1.
    All strides, paddings and dilations. *)
From Coq Require Import String ZArith Permutation.
From Verif Require Import Prelude RMath Mat Interp SO2 SO2Facts O2 O2Facts SO3 SO3Facts O3 O3Facts Repulse RepulseFacts Tensor TensorFacts SignedPerm Functional
  FunctionalFacts Kernel KernelFacts GroupKernelFacts KernelMore Conv ConvSpec ConvFacts ConvInit LayersSpec RegridSpec Regrid Prop_Conv Prop_Conv2 Prop_Equi2.
Open Scope R_scope.

(** ** SE2 *)
Theorem C70_lifting_SE2 : forall T (L : gconv R V2) cin out s groups stride padding dil m bias mode pm mask grid weight (X Y : tensor R) N h w H H' f,
  constructed 2 L cin out [s; s] (lifting_kernel_SE2 T cin out s groups mode pm mask grid) groups stride padding dil m bias ->
  has_shape weight (out :: cin / groups :: [s; s])%nat -> has_shape X (N :: cin :: [h; w]) ->
  H <> [] -> H' <> [] -> regrid f H H' ->
  lifting_forward L weight X H = Ok (Y, H) ->
  exists Y', lifting_forward L weight X H' = Ok (Y', H') /\ regrouped 2 f (List.length H) (List.length H') Y Y'.
Proof.
  intros T L cin out s groups stride padding dil m bias mode pm mask grid weight X Y N h w H H' f Hc Hw HX HH HH' HR E.
  set (k := lifting_kernel_SE2 T cin out s groups mode pm mask grid) in *.
  exact (lifting_layer_regrid 2 L cin out [s; s] k groups stride padding dil m bias Hc _ _ _ _ (gops_ok_SE2 _ _ _ _ _)
    (grid_R2_shape s) (opt_mask_R2 true s) eq_refl eq_refl weight H H' f X N [h; w] Y Hw HH HH' HR HX eq_refl E).
Qed.
Print Assumptions C70_lifting_SE2.

Theorem C70_group_SE2 : forall T (L : gconv R V2) k cin out s groups stride padding dil m bias gmode given mode pm mask grid weight (X X' Y : tensor R) N h w in_H in_H' out_H out_H' fi fo,
  kernel_SE2 T cin out s groups gmode given mode pm mask grid = Ok k ->
  constructed 2 L cin out [s; s] k groups stride padding dil m bias ->
  has_shape weight (List.length grid :: out :: cin / groups :: [s; s])%nat ->
  out_H <> [] -> out_H' <> [] -> regrid fo out_H out_H' ->
  List.length in_H' = List.length in_H -> permutes (List.length in_H) fi -> regrid fi in_H in_H' ->
  has_shape X (N :: cin :: List.length in_H :: [h; w]) -> regrouped 2 fi (List.length in_H) (List.length in_H') X X' ->
  full_forward L weight X in_H out_H = Ok (Y, out_H) ->
  exists Y', full_forward L weight X' in_H' out_H' = Ok (Y', out_H') /\ regrouped 2 fo (List.length out_H) (List.length out_H') Y Y'.
Proof.
  intros T L k cin out s groups stride padding dil m bias gmode given mode pm mask grid weight X X' Y N h w in_H in_H' out_H out_H' fi fo Hk Hc Hw HH HH' HR EL Hp HRi HX HXX E.
  pose proof (proj1 (proj2 (regrouped_inv _ _ _ _ _ _ _ _ _ HXX HX))) as HX'. unfold kernel_SE2 in Hk. destruct (width_SE2 given grid) as [wd|]; [|discriminate]. injection Hk as <-.
  set (k := Build_gkernel _ _ _ _ _ _ _ _ _ _ _) in *.
  assert (k_gdim k = List.length grid)%nat as Hd by (unfold k_gdim, k; cbn; lia).
  assert (has_shape weight (full_weight_shape k)) as Hw' by (unfold full_weight_shape; rewrite Hd; exact Hw).
  apply (group_layer_regrid 2 L cin out [s; s] k groups stride padding dil m bias Hc so2_inverse_angle so2_left_apply_angle _ _ (gops_ok_SE2 T gmode wd mode pm)
    (grid_R2_shape s) (opt_mask_R2 true s) eq_refl eq_refl weight in_H in_H' out_H out_H' fi fo X X' N [h; w] Y); try assumption; try reflexivity.
  intros wt rows Hr. exact (below_SE2 k T gmode wd mode pm _ wt in_H out_H rows eq_refl Hr).
Qed.
Print Assumptions C70_group_SE2.

Theorem C70_separable_SE2 : forall T (L : gconv R V2) k cin out s groups stride padding dil m bias gmode given mode pm mask grid weight_H weight (X X' Y : tensor R) N h w in_H in_H' out_H out_H' fi fo,
  kernel_SE2 T cin out s groups gmode given mode pm mask grid = Ok k ->
  constructed 2 L cin out [s; s] k groups stride padding dil m bias ->
  has_shape weight_H [List.length grid; out; cin / groups]%nat -> has_shape weight (out :: 1 :: [s; s])%nat ->
  out_H <> [] -> regrid fo out_H out_H' ->
  List.length in_H' = List.length in_H -> permutes (List.length in_H) fi -> regrid fi in_H in_H' ->
  List.length out_H = List.length in_H -> List.length out_H' = List.length in_H' ->
  has_shape X (N :: cin :: List.length in_H :: [h; w]) -> regrouped 2 fi (List.length in_H) (List.length in_H') X X' ->
  separable_forward L weight_H weight X in_H out_H = Ok (Y, out_H) ->
  exists Y', separable_forward L weight_H weight X' in_H' out_H' = Ok (Y', out_H') /\ regrouped 2 fo (List.length out_H) (List.length out_H') Y Y'.
Proof.
  intros T L k cin out s groups stride padding dil m bias gmode given mode pm mask grid weight_H weight X X' Y N h w in_H in_H' out_H out_H' fi fo Hk Hc HwH Hw HH HR EL Hp HRi EN EN' HX HXX E.
  pose proof (proj1 (proj2 (regrouped_inv _ _ _ _ _ _ _ _ _ HXX HX))) as HX'. unfold kernel_SE2 in Hk. destruct (width_SE2 given grid) as [wd|]; [|discriminate]. injection Hk as <-.
  set (k := Build_gkernel _ _ _ _ _ _ _ _ _ _ _) in *.
  assert (k_gdim k = List.length grid)%nat as Hd by (unfold k_gdim, k; cbn; lia).
  assert (has_shape weight_H (group_weight_shape k)) as HwH' by (unfold group_weight_shape; rewrite Hd; exact HwH).
  apply (separable_layer_regrid 2 L cin out [s; s] k groups stride padding dil m bias Hc so2_inverse_angle so2_left_apply_angle _ _ (gops_ok_SE2 T gmode wd mode pm)
    (grid_R2_shape s) (opt_mask_R2 true s) eq_refl eq_refl weight_H weight in_H in_H' out_H out_H' fi fo X X' N [h; w] Y); try assumption; try reflexivity; try (symmetry; assumption).
  intros wt rows Hr. exact (below_SE2 k T gmode wd mode pm _ wt in_H out_H rows eq_refl Hr).
Qed.
Print Assumptions C70_separable_SE2.

(** ** SE3 *)
Theorem C70_lifting_SE3 : forall T (L : gconv M3 V3) cin out s groups stride padding dil m bias mode pm mask grid weight (X Y : tensor R) N d h w H H' f,
  constructed 3 L cin out [s; s; s] (lifting_kernel_SE3 T cin out s groups mode pm mask grid) groups stride padding dil m bias ->
  has_shape weight (out :: cin / groups :: [s; s; s])%nat -> has_shape X (N :: cin :: [d; h; w]) ->
  H <> [] -> H' <> [] -> regrid f H H' ->
  lifting_forward L weight X H = Ok (Y, H) ->
  exists Y', lifting_forward L weight X H' = Ok (Y', H') /\ regrouped 3 f (List.length H) (List.length H') Y Y'.
Proof.
  intros T L cin out s groups stride padding dil m bias mode pm mask grid weight X Y N d h w H H' f Hc Hw HX HH HH' HR E.
  set (k := lifting_kernel_SE3 T cin out s groups mode pm mask grid) in *.
  exact (lifting_layer_regrid 3 L cin out [s; s; s] k groups stride padding dil m bias Hc _ _ _ _ (gops_ok_SE3 _ _ _ _ _)
    (grid_R3_shape s) (opt_mask_R3 mask s) eq_refl eq_refl weight H H' f X N [d; h; w] Y Hw HH HH' HR HX eq_refl E).
Qed.
Print Assumptions C70_lifting_SE3.

Theorem C70_group_SE3 : forall T (L : gconv M3 V3) k cin out s groups stride padding dil m bias gmode given mode pm mask grid weight (X X' Y : tensor R) N d h w in_H in_H' out_H out_H' fi fo,
  kernel_SE3 T cin out s groups gmode given mode pm mask grid = Ok k ->
  constructed 3 L cin out [s; s; s] k groups stride padding dil m bias ->
  has_shape weight (List.length grid :: out :: cin / groups :: [s; s; s])%nat ->
  out_H <> [] -> out_H' <> [] -> regrid fo out_H out_H' ->
  List.length in_H' = List.length in_H -> permutes (List.length in_H) fi -> regrid fi in_H in_H' ->
  has_shape X (N :: cin :: List.length in_H :: [d; h; w]) -> regrouped 3 fi (List.length in_H) (List.length in_H') X X' ->
  full_forward L weight X in_H out_H = Ok (Y, out_H) ->
  exists Y', full_forward L weight X' in_H' out_H' = Ok (Y', out_H') /\ regrouped 3 fo (List.length out_H) (List.length out_H') Y Y'.
Proof.
  intros T L k cin out s groups stride padding dil m bias gmode given mode pm mask grid weight X X' Y N d h w in_H in_H' out_H out_H' fi fo Hk Hc Hw HH HH' HR EL Hp HRi HX HXX E.
  pose proof (proj1 (proj2 (regrouped_inv _ _ _ _ _ _ _ _ _ HXX HX))) as HX'. unfold kernel_SE3 in Hk. destruct (width_SE3 given grid) as [wd|]; [|discriminate]. injection Hk as <-.
  set (k := Build_gkernel _ _ _ _ _ _ _ _ _ _ _) in *.
  assert (k_gdim k = List.length grid)%nat as Hd by (unfold k_gdim, k; cbn; lia).
  assert (has_shape weight (full_weight_shape k)) as Hw' by (unfold full_weight_shape; rewrite Hd; exact Hw).
  apply (group_layer_regrid 3 L cin out [s; s; s] k groups stride padding dil m bias Hc so3_matrix_inverse mul3 _ _ (gops_ok_SE3 T gmode wd mode pm)
    (grid_R3_shape s) (opt_mask_R3 mask s) eq_refl eq_refl weight in_H in_H' out_H out_H' fi fo X X' N [d; h; w] Y); try assumption; try reflexivity.
  intros wt rows Hr. exact (below_SE3 k T gmode wd mode pm _ wt in_H out_H rows eq_refl Hr).
Qed.
Print Assumptions C70_group_SE3.

Theorem C70_separable_SE3 : forall T (L : gconv M3 V3) k cin out s groups stride padding dil m bias gmode given mode pm mask grid weight_H weight (X X' Y : tensor R) N d h w in_H in_H' out_H out_H' fi fo,
  kernel_SE3 T cin out s groups gmode given mode pm mask grid = Ok k ->
  constructed 3 L cin out [s; s; s] k groups stride padding dil m bias ->
  has_shape weight_H [List.length grid; out; cin / groups]%nat -> has_shape weight (out :: 1 :: [s; s; s])%nat ->
  out_H <> [] -> regrid fo out_H out_H' ->
  List.length in_H' = List.length in_H -> permutes (List.length in_H) fi -> regrid fi in_H in_H' ->
  List.length out_H = List.length in_H -> List.length out_H' = List.length in_H' ->
  has_shape X (N :: cin :: List.length in_H :: [d; h; w]) -> regrouped 3 fi (List.length in_H) (List.length in_H') X X' ->
  separable_forward L weight_H weight X in_H out_H = Ok (Y, out_H) ->
  exists Y', separable_forward L weight_H weight X' in_H' out_H' = Ok (Y', out_H') /\ regrouped 3 fo (List.length out_H) (List.length out_H') Y Y'.
Proof.
  intros T L k cin out s groups stride padding dil m bias gmode given mode pm mask grid weight_H weight X X' Y N d h w in_H in_H' out_H out_H' fi fo Hk Hc HwH Hw HH HR EL Hp HRi EN EN' HX HXX E.
  pose proof (proj1 (proj2 (regrouped_inv _ _ _ _ _ _ _ _ _ HXX HX))) as HX'. unfold kernel_SE3 in Hk. destruct (width_SE3 given grid) as [wd|]; [|discriminate]. injection Hk as <-.
  set (k := Build_gkernel _ _ _ _ _ _ _ _ _ _ _) in *.
  assert (k_gdim k = List.length grid)%nat as Hd by (unfold k_gdim, k; cbn; lia).
  assert (has_shape weight_H (group_weight_shape k)) as HwH' by (unfold group_weight_shape; rewrite Hd; exact HwH).
  apply (separable_layer_regrid 3 L cin out [s; s; s] k groups stride padding dil m bias Hc so3_matrix_inverse mul3 _ _ (gops_ok_SE3 T gmode wd mode pm)
    (grid_R3_shape s) (opt_mask_R3 mask s) eq_refl eq_refl weight_H weight in_H in_H' out_H out_H' fi fo X X' N [d; h; w] Y); try assumption; try reflexivity; try (symmetry; assumption).
  intros wt rows Hr. exact (below_SE3 k T gmode wd mode pm _ wt in_H out_H rows eq_refl Hr).
Qed.
Print Assumptions C70_separable_SE3.

(** ** E2 *)
Theorem C70_lifting_E2 : forall T (L : gconv O2 V2) cin out s groups stride padding dil m bias n1 n2 mode pm mask grid weight (X Y : tensor R) N h w H H' f,
  constructed 2 L cin out [s; s] (lifting_kernel_E2 T cin out s groups n1 n2 mode pm mask grid) groups stride padding dil m bias ->
  has_shape weight (out :: cin / groups :: [s; s])%nat -> has_shape X (N :: cin :: [h; w]) ->
  H <> [] -> H' <> [] -> regrid f H H' ->
  lifting_forward L weight X H = Ok (Y, H) ->
  exists Y', lifting_forward L weight X H' = Ok (Y', H') /\ regrouped 2 f (List.length H) (List.length H') Y Y'.
Proof.
  intros T L cin out s groups stride padding dil m bias n1 n2 mode pm mask grid weight X Y N h w H H' f Hc Hw HX HH HH' HR E.
  set (k := lifting_kernel_E2 T cin out s groups n1 n2 mode pm mask grid) in *.
  exact (lifting_layer_regrid 2 L cin out [s; s] k groups stride padding dil m bias Hc _ _ _ _ (gops_ok_E2 _ _ _ _ _ _ _ _)
    (grid_R2_shape s) (opt_mask_R2 mask s) eq_refl eq_refl weight H H' f X N [h; w] Y Hw HH HH' HR HX eq_refl E).
Qed.
Print Assumptions C70_lifting_E2.

Theorem C70_group_E2 : forall T (L : gconv O2 V2) k cin out s groups stride padding dil m bias n1 n2 gmode rot ref mode pm mask grid weight (X X' Y : tensor R) N h w in_H in_H' out_H out_H' fi fo,
  kernel_E2 T cin out s groups n1 n2 gmode rot ref mode pm mask grid = Ok k ->
  constructed 2 L cin out [s; s] k groups stride padding dil m bias ->
  has_shape weight (n1 + n2 :: out :: cin / groups :: [s; s])%nat ->
  Forall o2_wf in_H -> Forall o2_wf out_H ->
  out_H <> [] -> out_H' <> [] -> regrid fo out_H out_H' ->
  List.length in_H' = List.length in_H -> permutes (List.length in_H) fi -> regrid fi in_H in_H' ->
  has_shape X (N :: cin :: List.length in_H :: [h; w]) -> regrouped 2 fi (List.length in_H) (List.length in_H') X X' ->
  full_forward L weight X in_H out_H = Ok (Y, out_H) ->
  exists Y', full_forward L weight X' in_H' out_H' = Ok (Y', out_H') /\ regrouped 2 fo (List.length out_H) (List.length out_H') Y Y'.
Proof.
  intros T L k cin out s groups stride padding dil m bias n1 n2 gmode rot ref mode pm mask grid weight X X' Y N h w in_H in_H' out_H out_H' fi fo Hk Hc Hw Hwi Hwo HH HH' HR EL Hp HRi HX HXX E.
  pose proof (proj1 (proj2 (regrouped_inv _ _ _ _ _ _ _ _ _ HXX HX))) as HX'. unfold kernel_E2 in Hk. destruct (width_E2_rot rot n1 grid) as [rw|]; [|discriminate]. cbn [bind] in Hk. destruct (width_E2_ref ref n1 grid) as [fw|]; [|discriminate]. injection Hk as <-.
  set (k := Build_gkernel _ _ _ _ _ _ _ _ _ _ _) in *.
  assert (k_gdim k = n1 + n2)%nat as Hd by (unfold k_gdim, k; cbn; lia).
  assert (has_shape weight (full_weight_shape k)) as Hw' by (unfold full_weight_shape; rewrite Hd; exact Hw).
  apply (group_layer_regrid 2 L cin out [s; s] k groups stride padding dil m bias Hc o2_inverse o2_left_apply_angle _ _ (gops_ok_E2 T gmode rw fw n1 n2 mode pm)
    (grid_R2_shape s) (opt_mask_R2 mask s) eq_refl eq_refl weight in_H in_H' out_H out_H' fi fo X X' N [h; w] Y); try assumption; try reflexivity.
  intros wt rows Hr. exact (below_E2 k T gmode rw fw n1 n2 mode pm _ wt in_H out_H rows eq_refl Hd Hwi Hwo Hr).
Qed.
Print Assumptions C70_group_E2.

Theorem C70_separable_E2 : forall T (L : gconv O2 V2) k cin out s groups stride padding dil m bias n1 n2 gmode rot ref mode pm mask grid weight_H weight (X X' Y : tensor R) N h w in_H in_H' out_H out_H' fi fo,
  kernel_E2 T cin out s groups n1 n2 gmode rot ref mode pm mask grid = Ok k ->
  constructed 2 L cin out [s; s] k groups stride padding dil m bias ->
  has_shape weight_H [n1 + n2; out; cin / groups]%nat -> has_shape weight (out :: 1 :: [s; s])%nat ->
  Forall o2_wf in_H -> Forall o2_wf out_H ->
  out_H <> [] -> regrid fo out_H out_H' ->
  List.length in_H' = List.length in_H -> permutes (List.length in_H) fi -> regrid fi in_H in_H' ->
  List.length out_H = List.length in_H -> List.length out_H' = List.length in_H' ->
  has_shape X (N :: cin :: List.length in_H :: [h; w]) -> regrouped 2 fi (List.length in_H) (List.length in_H') X X' ->
  separable_forward L weight_H weight X in_H out_H = Ok (Y, out_H) ->
  exists Y', separable_forward L weight_H weight X' in_H' out_H' = Ok (Y', out_H') /\ regrouped 2 fo (List.length out_H) (List.length out_H') Y Y'.
Proof.
  intros T L k cin out s groups stride padding dil m bias n1 n2 gmode rot ref mode pm mask grid weight_H weight X X' Y N h w in_H in_H' out_H out_H' fi fo Hk Hc HwH Hw Hwi Hwo HH HR EL Hp HRi EN EN' HX HXX E.
  pose proof (proj1 (proj2 (regrouped_inv _ _ _ _ _ _ _ _ _ HXX HX))) as HX'. unfold kernel_E2 in Hk. destruct (width_E2_rot rot n1 grid) as [rw|]; [|discriminate]. cbn [bind] in Hk. destruct (width_E2_ref ref n1 grid) as [fw|]; [|discriminate]. injection Hk as <-.
  set (k := Build_gkernel _ _ _ _ _ _ _ _ _ _ _) in *.
  assert (k_gdim k = n1 + n2)%nat as Hd by (unfold k_gdim, k; cbn; lia).
  assert (has_shape weight_H (group_weight_shape k)) as HwH' by (unfold group_weight_shape; rewrite Hd; exact HwH).
  apply (separable_layer_regrid 2 L cin out [s; s] k groups stride padding dil m bias Hc o2_inverse o2_left_apply_angle _ _ (gops_ok_E2 T gmode rw fw n1 n2 mode pm)
    (grid_R2_shape s) (opt_mask_R2 mask s) eq_refl eq_refl weight_H weight in_H in_H' out_H out_H' fi fo X X' N [h; w] Y); try assumption; try reflexivity; try (symmetry; assumption).
  intros wt rows Hr. exact (below_E2 k T gmode rw fw n1 n2 mode pm _ wt in_H out_H rows eq_refl Hd Hwi Hwo Hr).
Qed.
Print Assumptions C70_separable_E2.

(** ** E3 *)
Theorem C70_lifting_E3 : forall T (L : gconv O3 V3) cin out s groups stride padding dil m bias n1 n2 mode pm mask grid weight (X Y : tensor R) N d h w H H' f,
  constructed 3 L cin out [s; s; s] (lifting_kernel_E3 T cin out s groups n1 n2 mode pm mask grid) groups stride padding dil m bias ->
  has_shape weight (out :: cin / groups :: [s; s; s])%nat -> has_shape X (N :: cin :: [d; h; w]) ->
  H <> [] -> H' <> [] -> regrid f H H' ->
  lifting_forward L weight X H = Ok (Y, H) ->
  exists Y', lifting_forward L weight X H' = Ok (Y', H') /\ regrouped 3 f (List.length H) (List.length H') Y Y'.
Proof.
  intros T L cin out s groups stride padding dil m bias n1 n2 mode pm mask grid weight X Y N d h w H H' f Hc Hw HX HH HH' HR E.
  set (k := lifting_kernel_E3 T cin out s groups n1 n2 mode pm mask grid) in *.
  exact (lifting_layer_regrid 3 L cin out [s; s; s] k groups stride padding dil m bias Hc _ _ _ _ (gops_ok_E3 _ _ _ _ _ _ _ _)
    (grid_R3_shape s) (opt_mask_R3 mask s) eq_refl eq_refl weight H H' f X N [d; h; w] Y Hw HH HH' HR HX eq_refl E).
Qed.
Print Assumptions C70_lifting_E3.

Theorem C70_group_E3 : forall T (L : gconv O3 V3) k cin out s groups stride padding dil m bias n1 n2 gmode rot ref mode pm mask grid weight (X X' Y : tensor R) N d h w in_H in_H' out_H out_H' fi fo,
  kernel_E3 T cin out s groups n1 n2 gmode rot ref mode pm mask grid = Ok k ->
  constructed 3 L cin out [s; s; s] k groups stride padding dil m bias ->
  has_shape weight (n1 + n2 :: out :: cin / groups :: [s; s; s])%nat ->
  Forall o3_wf in_H -> Forall o3_wf out_H ->
  out_H <> [] -> out_H' <> [] -> regrid fo out_H out_H' ->
  List.length in_H' = List.length in_H -> permutes (List.length in_H) fi -> regrid fi in_H in_H' ->
  has_shape X (N :: cin :: List.length in_H :: [d; h; w]) -> regrouped 3 fi (List.length in_H) (List.length in_H') X X' ->
  full_forward L weight X in_H out_H = Ok (Y, out_H) ->
  exists Y', full_forward L weight X' in_H' out_H' = Ok (Y', out_H') /\ regrouped 3 fo (List.length out_H) (List.length out_H') Y Y'.
Proof.
  intros T L k cin out s groups stride padding dil m bias n1 n2 gmode rot ref mode pm mask grid weight X X' Y N d h w in_H in_H' out_H out_H' fi fo Hk Hc Hw Hwi Hwo HH HH' HR EL Hp HRi HX HXX E.
  pose proof (proj1 (proj2 (regrouped_inv _ _ _ _ _ _ _ _ _ HXX HX))) as HX'. unfold kernel_E3 in Hk. destruct (width_E3_rot rot n1 grid) as [rw|]; [|discriminate]. cbn [bind] in Hk. destruct (width_E3_ref ref n1 grid) as [fw|]; [|discriminate]. injection Hk as <-.
  set (k := Build_gkernel _ _ _ _ _ _ _ _ _ _ _) in *.
  assert (k_gdim k = n1 + n2)%nat as Hd by (unfold k_gdim, k; cbn; lia).
  assert (has_shape weight (full_weight_shape k)) as Hw' by (unfold full_weight_shape; rewrite Hd; exact Hw).
  apply (group_layer_regrid 3 L cin out [s; s; s] k groups stride padding dil m bias Hc o3_inverse o3_left_apply_O3 _ _ (gops_ok_E3 T gmode rw fw n1 n2 mode pm)
    (grid_R3_shape s) (opt_mask_R3 mask s) eq_refl eq_refl weight in_H in_H' out_H out_H' fi fo X X' N [d; h; w] Y); try assumption; try reflexivity.
  intros wt rows Hr. exact (below_E3 k T gmode rw fw n1 n2 mode pm _ wt in_H out_H rows eq_refl Hd Hwi Hwo Hr).
Qed.
Print Assumptions C70_group_E3.

Theorem C70_separable_E3 : forall T (L : gconv O3 V3) k cin out s groups stride padding dil m bias n1 n2 gmode rot ref mode pm mask grid weight_H weight (X X' Y : tensor R) N d h w in_H in_H' out_H out_H' fi fo,
  kernel_E3 T cin out s groups n1 n2 gmode rot ref mode pm mask grid = Ok k ->
  constructed 3 L cin out [s; s; s] k groups stride padding dil m bias ->
  has_shape weight_H [n1 + n2; out; cin / groups]%nat -> has_shape weight (out :: 1 :: [s; s; s])%nat ->
  Forall o3_wf in_H -> Forall o3_wf out_H ->
  out_H <> [] -> regrid fo out_H out_H' ->
  List.length in_H' = List.length in_H -> permutes (List.length in_H) fi -> regrid fi in_H in_H' ->
  List.length out_H = List.length in_H -> List.length out_H' = List.length in_H' ->
  has_shape X (N :: cin :: List.length in_H :: [d; h; w]) -> regrouped 3 fi (List.length in_H) (List.length in_H') X X' ->
  separable_forward L weight_H weight X in_H out_H = Ok (Y, out_H) ->
  exists Y', separable_forward L weight_H weight X' in_H' out_H' = Ok (Y', out_H') /\ regrouped 3 fo (List.length out_H) (List.length out_H') Y Y'.
Proof.
  intros T L k cin out s groups stride padding dil m bias n1 n2 gmode rot ref mode pm mask grid weight_H weight X X' Y N d h w in_H in_H' out_H out_H' fi fo Hk Hc HwH Hw Hwi Hwo HH HR EL Hp HRi EN EN' HX HXX E.
  pose proof (proj1 (proj2 (regrouped_inv _ _ _ _ _ _ _ _ _ HXX HX))) as HX'. unfold kernel_E3 in Hk. destruct (width_E3_rot rot n1 grid) as [rw|]; [|discriminate]. cbn [bind] in Hk. destruct (width_E3_ref ref n1 grid) as [fw|]; [|discriminate]. injection Hk as <-.
  set (k := Build_gkernel _ _ _ _ _ _ _ _ _ _ _) in *.
  assert (k_gdim k = n1 + n2)%nat as Hd by (unfold k_gdim, k; cbn; lia).
  assert (has_shape weight_H (group_weight_shape k)) as HwH' by (unfold group_weight_shape; rewrite Hd; exact HwH).
  apply (separable_layer_regrid 3 L cin out [s; s; s] k groups stride padding dil m bias Hc o3_inverse o3_left_apply_O3 _ _ (gops_ok_E3 T gmode rw fw n1 n2 mode pm)
    (grid_R3_shape s) (opt_mask_R3 mask s) eq_refl eq_refl weight_H weight in_H in_H' out_H out_H' fi fo X X' N [d; h; w] Y); try assumption; try reflexivity; try (symmetry; assumption).
  intros wt rows Hr. exact (below_E3 k T gmode rw fw n1 n2 mode pm _ wt in_H out_H rows eq_refl Hd Hwi Hwo Hr).
Qed.
Print Assumptions C70_separable_E3.

(** The layers of C50_nonvacuous with the input elements cycled and two output elements swapped. *)
Example C70_nonvacuous : forall T, torch_ok T -> exists (k : gkernel R V2) L (X X' Y Z : tensor R),
  let w := build [2; 3; 2; 3; 3]%nat (fun idx => INR (nth 0 idx 0%nat)) in
  let wH := build [2; 3; 2]%nat (fun idx => INR (nth 0 idx 0%nat)) in
  let wS := build [3; 1; 3; 3]%nat (fun idx => INR (nth 2 idx 0%nat)) in
  let fi := (fun j => nth j [2; 0; 1] 0)%nat in
  let fo := (fun j => nth j [1; 0; 2] 0)%nat in
  kernel_SE2 T 2 3 3 1 "nearest" 1 "bilinear" "border" true [0; PI] = Ok k /\
  constructed 2 L 2 3 [3; 3]%nat k 1 [1; 1]%nat (PStr "same") [1; 1]%nat Zeros None /\
  has_shape w [2; 3; 2; 3; 3]%nat /\ has_shape wH [2; 3; 2]%nat /\ has_shape wS [3; 1; 3; 3]%nat /\
  regrid fo [0; PI / 2; 3] [PI / 2; 0; 3] /\ permutes 3 fi /\ regrid fi [0; 1; 2] [2; 0; 1] /\
  has_shape X [4; 2; 3; 5; 5]%nat /\ has_shape X' [4; 2; 3; 5; 5]%nat /\ regrouped 2 fi 3 3 X X' /\
  full_forward L w X [0; 1; 2] [0; PI / 2; 3] = Ok (Y, [0; PI / 2; 3]) /\ separable_forward L wH wS X [0; 1; 2] [0; PI / 2; 3] = Ok (Z, [0; PI / 2; 3]).
Proof.
  intros T HT. destruct (C50_nonvacuous T HT) as (k & L & X & X0 & Y & Z & Q). cbv zeta in Q. destruct Q as (Hk & HL & _ & _ & _ & _ & HX & _ & EY & EZ).
  pose (fi := (fun j => nth j [2; 0; 1] 0)%nat).
  exists k, L, X, (build [4; 2; 3; 5; 5]%nat (fun idx => at_ X [nth 0 idx 0; nth 1 idx 0; fi (nth 2 idx 0); nth 3 idx 0; nth 4 idx 0]%nat)), Y, Z. cbv zeta. fold fi.
  split; [exact Hk|]. split; [exact HL|]. do 3 (split; [split; [reflexivity|apply wft_build]|]).
  split. { intros j h Hj. destruct j as [|[|[|j]]]; [exact Hj|exact Hj|exact Hj|]. destruct j; discriminate. }
  split.
  { split.
    - intros i Hi. destruct i as [|[|[|i]]]; cbn; lia.
    - intros i j Hi Hj E. destruct i as [|[|[|i]]], j as [|[|[|j]]]; cbn in E; lia. }
  split. { intros j h Hj. destruct j as [|[|[|j]]]; [exact Hj|exact Hj|exact Hj|]. destruct j; discriminate. }
  split; [exact HX|]. split; [split; [reflexivity|apply wft_build]|]. split; [|split; [exact EY|exact EZ]].
  exists 4%nat, 2%nat, [5; 5]%nat. split; [reflexivity|]. split; [exact HX|]. split; [split; [reflexivity|apply wft_build]|].
  intros a c e z Ha Hc He Hz. split; [destruct e as [|[|[|e]]]; cbn; lia|].
  apply valid_inv_cons in Hz. destruct Hz as (i & r & -> & Hi & Hz). apply valid_inv_cons in Hz. destruct Hz as (j & r' & -> & Hj & Hz). apply valid_inv_nil in Hz. subst r'.
  rewrite at_build; [reflexivity|]. repeat (apply valid_cons; [assumption|]). apply valid_nil.
Qed.
