(** The constructors of the SE(2), E(2) and E(3) layers: what their attributes depend on (Saving.v). *)
From Coq Require Import String ZArith.
From Verif Require Import Prelude RMath Mat Interp SO2 O2 O3 Tensor TensorFacts Functional Kernel KernelMore Conv Public Network Saving SavingFacts.
Open Scope R_scope.

(** The attributes, given the kernel. *)
Definition shell {G P} (d : nat) (A : sargs) (gks : gk_arg) (k : gkernel G P) (bias : option (tensor R)) : gmodule G P :=
  let pad := match s_padding A with PInt p => PadTuple (repeat p d) | PTuple l => PadTuple l | PStr s => PadStr s end in
  mkModule
    {| l_kernel := k; l_in := s_in A; l_out := s_out A; l_ks := ntuple d (AInt (s_size A)); l_gks := gks; l_groups := Z.to_nat (s_groups A);
       l_stride := ntuple d (AInt (s_stride A)); l_padding := pad; l_dil := ntuple d (AInt (s_dilation A));
       l_mode := match padmode_of (s_padding_mode A) with Some m => m | None => Zeros end;
       l_rev := reversed_padding pad (ntuple d (AInt (s_dilation A))) (k_size k); l_bias := bias |} (s_permute A).

Lemma weight_groups_ok c z g : kernel_weight_groups c z = Ok g -> g = Z.to_nat z.
Proof. unfold kernel_weight_groups. destruct (Z.eqb _ _); [discriminate|]. destruct (Z.ltb _ _); [discriminate|]. congruence. Qed.

Ltac invert_make H :=
  unfold lifting_SE2, group_SE2, lifting_E2, group_E2, lifting_E3, group_E3, make2, make3, gconv_init2, gconv_init3, gconv_init, pick_grid in H; cbn [bind] in H;
  try (lazymatch type of H with
  | (bind (kernel_weight_groups _ _) _) = _ => fail
  | (bind ?k _) = _ => destruct k as [kk|] eqn:EK; cbn [bind] in H; [|discriminate]
  end);
  lazymatch type of H with (bind (kernel_weight_groups ?c ?z) _) = _ =>
    destruct (kernel_weight_groups c z) as [gg|] eqn:EG; cbn [bind] in H; [apply weight_groups_ok in EG; try subst gg|discriminate] end;
  lazymatch type of H with context [check_config ?a ?b ?c ?d ?e ?f ?g] => destruct (check_config a b c d e f g); cbn [bind] in H; [|discriminate] end;
  injection H as <-.

Lemma made_SE2_inv kd A g fb M : made_SE2 kd A g fb = Ok M -> exists w,
  M = shell 2 A (GkInt (Z.of_nat (pair_rot (s_gks A))))
        {| k_in := s_in A; k_out := s_out A; k_groups := Z.to_nat (s_groups A); k_size := [s_size A; s_size A];
           k_gsize := [List.length g]; k_grid_H := g; k_grid_Rn := create_grid_R2 (s_size A); k_mask := Some (create_spherical_mask_R2 (s_size A));
           k_ops := ops_SE2 (s_env A) (match kd with KLifting => ""%string | _ => s_gmode A end) w (s_mode A) (s_pm A) |} (new_bias 2 A fb) /\
  match kd with KLifting => w = 0 | _ => width_SE2 (s_rot A) g = Ok w end.
Proof.
  unfold made_SE2. destruct kd; intros H; invert_make H; try (exists 0; split; reflexivity);
    unfold kernel_SE2 in EK; destruct (width_SE2 (s_rot A) g) as [w|]; try discriminate; injection EK as <-; exists w; split; reflexivity.
Qed.
Lemma made_E2_inv kd A g fb M : made_E2 kd A g fb = Ok M -> exists rw fw,
  M = shell 2 A (pair_gks (s_gks A))
        {| k_in := s_in A; k_out := s_out A; k_groups := Z.to_nat (s_groups A); k_size := [s_size A; s_size A];
           k_gsize := [pair_rot (s_gks A); pair_ref (s_gks A)]; k_grid_H := g; k_grid_Rn := create_grid_R2 (s_size A);
           k_mask := if s_mask A then Some (create_spherical_mask_R2 (s_size A)) else None;
           k_ops := ops_E2 (s_env A) (match kd with KLifting => ""%string | _ => s_gmode A end) rw fw (pair_rot (s_gks A)) (pair_ref (s_gks A)) (s_mode A) (s_pm A) |}
        (new_bias 2 A fb) /\
  match kd with KLifting => rw = 0 /\ fw = 0 | _ => width_E2_rot (s_rot A) (pair_rot (s_gks A)) g = Ok rw /\ width_E2_ref (s_ref A) (pair_rot (s_gks A)) g = Ok fw end.
Proof.
  unfold made_E2. destruct kd; intros H; invert_make H; try (exists 0, 0; split; [reflexivity|split; reflexivity]);
    unfold kernel_E2 in EK; destruct (width_E2_rot (s_rot A) _ g) as [w|]; try discriminate; cbn [bind] in EK; destruct (width_E2_ref (s_ref A) _ g) as [v|]; try discriminate;
    injection EK as <-; exists w, v; repeat split.
Qed.
Lemma made_E3_inv kd A g fb M : made_E3 kd A g fb = Ok M -> exists rw fw,
  M = shell 3 A (pair_gks (s_gks A))
        {| k_in := s_in A; k_out := s_out A; k_groups := Z.to_nat (s_groups A); k_size := [s_size A; s_size A; s_size A];
           k_gsize := [pair_rot (s_gks A); pair_ref (s_gks A)]; k_grid_H := g; k_grid_Rn := create_grid_R3 (s_size A);
           k_mask := if s_mask A then Some (create_spherical_mask_R3 (s_size A)) else None;
           k_ops := ops_E3 (s_env A) (match kd with KLifting => ""%string | _ => s_gmode A end) rw fw (pair_rot (s_gks A)) (pair_ref (s_gks A)) (s_mode A) (s_pm A) |}
        (new_bias 3 A fb) /\
  match kd with KLifting => rw = 0 /\ fw = 0 | _ => width_E3_rot (s_rot A) (pair_rot (s_gks A)) g = Ok rw /\ width_E3_ref (s_ref A) (pair_rot (s_gks A)) g = Ok fw end.
Proof.
  unfold made_E3. destruct kd; intros H; invert_make H; try (exists 0, 0; split; [reflexivity|split; reflexivity]);
    unfold kernel_E3 in EK; destruct (width_E3_rot (s_rot A) _ g) as [w|]; try discriminate; cbn [bind] in EK; destruct (width_E3_ref (s_ref A) _ g) as [v|]; try discriminate;
    injection EK as <-; exists w, v; repeat split.
Qed.

Lemma fills_SE2 kd A g fb M : made_SE2 kd A g fb = Ok M -> k_grid_H (l_kernel (gm_layer M)) = g /\ l_bias (gm_layer M) = new_bias 2 A fb.
Proof. intros H. apply made_SE2_inv in H as (w & -> & _). split; reflexivity. Qed.
Lemma fills_E2 kd A g fb M : made_E2 kd A g fb = Ok M -> k_grid_H (l_kernel (gm_layer M)) = g /\ l_bias (gm_layer M) = new_bias 2 A fb.
Proof. intros H. apply made_E2_inv in H as (w & v & -> & _). split; reflexivity. Qed.
Lemma fills_E3 kd A g fb M : made_E3 kd A g fb = Ok M -> k_grid_H (l_kernel (gm_layer M)) = g /\ l_bias (gm_layer M) = new_bias 3 A fb.
Proof. intros H. apply made_E3_inv in H as (w & v & -> & _). split; reflexivity. Qed.

Ltac alike := cbn [gm_layer shell l_kernel k_grid_Rn k_mask];
  unfold weight_dims, group_weight_shape, lifting_weight_shape, separable_weight_shape, full_weight_shape, k_gdim, k_cin; cbn [k_gsize k_out k_in k_groups k_size].
Lemma alike_SE2 kd A g g' fb fb' M M' : made_SE2 kd A g fb = Ok M -> made_SE2 kd A g' fb' = Ok M' -> List.length g = List.length g' ->
  let k := l_kernel (gm_layer M) in let k' := l_kernel (gm_layer M') in
  k_grid_Rn k = k_grid_Rn k' /\ k_mask k = k_mask k' /\ weight_dims kd k = weight_dims kd k' /\ group_weight_shape k = group_weight_shape k'.
Proof. intros H H' E. apply made_SE2_inv in H as (w & -> & _). apply made_SE2_inv in H' as (w' & -> & _). alike. rewrite E. repeat split. Qed.
Lemma alike_E2 kd A g g' fb fb' M M' : made_E2 kd A g fb = Ok M -> made_E2 kd A g' fb' = Ok M' -> List.length g = List.length g' ->
  let k := l_kernel (gm_layer M) in let k' := l_kernel (gm_layer M') in
  k_grid_Rn k = k_grid_Rn k' /\ k_mask k = k_mask k' /\ weight_dims kd k = weight_dims kd k' /\ group_weight_shape k = group_weight_shape k'.
Proof. intros H H' E. apply made_E2_inv in H as (w & v & -> & _). apply made_E2_inv in H' as (w' & v' & -> & _). alike. repeat split. Qed.
Lemma alike_E3 kd A g g' fb fb' M M' : made_E3 kd A g fb = Ok M -> made_E3 kd A g' fb' = Ok M' -> List.length g = List.length g' ->
  let k := l_kernel (gm_layer M) in let k' := l_kernel (gm_layer M') in
  k_grid_Rn k = k_grid_Rn k' /\ k_mask k = k_mask k' /\ weight_dims kd k = weight_dims kd k' /\ group_weight_shape k = group_weight_shape k'.
Proof. intros H H' E. apply made_E3_inv in H as (w & v & -> & _). apply made_E3_inv in H' as (w' & v' & -> & _). alike. repeat split. Qed.

(** Derived widths in the plane depend on the length only. *)
Lemma so2_width_by_length given g g' : List.length g = List.length g' ->
  default_width given (so2_nearest_neighbour_distance g) = default_width given (so2_nearest_neighbour_distance g').
Proof.
  intros E. destruct (Req_EM_T given 0) as [->|N].
  - destruct g as [|a g], g' as [|a' g']; try discriminate; [reflexivity|]. rewrite !so2_width_const by discriminate. reflexivity.
  - unfold default_width. destruct (Req_EM_T given 0); [contradiction|reflexivity].
Qed.
Lemma refill_SE2 kd A g g' fb fb' M M' : made_SE2 kd A g fb = Ok M -> made_SE2 kd A g' fb' = Ok M' -> List.length g = List.length g' ->
  forall grid space mask bias, refilled M grid space mask bias = refilled M' grid space mask bias.
Proof.
  intros H H' E. apply made_SE2_inv in H as (w & -> & Hw). apply made_SE2_inv in H' as (w' & -> & Hw').
  assert (w = w').
  { destruct kd; [congruence| |]; unfold width_SE2 in *; rewrite (so2_width_by_length _ _ _ E) in Hw; congruence. }
  subst w'. intros. unfold refilled, shell. cbn. rewrite E. reflexivity.
Qed.
Lemma refill_E2 kd A g g' fb fb' M M' : made_E2 kd A g fb = Ok M -> made_E2 kd A g' fb' = Ok M' -> List.length g = List.length g' ->
  forall grid space mask bias, refilled M grid space mask bias = refilled M' grid space mask bias.
Proof.
  intros H H' E. apply made_E2_inv in H as (w & v & -> & Hw). apply made_E2_inv in H' as (w' & v' & -> & Hw').
  assert (w = w' /\ v = v') as [-> ->].
  { assert (E1 : List.length (map o2a (firstn (pair_rot (s_gks A)) g)) = List.length (map o2a (firstn (pair_rot (s_gks A)) g'))) by (rewrite !map_length, !firstn_length, E; reflexivity).
    assert (E2 : List.length (map o2a (skipn (pair_rot (s_gks A)) g)) = List.length (map o2a (skipn (pair_rot (s_gks A)) g'))) by (rewrite !map_length, !skipn_length, E; reflexivity).
    destruct kd; destruct Hw as [Hw1 Hw2]; destruct Hw' as [Hw1' Hw2']; [split; congruence| |]; unfold width_E2_rot, width_E2_ref in *;
      rewrite (so2_width_by_length _ _ _ E1) in Hw1; rewrite (so2_width_by_length _ _ _ E2) in Hw2; split; congruence. }
  reflexivity.
Qed.
Definition same_widths_E3 (kd : kind) (A : sargs) (g g' : list O3) : Prop :=
  kd = KLifting \/ s_gmode A = "nearest"%string \/
  width_E3_rot (s_rot A) (pair_rot (s_gks A)) g = width_E3_rot (s_rot A) (pair_rot (s_gks A)) g' /\
  width_E3_ref (s_ref A) (pair_rot (s_gks A)) g = width_E3_ref (s_ref A) (pair_rot (s_gks A)) g'.
Lemma refill_E3 kd A g g' fb fb' M M' : made_E3 kd A g fb = Ok M -> made_E3 kd A g' fb' = Ok M' -> same_widths_E3 kd A g g' ->
  forall grid space mask bias, refilled M grid space mask bias = refilled M' grid space mask bias.
Proof.
  intros H H' E. apply made_E3_inv in H as (w & v & -> & Hw). apply made_E3_inv in H' as (w' & v' & -> & Hw').
  destruct E as [E|[E|[E1 E2]]].
  - rewrite E in Hw, Hw'. destruct Hw as [-> ->]; destruct Hw' as [-> ->]. reflexivity.
  - intros. unfold refilled, shell. cbn. assert (Eo : forall T n m mode pm, ops_E3 T "nearest" w v n m mode pm = ops_E3 T "nearest" w' v' n m mode pm) by reflexivity.
    destruct kd; [destruct Hw as [-> ->]; destruct Hw' as [-> ->]; reflexivity| |]; rewrite E, Eo; reflexivity.
  - assert (w = w' /\ v = v') as [-> ->] by (destruct kd; destruct Hw, Hw'; split; congruence). reflexivity.
Qed.
