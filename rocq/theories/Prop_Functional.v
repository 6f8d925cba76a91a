(** Property theorems C34, C35: gnn/functional/grid.py and mask.py.
    [at_ t idx] is t[idx]; [valid s idx] says idx is an index into shape s;
    [sp_idx sp s idx] permutes and reverses the axes of an index (SignedPerm.v). *)
From Coq Require Import Permutation.
From Verif Require Import Prelude RMath Mat Tensor TensorFacts SignedPerm Functional FunctionalFacts.
Open Scope R_scope.

(** C34: values; [-1 + 2 i/(s-1)] is read with 1/0 = 0 for s = 1 in [lin], hence the separate case. *)
Theorem C34_grid_values : forall s,
  shape (create_grid_R3 s) = [s; s; s] /\ shape (create_grid_R2 s) = [s; s] /\
  ((2 <= s)%nat -> forall i j k, (i < s)%nat -> (j < s)%nat -> (k < s)%nat ->
    let x n := -1 + 2 * INR n / (INR s - 1) in
    at_ (create_grid_R3 s) [i; j; k] = mkV3 (x k) (x j) (x i) /\
    at_ (create_grid_R2 s) [i; j] = mkV2 (x i) (x j)) /\
  (s = 1%nat -> at_ (create_grid_R3 s) [0; 0; 0]%nat = mkV3 (-1) (-1) (-1) /\
                at_ (create_grid_R2 s) [0; 0]%nat = mkV2 (-1) (-1)).
Proof.
  intros s. split; [reflexivity|]. split; [reflexivity|]. split.
  - intros Hs i j k Hi Hj Hk x.
    assert (forall n, x n = lin s n) as Hx.
    { intros n. unfold x, lin. rewrite minus_INR by lia. simpl (INR 1). unfold Rdiv. ring. }
    rewrite !Hx, grid_R3_at, grid_R2_at by assumption. split; reflexivity.
  - intros ->. rewrite grid_R3_at, grid_R2_at by lia. rewrite lin_1. split; reflexivity.
Qed.
Print Assumptions C34_grid_values.

(** C34: every orthogonal matrix with entries -1, 0, 1 maps grid nodes to grid nodes, through one
    permutation/reversal of axes that does not depend on the size. *)
Theorem C34_closed_under_signed_permutations_3d : forall A,
  isO3 A -> (forall x, In x [a00 A; a01 A; a02 A; a10 A; a11 A; a12 A; a20 A; a21 A; a22 A] ->
             x = -1 \/ x = 0 \/ x = 1) ->
  exists sp, sp_ok 3 sp /\ forall s idx, (2 <= s)%nat -> valid [s; s; s] idx ->
    valid [s; s; s] (sp_idx sp [s; s; s] idx) /\
    app3 A (at_ (create_grid_R3 s) idx) = at_ (create_grid_R3 s) (sp_idx sp [s; s; s] idx).
Proof.
  intros A HA He. assert (signed3 A) as HS.
  { split; [assumption|]. unfold unit_entry. simpl in He.
    repeat split; apply He; tauto. }
  destruct (signed3_sperm A HS) as (sp & Hok & ->). exists sp. split; [assumption|].
  intros s idx Hs Hv. split; [|apply grid_R3_sperm; assumption].
  exact (sp_idx_valid 3 sp Hok [s;s;s] [s;s;s] eq_refl (sp_shape_cube 3 sp s Hok) _ Hv).
Qed.
Print Assumptions C34_closed_under_signed_permutations_3d.

Theorem C34_closed_under_signed_permutations_2d : forall A,
  mul2 A (tr2 A) = I2 -> (forall x, In x [b00 A; b01 A; b10 A; b11 A] -> x = -1 \/ x = 0 \/ x = 1) ->
  exists sp, sp_ok 2 sp /\ forall s idx, (2 <= s)%nat -> valid [s; s] idx ->
    valid [s; s] (sp_idx sp [s; s] idx) /\
    app2 A (at_ (create_grid_R2 s) idx) = at_ (create_grid_R2 s) (sp_idx sp [s; s] idx).
Proof.
  intros A HA He. assert (signed2 A) as HS.
  { split; [assumption|]. unfold unit_entry. simpl in He. repeat split; apply He; tauto. }
  destruct (signed2_sperm A HS) as (sp & Hok & ->). exists sp. split; [assumption|].
  intros s idx Hs Hv. split; [|apply grid_R2_sperm; assumption].
  exact (sp_idx_valid 2 sp Hok [s;s] [s;s] eq_refl (sp_shape_cube 2 sp s Hok) _ Hv).
Qed.
Print Assumptions C34_closed_under_signed_permutations_2d.

(** C34: reversing all indices negates the point. *)
Theorem C34_point_symmetry : forall s i j k, (2 <= s)%nat -> (i < s)%nat -> (j < s)%nat -> (k < s)%nat ->
  at_ (create_grid_R3 s) [s - 1 - i; s - 1 - j; s - 1 - k]%nat = scalv3 (-1) (at_ (create_grid_R3 s) [i; j; k]) /\
  at_ (create_grid_R2 s) [s - 1 - i; s - 1 - j]%nat = scalv2 (-1) (at_ (create_grid_R2 s) [i; j]).
Proof.
  intros s i j k Hs Hi Hj Hk. rewrite !grid_R3_at, !grid_R2_at by lia. rewrite !lin_rev by assumption.
  split; mext; ring.
Qed.
Print Assumptions C34_point_symmetry.

(** C34, convention difference: the first coordinate follows the last axis in 3d but the first axis in 2d. *)
Theorem C34_conventions_differ : forall s, (2 <= s)%nat ->
  vx (at_ (create_grid_R3 s) [0; 0; 1]%nat) <> vx (at_ (create_grid_R3 s) [0; 0; 0]%nat) /\
  v2x (at_ (create_grid_R2 s) [0; 1]%nat) = v2x (at_ (create_grid_R2 s) [0; 0]%nat) /\
  v2x (at_ (create_grid_R2 s) [1; 0]%nat) <> v2x (at_ (create_grid_R2 s) [0; 0]%nat).
Proof.
  intros s Hs. rewrite !grid_R3_at, !grid_R2_at by lia. simpl.
  assert (lin s 1 <> lin s 0).
  { unfold lin. simpl (INR 0). simpl (INR 1). pose proof (INR_pos (s - 1) ltac:(lia)).
    assert (0 < 1 / INR (s - 1)) by (apply Rdiv_lt_0_compat; lra). unfold Rdiv in *. lra. }
  auto.
Qed.
Print Assumptions C34_conventions_differ.

(** Non-vacuity of the matrix hypotheses: the quarter turn about z. *)
Example C34_instance : let A := mkM3 0 (-1) 0 1 0 0 0 0 1 in
  isO3 A /\ app3 A (at_ (create_grid_R3 3) [0; 1; 2]%nat) = at_ (create_grid_R3 3) [0; 2; 1]%nat.
Proof.
  split.
  - split; mext; ring.
  - rewrite !grid_R3_at by lia. unfold lin. simpl. mext; field.
Qed.

(** C35 *)
Theorem C35_mask_is_norm_test : forall s,
  shape (create_spherical_mask_R3 s) = [s; s; s] /\ shape (create_spherical_mask_R2 s) = [s; s] /\
  (forall idx, valid [s; s; s] idx ->
    let m := at_ (create_spherical_mask_R3 s) idx in
    (m = 0 \/ m = 1) /\ (m = 1 <-> norm3 (at_ (create_grid_R3 s) idx) < 11 / 10)) /\
  (forall idx, valid [s; s] idx ->
    let m := at_ (create_spherical_mask_R2 s) idx in
    (m = 0 \/ m = 1) /\ (m = 1 <-> norm2 (at_ (create_grid_R2 s) idx) < 11 / 10)).
Proof.
  intros s. split; [reflexivity|]. split; [reflexivity|]. split; intros idx Hv m; subst m.
  - rewrite mask_R3_at by assumption. split; [unfold lt_float; destruct Rlt_dec; auto|apply lt_float_1].
  - rewrite mask_R2_at by assumption. split; [unfold lt_float; destruct Rlt_dec; auto|apply lt_float_1].
Qed.
Print Assumptions C35_mask_is_norm_test.

Theorem C35_mask_symmetric : forall s, (2 <= s)%nat ->
  (forall sp idx, sp_ok 3 sp -> valid [s; s; s] idx ->
     at_ (create_spherical_mask_R3 s) (sp_idx sp [s; s; s] idx) = at_ (create_spherical_mask_R3 s) idx) /\
  (forall sp idx, sp_ok 2 sp -> valid [s; s] idx ->
     at_ (create_spherical_mask_R2 s) (sp_idx sp [s; s] idx) = at_ (create_spherical_mask_R2 s) idx).
Proof. intros s Hs. split; intros; [apply mask_sperm_3|apply mask_sperm_2]; assumption. Qed.
Print Assumptions C35_mask_symmetric.

Theorem C35_centre_faces_corners : forall s, (1 <= s)%nat ->
  (forall i j k, (i = 0 \/ i = s - 1)%nat -> (j = 0 \/ j = s - 1)%nat -> (k = 0 \/ k = s - 1)%nat ->
     at_ (create_spherical_mask_R3 s) [i; j; k] = 0 /\ at_ (create_spherical_mask_R2 s) [i; j] = 0) /\
  (forall m, (1 <= m)%nat -> s = (2 * m + 1)%nat ->
     at_ (create_spherical_mask_R3 s) [m; m; m] = 1 /\ at_ (create_spherical_mask_R2 s) [m; m] = 1 /\
     forall e, e = 0%nat \/ e = (s - 1)%nat ->
       at_ (create_spherical_mask_R3 s) [e; m; m] = 1 /\ at_ (create_spherical_mask_R3 s) [m; e; m] = 1 /\
       at_ (create_spherical_mask_R3 s) [m; m; e] = 1 /\
       at_ (create_spherical_mask_R2 s) [e; m] = 1 /\ at_ (create_spherical_mask_R2 s) [m; e] = 1).
Proof.
  intros s Hs. split.
  - intros. split; [apply corner_dropped_3|apply corner_dropped_2]; assumption.
  - intros m Hm ->. split; [|split].
    + apply (face_kept_3 m m); lia.
    + apply (face_kept_2 m m); lia.
    + intros e He. destruct (face_kept_3 m e) as (H1 & H2 & H3); [lia|lia|].
      destruct (face_kept_2 m e) as (H4 & H5); [lia|lia|]. auto.
Qed.
Print Assumptions C35_centre_faces_corners.

(** C35, defect: exactly the sizes 1 and 2 give an all-zero mask. *)
Theorem C35_mask_all_zero_iff_small : forall s, (1 <= s)%nat ->
  ((forall idx, valid [s; s; s] idx -> at_ (create_spherical_mask_R3 s) idx = 0) <-> (s <= 2)%nat) /\
  ((forall idx, valid [s; s] idx -> at_ (create_spherical_mask_R2 s) idx = 0) <-> (s <= 2)%nat).
Proof. intros s Hs. split; [apply mask_zero_iff_3|apply mask_zero_iff_2]; assumption. Qed.
Print Assumptions C35_mask_all_zero_iff_small.

Example C35_instance : sp_ok 3 [(1, true); (0, false); (2, false)]%nat /\ valid [3; 3; 3]%nat [0; 1; 2]%nat.
Proof.
  split; [unfold sp_ok; simpl; apply perm_swap|].
  repeat apply valid_cons; try lia. apply valid_nil.
Qed.
