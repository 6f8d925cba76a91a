(** C80: batches of rotations with other than one batch axis. *)
From Verif Require Import Prelude RMath Mat SO3 SO3Euler BatchShape BatchShapeFacts.
Open Scope R_scope.

(** The documented "tensor of shape (..., 3, 3)": matrix_to_quat and matrix_to_euler accept exactly the batch
    shapes (m, 3, 3, ..., 3), in particular (m). *)
Theorem C80_accepted_batch_shapes : forall b : list nat,
  ((exists m j, b = m :: repeat 3%nat j) ->
     matrix_to_quat_shape b = Ok (b ++ [4%nat]) /\ matrix_to_euler_shape b = Ok (b ++ [3%nat])) /\
  (~ (exists m j, b = m :: repeat 3%nat j) ->
     matrix_to_quat_shape b = Err IndexError /\
     (matrix_to_euler_shape b = Err IndexError \/ matrix_to_euler_shape b = Err RuntimeError)).
Proof.
  intros b. split.
  - intros (m & j & ->). split; [apply m2q_threes|apply m2e_threes].
  - intros Hn. split.
    + destruct (m2q_shape_inv b) as [H|H]; [assumption|contradiction].
    + destruct (m2e_shape_inv b) as [H|H]; [assumption|contradiction].
Qed.
Print Assumptions C80_accepted_batch_shapes.

(** A single matrix, quaternion or triple of angles (no batch axis) is rejected, and so is every batch of two axes whose second
    has not length 3. *)
Theorem C80_single_elements_and_grids_of_rotations_rejected :
  (matrix_to_quat_shape [] = Err IndexError /\ matrix_to_euler_shape [] = Err IndexError /\
   euler_to_quat_shape [] = Err IndexError /\ quat_to_euler_shape [] = Err IndexError /\
   angle_to_matrix_shape [] = Err IndexError) /\
  (forall m n, n <> 3%nat ->
     matrix_to_quat_shape [m; n] = Err IndexError /\ euler_to_quat_shape [m; n] = Err IndexError /\
     matrix_to_euler_shape [m; n] = Err IndexError /\ quat_to_euler_shape [m; n] = Err IndexError).
Proof.
  split; [repeat split|]. intros m n Hn.
  assert (H1 : matrix_to_quat_shape [m; n] = Err IndexError).
  { destruct (m2q_shape_inv [m; n]) as [H|(m' & j & H)]; [assumption|]. destruct j as [|[|j]]; inversion H; congruence. }
  assert (H2 : matrix_to_euler_shape [m; n] = Err IndexError).
  { unfold matrix_to_euler_shape. cbn [app index12 index1].
    destruct (Nat.ltb 2 n && Nat.ltb 2 3)%bool; cbn [bind]; [|reflexivity].
    destruct (Nat.ltb 1 n); cbn [bind]; [|reflexivity].
    unfold assign. rewrite broadcasts_refl. cbn [bind].
    destruct (mask_index_cases [m; n; 3%nat; 3%nat] [m; 3%nat] [0%nat; 2%nat]) as [H | ->]; cbn [bind]; [|reflexivity].
    apply mask_index_ok in H. destruct H as (_ & H & _). cbn [length firstn] in H. inversion H; congruence. }
  repeat split; assumption.
Qed.
Print Assumptions C80_single_elements_and_grids_of_rotations_rejected.

(** so2.angle_to_matrix takes every batch shape with at least one axis. *)
Theorem C80_angles_of_every_batch_shape : forall b : list nat,
  (b <> [] -> angle_to_matrix_shape b = Ok (b ++ [2; 2]%nat)) /\ (b = [] -> angle_to_matrix_shape b = Err IndexError).
Proof. intros [|n b]; split; congruence || reflexivity. Qed.
Print Assumptions C80_angles_of_every_batch_shape.

(** so3.random_quat and random_matrix take any size (int or tuple); random_euler takes an int or a tuple (m, 3, ..., 3);
    o3.random_grid documents a tuple and raises TypeError for every one. *)
Theorem C80_random_sizes : forall s : size_arg,
  random_quat_shape s = Ok (as_tuple s ++ [4%nat]) /\
  random_matrix_shape s = Ok (as_tuple s ++ [3%nat; 3%nat]) /\
  (random_euler_shape s = Ok (as_tuple s ++ [3%nat]) <-> exists m j, as_tuple s = m :: repeat 3%nat j) /\
  (forall n, s = SInt n -> random_euler_shape s = Ok [n; 3%nat] /\ o3_random_grid_shape s = Ok [n; 10%nat]) /\
  (forall l, s = STuple l -> o3_random_grid_shape s = Err TypeError).
Proof.
  intros s. split; [reflexivity|]. split; [reflexivity|]. split; [|split].
  - unfold random_euler_shape, quat_to_euler_shape. split.
    + intros H. destruct (m2e_shape_inv (as_tuple s)) as [[E|E]|E]; [congruence..|assumption].
    + intros (m & j & E). rewrite E. apply m2e_threes.
  - intros n ->. split; [apply (m2e_threes n 0)|reflexivity].
  - intros l ->. reflexivity.
Qed.
Print Assumptions C80_random_sizes.

(** What the accepted two-axis batches return is not the conversion of their elements. For a batch of identity matrices of
    shape (m, 3), quaternion (i, j) is a half turn about axis j. *)
Theorem C80_quaternions_of_two_axis_batches_are_wrong :
  forall (m : nat) (r : nat -> nat -> M3) (i j : nat), (i < m)%nat -> (j < 3)%nat ->
  (forall i k, r i k = I3) ->
  matrix_to_quat_shape [m; 3%nat] = Ok [m; 3%nat; 4%nat] /\
  so3_quat_to_matrix (matrix_to_quat_m3 r i j) <> r i j /\
  so3_quat_to_matrix (so3_matrix_to_quat (r i j)) = r i j.
Proof.
  intros m r i j Hi Hj Hr. split; [apply (m2q_threes m 1)|]. rewrite m2q_m3_identity, Hr by (try assumption; intros; apply Hr).
  split; [apply axis_quat_half_turn; assumption|].
  unfold so3_matrix_to_quat. cbn [I3 a00 a11 a22]. assert (Ea : argmax4 1 1 1 (1 + 1 + 1) = 3%nat) by (unfold argmax4; destruct (Rle_dec 1 1); [|lra]; destruct (Rle_dec (1 + 1 + 1) 1); [lra|reflexivity]).
  rewrite Ea. cbn [so3_m2q_pivot]. unfold qnormalize.
  assert (E : qnorm (mkQ (1 + (1 + 1 + 1)) (0 - 0) (0 - 0) (0 - 0)) = 4).
  { unfold qnorm, qdot. cbn [qw qx qy qz]. match goal with |- sqrt ?e = _ => replace e with (4 * 4) by (cbn [qw qx qy qz]; lra) end. apply sqrt_square; lra. }
  cbn [I3 a00 a01 a02 a10 a11 a12 a20 a21 a22]. rewrite E. cbn [qw qx qy qz so3_quat_to_matrix]. unfold I3. f_equal; field.
Qed.
Print Assumptions C80_quaternions_of_two_axis_batches_are_wrong.

(** Angles: element (i, 1) of a batch of identities is always a quarter turn about Y, and in elements (i, 0) and (i, 2) the angle beta is whatever the
    uninitialised memory held, so every rotation about Y can be returned. *)
Theorem C80_angles_of_two_axis_batches_are_wrong :
  forall (m : nat) (r : nat -> nat -> M3) (eps : R) (i : nat), (i < m)%nat -> 0 < eps <= PI / 2 ->
  (forall i k, r i k = I3) ->
  matrix_to_euler_shape [m; 3%nat] = Ok [m; 3%nat; 3%nat] /\
  (forall mem, matrix_to_euler_m3 mem r eps i 1 = mkV3 0 (PI / 2) 0 /\
     ZYZ (matrix_to_euler_m3 mem r eps i 1) <> r i 1%nat) /\
  (forall j u, (j = 0 \/ j = 2)%nat -> - PI <= u < PI ->
     exists mem, matrix_to_euler_m3 mem r eps i j = mkV3 0 u 0).
Proof.
  intros m r eps i Hi He Hr. pose proof PI_RGT_0 as Hpi. split; [apply (m2e_threes m 1)|]. split.
  - intros mem. destruct (m2e_m3_identity mem r eps i He (fun k _ => Hr i k)) as (_ & E & _). split; [exact E|].
    rewrite E, Hr. intros H. apply (f_equal a22) in H.
    unfold ZYZ in H. cbn [vx vy vz] in H. unfold mul3, so3_matrix_y, so3_matrix_z in H. cbn [a00 a01 a02 a10 a11 a12 a20 a21 a22 I3] in H.
    rewrite cos_PI2 in H. lra.
  - intros j u Hj Hu. exists (fun _ _ _ => u).
    destruct (m2e_m3_identity (fun _ _ _ => u) r eps i He (fun k _ => Hr i k)) as (E0 & _ & E2).
    assert (W : wrap_pi u = u) by (unfold wrap_pi; destruct Rlt_dec; [lra|]; destruct Rle_dec; lra).
    destruct Hj as [-> | ->]; [rewrite E0|rewrite E2]; rewrite W; reflexivity.
Qed.
Print Assumptions C80_angles_of_two_axis_batches_are_wrong.

(** The rule used for one element (SO3.v) is the one used here, with the trace of that element. *)
Theorem C80_same_rule_as_single_batches : forall (i : nat) (r : M3),
  pivot_with i (a00 r + a11 r + a22 r) r = so3_m2q_pivot i r.
Proof. exact pivot_with_link. Qed.
Print Assumptions C80_same_rule_as_single_batches.

Example C80_shapes_example :
  matrix_to_quat_shape [5%nat] = Ok [5; 4]%nat /\
  matrix_to_quat_shape [5; 3; 3]%nat = Ok [5; 3; 3; 4]%nat /\
  matrix_to_quat_shape [5; 2]%nat = Err IndexError /\
  matrix_to_euler_shape [5; 3; 4]%nat = Err RuntimeError /\
  random_euler_shape (STuple [4; 4]%nat) = Err IndexError.
Proof. repeat split. Qed.
