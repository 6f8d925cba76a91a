(** Property theorems C13-C26, C62-C64 (gconv/geometry/groups/so3.py). *)
From Coq Require Import String.
From Verif Require Import Prelude RMath Mat Interp SO3 SO3Facts SO3Euler SO3More SO3Tables O3 O3Facts.
Open Scope R_scope.

(** C14 *)
Theorem C14_axis_rotations_are_rotations : forall t s : R,
  isSO3 (so3_matrix_x t) /\ isSO3 (so3_matrix_y t) /\ isSO3 (so3_matrix_z t) /\
  app3 (so3_matrix_x t) (mkV3 s 0 0) = mkV3 s 0 0 /\
  app3 (so3_matrix_y t) (mkV3 0 s 0) = mkV3 0 s 0 /\
  app3 (so3_matrix_z t) (mkV3 0 0 s) = mkV3 0 0 s.
Proof.
  exact (fun t s => conj (so3_matrix_x_SO3 t) (conj (so3_matrix_y_SO3 t) (conj (so3_matrix_z_SO3 t)
    (conj (so3_matrix_x_axis t s) (conj (so3_matrix_y_axis t s) (so3_matrix_z_axis t s)))))).
Qed.
Print Assumptions C14_axis_rotations_are_rotations.

Theorem C14_axis_rotations_one_parameter : forall a b : R,
  mul3 (so3_matrix_x a) (so3_matrix_x b) = so3_matrix_x (a + b) /\
  mul3 (so3_matrix_y a) (so3_matrix_y b) = so3_matrix_y (a + b) /\
  mul3 (so3_matrix_z a) (so3_matrix_z b) = so3_matrix_z (a + b) /\
  so3_matrix_inverse (so3_matrix_x a) = so3_matrix_x (- a) /\
  so3_matrix_inverse (so3_matrix_y a) = so3_matrix_y (- a) /\
  so3_matrix_inverse (so3_matrix_z a) = so3_matrix_z (- a).
Proof.
  exact (fun a b => conj (so3_matrix_x_add a b) (conj (so3_matrix_y_add a b) (conj (so3_matrix_z_add a b)
    (conj (so3_matrix_x_inv a) (conj (so3_matrix_y_inv a) (so3_matrix_z_inv a)))))).
Qed.
Print Assumptions C14_axis_rotations_one_parameter.

(** The sense of rotation: a positive quarter turn maps y to z, z to x, x to y. *)
Theorem C14_axis_rotations_right_handed : forall t : R,
  app3 (so3_matrix_x t) (mkV3 0 1 0) = mkV3 0 (cos t) (sin t) /\
  app3 (so3_matrix_y t) (mkV3 0 0 1) = mkV3 (sin t) 0 (cos t) /\
  app3 (so3_matrix_z t) (mkV3 1 0 0) = mkV3 (cos t) (sin t) 0.
Proof. exact so3_axis_sense. Qed.
Print Assumptions C14_axis_rotations_right_handed.

Theorem C14_matrix_inverse : forall A B : M3, isSO3 A ->
  mul3 (so3_matrix_inverse A) A = I3 /\ mul3 A (so3_matrix_inverse A) = I3 /\
  isSO3 (so3_matrix_inverse A) /\
  so3_matrix_inverse (so3_left_apply_matrix A B)
    = so3_left_apply_matrix (so3_matrix_inverse B) (so3_matrix_inverse A).
Proof.
  exact (fun A B H => conj (proj1 (proj1 H)) (conj (proj2 (proj1 H)) (conj (isSO3_tr A H) (tr3_mul A B)))).
Qed.
Print Assumptions C14_matrix_inverse.

(** C15 *)
Theorem C15_cyclic_groups : forall n : nat,
  cyclic_rotation_group so3_matrix_x n (so3_cyclic_x n) /\
  cyclic_rotation_group so3_matrix_y n (so3_cyclic_y n) /\
  cyclic_rotation_group so3_matrix_z n (so3_cyclic_z n).
Proof.
  exact (fun n => conj (cyclic_group_of _ n one_param_x)
    (conj (cyclic_group_of _ n one_param_y) (cyclic_group_of _ n one_param_z))).
Qed.
Print Assumptions C15_cyclic_groups.

Theorem C15_cyclic_dispatch : forall (n : nat) (axis : string),
  ((axis = "x"%string \/ axis = "X"%string) -> so3_cyclic n axis = Ok (so3_cyclic_x n)) /\
  ((axis = "y"%string \/ axis = "Y"%string) -> so3_cyclic n axis = Ok (so3_cyclic_y n)) /\
  ((axis = "z"%string \/ axis = "Z"%string) -> so3_cyclic n axis = Ok (so3_cyclic_z n)) /\
  (~ In axis ["x"; "X"; "y"; "Y"; "z"; "Z"]%string -> so3_cyclic n axis = Err ValueError).
Proof. exact so3_cyclic_dispatch. Qed.
Print Assumptions C15_cyclic_dispatch.

Example C15_nonvacuous : ~ In "xy"%string ["x"; "X"; "y"; "Y"; "z"; "Z"]%string /\
  List.length (so3_cyclic_z 5) = 5%nat.
Proof. split; [cbn; intuition discriminate|apply cyclic_length]. Qed.

(** C16 *)
Theorem C16_klein_and_tetrahedral_exact :
  approx_rotation_group 0 so3_klein_group /\ List.length so3_klein_group = 4%nat /\
  approx_rotation_group 0 so3_tetrahedral /\ List.length so3_tetrahedral = 12%nat.
Proof. exact tables_exact. Qed.
Print Assumptions C16_klein_and_tetrahedral_exact.

Theorem C16_octahedral_and_icosahedral_1e7 :
  approx_rotation_group (/ 10 ^ 7) so3_octahedral /\ List.length so3_octahedral = 24%nat /\
  approx_rotation_group (/ 10 ^ 7) so3_icosahedral /\ List.length so3_icosahedral = 60%nat.
Proof. exact tables_approx. Qed.
Print Assumptions C16_octahedral_and_icosahedral_1e7.

(** C17 *)
Theorem C17_quat_to_matrix_homomorphism : forall p q : Q4,
  so3_quat_to_matrix (qmul p q) = mul3 (so3_quat_to_matrix p) (so3_quat_to_matrix q) /\
  so3_quat_to_matrix (so3_quat_inverse q) = so3_matrix_inverse (so3_quat_to_matrix q) /\
  so3_quat_to_matrix qone = I3.
Proof. exact (fun p q => conj (q2m_mul p q) (conj (q2m_inv q) q2m_one)). Qed.
Print Assumptions C17_quat_to_matrix_homomorphism.

Theorem C17_quat_to_matrix_rotation : forall q : Q4,
  (unitq q -> isSO3 (so3_quat_to_matrix q)) /\
  (0 < qdot q q -> exists A, isSO3 A /\ so3_quat_to_matrix q = scal3 (qdot q q) A).
Proof. exact (fun q => conj (q2m_SO3 q) (q2m_scaled_rotation q)). Qed.
Print Assumptions C17_quat_to_matrix_rotation.

Theorem C17_quat_to_matrix_double_cover : forall p q : Q4, unitq p -> unitq q ->
  (so3_quat_to_matrix p = so3_quat_to_matrix q <-> p = q \/ p = qneg q).
Proof. exact q2m_same_iff. Qed.
Print Assumptions C17_quat_to_matrix_double_cover.

(** The matrix acts as conjugation v |-> q v q^-1 on pure quaternions. *)
Theorem C17_quat_to_matrix_is_conjugation : forall (q : Q4) (v : V3),
  qmul (qmul q (mkQ 0 (vx v) (vy v) (vz v))) (qconj q) =
  let u := app3 (so3_quat_to_matrix q) v in mkQ 0 (vx u) (vy u) (vz u).
Proof. exact q2m_conjugation. Qed.
Print Assumptions C17_quat_to_matrix_is_conjugation.

Example C17_nonvacuous : unitq (mkQ (3/5) (4/5) 0 0) /\ mkQ (3/5) (4/5) 0 0 <> qneg (mkQ (3/5) (4/5) 0 0).
Proof. split; [unfold unitq, qdot; cbn; lra|]. intros H; injection H; intros; lra. Qed.

(** C18 *)
Theorem C18_matrix_to_quat_right_inverse : forall r : M3, isSO3 r ->
  unitq (so3_matrix_to_quat r) /\ so3_quat_to_matrix (so3_matrix_to_quat r) = r.
Proof. exact (fun r H => conj (m2q_unit r H) (m2q_right_inv r H)). Qed.
Print Assumptions C18_matrix_to_quat_right_inverse.

Theorem C18_matrix_to_quat_left_inverse : forall q : Q4, unitq q ->
  so3_matrix_to_quat (so3_quat_to_matrix q) = q \/
  so3_matrix_to_quat (so3_quat_to_matrix q) = qneg q.
Proof. exact m2q_left_inv. Qed.
Print Assumptions C18_matrix_to_quat_left_inverse.

(** The norm divided by is at least 2, for every rotation. *)
Theorem C18_matrix_to_quat_no_zero_division : forall r : M3, isSO3 r ->
  2 <= qnorm (so3_m2q_pivot (argmax4 (a00 r) (a11 r) (a22 r) (a00 r + a11 r + a22 r)) r).
Proof. exact m2q_norm_pos. Qed.
Print Assumptions C18_matrix_to_quat_no_zero_division.

(** A half-turn (trace -1) and a pivot tie (the rotation cycling the axes). *)
Example C18_nonvacuous : isSO3 (so3_matrix_x PI) /\ isSO3 (mkM3 0 0 1 1 0 0 0 1 0).
Proof.
  split; [apply so3_matrix_x_SO3|]. split; [split; mext; ring|]. unfold det3; cbn; ring.
Qed.

(** C19 *)
Theorem C19_euler_to_matrix_is_ZYZ : forall (g : V3),
  so3_euler_entries g =
    mul3 (so3_matrix_z (vz g)) (mul3 (so3_matrix_y (vy g)) (so3_matrix_z (vx g))) /\
  so3_euler_to_matrix g 0 =
    mul3 (so3_matrix_z (vz g)) (mul3 (so3_matrix_y (vy g)) (so3_matrix_z (vx g))).
Proof. exact (fun g => conj (euler_entries_ZYZ g) (euler_to_matrix_eps0 g)). Qed.
Print Assumptions C19_euler_to_matrix_is_ZYZ.

Theorem C19_euler_to_matrix_thresholding : forall (g : V3) (eps : R), 0 <= eps ->
  close3 eps (so3_euler_to_matrix g eps) (ZYZ g) /\
  (Forall (fun x => x = 0 \/ eps < Rabs x) (entries3 (ZYZ g)) -> so3_euler_to_matrix g eps = ZYZ g) /\
  Forall (fun x => x = 0 \/ eps < Rabs x) (entries3 (so3_euler_to_matrix g eps)).
Proof.
  exact (fun g eps H => conj (euler_to_matrix_close g eps H)
    (conj (euler_to_matrix_exact g eps) (euler_to_matrix_no_small g eps H))).
Qed.
Print Assumptions C19_euler_to_matrix_thresholding.

(** C20 *)
Theorem C20_matrix_to_euler_inverts_ZYZ : forall (r : M3) (eps : R), isSO3 r -> 0 < eps < 1 ->
  (eps <= polar r <= PI - eps \/ a22 r = 1 \/ a22 r = -1) ->
  ZYZ (so3_matrix_to_euler r eps) = r.
Proof. exact m2e_exact. Qed.
Print Assumptions C20_matrix_to_euler_inverts_ZYZ.

Theorem C20_matrix_to_euler_range : forall (r : M3) (eps : R), isSO3 r -> 0 < eps < 1 ->
  let g := so3_matrix_to_euler r eps in
  (- PI <= vx g < PI) /\ (- PI <= vy g < PI) /\ (- PI <= vz g < PI).
Proof. exact m2e_range. Qed.
Print Assumptions C20_matrix_to_euler_range.

Theorem C20_matrix_to_euler_gimbal_zone : forall (r : M3) (eps : R), isSO3 r -> 0 < eps < 1 ->
  ~ (eps <= polar r <= PI - eps) ->
  vz (so3_matrix_to_euler r eps) = 0 /\ close3 (2 * eps) (ZYZ (so3_matrix_to_euler r eps)) r.
Proof. exact m2e_zone. Qed.
Print Assumptions C20_matrix_to_euler_gimbal_zone.

Theorem C20_gimbal_still_correct_rotation_refuted : forall eps : R, 0 < eps < 1 ->
  exists r, isSO3 r /\ 0 < polar r < eps /\ ZYZ (so3_matrix_to_euler r eps) <> r.
Proof. exact (fun eps H => ex_intro _ _ (m2e_zone_wrong eps H)). Qed.
Print Assumptions C20_gimbal_still_correct_rotation_refuted.

(** Safe, locked and in-zone rotations exist. *)
Example C20_nonvacuous :
  (isSO3 (so3_matrix_y 1) /\ / 2 <= polar (so3_matrix_y 1) <= PI - / 2) /\
  (isSO3 (so3_matrix_z 1) /\ a22 (so3_matrix_z 1) = 1).
Proof. exact m2e_examples. Qed.

(** C21 *)
Theorem C21_gimbal_warning_iff : forall (rs : list M3) (eps : R) (no_warn : bool),
  Forall isSO3 rs -> 0 < eps < 1 ->
  (snd (so3_matrix_to_euler_batch rs eps no_warn) = true <->
   no_warn = false /\ Forall (fun r => ~ (eps <= polar r <= PI - eps)) rs).
Proof. exact warn_iff. Qed.
Print Assumptions C21_gimbal_warning_iff.

Theorem C21_locked_elements_warned_refuted : forall eps : R, 0 < eps < 1 ->
  exists rs r, Forall isSO3 rs /\ In r rs /\ polar r = 0 /\
    snd (so3_matrix_to_euler_batch rs eps false) = false.
Proof. exact warn_missed. Qed.
Print Assumptions C21_locked_elements_warned_refuted.

(** C22 *)
Theorem C22_left_apply_quat_always_raises : forall p q : Q4, so3_left_apply_quat p q = Err TypeError.
Proof. exact (fun p q => eq_refl). Qed.
Print Assumptions C22_left_apply_quat_always_raises.

Theorem C22_left_apply_quat_is_product_refuted :
  ~ exists p q : Q4, so3_left_apply_quat p q = Ok (qmul p q).
Proof. exact (fun H => match H with ex_intro _ p (ex_intro _ q E) => left_apply_quat_no_ok p q _ E end). Qed.
Print Assumptions C22_left_apply_quat_is_product_refuted.

(** C23 *)
Theorem C23_geodesic_symmetric_sign_invariant : forall (p q : Q4) (eps : R),
  so3_geodesic_distance p q eps = so3_geodesic_distance q p eps /\
  so3_geodesic_distance (qneg p) q eps = so3_geodesic_distance p q eps /\
  so3_geodesic_distance p (qneg q) eps = so3_geodesic_distance p q eps.
Proof. exact (fun p q eps => conj (geo_sym p q eps) (geo_neg p q eps)). Qed.
Print Assumptions C23_geodesic_symmetric_sign_invariant.

Theorem C23_geodesic_function_of_rotations : forall (p p' q q' : Q4) (eps : R),
  unitq p -> unitq p' -> unitq q -> unitq q' ->
  so3_quat_to_matrix p = so3_quat_to_matrix p' -> so3_quat_to_matrix q = so3_quat_to_matrix q' ->
  so3_geodesic_distance p q eps = so3_geodesic_distance p' q' eps.
Proof. exact geo_rotations. Qed.
Print Assumptions C23_geodesic_function_of_rotations.

Theorem C23_geodesic_bi_invariant : forall (p q g : Q4) (eps : R), unitq g ->
  so3_geodesic_distance (qmul g p) (qmul g q) eps = so3_geodesic_distance p q eps /\
  so3_geodesic_distance (qmul p g) (qmul q g) eps = so3_geodesic_distance p q eps.
Proof. exact (fun p q g eps H => conj (geo_left p q g eps H) (geo_right p q g eps H)). Qed.
Print Assumptions C23_geodesic_bi_invariant.

Theorem C23_geodesic_range : forall (p q : Q4) (eps : R), unitq p -> unitq q -> 0 < eps < 1 ->
  acos (1 - eps) <= so3_geodesic_distance p q eps <= PI / 2 /\
  so3_geodesic_distance p p eps = acos (1 - eps).
Proof. exact (fun p q eps Hp Hq He => conj (geo_range p q eps Hp Hq He) (geo_self p eps Hp He)). Qed.
Print Assumptions C23_geodesic_range.

Theorem C23_geodesic_is_half_the_relative_angle : forall (p q : Q4) (eps : R),
  unitq p -> unitq q -> 0 < eps < 1 -> Rabs (qdot p q) <= 1 - eps ->
  2 * so3_geodesic_distance p q eps =
  rotation_angle (mul3 (so3_matrix_inverse (so3_quat_to_matrix p)) (so3_quat_to_matrix q)).
Proof. exact geo_angle. Qed.
Print Assumptions C23_geodesic_is_half_the_relative_angle.

(** [rotation_angle] is the angle of the axis rotations. *)
Example C23_rotation_angle_axis : rotation_angle (so3_matrix_z 2) = 2 /\
  unitq (mkQ 1 0 0 0) /\ unitq (mkQ 0 1 0 0) /\ Rabs (qdot (mkQ 1 0 0 0) (mkQ 0 1 0 0)) <= 1 - / 2.
Proof. exact rotation_angle_example. Qed.

(** C24 *)
Theorem C24_nearest_neighbour_distance : forall (q : list Q4) (out : list R), Forall unitq q ->
  so3_nearest_neighbour_distance q = Ok out ->
  List.length out = List.length q /\
  forall i a, nth_error q i = Some a ->
    exists m, nth_error out i = Some m /\
      (exists j b, j <> i /\ nth_error q j = Some b /\ m = so3_geodesic_distance a b so3_eps) /\
      (forall j b, j <> i -> nth_error q j = Some b -> m <= so3_geodesic_distance a b so3_eps).
Proof. exact so3_nn_spec. Qed.
Print Assumptions C24_nearest_neighbour_distance.

Theorem C24_nearest_neighbour_raises_iff_short : forall q : list Q4,
  ((2 <= List.length q)%nat -> exists out, so3_nearest_neighbour_distance q = Ok out) /\
  ((List.length q < 2)%nat -> so3_nearest_neighbour_distance q = Err IndexError).
Proof. exact (fun q => conj (so3_nn_total q) (so3_nn_short q)). Qed.
Print Assumptions C24_nearest_neighbour_raises_iff_short.

Example C24_nonvacuous : Forall unitq so3_klein_group /\ (2 <= List.length so3_klein_group)%nat.
Proof. exact klein_units. Qed.

(** C25 *)
Theorem C25_so3_log_is_rotation_vector : forall (r : M3) (eps : R), isSO3 r -> 0 < eps < 1 ->
  -1 + eps <= (trace3 r - 1) / 2 <= 1 - eps ->
  norm3 (so3_log r eps) = rotation_angle r /\ rodrigues (so3_log r eps) = r.
Proof. exact so3_log_in_range. Qed.
Print Assumptions C25_so3_log_is_rotation_vector.

Theorem C25_so3_log_identity : forall eps : R, 0 < eps < 1 -> so3_log I3 eps = mkV3 0 0 0.
Proof. exact so3_log_identity. Qed.
Print Assumptions C25_so3_log_identity.

Theorem C25_so3_log_half_turn_refuted : forall (r : M3) (eps : R),
  isSO3 r -> 0 < eps < 1 -> trace3 r = -1 ->
  so3_log r eps = mkV3 0 0 0 /\ rodrigues (so3_log r eps) = I3 /\ r <> I3.
Proof. exact so3_log_half_turn. Qed.
Print Assumptions C25_so3_log_half_turn_refuted.

Example C25_nonvacuous :
  (isSO3 (so3_matrix_z (PI / 2)) /\ -1 + / 4 <= (trace3 (so3_matrix_z (PI / 2)) - 1) / 2 <= 1 - / 4) /\
  (isSO3 (so3_matrix_z PI) /\ trace3 (so3_matrix_z PI) = -1).
Proof. exact so3_log_examples. Qed.

(** C26 *)
Theorem C26_quaternion_log : forall q : Q4,
  0 < qx q * qx q + qy q * qy q + qz q * qz q ->
  qexp (so3_quaternion_log q) = q /\
  exists t, 0 < t < PI /\ qw q = qnorm q * cos t /\
    sqrt (qx q * qx q + qy q * qy q + qz q * qz q) = qnorm q * sin t /\
    so3_quaternion_log q =
      (let v := sqrt (qx q * qx q + qy q * qy q + qz q * qz q) in
       mkQ (ln (qnorm q)) (t * (qx q / v)) (t * (qy q / v)) (t * (qz q / v))).
Proof. exact qlog_vec. Qed.
Print Assumptions C26_quaternion_log.

Theorem C26_quaternion_log_positive_real : forall w : R, 0 < w ->
  so3_quaternion_log (mkQ w 0 0 0) = mkQ (ln w) 0 0 0 /\
  qexp (so3_quaternion_log (mkQ w 0 0 0)) = mkQ w 0 0 0.
Proof. exact qlog_pos_real. Qed.
Print Assumptions C26_quaternion_log_positive_real.

Theorem C26_quaternion_log_negative_real_refuted : forall w : R, w < 0 ->
  qexp (so3_quaternion_log (mkQ w 0 0 0)) = qneg (mkQ w 0 0 0) /\
  qexp (so3_quaternion_log (mkQ w 0 0 0)) <> mkQ w 0 0 0.
Proof. exact qlog_neg_real. Qed.
Print Assumptions C26_quaternion_log_negative_real_refuted.

(** C62 *)
Theorem C62_so3_sample_left_right_invariant :
  forall T mode width S g grid signal signal_grid,
  isSO3 g -> Forall isSO3 grid -> Forall isSO3 signal_grid ->
  so3_grid_sample_matrix T mode width S (map (mul3 g) grid) signal (map (mul3 g) signal_grid) =
  so3_grid_sample_matrix T mode width S grid signal signal_grid /\
  so3_grid_sample_matrix T mode width S (map (fun a => mul3 a g) grid) signal (map (fun a => mul3 a g) signal_grid) =
  so3_grid_sample_matrix T mode width S grid signal signal_grid.
Proof.
  exact (fun T mode width S g grid signal signal_grid Hg HG HS => conj
    (so3_sample_left_invariant T mode width S g grid signal signal_grid Hg HG HS)
    (so3_sample_right_invariant T mode width S g grid signal signal_grid Hg HG HS)).
Qed.
Print Assumptions C62_so3_sample_left_right_invariant.

(** C63 *)
Theorem C63_random_elements_valid : forall (u : R) (draw : Q4), 0 < qdot draw draw ->
  unitq (so3_random_quat draw) /\ isSO3 (so3_random_matrix draw) /\ o3_wf (o3_random u draw).
Proof.
  exact (fun u draw H => conj (proj1 (so3_random_ok draw H))
    (conj (proj2 (so3_random_ok draw H)) (o3_random_wf u draw H))).
Qed.
Print Assumptions C63_random_elements_valid.

(** C64 *)
Theorem C64_rbf_sampling_reproduces_signal :
  forall T, torch_ok T -> forall width S grid signal signal_grid out k i r,
  wfm (List.length signal_grid) S signal ->
  so3_grid_sample_matrix T "rbf" width S grid signal signal_grid = Ok out ->
  nth_error grid k = Some r -> nth_error signal_grid i = Some r ->
  nth_error out k = nth_error signal i.
Proof. exact so3_sample_rbf_reproduces. Qed.
Print Assumptions C64_rbf_sampling_reproduces_signal.

Theorem C64_nearest_sampling_picks_closest :
  forall T, torch_ok T -> forall width S grid signal signal_grid,
  signal_grid <> [] -> List.length signal = List.length signal_grid ->
  exists out, so3_grid_sample_matrix T "nearest" width S grid signal signal_grid = Ok out /\
    forall k r, nth_error grid k = Some r ->
      exists i s row, nth_error signal_grid i = Some s /\ nth_error signal i = Some row /\
        nth_error out k = Some row /\
        forall s', In s' signal_grid ->
          so3_geodesic_distance (so3_matrix_to_quat r) (so3_matrix_to_quat s) so3_eps <=
          so3_geodesic_distance (so3_matrix_to_quat r) (so3_matrix_to_quat s') so3_eps.
Proof. exact so3_sample_nearest. Qed.
Print Assumptions C64_nearest_sampling_picks_closest.
