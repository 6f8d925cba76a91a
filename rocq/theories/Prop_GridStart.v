(** Property theorems C92: the numbers in an optimised grid. so3.uniform_grid(n) beyond the tabulated sizes, and s2.uniform_grid_s2, run gradient
    descent with decreasing noise on angles, started at random rotations (points): the returned elements are the conversions of the angles after the last step. *)
From Coq Require Import String.
From Verif Require Import Prelude RMath Mat SO3 SO3Facts SO3Euler Repulse RepulseFacts S2 S2Facts GridCache GridCacheFacts Prop_SO3.
Open Scope R_scope.

(** [x e]: the (n, d) tensor of angles before step e of [steps]; [grad] gives the gradient of the energy at the present angles and [noise e] the normal
    draws of step e, both of shape (n, d). Entry (i, j) of a tensor is the j-th number of its i-th row. *)
Definition num (x : rows) (i j : nat) : R := nth j (nth i x []) 0.
Definition descent (n d steps : nat) (lr : R) (grad : rows -> rows) (noise : nat -> rows) (x : nat -> rows) : Prop :=
  (forall e, shaped n d (x e)) /\
  forall e i j, (e < steps)%nat -> (i < n)%nat -> (j < d)%nat ->
    num (x (S e)) i j = num (x e) i j - lr * (num (grad (x e)) i j + (INR steps - INR e) / INR steps * / 1000 * num (noise e) i j).

(** Element i of the tensor as three Euler angles, as a direction (polar angle, azimuth). *)
Definition angles (x : rows) (i : nat) : V3 := mkV3 (num x i 0) (num x i 1) (num x i 2).
Definition direction (x : rows) (i : nat) : V3 := mkV3 (sin (num x i 0) * cos (num x i 1)) (sin (num x i 0) * sin (num x i 1)) (cos (num x i 0)).

Lemma so3_optimised_traj n o : oracle_ok n o -> exists x, descent n 3 (or_steps o) (or_lr o) (or_grad o) (or_noise o) x /\
  (forall i q, nth_error (or_draws o) i = Some q -> angles (x 0%nat) i = so3_random_euler q) /\
  so3_optimised o = map (angles (x (or_steps o))) (seq 0 n).
Proof.
  intros (Hd & Hg & Hn). unfold so3_optimised. set (x0 := rows_of_v3 (map so3_random_euler (or_draws o))).
  assert (Hx : shaped n 3 x0).
  { unfold x0, rows_of_v3. split; [rewrite !map_length; assumption|]. intros r Hr. apply in_map_iff in Hr as [? [<- _]]. reflexivity. }
  destruct (repulse_trajectory n 3 (or_steps o) (or_lr o) (/ 1000) (or_grad o) (or_noise o) true [x0] 0%nat x0 eq_refl Hx Hg Hn) as (t & Ht0 & Hs & Hr & Hres).
  exists t. split; [split; [exact Hs|exact Hr]|]. split.
  - intros i q Hi. rewrite Ht0. unfold angles, num, x0, rows_of_v3. rewrite map_map.
    rewrite (nth_error_nth (map _ _) i [] (map_nth_error _ i _ Hi)). cbn [nth]. destruct (so3_random_euler q); reflexivity.
  - destruct (repulse _ _ _ _ _ _ _ _) as [h l]. rewrite (nth_error_nth h l [] Hres). unfold v3_of_rows.
    rewrite (map_as_seq (fun r => mkV3 (nth 0 r 0) (nth 1 r 0) (nth 2 r 0)) (t (or_steps o)) []).
    rewrite (proj1 (Hs (or_steps o))). reflexivity.
Qed.

Theorem C92_so3_grid_is_descent_from_random_rotations : forall h n p c o, cache_free h -> (24 < n)%nat -> oracle_ok n o ->
  exists x, descent n 3 (or_steps o) (or_lr o) (or_grad o) (or_noise o) x /\
    (forall i q, nth_error (or_draws o) i = Some q -> 0 < qdot q q ->
       (- PI <= num (x 0%nat) i 0 < PI /\ - PI <= num (x 0%nat) i 1 < PI /\ - PI <= num (x 0%nat) i 2 < PI) /\
       close3 (2 / 10 ^ 5) (ZYZ (angles (x 0%nat) i)) (so3_random_matrix q)) /\
    let r := outcome (so3_uniform_grid (grun ginit h) n p c o) in
    let final := angles (x (or_steps o)) in
    (lower p = "quat"%string -> r = Ok (Some (TQuat (map (fun i => so3_euler_to_quat (final i) (/ 10 ^ 6)) (seq 0 n))))) /\
    (lower p = "matrix"%string -> r = Ok (Some (TMat (map (fun i => so3_euler_to_matrix (final i) (/ 10 ^ 6)) (seq 0 n))))) /\
    (lower p = "euler"%string -> c = false ->
       r = Ok (Some (TRows3 (map (fun i => so3_matrix_to_euler (so3_euler_to_matrix (final i) (/ 10 ^ 6)) (/ 10 ^ 5)) (seq 0 n))))).
Proof.
  intros h n p c o Hc Hn Ho. destruct (so3_optimised_traj n o Ho) as (x & Hx & H0 & E). exists x. split; [exact Hx|]. split.
  - intros i q Hi Hq. pose proof (C63_random_elements_valid 0 q Hq) as (_ & Hso & _). pose proof (H0 i q Hi) as Ea.
    assert (0 < / 10 ^ 5 < 1) as He by (split; [apply Rinv_0_lt_compat; lra|rewrite <- Rinv_1; apply Rinv_lt_contravar; lra]).
    pose proof (C20_matrix_to_euler_range _ _ Hso He) as HR. change (so3_matrix_to_euler (so3_random_matrix q) (/ 10 ^ 5)) with (so3_random_euler q) in HR.
    cbv zeta in HR. rewrite <- Ea in HR. split; [exact HR|]. rewrite Ea. unfold so3_random_euler, so3_quat_to_euler. fold (so3_random_matrix q).
    set (m := so3_random_matrix q) in *.
    destruct (Rle_dec (/ 10 ^ 5) (polar m)) as [P1|P1]; [destruct (Rle_dec (polar m) (PI - / 10 ^ 5)) as [P2|P2]|].
    + rewrite (C20_matrix_to_euler_inverts_ZYZ m _ Hso He (or_introl (conj P1 P2))). unfold close3. induction (entries3 m); constructor; [rewrite Rminus_diag_eq, Rabs_R0 by reflexivity; lra|assumption].
    + apply (C20_matrix_to_euler_gimbal_zone m _ Hso He). lra.
    + apply (C20_matrix_to_euler_gimbal_zone m _ Hso He). lra.
  - intros r final. destruct (not_cached h n Hc Hn) as [Nq Nm]. unfold r. rewrite outcome_of, Nq, Nm. destruct (Nat.eqb_spec n 0); [lia|]. unfold param_fn.
    rewrite E. fold final. split; [|split].
    + intros ->. cbn [String.eqb Ascii.eqb Bool.eqb]. rewrite andb_false_r, map_map. reflexivity.
    + intros ->. cbn [String.eqb Ascii.eqb Bool.eqb]. rewrite andb_false_r, map_map. reflexivity.
    + intros -> ->. cbn [String.eqb Ascii.eqb Bool.eqb]. rewrite map_map. reflexivity.
Qed.
Print Assumptions C92_so3_grid_is_descent_from_random_rotations.

Lemma s2_optimised_traj steps lr grad noise draws : let n := List.length draws in
  (forall x, shaped n 2 x -> shaped n 2 (grad x)) -> (forall e, shaped n 2 (noise e)) ->
  exists x, descent n 2 steps lr grad noise x /\
  (forall i v, nth_error draws i = Some v -> mkV2 (num (x 0%nat) i 0) (num (x 0%nat) i 1) = s2_random v) /\
  s2_optimised steps lr grad noise draws = map (fun i => mkV2 (num (x steps) i 0) (num (x steps) i 1)) (seq 0 n).
Proof.
  intros n Hg Hn. unfold s2_optimised. set (x0 := rows_of_sph (map s2_random draws)).
  assert (Hx : shaped n 2 x0).
  { unfold x0, rows_of_sph. split; [rewrite !map_length; reflexivity|]. intros r Hr. apply in_map_iff in Hr as [? [<- _]]. reflexivity. }
  destruct (repulse_trajectory n 2 steps lr (/ 1000) grad noise true [x0] 0%nat x0 eq_refl Hx Hg Hn) as (t & Ht0 & Hs & Hr & Hres).
  exists t. split; [split; [exact Hs|exact Hr]|]. split.
  - intros i q Hi. rewrite Ht0. unfold num, x0, rows_of_sph. rewrite map_map.
    rewrite (nth_error_nth (map _ _) i [] (map_nth_error _ i _ Hi)). cbn [nth]. destruct (s2_random q); reflexivity.
  - destruct (repulse _ _ _ _ _ _ _ _) as [h l]. rewrite (nth_error_nth h l [] Hres). unfold sph_of_rows.
    rewrite (map_as_seq (fun r => mkV2 (nth 0 r 0) (nth 1 r 0)) (t steps) []).
    rewrite (proj1 (Hs steps)). reflexivity.
Qed.

Theorem C92_s2_grid_is_descent_from_random_points : forall param steps lr grad noise draws, let n := List.length draws in
  (forall x, shaped n 2 x -> shaped n 2 (grad x)) -> (forall e, shaped n 2 (noise e)) ->
  exists x, descent n 2 steps lr grad noise x /\
    (forall i v, nth_error draws i = Some v -> 0 < dot3 v v ->
       (0 <= num (x 0%nat) i 0 <= PI /\ - PI < num (x 0%nat) i 1 <= PI) /\ scalv3 (norm3 v) (direction (x 0%nat) i) = v) /\
    let r := s2_uniform_grid param false steps lr grad noise draws in
    let polar i := num (x steps) i 0 in let azimuth i := num (x steps) i 1 in
    (lower param = "spherical"%string -> r = Ok (S2Spherical (map (fun i => mkV2 (polar i) (azimuth i)) (seq 0 n)))) /\
    (lower param = "euclidean"%string -> r = Ok (S2Euclid (map (direction (x steps)) (seq 0 n)))) /\
    (lower param = "euler"%string -> r = Ok (S2Euler (map (fun i => mkV3 0 (polar i) (azimuth i)) (seq 0 n)))) /\
    (lower param = "matrix"%string -> r = Ok (S2Matrix (map (fun i => so3_euler_to_matrix (mkV3 0 (polar i) (azimuth i)) (/ 10 ^ 6)) (seq 0 n)))) /\
    (lower param = "quat"%string -> r = Ok (S2Quat (map (fun i => so3_euler_to_quat (mkV3 0 (polar i) (azimuth i)) (/ 10 ^ 6)) (seq 0 n)))).
Proof.
  intros param steps lr grad noise draws n Hg Hn. destruct (s2_optimised_traj steps lr grad noise draws Hg Hn) as (x & Hx & H0 & E). fold n in Hx, E.
  exists x. split; [exact Hx|]. split.
  - intros i v Hi Hv. pose proof (H0 i v Hi) as Ea. pose proof (s2_random_direction v Hv) as D. split.
    + assert (forall w, 0 <= v2x (s2_random w) <= PI /\ - PI < v2y (s2_random w) <= PI) as B by (intros w; apply s2_spherical_range).
      specialize (B v). rewrite <- Ea in B. exact B.
    + rewrite <- D at 2. rewrite <- Ea. reflexivity.
  - intros r polar azimuth. destruct (s2_uniform_ok param steps lr grad noise draws) as (A1 & A2 & A3 & A4 & A5). unfold r. rewrite E in *.
    rewrite map_map in A2, A3, A4, A5. auto 10.
Qed.
Print Assumptions C92_s2_grid_is_descent_from_random_points.

(** With n_steps = 0 the grid is the random start itself. *)
Theorem C92_no_steps_no_movement : forall h n c o, cache_free h -> (24 < n)%nat -> oracle_ok n o -> or_steps o = 0%nat ->
  outcome (so3_uniform_grid (grun ginit h) n "matrix" c o) =
    Ok (Some (TMat (map (fun q => so3_euler_to_matrix (so3_random_euler q) (/ 10 ^ 6)) (or_draws o)))).
Proof.
  intros h n c o Hc Hn Ho Hs. destruct (so3_optimised_traj n o Ho) as (x & Hx & H0 & E). rewrite Hs in E.
  destruct (not_cached h n Hc Hn) as [Nq Nm]. rewrite outcome_of, Nm. destruct (Nat.eqb_spec n 0); [lia|]. unfold param_fn.
  change (lower "matrix") with "matrix"%string. cbn [String.eqb Ascii.eqb Bool.eqb]. rewrite andb_false_r, E, map_map. do 3 f_equal.
  destruct Ho as (Hd & _). rewrite <- Hd. symmetry. rewrite (map_as_seq _ _ qone). apply map_ext_in. intros i Hi. apply in_seq in Hi.
  unfold e2m_eps. f_equal. symmetry. apply H0. apply nth_error_nth'. lia.
Qed.
Print Assumptions C92_no_steps_no_movement.

(** Non-vacuity: 30 rotations, five steps, and a history with earlier calls. *)
Example a_descent : cache_free [GCall 40 "quat" false (ex_oracle 40)] /\ oracle_ok 30 (ex_oracle 30) /\
  (forall i q, nth_error (or_draws (ex_oracle 30)) i = Some q -> 0 < qdot q q) /\ or_steps (ex_oracle 30) = 5%nat.
Proof.
  split; [repeat constructor|]. split; [apply ex_oracle_ok|]. split; [|reflexivity].
  intros i q Hi. apply nth_error_In in Hi. apply repeat_spec in Hi. subst. unfold qdot, qone. cbn [qw qx qy qz]. lra.
Qed.
