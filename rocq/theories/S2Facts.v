From Coq Require Import String Psatz.
From Verif Require Import Prelude RMath Mat SO3 SO3Facts SO3Euler SO3More Repulse RepulseFacts S2.
Open Scope R_scope.

Lemma s2_unit g : dot3 (s2_spherical_to_euclid g) (s2_spherical_to_euclid g) = 1.
Proof.
  unfold dot3, s2_spherical_to_euclid; simpl.
  pose proof (sc1 (v2x g)). pose proof (sc1 (v2y g)).
  set (a := sin (v2x g)) in *. set (b := cos (v2x g)) in *.
  set (c := sin (v2y g)) in *. set (d := cos (v2y g)) in *.
  replace (a * d * (a * d) + a * c * (a * c) + b * b) with (a * a * (c * c + d * d) + b * b) by ring.
  rewrite H0. lra.
Qed.

Lemma s2_unit_z x : dot3 x x = 1 -> -1 <= vz x <= 1.
Proof. unfold dot3. intros H. nra. Qed.

Lemma s2_roundtrip x : dot3 x x = 1 -> s2_spherical_to_euclid (s2_euclid_to_spherical x) = x.
Proof.
  intros H. pose proof (s2_unit_z x H) as Hz. unfold s2_spherical_to_euclid, s2_euclid_to_spherical; simpl.
  rewrite cos_acos by lra. rewrite sin_acos by lra.
  destruct (atan2_polar (vy x) (vx x)) as [H1 H2]. 
  replace (1 - (vz x)²) with (vx x * vx x + vy x * vy x).
  2:{ unfold Rsqr. unfold dot3 in H. lra. }
  cbv zeta in H1, H2. rewrite H1, H2. destruct x; reflexivity.
Qed.

Lemma s2_roundtrip_back b g : 0 < b < PI -> - PI < g <= PI ->
  s2_euclid_to_spherical (s2_spherical_to_euclid (mkV2 b g)) = mkV2 b g.
Proof.
  intros Hb Hg. unfold s2_euclid_to_spherical, s2_spherical_to_euclid; cbn [v2x v2y vx vy vz].
  f_equal.
  - apply acos_cos. lra.
  - apply atan2_of_polar; [apply sin_gt_0; lra|assumption].
Qed.

Lemma s2_spherical_range x : 0 <= v2x (s2_euclid_to_spherical x) <= PI /\
  - PI < v2y (s2_euclid_to_spherical x) <= PI.
Proof.
  unfold s2_euclid_to_spherical; simpl. split; [apply acos_bound|apply atan2_bounds].
Qed.

(** A random draw is a point of the sphere in the direction of the draw. *)
Lemma s2_random_direction d : 0 < dot3 d d ->
  scalv3 (norm3 d) (s2_spherical_to_euclid (s2_random d)) = d.
Proof.
  intros H. unfold s2_random.
  assert (Hn : 0 < norm3 d) by (apply sqrt_lt_R0; assumption).
  assert (Hs : norm3 d * norm3 d = dot3 d d) by (apply sqrt_sqrt; lra).
  rewrite s2_roundtrip.
  - destruct d as [x y z]; unfold scalv3; cbn [vx vy vz]. f_equal; field; lra.
  - unfold dot3; cbn [vx vy vz].
    transitivity (dot3 d d / (norm3 d * norm3 d)); [unfold dot3; field; lra|].
    rewrite Hs. field. lra.
Qed.

(** ** distance *)
Lemma s2_dist_sym a b eps : s2_geodesic_distance a b eps = s2_geodesic_distance b a eps.
Proof. unfold s2_geodesic_distance. f_equal. f_equal. ring. Qed.
Lemma s2_dist_dot a b eps : s2_geodesic_distance a b eps = acos (clamp (dot3 a b) (-1 + eps) (1 - eps)).
Proof. reflexivity. Qed.
Lemma s2_dist_exact a b eps : -1 + eps <= dot3 a b <= 1 - eps -> s2_geodesic_distance a b eps = acos (dot3 a b).
Proof. intros H. rewrite s2_dist_dot, clamp_id by assumption. reflexivity. Qed.
Lemma s2_dist_range a b eps : 0 < eps < 1 ->
  acos (1 - eps) <= s2_geodesic_distance a b eps <= acos (-1 + eps).
Proof.
  intros He. rewrite s2_dist_dot. pose proof (clamp_bounds (dot3 a b) (-1 + eps) (1 - eps)).
  split; apply acos_decr_le; lra.
Qed.
Lemma s2_dist_self a eps : dot3 a a = 1 -> 0 < eps < 1 -> s2_geodesic_distance a a eps = acos (1 - eps).
Proof. intros Ha He. rewrite s2_dist_dot, Ha, clamp_hi by lra. reflexivity. Qed.
Lemma s2_dist_invariant A a b eps : isO3 A ->
  s2_geodesic_distance (app3 A a) (app3 A b) eps = s2_geodesic_distance a b eps.
Proof.
  intros [H1 _]. rewrite !s2_dist_dot. f_equal. f_equal.
  rewrite dot3_app_tr, <- app3_mul, H1, app3_I. reflexivity.
Qed.

(** ** relation with so3 *)
Lemma s2_euler_maps_pole g :
  app3 (so3_euler_to_matrix (mkV3 0 (v2x g) (v2y g)) 0) (mkV3 0 0 1) = s2_spherical_to_euclid g.
Proof.
  rewrite euler_to_matrix_eps0. unfold s2_spherical_to_euclid.
  rewrite <- euler_entries_ZYZ. mext; cbn; ring.
Qed.

Lemma s2_euler_maps_pole_eps g eps : 0 <= eps ->
  let p := app3 (so3_euler_to_matrix (mkV3 0 (v2x g) (v2y g)) eps) (mkV3 0 0 1) in
  Rabs (vx p - vx (s2_spherical_to_euclid g)) <= eps /\
  Rabs (vy p - vy (s2_spherical_to_euclid g)) <= eps /\
  Rabs (vz p - vz (s2_spherical_to_euclid g)) <= eps.
Proof.
  intros He p. unfold p, so3_euler_to_matrix, s2_spherical_to_euclid, app3, map3, so3_euler_entries;
  cbn [vx vy vz a00 a01 a02 a10 a11 a12 a20 a21 a22].
  rewrite !Rmult_0_r, !Rmult_1_r, !Rplus_0_l.
  split; [|split].
  - rewrite (Rmult_comm (sin (v2x g))). apply thr_close; assumption.
  - rewrite (Rmult_comm (sin (v2x g))). apply thr_close; assumption.
  - apply thr_close; assumption.
Qed.

Lemma spherical_to_euler_nth g i x : nth_error g i = Some x ->
  nth_error (s2_spherical_to_euler g) i = Some (mkV3 0 (v2x x) (v2y x)).
Proof. intros H. unfold s2_spherical_to_euler, sph in *. rewrite nth_error_map, H. reflexivity. Qed.

Lemma neg_gamma_raises g : g <> [] -> s2_spherical_to_euler_neg_gamma g = Err RuntimeError.
Proof. destruct g; [congruence|reflexivity]. Qed.

Definition s2_known (p : string) : Prop :=
  In p ["spherical"; "euclidean"; "euler"; "matrix"; "quat"]%string.

Lemma s2_uniform_unknown param b steps lr grad noise draws : ~ s2_known (lower param) ->
  s2_uniform_grid param b steps lr grad noise draws = Err UnboundLocalError.
Proof.
  intros H. unfold s2_uniform_grid, s2_known in *.
  set (p := lower param) in *.
  destruct (String.eqb_spec p "euler") as [E|E1]; [exfalso; apply H; rewrite E; simpl; auto|].
  destruct (String.eqb_spec p "matrix") as [E|E2]; [exfalso; apply H; rewrite E; simpl; auto|].
  destruct (String.eqb_spec p "quat") as [E|E3]; [exfalso; apply H; rewrite E; simpl; auto 10|].
  destruct (String.eqb_spec p "spherical") as [E|E4]; [exfalso; apply H; rewrite E; simpl; auto|].
  destruct (String.eqb_spec p "euclidean") as [E|E5]; [exfalso; apply H; rewrite E; simpl; auto|].
  reflexivity.
Qed.

Lemma sph_rows_length l : List.length (sph_of_rows (rows_of_sph l)) = List.length l.
Proof. unfold sph_of_rows, rows_of_sph. rewrite !map_length. reflexivity. Qed.

Lemma s2_optimised_length steps lr grad noise draws :
  let n := List.length draws in
  (forall x, shaped n 2 x -> shaped n 2 (grad x)) -> (forall e, shaped n 2 (noise e)) ->
  List.length (s2_optimised steps lr grad noise draws) = n.
Proof.
  intros n Hg Hn. unfold s2_optimised.
  set (x := rows_of_sph (map s2_random draws)).
  assert (Hx : shaped n 2 x).
  { unfold x, rows_of_sph. split; [rewrite !map_length; reflexivity|].
    intros r Hr. apply in_map_iff in Hr as [? [<- _]]. reflexivity. }
  destruct (repulse_trajectory n 2 steps lr (/ 1000) grad noise true [x] 0%nat x eq_refl Hx Hg Hn)
    as (t & _ & Ht & _ & Hr).
  destruct (repulse steps lr (/ 1000) grad noise true [x] 0%nat) as [h l].
  unfold sph_of_rows. rewrite map_length. apply nth_error_nth with (d := []) in Hr.
  change (list R) with (list R) in *. unfold rows in *. rewrite Hr. apply Ht.
Qed.

Lemma s2_uniform_neg_gamma param steps lr grad noise draws :
  let n := List.length draws in
  (forall x, shaped n 2 x -> shaped n 2 (grad x)) -> (forall e, shaped n 2 (noise e)) ->
  (0 < n)%nat ->
  lower param = "euler"%string \/ lower param = "matrix"%string \/ lower param = "quat"%string ->
  s2_uniform_grid param true steps lr grad noise draws = Err RuntimeError.
Proof.
  intros n Hg Hn H0 Hp. unfold s2_uniform_grid.
  assert (E : (String.eqb (lower param) "euler" || String.eqb (lower param) "matrix" ||
               String.eqb (lower param) "quat")%bool = true).
  { destruct Hp as [->|[->| ->]]; reflexivity. }
  rewrite E. rewrite neg_gamma_raises; [reflexivity|].
  intros E0. pose proof (s2_optimised_length steps lr grad noise draws Hg Hn) as Hl.
  rewrite E0 in Hl. simpl in Hl. unfold n in H0. lia.
Qed.

(** What a successful default call returns, for each parameterization. *)
Lemma s2_uniform_ok param steps lr grad noise draws :
  let grid := s2_optimised steps lr grad noise draws in
  (lower param = "spherical"%string ->
     s2_uniform_grid param false steps lr grad noise draws = Ok (S2Spherical grid)) /\
  (lower param = "euclidean"%string ->
     s2_uniform_grid param false steps lr grad noise draws = Ok (S2Euclid (map s2_spherical_to_euclid grid))) /\
  (lower param = "euler"%string ->
     s2_uniform_grid param false steps lr grad noise draws = Ok (S2Euler (map (fun g => mkV3 0 (v2x g) (v2y g)) grid))) /\
  (lower param = "matrix"%string ->
     s2_uniform_grid param false steps lr grad noise draws
     = Ok (S2Matrix (map (fun g => so3_euler_to_matrix (mkV3 0 (v2x g) (v2y g)) (/ 10 ^ 6)) grid))) /\
  (lower param = "quat"%string ->
     s2_uniform_grid param false steps lr grad noise draws
     = Ok (S2Quat (map (fun g => so3_euler_to_quat (mkV3 0 (v2x g) (v2y g)) (/ 10 ^ 6)) grid))).
Proof.
  intros grid. unfold s2_uniform_grid.
  repeat split; intros ->; cbn [String.eqb Ascii.eqb Bool.eqb orb andb]; try reflexivity;
  unfold s2_spherical_to_euler, e2m_eps; rewrite map_map; reflexivity.
Qed.

Lemma s2_self_minimal g g' eps : 0 < eps < 1 ->
  s2_geodesic_distance (s2_spherical_to_euclid g) (s2_spherical_to_euclid g) eps
  <= s2_geodesic_distance (s2_spherical_to_euclid g) (s2_spherical_to_euclid g') eps.
Proof.
  intros He. rewrite s2_dist_self by (try apply s2_unit; assumption).
  apply s2_dist_range. assumption.
Qed.
