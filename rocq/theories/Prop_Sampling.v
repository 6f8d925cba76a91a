(** C71: sampling a signal on SO(2), O(2), O(3); C63 (continued): what random draws can return. *)
From Coq Require Import String ZArith.
From Verif Require Import Prelude RMath Mat Interp InterpFacts InterpExample SO2 SO2Facts O2 O2Facts SO3 SO3Facts SO3More O3 O3Facts S2 NetDraws SampleFacts.
Open Scope R_scope.

(** Vocabulary (SampleFacts.v, SO2Facts.v): [same_angle a b] - a and b differ by a multiple of 2 pi; [arc a b] - length
    of the shorter arc between the directions a and b; [split_layout coeff n m g] - g lists n elements of coefficient 1,
    then m of coefficient -1, as uniform_grid does. *)

(** C71 rbf: at an angle of the signal grid (up to full turns) the sample is the signal value itself. *)
Theorem C71_so2_rbf_reproduces_signal :
  forall T, torch_ok T -> forall width S grid signal signal_grid out k i a b,
  wfm (List.length signal_grid) S signal ->
  so2_grid_sample T "rbf" width S grid signal signal_grid = Ok out ->
  nth_error grid k = Some a -> nth_error signal_grid i = Some b -> same_angle a b ->
  nth_error out k = nth_error signal i.
Proof. exact so2_sample_rbf_reproduces. Qed.
Print Assumptions C71_so2_rbf_reproduces_signal.

(** C71 nearest: sampling succeeds, one row per query, and each row is the signal of a grid angle that is
    closest to the query up to the 2e-6 the clamp can hide. *)
Theorem C71_so2_nearest_is_closest :
  forall T, torch_ok T -> forall width S grid signal signal_grid,
  signal_grid <> [] -> List.length signal = List.length signal_grid ->
  exists out, so2_grid_sample T "nearest" width S grid signal signal_grid = Ok out /\
    List.length out = List.length grid /\
    forall k a, nth_error grid k = Some a ->
      exists i b row, nth_error signal_grid i = Some b /\ nth_error signal i = Some row /\
        nth_error out k = Some row /\
        forall b', In b' signal_grid -> arc a b <= arc a b' + 2 / 10 ^ 6.
Proof. exact so2_sample_nearest_arc. Qed.
Print Assumptions C71_so2_nearest_is_closest.

(** At a grid angle that no other grid angle comes within 2e-6 of, nearest sampling is exact. *)
Theorem C71_so2_nearest_exact_on_grid :
  forall T, torch_ok T -> forall width S grid signal signal_grid out k i a b,
  List.length signal = List.length signal_grid ->
  so2_grid_sample T "nearest" width S grid signal signal_grid = Ok out ->
  nth_error grid k = Some a -> nth_error signal_grid i = Some b -> same_angle a b ->
  (forall j b', nth_error signal_grid j = Some b' -> j <> i -> 2 / 10 ^ 6 <= arc a b') ->
  nth_error out k = nth_error signal i.
Proof. exact so2_sample_nearest_exact. Qed.
Print Assumptions C71_so2_nearest_exact_on_grid.

(** Rotating the queries and the signal grid by the same angle changes nothing, whatever the mode. *)
Theorem C71_so2_rotation_invariant :
  forall T mode width S g grid signal signal_grid,
  so2_grid_sample T mode width S (map (so2_left_apply_angle g) grid) signal (map (so2_left_apply_angle g) signal_grid)
  = so2_grid_sample T mode width S grid signal signal_grid.
Proof. exact so2_sample_invariant. Qed.
Print Assumptions C71_so2_rotation_invariant.

(** Any other mode is a ValueError. *)
Theorem C71_unknown_mode :
  forall T mode, mode <> "rbf"%string -> mode <> "nearest"%string ->
  (forall width S grid signal signal_grid, so2_grid_sample T mode width S grid signal signal_grid = Err ValueError) /\
  (forall width S grid signal signal_grid, so3_grid_sample_matrix T mode width S grid signal signal_grid = Err ValueError).
Proof.
  intros T mode H1 H2. split; intros; [apply so2_sample_unknown|apply so3_sample_unknown]; assumption.
Qed.
Print Assumptions C71_unknown_mode.

Theorem C71_o2_rbf_reproduces_signal :
  forall T, torch_ok T -> forall rot_width ref_width S grid signal signal_grid n_rot n_ref out k i e e',
  (forall x, In x grid -> o2_wf x) -> split_layout o2c n_rot n_ref signal_grid -> wfm (n_rot + n_ref) S signal ->
  o2_grid_sample T "rbf" rot_width ref_width S grid signal signal_grid n_rot n_ref = Ok out ->
  nth_error grid k = Some e -> nth_error signal_grid i = Some e' -> o2c e = o2c e' -> same_angle (o2a e) (o2a e') ->
  nth_error out k = nth_error signal i.
Proof. exact o2_sample_rbf_reproduces. Qed.
Print Assumptions C71_o2_rbf_reproduces_signal.

Theorem C71_o3_rbf_reproduces_signal :
  forall T, torch_ok T -> forall rot_width ref_width S grid signal signal_grid n_rot n_ref out k i e,
  (forall x, In x grid -> o3c x = 1 \/ o3c x = -1) -> split_layout o3c n_rot n_ref signal_grid -> wfm (n_rot + n_ref) S signal ->
  o3_grid_sample T "rbf" rot_width ref_width S grid signal signal_grid n_rot n_ref = Ok out ->
  nth_error grid k = Some e -> nth_error signal_grid i = Some e ->
  nth_error out k = nth_error signal i.
Proof. exact o3_sample_rbf_reproduces. Qed.
Print Assumptions C71_o3_rbf_reproduces_signal.

(** Nearest sampling on O(2), O(3): the signal of an element of the same determinant and, among those, closest. *)
Theorem C71_o2_nearest_is_closest_of_same_determinant :
  forall T, torch_ok T -> forall rot_width ref_width S grid signal signal_grid n_rot n_ref out k e,
  (forall x, In x grid -> o2_wf x) -> split_layout o2c n_rot n_ref signal_grid -> List.length signal = (n_rot + n_ref)%nat ->
  o2_grid_sample T "nearest" rot_width ref_width S grid signal signal_grid n_rot n_ref = Ok out ->
  nth_error grid k = Some e ->
  exists i e', nth_error signal_grid i = Some e' /\ nth_error out k = nth_error signal i /\ o2c e' = o2c e /\
    forall j e'', nth_error signal_grid j = Some e'' -> o2c e'' = o2c e -> arc (o2a e) (o2a e') <= arc (o2a e) (o2a e'') + 2 / 10 ^ 6.
Proof. exact o2_sample_nearest. Qed.
Print Assumptions C71_o2_nearest_is_closest_of_same_determinant.

Theorem C71_o3_nearest_is_closest_of_same_determinant :
  forall T, torch_ok T -> forall rot_width ref_width S grid signal signal_grid n_rot n_ref out k e,
  (forall x, In x grid -> o3c x = 1 \/ o3c x = -1) -> split_layout o3c n_rot n_ref signal_grid -> List.length signal = (n_rot + n_ref)%nat ->
  o3_grid_sample T "nearest" rot_width ref_width S grid signal signal_grid n_rot n_ref = Ok out ->
  nth_error grid k = Some e ->
  exists i e', nth_error signal_grid i = Some e' /\ nth_error out k = nth_error signal i /\ o3c e' = o3c e /\
    forall j e'', nth_error signal_grid j = Some e'' -> o3c e'' = o3c e ->
      so3_geodesic_distance (so3_matrix_to_quat (o3r e)) (so3_matrix_to_quat (o3r e')) so3_eps
      <= so3_geodesic_distance (so3_matrix_to_quat (o3r e)) (so3_matrix_to_quat (o3r e'')) so3_eps.
Proof. exact o3_sample_nearest. Qed.
Print Assumptions C71_o3_nearest_is_closest_of_same_determinant.

(** uniform grids have the layout the theorems above ask for, and a query one full turn away from a grid angle
    is sampled exactly. *)
Example C71_nonvacuous :
  split_layout o2c 3 2 (o2_uniform_grid 3 2) /\ (forall x, In x (o2_uniform_grid 3 2) -> o2_wf x) /\
  same_angle (7 * PI / 3) (PI / 3) /\ arc 0 PI = PI.
Proof.
  destruct (o2_uniform_layout 3 2) as (Hl & H1 & H2).
  assert (L : split_layout o2c 3 2 (o2_uniform_grid 3 2)).
  { split; [exact Hl|]. intros i e Hi. assert (i < 5)%nat by (change 5%nat with (3 + 2)%nat; rewrite <- Hl; apply nth_error_Some; congruence).
    destruct (i <? 3)%nat eqn:E.
    - apply Nat.ltb_lt in E. rewrite (H1 i E) in Hi. injection Hi as <-. reflexivity.
    - apply Nat.ltb_ge in E. replace i with (3 + (i - 3))%nat in Hi by lia. rewrite (H2 (i - 3)%nat) in Hi by lia. injection Hi as <-. reflexivity. }
  split; [exact L|]. split.
  - intros x Hx. apply In_nth_error in Hx as [i Hi]. pose proof (proj2 L i x Hi) as E. destruct (i <? 3)%nat; [left|right]; exact E.
  - split.
    + exists 1%Z. field.
    + unfold arc. replace (0 - PI) with (PI + 2 * PI * IZR (-1)) by (simpl; ring). pose proof PI_RGT_0.
      rewrite Rmod_shift by lra. rewrite Rmod_small by lra. rewrite Rmin_left by lra. reflexivity.
Qed.

(** C63: so2.random_grid returns one angle in [0, 2 pi) per draw, every such angle is returned for some draw, and an
    interval of angles is hit exactly by the draws of the proportional interval (so uniform draws give uniform angles). *)
Theorem C63_so2_random_grid :
  (forall us, (forall u, In u us -> 0 <= u < 1) ->
    List.length (so2_random_grid us) = List.length us /\ forall a, In a (so2_random_grid us) -> 0 <= a < 2 * PI) /\
  (forall a, 0 <= a < 2 * PI -> exists u, 0 <= u < 1 /\ so2_random_grid [u] = [a]) /\
  (forall u x y, 0 <= u < 1 -> 0 <= x -> x <= y -> y <= 2 * PI ->
    ((exists a, so2_random_grid [u] = [a] /\ x <= a < y) <-> x / (2 * PI) <= u < y / (2 * PI))).
Proof. exact (conj so2_random_valid (conj so2_random_onto so2_random_interval)). Qed.
Print Assumptions C63_so2_random_grid.

(** C63: one random O(2) element per pair of draws: coefficient 1 exactly when the second draw exceeds 1/2, and every
    element with an angle in [0, 2 pi) is returned for some draws. *)
Theorem C63_o2_random_grid :
  (forall u c, 0 <= u < 1 ->
    exists e, o2_random_grid [u] [c] = [e] /\ o2_wf e /\ 0 <= o2a e < 2 * PI /\ o2a e = 2 * PI * u /\ (o2c e = 1 <-> 1 / 2 < c)) /\
  (forall e, o2_wf e -> 0 <= o2a e < 2 * PI ->
    exists u c, 0 <= u < 1 /\ 0 <= c < 1 /\ o2_random_grid [u] [c] = [e]).
Proof. exact (conj o2_random_spec o2_random_onto). Qed.
Print Assumptions C63_o2_random_grid.

(** C63: every rotation (and every element of O(3)) is returned for some draw; only the direction of the normal draw
    matters; and rotating the draw rotates the result, so that a rotation-invariant draw gives an invariant element. *)
Theorem C63_so3_o3_random_cover :
  (forall r, isSO3 r -> exists draw, 0 < qdot draw draw /\ so3_random_matrix draw = r) /\
  (forall h, o3_wf h -> exists u draw, 0 <= u < 1 /\ 0 < qdot draw draw /\ o3_random u draw = h) /\
  (forall draw t, 0 < t ->
     so3_random_quat (mkQ (t * qw draw) (t * qx draw) (t * qy draw) (t * qz draw)) = so3_random_quat draw) /\
  (forall p draw, unitq p -> qdot (qmul p draw) (qmul p draw) = qdot draw draw /\
     so3_random_matrix (qmul p draw) = mul3 (so3_quat_to_matrix p) (so3_random_matrix draw)).
Proof.
  split; [exact so3_random_onto|]. split; [exact o3_random_onto|]. split; [exact so3_random_scale|].
  intros p draw Hp. split; [rewrite qdot_mul; unfold unitq in Hp; rewrite Hp; ring|]. apply random_mul_l. assumption.
Qed.
Print Assumptions C63_so3_o3_random_cover.
