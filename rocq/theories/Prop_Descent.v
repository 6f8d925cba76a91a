(** Property theorems C96: the backward pass of the repulsion on the sphere (s2.uniform_grid_s2) and what its steps do. *)
From Verif Require Import Prelude RMath Mat Repulse RepulseFacts S2 RepulseGrad RepulseGradSpec RepulseGradFacts.
Open Scope R_scope.

(** What autograd leaves in grid.grad is the gradient of the mean energy: for every number of points and every table of spherical coordinates, poles
    included, as long as no two points are exactly at the distance where the guard sets in. *)
Theorem C96_backward_is_the_gradient : forall (k n : nat) (x : rows), table n 2 x -> off_guard n x -> is_gradient n 2 (sphere_energy k) x (s2_backward k x).
Proof. exact backward_gradient. Qed.
Print Assumptions C96_backward_is_the_gradient.

(** A step of the library is a descent step: it moves against gradient plus noise, and if these two do not point in opposite half spaces, every step
    that is short enough lowers the energy. *)
Theorem C96_short_steps_descend : forall (k n steps : nat) (alpha : R) (noise : nat -> rows) (e : nat) (x : rows),
  table n 2 x -> off_guard n x -> table n 2 (noise e) ->
  0 < along n 2 (s2_backward k x) (moved n 2 (s2_backward k x) (noise e) ((INR steps - INR e) / INR steps * alpha)) ->
  exists lr0, 0 < lr0 /\ forall lr, 0 < lr < lr0 -> sphere_energy k (repulse_epoch steps lr alpha (s2_backward k) noise e x) < sphere_energy k x.
Proof. exact step_descends. Qed.
Print Assumptions C96_short_steps_descend.

(** Without noise: unless the gradient is zero. *)
Theorem C96_noise_free_steps_descend : forall (k n steps : nat) (noise : nat -> rows) (e : nat) (x : rows),
  table n 2 x -> off_guard n x -> table n 2 (noise e) ->
  (exists i c, (i < n)%nat /\ (c < 2)%nat /\ number (s2_backward k x) i c <> 0) ->
  exists lr0, 0 < lr0 /\ forall lr, 0 < lr < lr0 -> sphere_energy k (repulse_epoch steps lr 0 (s2_backward k) noise e x) < sphere_energy k x.
Proof.
  intros k n steps noise e x Hx Hg Hz (i & c & Hi & Hc & Hne). apply (step_descends k n); try assumption.
  rewrite Rmult_0_r, moved_0; [|destruct Hx as [<- _]; apply backward_table]. apply along_self. exists i, c. auto.
Qed.
Print Assumptions C96_noise_free_steps_descend.

(** Two points outside the guard always have a nonzero gradient, wherever they are on the sphere (also at the poles of the coordinates): every short
    noise-free step moves them apart. *)
Theorem C96_two_points_repel : forall (k steps : nat) (noise : nat -> rows) (e : nat) (x : rows),
  (1 <= k)%nat -> table 2 2 x -> table 2 2 (noise e) -> Rabs (cos_angle x 0 1) < 1 - / 10 ^ 7 ->
  exists lr0, 0 < lr0 /\ forall lr, 0 < lr < lr0 -> cos_angle (repulse_epoch steps lr 0 (s2_backward k) noise e x) 0 1 < cos_angle x 0 1.
Proof.
  intros k steps noise e x Hk Hx Hz Hc.
  assert (off_guard 2 x) as Hg.
  { intros i j Hi Hj Hne. assert (cos_angle x i j = cos_angle x 0 1) as -> by (destruct i as [|[|i]], j as [|[|j]]; try lia; [reflexivity|apply cos_angle_sym]). lra. }
  assert (table 2 2 (s2_backward k x)) as Hb by (pose proof (backward_table k x) as B; rewrite (proj1 Hx) in B; exact B).
  destruct (step_descends k 2 steps 0 noise e x Hx Hg Hz) as (lr0 & H0 & K).
  { rewrite Rmult_0_r, moved_0 by exact Hb. apply two_gradient_pos; assumption. }
  exists lr0. split; [exact H0|]. intros lr Hlr. specialize (K lr Hlr).
  rewrite !two_energy in K; [|apply Hx|apply (epoch_table 2 2); assumption].
  apply Rnot_le_lt. intros L. pose proof (pair_energy_le k _ _ Hk L). lra.
Qed.
Print Assumptions C96_two_points_repel.

(** Points within the guard (less than acos(1 - 1e-7), or more than pi minus that, away) do not repel each other: a point that is so placed with
    respect to all the others has gradient zero. *)
Theorem C96_guarded_points_do_not_repel : forall (k n : nat) (x : rows) (i : nat),
  table n 2 x -> (i < n)%nat -> (forall j, (j < n)%nat -> j <> i -> 1 - / 10 ^ 7 < Rabs (cos_angle x i j)) ->
  nth i (s2_backward k x) [] = [0; 0].
Proof. intros k n x i [Hn _] Hi H. rewrite (backward_row k n) by assumption. apply (stuck_point k n); assumption. Qed.
Print Assumptions C96_guarded_points_do_not_repel.

(** Hence two points with equal coordinates stay equal, after any number of steps of any length and whatever the others do, unless their noise
    differs. *)
Theorem C96_twins_stay_twins : forall (k n steps : nat) (lr alpha : R) (noise : nat -> rows) (in_place : bool) (x : rows) (i j : nat),
  table n 2 x -> (forall e, table n 2 (noise e)) -> (i < n)%nat -> (j < n)%nat -> nth i x [] = nth j x [] ->
  (alpha = 0 \/ forall e, nth i (noise e) [] = nth j (noise e) []) ->
  exists h l y, repulse steps lr alpha (s2_backward k) noise in_place [x] 0 = (h, l) /\ nth_error h l = Some y /\ nth i y [] = nth j y [].
Proof.
  intros k n steps lr alpha noise in_place x i j Hx Hz Hi Hj H Hn.
  pose proof (repulse_spec steps lr alpha (s2_backward k) noise in_place [x] 0 x eq_refl) as S.
  destruct (repulse steps lr alpha (s2_backward k) noise in_place [x] 0) as [h l]. destruct S as [S _].
  exists h, l, (final steps lr alpha (s2_backward k) noise x). split; [reflexivity|]. split; [exact S|]. clear S.
  unfold final. revert x Hx H. induction (seq 0 steps) as [|e es IH]; intros x Hx H; cbn [fold_left]; [exact H|].
  apply IH.
  - apply epoch_table; [exact Hx| |apply Hz]. destruct Hx as [<- _]. apply backward_table.
  - apply (twin_epoch k n); auto. destruct Hn as [Hn|Hn]; [left; exact Hn|right; apply Hn].
Qed.
Print Assumptions C96_twins_stay_twins.

(** But "Default of 0.1 works well" (s2.py:101) is not true of every grid: from some pair of points the default step, without noise, lands at a
    higher energy. *)
Theorem C96_defect_default_step_too_long : exists x : rows,
  table 2 2 x /\ off_guard 2 x /\
  forall (steps e : nat) (alpha : R) (noise : nat -> rows), noise e = [[0; 0]; [0; 0]] ->
    sphere_energy 2 x < sphere_energy 2 (repulse_epoch steps (/ 10) alpha (s2_backward 2) noise e x).
Proof.
  exists close_pair. split; [split; [reflexivity|intros [|[|i]] Hi; [reflexivity|reflexivity|lia]]|]. split.
  - intros i j Hi Hj Hne. assert (cos_angle close_pair i j = cos (9 / 10)) as ->.
    { destruct i as [|[|i]], j as [|[|j]]; try lia; [|rewrite cos_angle_sym]; exact close_pair_angle. }
    pose proof close_pair_cos. unfold hi7 in *. rewrite Rabs_right; lra.
  - intros steps e alpha noise Hz. apply close_pair_step. exact Hz.
Qed.
Print Assumptions C96_defect_default_step_too_long.

(** Non-vacuity: the pair above meets the hypotheses of the descent theorems, three coordinate axes those of the gradient theorem, and two
    equal points with a third one those of the twins. *)
Example C96_nonvacuous :
  (table 2 2 close_pair /\ Rabs (cos_angle close_pair 0 1) < 1 - / 10 ^ 7) /\
  (let axes := [[PI / 2; 0]; [PI / 2; PI / 2]; [0; 0]] in table 3 2 axes /\ off_guard 3 axes) /\
  (let twins := [[1; 2]; [1; 2]; [0; 0]] in table 3 2 twins /\ nth 0 twins [] = nth 1 twins []).
Proof.
  split; [|split].
  - split; [split; [reflexivity|intros [|[|i]] Hi; [reflexivity|reflexivity|lia]]|]. rewrite close_pair_angle. pose proof close_pair_cos. unfold hi7 in *. rewrite Rabs_right; lra.
  - split; [split; [reflexivity|intros [|[|[|i]]] Hi; [reflexivity|reflexivity|reflexivity|lia]]|].
    assert (forall i j, (i < 3)%nat -> (j < 3)%nat -> i <> j -> cos_angle [[PI / 2; 0]; [PI / 2; PI / 2]; [0; 0]] i j = 0) as Z.
    { assert (forall a, 0 - a = - a) as N by (intros; ring).
      intros [|[|[|i]]] [|[|[|j]]] Hi Hj Hne; try lia; unfold cos_angle, number; cbn [nth]; rewrite ?N, ?Rminus_0_r, ?cos_neg, ?sin_PI2, ?cos_PI2, ?sin_0, ?cos_0; ring. }
    intros i j Hi Hj Hne. rewrite Z by assumption. rewrite Rabs_R0. pose proof seven. lra.
  - split; [split; [reflexivity|intros [|[|[|i]]] Hi; [reflexivity|reflexivity|reflexivity|lia]]|reflexivity].
Qed.
