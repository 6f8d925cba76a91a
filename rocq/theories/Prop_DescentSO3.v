(** Property theorems C96, continued: the repulsion in general, and on SO(3) (so3.uniform_grid, so3.py:595-605). *)
From Verif Require Import Prelude RMath Mat SO3 Repulse RepulseFacts RepulseGrad RepulseGradSpec RepulseGradFacts RepulseGradSO3 RepulseGradSO3Facts RepulseGradSO3Step.
Open Scope R_scope.

(** Whatever the parameterization, the metric and the energy function: if what backward() leaves in grid.grad is the gradient, and the noise does not
    outweigh it, then every step of repulse that is short enough lowers the energy. *)
Theorem C96_gradient_steps_descend : forall (n d : nat) (energy : rows -> R) (grad : rows -> rows) (steps : nat) (alpha : R) (noise : nat -> rows) (e : nat) (x : rows),
  table n d x -> is_gradient n d energy x (grad x) -> table n d (noise e) ->
  0 < along n d (grad x) (moved n d (grad x) (noise e) ((INR steps - INR e) / INR steps * alpha)) ->
  exists lr0, 0 < lr0 /\ forall lr, 0 < lr < lr0 -> energy (repulse_epoch steps lr alpha grad noise e x) < energy x.
Proof. exact gradient_step. Qed.
Print Assumptions C96_gradient_steps_descend.

(** On SO(3), too, what autograd leaves in grid.grad is the gradient of the mean energy, through Euler angles, the thresholded rotation matrix, the
    quaternion formula chosen by the pivot, its normalisation, the absolute value and the guard: for every number of rotations and all Euler angles at
    which none of these branches is about to change. *)
Theorem C96_so3_backward_is_the_gradient : forall (k n : nat) (x : rows),
  table n 3 x -> general_position n x -> is_gradient n 3 (rotation_energy k) x (so3_backward k x).
Proof. exact so3_backward_gradient. Qed.
Print Assumptions C96_so3_backward_is_the_gradient.

Theorem C96_so3_short_steps_descend : forall (k n steps : nat) (alpha : R) (noise : nat -> rows) (e : nat) (x : rows),
  table n 3 x -> general_position n x -> table n 3 (noise e) ->
  0 < along n 3 (so3_backward k x) (moved n 3 (so3_backward k x) (noise e) ((INR steps - INR e) / INR steps * alpha)) ->
  exists lr0, 0 < lr0 /\ forall lr, 0 < lr < lr0 -> rotation_energy k (repulse_epoch steps lr alpha (so3_backward k) noise e x) < rotation_energy k x.
Proof. intros k n steps alpha noise e x Hx Hg. apply (gradient_step n 3); [exact Hx|apply so3_backward_gradient; assumption]. Qed.
Print Assumptions C96_so3_short_steps_descend.

Theorem C96_so3_noise_free_steps_descend : forall (k n steps : nat) (noise : nat -> rows) (e : nat) (x : rows),
  table n 3 x -> general_position n x -> table n 3 (noise e) ->
  (exists i c, (i < n)%nat /\ (c < 3)%nat /\ number (so3_backward k x) i c <> 0) ->
  exists lr0, 0 < lr0 /\ forall lr, 0 < lr < lr0 -> rotation_energy k (repulse_epoch steps lr 0 (so3_backward k) noise e x) < rotation_energy k x.
Proof.
  intros k n steps noise e x Hx Hg Hz H. apply (gradient_step n 3); [exact Hx|apply so3_backward_gradient; assumption|exact Hz|].
  rewrite Rmult_0_r, moved_0; [apply along_self, H|destruct Hx as [<- _]; apply so3_backward_table].
Qed.
Print Assumptions C96_so3_noise_free_steps_descend.

(** Rotations within the guard of each other do not repel each other. *)
Theorem C96_so3_guarded_elements_do_not_repel : forall (k n : nat) (x : rows) (i : nat),
  table n 3 x -> (i < n)%nat -> (forall j, (j < n)%nat -> j <> i -> 1 - / 10 ^ 7 < Rabs (qdot (quat_of x i) (quat_of x j))) ->
  nth i (so3_backward k x) [] = [0; 0; 0].
Proof. intros k n x i [Hn _] Hi H. apply (so3_stuck k n); assumption. Qed.
Print Assumptions C96_so3_guarded_elements_do_not_repel.

(** Rows with equal Euler angles stay equal, unless their noise differs. *)
Theorem C96_so3_twins_stay_twins : forall (k n steps : nat) (lr alpha : R) (noise : nat -> rows) (in_place : bool) (x : rows) (i j : nat),
  table n 3 x -> (forall e, table n 3 (noise e)) -> (i < n)%nat -> (j < n)%nat -> nth i x [] = nth j x [] ->
  (alpha = 0 \/ forall e, nth i (noise e) [] = nth j (noise e) []) ->
  exists h l y, repulse steps lr alpha (so3_backward k) noise in_place [x] 0 = (h, l) /\ nth_error h l = Some y /\ nth i y [] = nth j y [].
Proof.
  intros k n steps lr alpha noise in_place x i j Hx Hz Hi Hj H Hn.
  pose proof (repulse_spec steps lr alpha (so3_backward k) noise in_place [x] 0 x eq_refl) as S.
  destruct (repulse steps lr alpha (so3_backward k) noise in_place [x] 0) as [h l]. destruct S as [S _].
  exists h, l, (final steps lr alpha (so3_backward k) noise x). split; [reflexivity|]. split; [exact S|]. clear S.
  unfold final. revert x Hx H. induction (seq 0 steps) as [|e es IH]; intros x Hx H; cbn [fold_left]; [exact H|].
  apply IH.
  - apply epoch_table; [exact Hx| |apply Hz]. destruct Hx as [<- _]. apply so3_backward_table.
  - apply (so3_twin_epoch k n); auto. destruct Hn as [Hn|Hn]; [left; exact Hn|right; apply Hn].
Qed.
Print Assumptions C96_so3_twins_stay_twins.

(** A row of zeros (the identity rotation) has gradient zero wherever the others are, since the matrix entries that would move are masked as smaller than
    1e-6: without noise it stays for ever. *)
Theorem C96_so3_identity_does_not_move : forall (k n steps : nat) (lr : R) (noise : nat -> rows) (in_place : bool) (x : rows) (i : nat),
  table n 3 x -> (forall e, table n 3 (noise e)) -> (i < n)%nat -> nth i x [] = [0; 0; 0] ->
  exists h l y, repulse steps lr 0 (so3_backward k) noise in_place [x] 0 = (h, l) /\ nth_error h l = Some y /\ nth i y [] = [0; 0; 0].
Proof.
  intros k n steps lr noise in_place x i Hx Hz Hi H.
  pose proof (repulse_spec steps lr 0 (so3_backward k) noise in_place [x] 0 x eq_refl) as S.
  destruct (repulse steps lr 0 (so3_backward k) noise in_place [x] 0) as [h l]. destruct S as [S _].
  exists h, l, (final steps lr 0 (so3_backward k) noise x). split; [reflexivity|]. split; [exact S|]. clear S.
  unfold final. revert x Hx H. induction (seq 0 steps) as [|e es IH]; intros x Hx H; cbn [fold_left]; [exact H|].
  assert (table n 3 (so3_backward k x)) as Hb by (destruct Hx as [<- _]; apply so3_backward_table).
  apply IH; [apply epoch_table; [exact Hx|exact Hb|apply Hz]|].
  rewrite (row_list n 3); [|apply epoch_table; [exact Hx|exact Hb|apply Hz]|exact Hi]. cbn [seq map].
  rewrite !(epoch_number n 3) by (assumption || lia || apply Hz).
  assert (forall c, number (so3_backward k x) i c = nth c [0; 0; 0] 0) as G.
  { intros c. unfold number. rewrite (so3_backward_row k n) by (assumption || apply Hx). unfold euler_of, number. rewrite H. cbn [nth]. rewrite identity_stuck. reflexivity. }
  rewrite !G. unfold number. rewrite H. cbn [nth]. f_equal; [ring|]. f_equal; [ring|]. f_equal. ring.
Qed.
Print Assumptions C96_so3_identity_does_not_move.

(** But the default step of size n ** (1 / 3), said to be stable for n in [2, 1000] (so3.py:564-566), is not a descent step from every start, already
    for n = 2: from some pair of rotations it lands, without noise, at a higher energy. *)
Theorem C96_so3_defect_default_step_too_long : exists x : rows,
  table 2 3 x /\
  forall (steps e : nat) (alpha : R) (noise : nat -> rows), noise e = [[0; 0; 0]; [0; 0; 0]] ->
    rotation_energy 2 x < rotation_energy 2 (repulse_epoch steps (Rpower 2 (1 / 3)) alpha (so3_backward 2) noise e x).
Proof.
  exists far_pair. split; [split; [reflexivity|intros [|[|i]] Hi; [reflexivity|reflexivity|lia]]|].
  intros steps e alpha noise Hz. apply far_pair_step; [apply cube_root_two|exact Hz].
Qed.
Print Assumptions C96_so3_defect_default_step_too_long.

(** Non-vacuity: that pair is in general position and its gradient is not zero; two equal rotations with a third one, the identity. *)
Example C96_so3_nonvacuous :
  (table 2 3 far_pair /\ general_position 2 far_pair /\ number (so3_backward 2 far_pair) 0 0 <> 0) /\
  (let twins := [[1; 2; 3]; [1; 2; 3]; [0; 0; 0]] in table 3 3 twins /\ nth 0 twins [] = nth 1 twins []).
Proof.
  split; [|split; [split; [reflexivity|intros [|[|[|i]]] Hi; [reflexivity|reflexivity|reflexivity|lia]]|reflexivity]].
  split; [split; [reflexivity|intros [|[|i]] Hi; [reflexivity|reflexivity|lia]]|].
  pose proof PI_bounds as P. destruct far_pair_position as [[C0 U0] [C1 U1]]. pose proof six_pos. pose proof six_small. pose proof seven as S7. split.
  - assert (forall s, clear_of s ->
      (forall e, In e [a00; a01; a02; a10; a11; a12; a20; a21; a22] -> Rabs (e (so3_euler_entries (mkV3 s 0 0))) <> / 10 ^ 6) /\ so3_euler_to_matrix (mkV3 s 0 0) (/ 10 ^ 6) = zturn s) as K.
    { intros s C. split; [|rewrite flat_matrix; rewrite Rplus_0_r; [reflexivity|apply C|apply C]]. destruct C as [C S].
      rewrite flat_entries, Rplus_0_r. intros e He. cbn [In] in He. unfold zturn.
      repeat (destruct He as [<-|He]; [cbn [a00 a01 a02 a10 a11 a12 a20 a21 a22]; rewrite ?Rabs_Ropp, ?Rabs_R0, ?Rabs_R1; lra|]). destruct He. }
    assert (cos (- / 2) > 0) as P0 by (apply cos_gt_0; lra). assert (cos (5 / 2) < 0) as P1 by (apply cos_lt_0; lra).
    pose proof (COS_bound (- / 2)) as B0. pose proof (COS_bound (5 / 2)) as B1.
    split.
    + intros i Hi. unfold rotation_of. destruct i as [|[|i]]; [| |lia]; unfold euler_of, number, far_pair, two_turns; cbn [nth].
      * destruct (K _ C0) as [K1 K2]. split; [exact K1|]. exists 3%nat. split; [lia|]. rewrite K2. intros [|[|[|[|j]]]] Hj Hne; try lia; cbv zeta; unfold zturn; cbn [nth a00 a11 a22]; lra.
      * destruct (K _ C1) as [K1 K2]. split; [exact K1|]. exists 2%nat. split; [lia|]. rewrite K2. intros [|[|[|[|j]]]] Hj Hne; try lia; cbv zeta; unfold zturn; cbn [nth a00 a11 a22]; lra.
    + destruct (two_quats _ _ C0 U0 C1 U1) as [Q0 Q1]. fold far_pair in Q0, Q1.
      assert (forall i j, (i < 2)%nat -> (j < 2)%nat -> i <> j -> qdot (quat_of far_pair i) (quat_of far_pair j) = cos (3 / 2)) as KD.
      { intros [|[|i]] [|[|j]] Hi Hj Hne; try lia; rewrite Q0, Q1, half_dot; [|rewrite cos_half_sym]; f_equal; field. }
      intros i j Hi Hj Hne. rewrite (KD i j Hi Hj Hne). assert (0 < cos (3 / 2)) by (apply cos_gt_0; lra).
      assert (cos (3 / 2) < cos (PI / 3)) as Q by (apply cos_decreasing_1; lra). rewrite cos_PI3 in Q. split; [lra|]. rewrite Rabs_right; lra.
  - pose proof (two_turns_backward 2 _ _ C0 U0 C1 U1 ltac:(lra)) as B. cbv zeta in B. fold far_pair in B. rewrite B. unfold number. cbn [nth].
    replace (/ 2 ^ 2 * (INR 2 * PI ^ 2 / ((5 / 2 - - / 2) / 2) ^ 3) / 2) with (2 * (PI * PI) / 27) by (simpl; field). nra.
Qed.
