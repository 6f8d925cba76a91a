(** Facts about the backward pass on SO(3): turns about the third axis, computed through; the identity; a step that is too long. *)
From Coq Require Import Machin.
From Verif Require Import Prelude RMath Mat SO3 SO3Facts Repulse RepulseFacts SepProduct RepulseGrad RepulseGradSpec RepulseGradFacts RepulseGradSO3 RepulseGradSO3Facts.
Open Scope R_scope.

(** ** Numbers *)
Lemma PI_bounds : 31 / 10 < PI < 32 / 10.
Proof. destruct (PI_2_3_7_ineq 1) as [L U]. cbn [Nat.mul Nat.add sum_f_R0] in L, U. unfold tg_alt, PI_2_3_7_tg, Ratan_seq in *. simpl in *. lra. Qed.
Lemma sin_away y : / 10 <= y <= PI - / 10 -> / 100 <= sin y.
Proof.
  intros H. pose proof PI_bounds as P.
  assert (/ 100 <= sin (/ 10)) as S.
  { destruct (pre_sin_bound (/ 10) 0) as [L _]; [lra|lra|]. cbn [Nat.mul Nat.add] in L. unfold sin_approx, sin_term in L. simpl in L. lra. }
  destruct (Rle_dec y (PI / 2)) as [Q|Q].
  - assert (sin (/ 10) <= sin y); [|lra]. apply sin_incr_1; lra.
  - rewrite <- (sin_PI_x y). assert (sin (/ 10) <= sin (PI - y)); [|lra]. apply sin_incr_1; lra.
Qed.

(** ** Turns about the third axis *)
Definition half (s : R) : Q4 := mkQ (cos (s / 2)) 0 0 (sin (s / 2)).
Lemma double s : cos s = cos (s / 2) * cos (s / 2) - sin (s / 2) * sin (s / 2) /\ sin s = 2 * (sin (s / 2) * cos (s / 2)) /\ sin (s / 2) * sin (s / 2) + cos (s / 2) * cos (s / 2) = 1.
Proof.
  pose proof (sin2_cos2 (s / 2)) as E. unfold Rsqr in E. split; [|split; [|exact E]].
  - replace s with (s / 2 + s / 2) at 1 by field. apply cos_plus.
  - replace s with (s / 2 + s / 2) at 1 by field. rewrite sin_plus. ring.
Qed.
Lemma half_matrix s : unitq (half s) /\ so3_quat_to_matrix (half s) = zturn s.
Proof.
  destruct (double s) as (C & S & E). split; [unfold unitq, half, qdot; cbn [qw qx qy qz]; lra|].
  unfold so3_quat_to_matrix, zturn, half. rewrite C, S. set (c := cos (s / 2)) in *. set (z := sin (s / 2)) in *. clearbody c z. f_equal; ring_simplify; try ring. nra.
Qed.
Lemma zturn_quat s : so3_matrix_to_quat (zturn s) = half s \/ so3_matrix_to_quat (zturn s) = qneg (half s).
Proof. destruct (half_matrix s) as [U <-]. apply m2q_left_inv, U. Qed.
Definition clear_of (s : R) : Prop := / 100 <= Rabs (cos s) /\ / 100 <= Rabs (sin s).
Lemma flat_inner a g a' g' : clear_of (a + g) -> clear_of (a' + g') ->
  Rabs (qdot (so3_euler_to_quat (mkV3 a 0 g) (/ 10 ^ 6)) (so3_euler_to_quat (mkV3 a' 0 g') (/ 10 ^ 6))) = Rabs (cos ((a' + g' - (a + g)) / 2)).
Proof.
  intros [C S] [C' S']. unfold so3_euler_to_quat. rewrite !flat_matrix by assumption. set (s := a + g). set (s' := a' + g').
  replace ((s' - s) / 2) with (s' / 2 - s / 2) by field. rewrite cos_minus.
  destruct (zturn_quat s) as [->| ->], (zturn_quat s') as [->| ->]; unfold qdot, half, qneg; cbn [qw qx qy qz]; [| | |];
    first [f_equal; ring | rewrite <- Rabs_Ropp; f_equal; ring].
Qed.
(** The two formulas that occur. *)
Lemma zturn_pivot_w s : 0 < cos s -> pivot (zturn s) = 3%nat.
Proof.
  intros H. unfold pivot, zturn. cbn [a00 a11 a22]. pose proof (COS_bound s). apply argmax4_largest. split; [lia|]. intros [|[|[|[|j]]]] Hj Hne; try lia; cbn [nth]; lra.
Qed.
Lemma zturn_pivot_z s : cos s < 0 -> pivot (zturn s) = 2%nat.
Proof.
  intros H. unfold pivot, zturn. cbn [a00 a11 a22]. pose proof (COS_bound s). apply argmax4_largest. split; [lia|]. intros [|[|[|[|j]]]] Hj Hne; try lia; cbn [nth]; lra.
Qed.
Definition scaled (m : R) (q : Q4) : Q4 := mkQ (m * qw q) (m * qx q) (m * qy q) (m * qz q).
Lemma scaled_norm m q : 0 < m -> unitq q -> qnorm (scaled m q) = m.
Proof.
  intros Hm U. unfold qnorm. replace (qdot (scaled m q) (scaled m q)) with (m * m * qdot q q) by (unfold qdot, scaled; cbn [qw qx qy qz]; ring).
  rewrite U, Rmult_1_r. apply sqrt_square. lra.
Qed.
Lemma scaled_normalize m q : 0 < m -> unitq q -> qnormalize (scaled m q) = q.
Proof. intros Hm U. unfold qnormalize. rewrite scaled_norm by assumption. destruct q as [w x y z]. unfold scaled. cbn [qw qx qy qz]. f_equal; field; lra. Qed.
Lemma zturn_w s : so3_m2q_pivot 3 (zturn s) = scaled (4 * cos (s / 2)) (half s).
Proof.
  destruct (double s) as (C & S & E). unfold so3_m2q_pivot, zturn, scaled, half. cbn [qw qx qy qz a00 a01 a02 a10 a11 a12 a20 a21 a22]. rewrite C, S.
  set (c := cos (s / 2)) in *. set (z := sin (s / 2)) in *. clearbody c z. f_equal; try ring. nra.
Qed.
Lemma zturn_z s : so3_m2q_pivot 2 (zturn s) = scaled (4 * sin (s / 2)) (half s).
Proof.
  destruct (double s) as (C & S & E). unfold so3_m2q_pivot, zturn, scaled, half. cbn [qw qx qy qz a00 a01 a02 a10 a11 a12 a20 a21 a22]. rewrite C, S.
  set (c := cos (s / 2)) in *. set (z := sin (s / 2)) in *. clearbody c z. f_equal; try ring. nra.
Qed.
Definition upper (s : R) : Prop := (0 < cos s /\ 0 < cos (s / 2)) \/ (cos s < 0 /\ 0 < sin (s / 2)).
Lemma flat_quat a g : clear_of (a + g) -> upper (a + g) -> so3_euler_to_quat (mkV3 a 0 g) (/ 10 ^ 6) = half (a + g).
Proof.
  intros [C S] H. unfold so3_euler_to_quat. rewrite flat_matrix by assumption. unfold so3_matrix_to_quat. fold (pivot (zturn (a + g))). destruct (half_matrix (a + g)) as [U _].
  destruct H as [[H1 H2]|[H1 H2]].
  - rewrite zturn_pivot_w, zturn_w by exact H1. apply scaled_normalize; [lra|exact U].
  - rewrite zturn_pivot_z, zturn_z by exact H1. apply scaled_normalize; [lra|exact U].
Qed.
Lemma thr_backward_big r : / 100 <= Rabs r -> thr_backward (/ 10 ^ 6) r = 1.
Proof.
  intros H. pose proof six_pos. pose proof six_small. unfold thr_backward. destruct (Rlt_dec (/ 10 ^ 6) r); [reflexivity|]. destruct (Rlt_dec r (- / 10 ^ 6)); [reflexivity|].
  exfalso. destruct (Rle_lt_dec 0 r); [rewrite Rabs_right in H by lra|rewrite Rabs_left in H by lra]; lra.
Qed.
Lemma thr_backward_zero : thr_backward (/ 10 ^ 6) 0 = 0.
Proof. pose proof six_pos. unfold thr_backward. destruct (Rlt_dec (/ 10 ^ 6) 0); [lra|]. destruct (Rlt_dec 0 (- / 10 ^ 6)); [lra|reflexivity]. Qed.
Lemma flat_backward a g w z : clear_of (a + g) -> upper (a + g) ->
  so3_angles_backward (mkV3 a 0 g) (/ 10 ^ 6) (mkQ w 0 0 z) =
  let t := (z * cos ((a + g) / 2) - w * sin ((a + g) / 2)) / 2 in [t; 0; t].
Proof.
  intros [C S] H. cbv zeta. unfold so3_angles_backward. rewrite flat_matrix by assumption. fold (pivot (zturn (a + g))). rewrite flat_entries.
  set (s := a + g) in *. destruct (half_matrix s) as [U _].
  assert (euler_d_alpha (mkV3 a 0 g) = mkM3 (- sin s) (- cos s) 0 (cos s) (- sin s) 0 0 0 0) as ->.
  { unfold euler_d_alpha, s. cbn [vx vy vz]. rewrite cos_0, sin_0, cos_plus, sin_plus. f_equal; ring. }
  assert (euler_d_gamma (mkV3 a 0 g) = mkM3 (- sin s) (- cos s) 0 (cos s) (- sin s) 0 0 0 0) as ->.
  { unfold euler_d_gamma, s. cbn [vx vy vz]. rewrite cos_0, sin_0, cos_plus, sin_plus. f_equal; ring. }
  assert (euler_d_beta (mkV3 a 0 g) = mkM3 0 0 (cos g) 0 0 (sin g) (- cos a) (sin a) 0) as ->.
  { unfold euler_d_beta. cbn [vx vy vz]. rewrite cos_0, sin_0. f_equal; ring. }
  destruct (double s) as (EC & ES & E1).
  assert (forall m, 0 < m -> normalize_backward (scaled m (half s)) (mkQ w 0 0 z) =
    mkQ (- sin (s / 2) * (z * cos (s / 2) - w * sin (s / 2)) / m) 0 0 (cos (s / 2) * (z * cos (s / 2) - w * sin (s / 2)) / m)) as NB.
  { intros m Hm. unfold normalize_backward. rewrite scaled_norm by assumption. unfold scaled, half, qdot. cbn [qw qx qy qz].
    set (c := cos (s / 2)) in *. set (d := sin (s / 2)) in *. clearbody c d.
    f_equal; [|field; lra|field; lra|].
    - transitivity ((w * 1 - (w * c + z * d) * c) / m); [field; lra|]. rewrite <- E1. field. lra.
    - transitivity ((z * 1 - (w * c + z * d) * d) / m); [field; lra|]. rewrite <- E1. field. lra. }
  unfold zturn, map3_2. cbn [a00 a01 a02 a10 a11 a12 a20 a21 a22]. rewrite (thr_backward_big (- sin s)) by (rewrite Rabs_Ropp; exact S). rewrite (thr_backward_big (sin s)) by exact S. rewrite (thr_backward_big (cos s)) by exact C. rewrite thr_backward_zero.
  fold (zturn s). destruct H as [[H1 H2]|[H1 H2]].
  - rewrite zturn_pivot_w, zturn_w by exact H1. rewrite NB by lra. unfold pivot_backward, dot9. cbn [qw qx qy qz a00 a01 a02 a10 a11 a12 a20 a21 a22].
    rewrite EC, ES. set (c := cos (s / 2)) in *. set (d := sin (s / 2)) in *. clearbody c d. set (t := z * c - w * d). clearbody t.
    assert (2 * (c * (c * c - d * d) + d * (2 * (d * c))) * t / (4 * c) = t / 2) as K.
    { transitivity (t * (d * d + c * c) / 2); [field; lra|]. rewrite E1. field. }
    f_equal; [rewrite <- K; field; lra|]. f_equal; [ring|]. f_equal. rewrite <- K. field. lra.
  - rewrite zturn_pivot_z, zturn_z by exact H1. rewrite NB by lra. unfold pivot_backward, dot9. cbn [qw qx qy qz a00 a01 a02 a10 a11 a12 a20 a21 a22].
    rewrite EC, ES. set (c := cos (s / 2)) in *. set (d := sin (s / 2)) in *. clearbody c d. set (t := z * c - w * d). clearbody t.
    assert (2 * (- d * (c * c - d * d) + c * (2 * (d * c))) * t / (4 * d) = t / 2) as K.
    { transitivity (t * (d * d + c * c) / 2); [field; lra|]. rewrite E1. field. }
    f_equal; [rewrite <- K; field; lra|]. f_equal; [ring|]. f_equal. rewrite <- K. field. lra.
Qed.

(** ** Two turns about the third axis *)
Lemma pair_backward_cos k th : / 10 <= th <= PI - / 10 -> pair_backward k (cos th) * sin th = INR k * PI ^ k / th ^ S k.
Proof.
  intros H. pose proof PI_bounds as P. pose proof seven as S7. pose proof (sin_away th H) as HS.
  assert (/ 10 ^ 7 < / 100000) as S8 by (apply Rinv_lt_contravar; simpl; lra).
  pose proof (sin2_cos2 th) as E. unfold Rsqr in E. pose proof (COS_bound th) as CB.
  assert (lo7 <= cos th <= hi7) as B.
  { unfold lo7, hi7. assert (cos th * cos th <= 1 - / 10000) as Q by nra. split; clear -Q S8 S7 CB; nra. }
  unfold pair_backward, clamp_backward. rewrite (clamp_id (cos th)) by exact B.
  destruct (Rle_dec lo7 (cos th)); [|lra]. destruct (Rle_dec (cos th) hi7); [|lra]. rewrite acos_cos by lra. unfold acos_backward, columb_backward.
  assert (sqrt (1 - cos th * cos th) = sin th) as ->.
  { replace (1 - cos th * cos th) with (sin th * sin th) by lra. apply sqrt_square. lra. }
  unfold Rdiv. rewrite Rpow_mult_distr. cbn [pow]. rewrite pow_inv. assert (th ^ k <> 0) by (apply pow_nonzero; lra). assert (PI ^ k <> 0) by (apply pow_nonzero; lra).
  generalize dependent (th ^ k). generalize dependent (PI ^ k). generalize (INR k). intros. field. repeat split; (assumption || lra).
Qed.
Definition two_turns (s0 s1 : R) : rows := [[s0; 0; 0]; [s1; 0; 0]].
Lemma two_quats s0 s1 : clear_of s0 -> upper s0 -> clear_of s1 -> upper s1 -> quat_of (two_turns s0 s1) 0 = half s0 /\ quat_of (two_turns s0 s1) 1 = half s1.
Proof.
  intros C0 U0 C1 U1. unfold quat_of, euler_of, number, two_turns. cbn [nth].
  rewrite <- (Rplus_0_r s0) in C0, U0. rewrite <- (Rplus_0_r s1) in C1, U1. rewrite !flat_quat by assumption. rewrite !Rplus_0_r. split; reflexivity.
Qed.
Lemma half_dot s s' : qdot (half s) (half s') = cos ((s' - s) / 2).
Proof. unfold half, qdot. cbn [qw qx qy qz]. replace ((s' - s) / 2) with (s' / 2 - s / 2) by field. rewrite cos_minus. ring. Qed.
Lemma cos_half_sym s s' : cos ((s - s') / 2) = cos ((s' - s) / 2).
Proof. rewrite <- cos_neg. f_equal. field. Qed.
Lemma two_turns_backward k s0 s1 : clear_of s0 -> upper s0 -> clear_of s1 -> upper s1 -> / 10 <= (s1 - s0) / 2 < PI / 2 ->
  let t := / 2 ^ k * (INR k * PI ^ k / ((s1 - s0) / 2) ^ S k) / 2 in so3_backward k (two_turns s0 s1) = [[t; 0; t]; [- t; 0; - t]].
Proof.
  intros C0 U0 C1 U1 H t. destruct (two_quats s0 s1 C0 U0 C1 U1) as [Q0 Q1]. pose proof PI_bounds as PB. set (x := two_turns s0 s1) in *.
  set (th := (s1 - s0) / 2) in *.
  assert (0 < cos th) as PC by (apply cos_gt_0; lra).
  set (G := / 2 ^ k * pair_backward k (cos th)).
  assert (G * sin th / 2 = t) as Gt. { unfold G, t. rewrite Rmult_assoc, pair_backward_cos by lra. reflexivity. }
  assert (so3_inner_grad k x 0 1 = G / 2 /\ so3_inner_grad k x 1 0 = G / 2) as [G01 G10].
  { rewrite !(so3_inner_grad_pair k 2) by reflexivity. rewrite Q0, Q1, !half_dot, (cos_half_sym s0 s1). fold th. rewrite Rabs_right by lra. unfold abs_backward. destruct (Rlt_dec 0 (cos th)); [|lra].
    fold G. cbn [Nat.mul Nat.sub Nat.add]. simpl INR. split; field. }
  unfold so3_backward. change (length x) with 2%nat. cbn [seq map].
  assert (so3_quat_grad k x 0 = mkQ (G * cos (s1 / 2)) 0 0 (G * sin (s1 / 2))) as ->.
  { unfold so3_quat_grad. change (length x) with 2%nat. cbn [seq filter Nat.eqb negb map sumR]. rewrite G01, G10. fold (euler_of x 1). fold (quat_of x 1). change (so3_euler_to_quat (mkV3 (nth 0 (nth 1 x []) 0) (nth 1 (nth 1 x []) 0) (nth 2 (nth 1 x []) 0)) (/ 10 ^ 6)) with (quat_of x 1). rewrite Q1. cbn [half qw qx qy qz]. f_equal; field. }
  assert (so3_quat_grad k x 1 = mkQ (G * cos (s0 / 2)) 0 0 (G * sin (s0 / 2))) as ->.
  { unfold so3_quat_grad. change (length x) with 2%nat. cbn [seq filter Nat.eqb negb map sumR]. rewrite G01, G10. change (so3_euler_to_quat (mkV3 (nth 0 (nth 0 x []) 0) (nth 1 (nth 0 x []) 0) (nth 2 (nth 0 x []) 0)) (/ 10 ^ 6)) with (quat_of x 0). rewrite Q0. cbn [half qw qx qy qz]. f_equal; field. }
  unfold x at 1 2 3 4 5 6, two_turns. cbn [nth].
  rewrite <- (Rplus_0_r s0) in C0, U0. rewrite <- (Rplus_0_r s1) in C1, U1. rewrite !flat_backward by assumption. cbv zeta. rewrite !Rplus_0_r.
  assert (sin th = sin (s1 / 2) * cos (s0 / 2) - cos (s1 / 2) * sin (s0 / 2)) as ET by (unfold th; replace ((s1 - s0) / 2) with (s1 / 2 - s0 / 2) by field; apply sin_minus).
  assert ((G * sin (s1 / 2) * cos (s0 / 2) - G * cos (s1 / 2) * sin (s0 / 2)) / 2 = t) as -> by (rewrite <- Gt, ET; field).
  assert ((G * sin (s0 / 2) * cos (s1 / 2) - G * cos (s0 / 2) * sin (s1 / 2)) / 2 = - t) as -> by (rewrite <- Gt, ET; field).
  reflexivity.
Qed.
Lemma two_rotation_energy k x : length x = 2%nat -> rotation_energy k x = / 2 ^ k * pair_energy k (Rabs (qdot (quat_of x 0) (quat_of x 1))).
Proof.
  intros H. rewrite (rotation_pairs k 2) by exact H. cbn [seq map others filter Nat.eqb negb sumR Nat.mul Nat.add Nat.sub].
  replace (qdot (quat_of x 1) (quat_of x 0)) with (qdot (quat_of x 0) (quat_of x 1)) by (unfold qdot; ring). simpl INR. field. apply pow_nonzero. lra.
Qed.

(** ** A step that is too long *)
Definition far_pair : rows := two_turns (- / 2) (5 / 2).
Lemma clear_sin s : / 10 <= s <= PI - / 10 -> / 10 <= Rabs (PI / 2 - s) -> clear_of s.
Proof.
  intros H K. pose proof PI_bounds. split.
  - rewrite <- Rtrigo1.sin_shift. destruct (Rle_lt_dec 0 (PI / 2 - s)).
    + rewrite Rabs_right in K by lra. pose proof (sin_away (PI / 2 - s) ltac:(lra)). rewrite Rabs_right; lra.
    + rewrite Rabs_left in K by lra. pose proof (sin_away (s - PI / 2) ltac:(lra)) as Q. replace (PI / 2 - s) with (- (s - PI / 2)) by ring. rewrite sin_neg, Rabs_Ropp. rewrite Rabs_right; lra.
  - pose proof (sin_away s H). rewrite Rabs_right; lra.
Qed.
Lemma clear_neg s : clear_of s -> clear_of (- s).
Proof. intros [A B]. split; [rewrite cos_neg|rewrite sin_neg, Rabs_Ropp]; assumption. Qed.
Lemma clear_plus_pi s : clear_of s -> clear_of (s + PI).
Proof. intros [A B]. split; [rewrite neg_cos, Rabs_Ropp|rewrite neg_sin, Rabs_Ropp]; assumption. Qed.
Lemma clear_0 s : clear_of s -> clear_of (s + 0). Proof. rewrite Rplus_0_r. exact (fun H => H). Qed.
Lemma far_pair_position : (clear_of (- / 2) /\ upper (- / 2)) /\ (clear_of (5 / 2) /\ upper (5 / 2)).
Proof.
  pose proof PI_bounds as P. split; split.
  - apply clear_neg, clear_sin; [lra|]. rewrite Rabs_right; lra.
  - left. split; apply cos_gt_0; lra.
  - apply clear_sin; [lra|]. rewrite Rabs_left; lra.
  - right. split; [apply cos_lt_0; lra|apply sin_gt_0; lra].
Qed.
Lemma far_pair_step (lr : R) (noise : nat -> rows) (e steps : nat) alpha : 125 / 100 <= lr <= 127 / 100 -> noise e = [[0; 0; 0]; [0; 0; 0]] ->
  rotation_energy 2 far_pair < rotation_energy 2 (repulse_epoch steps lr alpha (so3_backward 2) noise e far_pair).
Proof.
  intros Hlr Hz. pose proof PI_bounds as P. destruct far_pair_position as [[C0 U0] [C1 U1]]. pose proof seven as S7.
  pose proof (two_turns_backward 2 (- / 2) (5 / 2) C0 U0 C1 U1 ltac:(lra)) as B. cbv zeta in B. fold far_pair in B.
  set (t := / 2 ^ 2 * (INR 2 * PI ^ 2 / ((5 / 2 - - / 2) / 2) ^ 3) / 2) in B.
  assert (t = 2 * (PI * PI) / 27) as Et by (unfold t; simpl; field).
  set (L := lr * t). assert (88 / 100 < L < 97 / 100) as HL.
  { unfold L. rewrite Et. assert (961 / 100 < PI * PI < 1024 / 100) as Q by (split; nra). clear -Q Hlr. nra. }
  assert (repulse_epoch steps lr alpha (so3_backward 2) noise e far_pair = [[- / 2 - L; 0; - L]; [5 / 2 + L; 0; L]]) as ->.
  { assert (forall a b c d e' f, table 2 3 [[a; b; c]; [d; e'; f]]) as T by (intros; split; [reflexivity|intros [|[|i]] Hi; [reflexivity|reflexivity|lia]]).
    assert (table 2 3 (so3_backward 2 far_pair)) as Tb by (rewrite B; apply T). assert (table 2 3 (noise e)) as Tn by (rewrite Hz; apply T).
    apply (table_eq 2 3); [apply epoch_table; [apply T|exact Tb|exact Tn]|apply T|]. intros i c Hi Hc.
    rewrite (epoch_number 2 3) by (try apply T; assumption). rewrite B, Hz. unfold number, far_pair, two_turns, L.
    destruct i as [|[|i]]; [| |lia]; (destruct c as [|[|[|c]]]; [| | |lia]); cbn [nth]; ring. }
  rewrite !two_rotation_energy by reflexivity. apply Rmult_lt_compat_l; [apply Rinv_0_lt_compat, pow_lt; lra|]. apply pair_energy_lt; [lia|].
  destruct (two_quats (- / 2) (5 / 2) C0 U0 C1 U1) as [Q0 Q1]. fold far_pair in Q0, Q1. rewrite Q0, Q1, half_dot. replace ((5 / 2 - - / 2) / 2) with (3 / 2) by field.
  unfold quat_of, euler_of, number. cbn [nth]. rewrite flat_inner.
  2:{ replace (- / 2 - L + - L) with (- (/ 2 + 2 * L)) by ring. apply clear_neg, clear_sin; [lra|]. rewrite Rabs_left; lra. }
  2:{ replace (5 / 2 + L + L) with (5 / 2 + 2 * L - PI + PI) by ring. apply clear_plus_pi, clear_sin; [lra|]. rewrite Rabs_right; lra. }
  replace ((5 / 2 + L + L - (- / 2 - L + - L)) / 2) with (3 / 2 + 2 * L - PI + PI) by field. rewrite neg_cos, Rabs_Ropp.
  set (y := 3 / 2 + 2 * L - PI). assert (0 <= y < 14 / 10) as Hy by (unfold y; lra).
  assert (0 < cos (3 / 2)) by (apply cos_gt_0; lra). assert (0 < cos y) by (apply cos_gt_0; lra). rewrite !Rabs_right by lra.
  assert (cos (3 / 2) < cos y) as K by (apply cos_decreasing_1; lra).
  assert (cos (3 / 2) < hi7) as K2.
  { assert (cos (3 / 2) < cos (PI / 3)) as Q by (apply cos_decreasing_1; lra). rewrite cos_PI3 in Q. unfold hi7. lra. }
  rewrite (clamp_id (cos (3 / 2))) by (unfold lo7, hi7 in *; lra).
  destruct (Rle_dec (cos y) hi7); [rewrite clamp_id; [exact K|unfold lo7 in *; lra]|rewrite clamp_hi; [exact K2|unfold lo7, hi7 in *; lra|lra]].
Qed.
Lemma cube_root_two : 125 / 100 <= Rpower 2 (1 / 3) <= 127 / 100.
Proof.
  assert (0 < Rpower 2 (1 / 3)) as P by (unfold Rpower; apply exp_pos).
  assert (Rpower 2 (1 / 3) ^ 3 = 2) as E.
  { rewrite <- Rpower_pow by exact P. rewrite Rpower_mult. replace (1 / 3 * INR 3) with 1 by (simpl; field). apply Rpower_1. lra. }
  set (r := Rpower 2 (1 / 3)) in *. clearbody r. cbn [pow] in E. split; apply Rnot_lt_le; intros H.
  - assert (r * r < 125 / 100 * (125 / 100)) by nra. nra.
  - assert (127 / 100 * (127 / 100) < r * r) by nra. nra.
Qed.

(** ** The unturned element *)
Lemma identity_stuck q : so3_angles_backward (mkV3 0 0 0) (/ 10 ^ 6) q = [0; 0; 0].
Proof.
  assert (so3_euler_entries (mkV3 0 0 0) = mkM3 1 0 0 0 1 0 0 0 1) as E.
  { rewrite flat_entries, Rplus_0_r. unfold zturn. rewrite cos_0, sin_0, Ropp_0. reflexivity. }
  unfold so3_angles_backward. set (dm := pivot_backward _ _). clearbody dm. rewrite E. unfold map3_2. cbn [a00 a01 a02 a10 a11 a12 a20 a21 a22].
  rewrite thr_backward_zero, (thr_backward_big 1) by (rewrite Rabs_R1; lra).
  unfold euler_d_alpha, euler_d_beta, euler_d_gamma, dot9. cbn [vx vy vz a00 a01 a02 a10 a11 a12 a20 a21 a22]. rewrite cos_0, sin_0. f_equal; [ring|]. f_equal; [ring|]. f_equal. ring.
Qed.
