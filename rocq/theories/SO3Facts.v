(** Facts about the so3 model: axis rotations, quaternions, matrix_to_quat. *)
From Coq Require Import String Psatz.
From Verif Require Import Prelude RMath Mat Interp InterpFacts SO3.
Open Scope R_scope.

(** ** axis rotations (C14) *)
Ltac sc t := pose proof (sc1 t).
Ltac unf3 := unfold isSO3, isO3, det3, so3_matrix_x, so3_matrix_y, so3_matrix_z; cbn.

Lemma so3_matrix_x_SO3 t : isSO3 (so3_matrix_x t).
Proof. sc t. split; [split|]; [mext; cbn; lra|mext; cbn; lra|]; unfold det3; cbn; lra. Qed.
Lemma so3_matrix_y_SO3 t : isSO3 (so3_matrix_y t).
Proof. sc t. split; [split|]; [mext; cbn; lra|mext; cbn; lra|]; unfold det3; cbn; lra. Qed.
Lemma so3_matrix_z_SO3 t : isSO3 (so3_matrix_z t).
Proof. sc t. split; [split|]; [mext; cbn; lra|mext; cbn; lra|]; unfold det3; cbn; lra. Qed.

Lemma so3_matrix_x_add a b : mul3 (so3_matrix_x a) (so3_matrix_x b) = so3_matrix_x (a + b).
Proof. mext; cbn; rewrite ?cos_plus, ?sin_plus; ring. Qed.
Lemma so3_matrix_y_add a b : mul3 (so3_matrix_y a) (so3_matrix_y b) = so3_matrix_y (a + b).
Proof. mext; cbn; rewrite ?cos_plus, ?sin_plus; ring. Qed.
Lemma so3_matrix_z_add a b : mul3 (so3_matrix_z a) (so3_matrix_z b) = so3_matrix_z (a + b).
Proof. mext; cbn; rewrite ?cos_plus, ?sin_plus; ring. Qed.

Lemma so3_matrix_x_inv a : so3_matrix_inverse (so3_matrix_x a) = so3_matrix_x (- a).
Proof. unfold so3_matrix_inverse. mext; cbn; rewrite ?cos_neg, ?sin_neg; ring. Qed.
Lemma so3_matrix_y_inv a : so3_matrix_inverse (so3_matrix_y a) = so3_matrix_y (- a).
Proof. unfold so3_matrix_inverse. mext; cbn; rewrite ?cos_neg, ?sin_neg; ring. Qed.
Lemma so3_matrix_z_inv a : so3_matrix_inverse (so3_matrix_z a) = so3_matrix_z (- a).
Proof. unfold so3_matrix_inverse. mext; cbn; rewrite ?cos_neg, ?sin_neg; ring. Qed.

Lemma so3_matrix_x_axis a s : app3 (so3_matrix_x a) (mkV3 s 0 0) = mkV3 s 0 0.
Proof. mext; cbn; ring. Qed.
Lemma so3_matrix_y_axis a s : app3 (so3_matrix_y a) (mkV3 0 s 0) = mkV3 0 s 0.
Proof. mext; cbn; ring. Qed.
Lemma so3_matrix_z_axis a s : app3 (so3_matrix_z a) (mkV3 0 0 s) = mkV3 0 0 s.
Proof. mext; cbn; ring. Qed.

(** ** quat_to_matrix (C17) *)
Lemma q2m_mul p q : so3_quat_to_matrix (qmul p q) = mul3 (so3_quat_to_matrix p) (so3_quat_to_matrix q).
Proof. destruct p, q. mext; cbn; ring. Qed.

Lemma q2m_inv q : so3_quat_to_matrix (so3_quat_inverse q) = so3_matrix_inverse (so3_quat_to_matrix q).
Proof. destruct q. unfold so3_matrix_inverse. mext; cbn; ring. Qed.

Lemma q2m_scaled q :
  mul3 (tr3 (so3_quat_to_matrix q)) (so3_quat_to_matrix q) = scal3 (qdot q q * qdot q q) I3 /\
  mul3 (so3_quat_to_matrix q) (tr3 (so3_quat_to_matrix q)) = scal3 (qdot q q * qdot q q) I3 /\
  det3 (so3_quat_to_matrix q) = qdot q q * qdot q q * qdot q q.
Proof.
  destruct q. unfold qdot. split; [|split]; [mext; cbn; ring|mext; cbn; ring|].
  unfold det3; cbn; ring.
Qed.

Lemma scal3_1 A : scal3 1 A = A.
Proof. mext; ring. Qed.

Lemma q2m_SO3 q : unitq q -> isSO3 (so3_quat_to_matrix q).
Proof.
  unfold unitq. intros H. destruct (q2m_scaled q) as (H1 & H2 & H3).
  rewrite H, !Rmult_1_l in *. rewrite scal3_1 in H1, H2. repeat split; assumption.
Qed.

Lemma q2m_qneg q : so3_quat_to_matrix (qneg q) = so3_quat_to_matrix q.
Proof. destruct q. mext; cbn; ring. Qed.

Lemma q2m_qscal c q : so3_quat_to_matrix (qscal c q) = scal3 (c * c) (so3_quat_to_matrix q).
Proof. destruct q. mext; cbn; ring. Qed.

Lemma q2m_outer q : unitq q ->
  let m := so3_quat_to_matrix q in
  4 * (qw q * qw q) = 1 + a00 m + a11 m + a22 m /\
  4 * (qx q * qx q) = 1 + a00 m - a11 m - a22 m /\
  4 * (qy q * qy q) = 1 - a00 m + a11 m - a22 m /\
  4 * (qz q * qz q) = 1 - a00 m - a11 m + a22 m /\
  4 * (qw q * qx q) = a21 m - a12 m /\
  4 * (qw q * qy q) = a02 m - a20 m /\
  4 * (qw q * qz q) = a10 m - a01 m /\
  4 * (qx q * qy q) = a10 m + a01 m /\
  4 * (qx q * qz q) = a20 m + a02 m /\
  4 * (qy q * qz q) = a21 m + a12 m.
Proof.
  unfold unitq, qdot. destruct q as [w x y z]; cbn. intros H. repeat split; lra.
Qed.

Lemma q2m_inj p q : unitq p -> unitq q -> so3_quat_to_matrix p = so3_quat_to_matrix q ->
  p = q \/ p = qneg q.
Proof.
  intros Hp Hq HM. pose proof (q2m_outer p Hp) as P. pose proof (q2m_outer q Hq) as Q.
  rewrite HM in P. cbn zeta in P, Q.
  set (m := so3_quat_to_matrix q) in *. clearbody m.
  assert (D : qdot p q * qdot p q = 1).
  { unfold unitq, qdot in *. destruct p as [w x y z], q as [w' x' y' z']; cbn in *.
    destruct P as (P1 & P2 & P3 & P4 & P5 & P6 & P7 & P8 & P9 & P10).
    destruct Q as (Q1 & Q2 & Q3 & Q4 & Q5 & Q6 & Q7 & Q8 & Q9 & Q10).
    replace ((w * w' + x * x' + y * y' + z * z') * (w * w' + x * x' + y * y' + z * z'))
      with ((w*w)*(w'*w') + (x*x)*(x'*x') + (y*y)*(y'*y') + (z*z)*(z'*z')
            + 2 * ((w*x)*(w'*x') + (w*y)*(w'*y') + (w*z)*(w'*z')
            + (x*y)*(x'*y') + (x*z)*(x'*z') + (y*z)*(y'*z'))) by ring.
    replace (w * w) with (w' * w') by lra. replace (x * x) with (x' * x') by lra.
    replace (y * y) with (y' * y') by lra. replace (z * z) with (z' * z') by lra.
    replace (w * x) with (w' * x') by lra. replace (w * y) with (w' * y') by lra.
    replace (w * z) with (w' * z') by lra. replace (x * y) with (x' * y') by lra.
    replace (x * z) with (x' * z') by lra. replace (y * z) with (y' * z') by lra.
    transitivity ((w' * w' + x' * x' + y' * y' + z' * z') * (w' * w' + x' * x' + y' * y' + z' * z'));
      [ring|rewrite Hq; ring]. }
  assert (E : (qdot p q - 1) * (qdot p q + 1) = 0) by lra.
  apply Rmult_integral in E.
  assert (Z : forall a b c d : R, a * a + b * b + c * c + d * d = 0 -> a = 0 /\ b = 0 /\ c = 0 /\ d = 0).
  { intros a b c d H. repeat split; nra. }
  unfold unitq, qdot in *. destruct p as [w x y z], q as [w' x' y' z']; cbn in *.
  destruct E as [E|E].
  - left. destruct (Z (w - w') (x - x') (y - y') (z - z')) as (? & ? & ? & ?); [lra|].
    mext; lra.
  - right. destruct (Z (w + w') (x + x') (y + y') (z + z')) as (? & ? & ? & ?); [lra|].
    mext; lra.
Qed.

(** ** matrix_to_quat (C18) *)
Lemma argmax4_spec d0 d1 d2 d3 :
  match argmax4 d0 d1 d2 d3 with
  | 0%nat => d1 <= d0 /\ d2 <= d0 /\ d3 <= d0
  | 1%nat => d0 <= d1 /\ d2 <= d1 /\ d3 <= d1
  | 2%nat => d0 <= d2 /\ d1 <= d2 /\ d3 <= d2
  | 3%nat => d0 <= d3 /\ d1 <= d3 /\ d2 <= d3
  | _ => False
  end.
Proof.
  unfold argmax4. repeat destruct (Rle_dec _ _); lra.
Qed.

(** The largest of the four squared components times four. *)
Definition m2q_p (i : nat) (r : M3) : R :=
  let t := a00 r + a11 r + a22 r in
  match i with
  | 0%nat => 1 - t + 2 * a00 r
  | 1%nat => 1 - t + 2 * a11 r
  | 2%nat => 1 - t + 2 * a22 r
  | _ => 1 + t
  end.

Lemma m2q_p_ge1 r :
  1 <= m2q_p (argmax4 (a00 r) (a11 r) (a22 r) (a00 r + a11 r + a22 r)) r.
Proof.
  pose proof (argmax4_spec (a00 r) (a11 r) (a22 r) (a00 r + a11 r + a22 r)) as H.
  destruct (argmax4 _ _ _ _) as [|[|[|[|n]]]]; cbn in *; lra.
Qed.

Lemma m2q_pivot_norm i r : isSO3 r ->
  qdot (so3_m2q_pivot i r) (so3_m2q_pivot i r) = 4 * m2q_p i r.
Proof.
  intros H. pose proof (isO3_eqs r (proj1 H)) as HO. pose proof (isSO3_cofactor r H) as HC.
  destruct r as [x00 x01 x02 x10 x11 x12 x20 x21 x22]; cbn in *.
  destruct HO as (?&?&?&?&?&?&?&?&?&?&?&?). destruct HC as (?&?&?&?&?&?&?&?&?).
  unfold qdot, m2q_p. destruct i as [|[|[|n]]]; cbn; lra.
Qed.

Lemma m2q_pivot_matrix i r : isSO3 r ->
  so3_quat_to_matrix (so3_m2q_pivot i r) = scal3 (4 * m2q_p i r) r.
Proof.
  intros H. pose proof (isO3_eqs r (proj1 H)) as HO. pose proof (isSO3_cofactor r H) as HC.
  destruct r as [x00 x01 x02 x10 x11 x12 x20 x21 x22]; cbn in *.
  destruct HO as (?&?&?&?&?&?&?&?&?&?&?&?). destruct HC as (?&?&?&?&?&?&?&?&?).
  unfold m2q_p. destruct i as [|[|[|n]]]; mext; cbn; lra.
Qed.

Lemma qnormalize_scal q : qnormalize q = qscal (/ qnorm q) q.
Proof. unfold qnormalize. mext; unfold Rdiv; ring. Qed.

Lemma qnorm_sq q : qnorm q * qnorm q = qdot q q.
Proof. unfold qnorm. apply sqrt_sqrt. apply qdot_nonneg. Qed.

Lemma qnormalize_unit q : 0 < qdot q q -> unitq (qnormalize q).
Proof.
  intros H. assert (Hn : 0 < qnorm q) by (apply sqrt_lt_R0; assumption).
  rewrite qnormalize_scal. unfold unitq.
  replace (qdot (qscal (/ qnorm q) q) (qscal (/ qnorm q) q)) with (/ qnorm q * / qnorm q * qdot q q)
    by (unfold qdot; cbn; ring).
  rewrite <- qnorm_sq. field. lra.
Qed.

(** The divisor of so3.py:289 is never zero. *)
Lemma m2q_norm_pos r : isSO3 r ->
  2 <= qnorm (so3_m2q_pivot (argmax4 (a00 r) (a11 r) (a22 r) (a00 r + a11 r + a22 r)) r).
Proof.
  intros H. unfold qnorm. rewrite m2q_pivot_norm by assumption.
  pose proof (m2q_p_ge1 r). rewrite <- (sqrt_square 2) by lra. apply sqrt_le_1_alt. lra.
Qed.

Lemma m2q_unit r : isSO3 r -> unitq (so3_matrix_to_quat r).
Proof.
  intros H. apply qnormalize_unit. rewrite m2q_pivot_norm by assumption.
  pose proof (m2q_p_ge1 r). lra.
Qed.

Lemma m2q_right_inv r : isSO3 r -> so3_quat_to_matrix (so3_matrix_to_quat r) = r.
Proof.
  intros H. unfold so3_matrix_to_quat. rewrite qnormalize_scal, q2m_qscal.
  rewrite m2q_pivot_matrix by assumption.
  pose proof (m2q_norm_pos r H) as Hn. pose proof (qnorm_sq (so3_m2q_pivot (argmax4 (a00 r) (a11 r) (a22 r) (a00 r + a11 r + a22 r)) r)) as Hs.
  rewrite m2q_pivot_norm in Hs by assumption.
  set (i := argmax4 _ _ _ _) in *. rewrite <- Hs.
  set (n := qnorm _) in *. clearbody n. mext; field; lra.
Qed.

Lemma m2q_left_inv q : unitq q ->
  so3_matrix_to_quat (so3_quat_to_matrix q) = q \/
  so3_matrix_to_quat (so3_quat_to_matrix q) = qneg q.
Proof.
  intros H. pose proof (q2m_SO3 q H) as HS. apply q2m_inj.
  - apply m2q_unit; assumption.
  - assumption.
  - apply m2q_right_inv; assumption.
Qed.

Lemma so3_axis_sense t :
  app3 (so3_matrix_x t) (mkV3 0 1 0) = mkV3 0 (cos t) (sin t) /\
  app3 (so3_matrix_y t) (mkV3 0 0 1) = mkV3 (sin t) 0 (cos t) /\
  app3 (so3_matrix_z t) (mkV3 1 0 0) = mkV3 (cos t) (sin t) 0.
Proof. split; [|split]; mext; cbn; ring. Qed.

Lemma q2m_one : so3_quat_to_matrix qone = I3.
Proof. mext; cbn; ring. Qed.

Lemma q2m_scaled_rotation q : 0 < qdot q q ->
  exists A, isSO3 A /\ so3_quat_to_matrix q = scal3 (qdot q q) A.
Proof.
  intros H. exists (so3_quat_to_matrix (qnormalize q)).
  split; [apply q2m_SO3; apply qnormalize_unit; assumption|].
  rewrite qnormalize_scal, q2m_qscal. pose proof (qnorm_sq q) as E.
  assert (Hn : 0 < qnorm q) by (apply sqrt_lt_R0; assumption).
  rewrite <- E. mext; field; lra.
Qed.

Lemma q2m_same_iff p q : unitq p -> unitq q ->
  (so3_quat_to_matrix p = so3_quat_to_matrix q <-> p = q \/ p = qneg q).
Proof.
  intros Hp Hq. split; [apply q2m_inj; assumption|].
  intros [->| ->]; [reflexivity|apply q2m_qneg].
Qed.

Lemma q2m_conjugation q v :
  qmul (qmul q (mkQ 0 (vx v) (vy v) (vz v))) (qconj q) =
  let u := app3 (so3_quat_to_matrix q) v in mkQ 0 (vx u) (vy u) (vz u).
Proof. destruct q, v. mext; cbn; ring. Qed.

Lemma left_apply_quat_no_ok p q r : so3_left_apply_quat p q = Ok r -> False.
Proof. discriminate. Qed.
