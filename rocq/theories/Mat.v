(** Small linear algebra used on both sides: [@] on 2x2 / 3x3 matrices and on vectors is
    torch.matmul on the trailing axes; orthogonality, determinants, Hamilton product and
    the Rodrigues formula are specification-only notions. *)
From Verif Require Import Prelude RMath.
Open Scope R_scope.

(** Models the trailing axis (axes) of the tensors of so2.py, s2.py, so3.py, o2.py, o3.py. *)
Record V2 := mkV2 { v2x : R; v2y : R }.
Record M2 := mkM2 { b00 : R; b01 : R; b10 : R; b11 : R }.
Record V3 := mkV3 { vx : R; vy : R; vz : R }.
Record M3 := mkM3 { a00 : R; a01 : R; a02 : R;
                    a10 : R; a11 : R; a12 : R;
                    a20 : R; a21 : R; a22 : R }.
Record Q4 := mkQ { qw : R; qx : R; qy : R; qz : R }.

(** *** 2x2 *)
(** Models torch.matmul at so2.py:146, 161; so3.py:424, 438, 452; o2.py:126-142; o3.py:63-124. *)
Definition mul2 (A B : M2) : M2 :=
  mkM2 (b00 A * b00 B + b01 A * b10 B) (b00 A * b01 B + b01 A * b11 B)
       (b10 A * b00 B + b11 A * b10 B) (b10 A * b01 B + b11 A * b11 B).
Definition app2 (A : M2) (v : V2) : V2 :=
  mkV2 (b00 A * v2x v + b01 A * v2y v) (b10 A * v2x v + b11 A * v2y v).
(** Models transpose(-1, -2), so2.py:78-88, so3.py:164-174. *)
Definition tr2 (A : M2) : M2 := mkM2 (b00 A) (b10 A) (b01 A) (b11 A).
(** Specification side only, see the head of the file (what so2.py, so3.py, o2.py, o3.py should compute). *)
Definition I2 : M2 := mkM2 1 0 0 1.
Definition det2 (A : M2) : R := b00 A * b11 A - b01 A * b10 A.
(** Models scalar multiplication and sums of o2.py:126-142, o3.py:63-124, so3.py:455-495. *)
Definition scal2 (c : R) (A : M2) : M2 := mkM2 (c * b00 A) (c * b01 A) (c * b10 A) (c * b11 A).
Definition scalv2 (c : R) (v : V2) : V2 := mkV2 (c * v2x v) (c * v2y v).
(** Specification side only, see the head of the file (what so2.py, so3.py, o2.py, o3.py should compute). *)
Definition dot2 (u v : V2) : R := v2x u * v2x v + v2y u * v2y v.
(** Models torch.linalg.norm / Tensor.norm, mask.py:18-20, 34-36; so3.py:498-514. *)
Definition norm2 (v : V2) : R := sqrt (dot2 v v).

(** *** 3x3 *)
(** Models torch.matmul at so2.py:146, 161; so3.py:424, 438, 452; o2.py:126-142; o3.py:63-124. *)
Definition mul3 (A B : M3) : M3 :=
  mkM3
    (a00 A * a00 B + a01 A * a10 B + a02 A * a20 B)
    (a00 A * a01 B + a01 A * a11 B + a02 A * a21 B)
    (a00 A * a02 B + a01 A * a12 B + a02 A * a22 B)
    (a10 A * a00 B + a11 A * a10 B + a12 A * a20 B)
    (a10 A * a01 B + a11 A * a11 B + a12 A * a21 B)
    (a10 A * a02 B + a11 A * a12 B + a12 A * a22 B)
    (a20 A * a00 B + a21 A * a10 B + a22 A * a20 B)
    (a20 A * a01 B + a21 A * a11 B + a22 A * a21 B)
    (a20 A * a02 B + a21 A * a12 B + a22 A * a22 B).
Definition app3 (A : M3) (v : V3) : V3 :=
  mkV3 (a00 A * vx v + a01 A * vy v + a02 A * vz v)
       (a10 A * vx v + a11 A * vy v + a12 A * vz v)
       (a20 A * vx v + a21 A * vy v + a22 A * vz v).
(** Models transpose(-1, -2), so2.py:78-88, so3.py:164-174. *)
Definition tr3 (A : M3) : M3 :=
  mkM3 (a00 A) (a10 A) (a20 A) (a01 A) (a11 A) (a21 A) (a02 A) (a12 A) (a22 A).
(** Specification side only, see the head of the file (what so2.py, so3.py, o2.py, o3.py should compute). *)
Definition I3 : M3 := mkM3 1 0 0 0 1 0 0 0 1.
Definition det3 (A : M3) : R :=
  a00 A * (a11 A * a22 A - a12 A * a21 A)
  - a01 A * (a10 A * a22 A - a12 A * a20 A)
  + a02 A * (a10 A * a21 A - a11 A * a20 A).
(** Models scalar multiplication and sums of o2.py:126-142, o3.py:63-124, so3.py:455-495. *)
Definition scal3 (c : R) (A : M3) : M3 :=
  mkM3 (c * a00 A) (c * a01 A) (c * a02 A) (c * a10 A) (c * a11 A) (c * a12 A)
       (c * a20 A) (c * a21 A) (c * a22 A).
Definition scalv3 (c : R) (v : V3) : V3 := mkV3 (c * vx v) (c * vy v) (c * vz v).
Definition add3 (A B : M3) : M3 :=
  mkM3 (a00 A + a00 B) (a01 A + a01 B) (a02 A + a02 B) (a10 A + a10 B) (a11 A + a11 B)
       (a12 A + a12 B) (a20 A + a20 B) (a21 A + a21 B) (a22 A + a22 B).
(** Specification side only, see the head of the file (what so2.py, so3.py, o2.py, o3.py should compute). *)
Definition dot3 (u v : V3) : R := vx u * vx v + vy u * vy v + vz u * vz v.
(** Models torch.linalg.norm / Tensor.norm, mask.py:18-20, 34-36; so3.py:498-514. *)
Definition norm3 (v : V3) : R := sqrt (dot3 v v).
(** Specification side only, see the head of the file (what so2.py, so3.py, o2.py, o3.py should compute). *)
Definition trace3 (A : M3) : R := a00 A + a11 A + a22 A.

(** Specification predicates. *)
(** Specification side only, see the head of the file (what so2.py, so3.py, o2.py, o3.py should compute). *)
Definition isSO2 (A : M2) : Prop := mul2 (tr2 A) A = I2 /\ mul2 A (tr2 A) = I2 /\ det2 A = 1.
Definition isO3 (A : M3) : Prop := mul3 (tr3 A) A = I3 /\ mul3 A (tr3 A) = I3.
Definition isSO3 (A : M3) : Prop := isO3 A /\ det3 A = 1.

(** *** quaternions *)
(** Specification side only, see the head of the file (what so2.py, so3.py, o2.py, o3.py should compute). *)
Definition qmul (p q : Q4) : Q4 :=
  mkQ (qw p * qw q - qx p * qx q - qy p * qy q - qz p * qz q)
      (qw p * qx q + qx p * qw q + qy p * qz q - qz p * qy q)
      (qw p * qy q - qx p * qz q + qy p * qw q + qz p * qx q)
      (qw p * qz q + qx p * qy q - qy p * qx q + qz p * qw q).
Definition qconj (q : Q4) : Q4 := mkQ (qw q) (- qx q) (- qy q) (- qz q).
Definition qneg (q : Q4) : Q4 := mkQ (- qw q) (- qx q) (- qy q) (- qz q).
Definition qscal (c : R) (q : Q4) : Q4 := mkQ (c * qw q) (c * qx q) (c * qy q) (c * qz q).
Definition qone : Q4 := mkQ 1 0 0 0.
Definition qdot (p q : Q4) : R := qw p * qw q + qx p * qx q + qy p * qy q + qz p * qz q.
(** Models torch.linalg.norm / Tensor.norm, mask.py:18-20, 34-36; so3.py:498-514. *)
Definition qnorm (q : Q4) : R := sqrt (qdot q q).
(** Specification side only, see the head of the file (what so2.py, so3.py, o2.py, o3.py should compute). *)
Definition unitq (q : Q4) : Prop := qdot q q = 1.

(** *** extensionality *)
Lemma M2_ext A B : b00 A = b00 B -> b01 A = b01 B -> b10 A = b10 B -> b11 A = b11 B -> A = B.
Proof. destruct A, B; simpl; intros; subst; reflexivity. Qed.
Lemma V2_ext u v : v2x u = v2x v -> v2y u = v2y v -> u = v.
Proof. destruct u, v; simpl; intros; subst; reflexivity. Qed.
Lemma M3_ext A B :
  a00 A = a00 B -> a01 A = a01 B -> a02 A = a02 B ->
  a10 A = a10 B -> a11 A = a11 B -> a12 A = a12 B ->
  a20 A = a20 B -> a21 A = a21 B -> a22 A = a22 B -> A = B.
Proof. destruct A, B; simpl; intros; subst; reflexivity. Qed.
Lemma V3_ext u v : vx u = vx v -> vy u = vy v -> vz u = vz v -> u = v.
Proof. destruct u, v; simpl; intros; subst; reflexivity. Qed.
Lemma Q4_ext p q : qw p = qw q -> qx p = qx q -> qy p = qy q -> qz p = qz q -> p = q.
Proof. destruct p, q; simpl; intros; subst; reflexivity. Qed.

Ltac mext := first [apply M3_ext | apply M2_ext | apply V3_ext | apply V2_ext | apply Q4_ext];
             cbn [b00 b01 b10 b11 v2x v2y vx vy vz a00 a01 a02 a10 a11 a12 a20 a21 a22
                  qw qx qy qz mul2 app2 tr2 I2 scal2 scalv2 mul3 app3 tr3 I3 scal3 scalv3 add3
                  qmul qconj qneg qscal qone].

Lemma mul2_assoc A B C : mul2 A (mul2 B C) = mul2 (mul2 A B) C.
Proof. mext; ring. Qed.
Lemma mul2_I_l A : mul2 I2 A = A.
Proof. mext; ring. Qed.
Lemma mul2_I_r A : mul2 A I2 = A.
Proof. mext; ring. Qed.
Lemma app2_mul A B v : app2 (mul2 A B) v = app2 A (app2 B v).
Proof. mext; ring. Qed.
Lemma app2_I v : app2 I2 v = v.
Proof. mext; ring. Qed.
Lemma det2_mul A B : det2 (mul2 A B) = det2 A * det2 B.
Proof. unfold det2, mul2; simpl; ring. Qed.

Lemma mul3_assoc A B C : mul3 A (mul3 B C) = mul3 (mul3 A B) C.
Proof. mext; ring. Qed.
Lemma mul3_I_l A : mul3 I3 A = A.
Proof. mext; ring. Qed.
Lemma mul3_I_r A : mul3 A I3 = A.
Proof. mext; ring. Qed.
Lemma app3_mul A B v : app3 (mul3 A B) v = app3 A (app3 B v).
Proof. mext; ring. Qed.
Lemma app3_I v : app3 I3 v = v.
Proof. mext; ring. Qed.
Lemma det3_mul A B : det3 (mul3 A B) = det3 A * det3 B.
Proof. unfold det3, mul3; simpl; ring. Qed.
Lemma det3_tr A : det3 (tr3 A) = det3 A.
Proof. unfold det3, tr3; simpl; ring. Qed.
Lemma tr3_mul A B : tr3 (mul3 A B) = mul3 (tr3 B) (tr3 A).
Proof. mext; ring. Qed.
Lemma tr3_tr3 A : tr3 (tr3 A) = A.
Proof. destruct A; reflexivity. Qed.
Lemma tr3_I : tr3 I3 = I3.
Proof. reflexivity. Qed.
Lemma det3_I : det3 I3 = 1.
Proof. unfold det3, I3; simpl; ring. Qed.
Lemma dot3_app_tr A u v : dot3 (app3 A u) v = dot3 u (app3 (tr3 A) v).
Proof. unfold dot3, app3, tr3; simpl; ring. Qed.
Lemma scal3_mul c d A B : mul3 (scal3 c A) (scal3 d B) = scal3 (c * d) (mul3 A B).
Proof. mext; ring. Qed.
Lemma det3_scal c A : det3 (scal3 c A) = c * c * c * det3 A.
Proof. unfold det3, scal3; simpl; ring. Qed.

Lemma isSO3_I : isSO3 I3.
Proof. repeat split; try (mext; ring). apply det3_I. Qed.

Lemma isSO3_mul A B : isSO3 A -> isSO3 B -> isSO3 (mul3 A B).
Proof.
  intros [[HA1 HA2] HA3] [[HB1 HB2] HB3]. split; [split|].
  - rewrite tr3_mul, <- mul3_assoc, (mul3_assoc (tr3 A)), HA1, mul3_I_l. assumption.
  - rewrite tr3_mul, <- mul3_assoc, (mul3_assoc B), HB2, mul3_I_l. assumption.
  - rewrite det3_mul, HA3, HB3. ring.
Qed.

Lemma isSO3_tr A : isSO3 A -> isSO3 (tr3 A).
Proof.
  intros [[HA1 HA2] HA3]. split; [split|].
  - rewrite tr3_tr3. assumption.
  - rewrite tr3_tr3. assumption.
  - rewrite det3_tr. assumption.
Qed.

Lemma isO3_isometry A u v : isO3 A -> dot3 (app3 A u) (app3 A v) = dot3 u v.
Proof.
  intros [HA _]. rewrite dot3_app_tr, <- app3_mul, HA, app3_I. reflexivity.
Qed.

Lemma isSO2_isometry A u v : isSO2 A -> dot2 (app2 A u) (app2 A v) = dot2 u v.
Proof.
  intros (HA & _ & _).
  assert (E : dot2 (app2 A u) (app2 A v) = dot2 u (app2 (mul2 (tr2 A) A) v)).
  { unfold dot2, app2, mul2, tr2; simpl; ring. }
  rewrite E, HA, app2_I. reflexivity.
Qed.

(** Orthogonality relations as scalar equations. *)
Lemma isO3_eqs A : isO3 A ->
  a00 A * a00 A + a10 A * a10 A + a20 A * a20 A = 1 /\
  a01 A * a01 A + a11 A * a11 A + a21 A * a21 A = 1 /\
  a02 A * a02 A + a12 A * a12 A + a22 A * a22 A = 1 /\
  a00 A * a01 A + a10 A * a11 A + a20 A * a21 A = 0 /\
  a00 A * a02 A + a10 A * a12 A + a20 A * a22 A = 0 /\
  a01 A * a02 A + a11 A * a12 A + a21 A * a22 A = 0 /\
  a00 A * a00 A + a01 A * a01 A + a02 A * a02 A = 1 /\
  a10 A * a10 A + a11 A * a11 A + a12 A * a12 A = 1 /\
  a20 A * a20 A + a21 A * a21 A + a22 A * a22 A = 1 /\
  a00 A * a10 A + a01 A * a11 A + a02 A * a12 A = 0 /\
  a00 A * a20 A + a01 A * a21 A + a02 A * a22 A = 0 /\
  a10 A * a20 A + a11 A * a21 A + a12 A * a22 A = 0.
Proof.
  intros [H1 H2]. unfold mul3, tr3, I3 in H1, H2; simpl in H1, H2.
  injection H1; injection H2; intros; repeat split; assumption.
Qed.

(** A rotation equals its cofactor matrix. *)
Lemma isSO3_cofactor A : isSO3 A ->
  a00 A = a11 A * a22 A - a12 A * a21 A /\
  a01 A = a12 A * a20 A - a10 A * a22 A /\
  a02 A = a10 A * a21 A - a11 A * a20 A /\
  a10 A = a02 A * a21 A - a01 A * a22 A /\
  a11 A = a00 A * a22 A - a02 A * a20 A /\
  a12 A = a01 A * a20 A - a00 A * a21 A /\
  a20 A = a01 A * a12 A - a02 A * a11 A /\
  a21 A = a02 A * a10 A - a00 A * a12 A /\
  a22 A = a00 A * a11 A - a01 A * a10 A.
Proof.
  intros [HO HD].
  set (C := mkM3 (a11 A * a22 A - a12 A * a21 A) (a12 A * a20 A - a10 A * a22 A)
                 (a10 A * a21 A - a11 A * a20 A)
                 (a02 A * a21 A - a01 A * a22 A) (a00 A * a22 A - a02 A * a20 A)
                 (a01 A * a20 A - a00 A * a21 A)
                 (a01 A * a12 A - a02 A * a11 A) (a02 A * a10 A - a00 A * a12 A)
                 (a00 A * a11 A - a01 A * a10 A)).
  assert (HC : mul3 (tr3 C) A = I3).
  { unfold det3 in HD. unfold C. mext; first [rewrite <- HD; ring | ring]. }
  destruct HO as [HO1 HO2].
  assert (HT : tr3 C = tr3 A).
  { rewrite <- (mul3_I_r (tr3 C)), <- HO2, mul3_assoc, HC, mul3_I_l. reflexivity. }
  assert (HE : A = C) by (rewrite <- (tr3_tr3 A), <- (tr3_tr3 C), HT; reflexivity).
  unfold C in HE. destruct A as [x00 x01 x02 x10 x11 x12 x20 x21 x22]. simpl in *.
  injection HE; intros; repeat split; assumption.
Qed.

(** *** quaternion algebra *)
Lemma qmul_assoc p q r : qmul p (qmul q r) = qmul (qmul p q) r.
Proof. mext; ring. Qed.
Lemma qmul_1_l q : qmul qone q = q.
Proof. mext; ring. Qed.
Lemma qmul_1_r q : qmul q qone = q.
Proof. mext; ring. Qed.
Lemma qdot_qmul_norm p q : qdot (qmul p q) (qmul p q) = qdot p p * qdot q q.
Proof. unfold qdot, qmul; simpl; ring. Qed.
Lemma qdot_qmul_l r p q : qdot (qmul r p) (qmul r q) = qdot r r * qdot p q.
Proof. unfold qdot, qmul; simpl; ring. Qed.
Lemma qdot_qmul_r r p q : qdot (qmul p r) (qmul q r) = qdot r r * qdot p q.
Proof. unfold qdot, qmul; simpl; ring. Qed.
Lemma qdot_sym p q : qdot p q = qdot q p.
Proof. unfold qdot; ring. Qed.
Lemma qmul_qconj q : qmul q (qconj q) = qscal (qdot q q) qone.
Proof. unfold qdot. mext; ring. Qed.
Lemma qdot_nonneg q : 0 <= qdot q q.
Proof. unfold qdot. nra. Qed.

(** Cauchy-Schwarz for unit quaternions. *)
Lemma qdot_unit_bound p q : unitq p -> unitq q -> -1 <= qdot p q <= 1.
Proof.
  unfold unitq. intros Hp Hq.
  assert (H1 : 0 <= qdot (mkQ (qw p - qw q) (qx p - qx q) (qy p - qy q) (qz p - qz q))
                         (mkQ (qw p - qw q) (qx p - qx q) (qy p - qy q) (qz p - qz q)))
    by apply qdot_nonneg.
  assert (H2 : 0 <= qdot (mkQ (qw p + qw q) (qx p + qx q) (qy p + qy q) (qz p + qz q))
                         (mkQ (qw p + qw q) (qx p + qx q) (qy p + qy q) (qz p + qz q)))
    by apply qdot_nonneg.
  unfold qdot in *; simpl in *. lra.
Qed.

(** Rodrigues: the rotation by angle |v| about v/|v| (identity for v = 0).
    Specification of the exponential map, independent of the code. *)
(** Specification side only, see the head of the file (what so2.py, so3.py, o2.py, o3.py should compute). *)
Definition hat (v : V3) : M3 := mkM3 0 (- vz v) (vy v) (vz v) 0 (- vx v) (- vy v) (vx v) 0.
Definition rodrigues (v : V3) : M3 :=
  let t := norm3 v in
  if Req_EM_T t 0 then I3
  else add3 I3 (add3 (scal3 (sin t / t) (hat v))
                     (scal3 ((1 - cos t) / (t * t)) (mul3 (hat v) (hat v)))).
