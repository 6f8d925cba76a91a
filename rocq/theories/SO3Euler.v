(** euler_to_matrix / matrix_to_euler (C19-C21). *)
From Coq Require Import Psatz.
From Verif Require Import Prelude RMath Mat SO3 SO3Facts.
Open Scope R_scope.

(** Specification: extrinsic ZYZ composition. *)
Definition ZYZ (g : V3) : M3 :=
  mul3 (so3_matrix_z (vz g)) (mul3 (so3_matrix_y (vy g)) (so3_matrix_z (vx g))).

Definition entries3 (A : M3) : list R :=
  [a00 A; a01 A; a02 A; a10 A; a11 A; a12 A; a20 A; a21 A; a22 A].
(** Largest entrywise difference at most e. *)
Definition close3 (e : R) (A B : M3) : Prop :=
  Forall2 (fun x y => Rabs (x - y) <= e) (entries3 A) (entries3 B).

Lemma euler_entries_ZYZ g : so3_euler_entries g = ZYZ g.
Proof. unfold ZYZ. mext; cbn; ring. Qed.

Lemma ZYZ_SO3 g : isSO3 (ZYZ g).
Proof.
  unfold ZYZ. repeat apply isSO3_mul;
  auto using so3_matrix_z_SO3, so3_matrix_y_SO3.
Qed.

Lemma thr_cases eps x :
  (Rabs x <= eps -> thr eps x = 0) /\ (eps < Rabs x -> thr eps x = x).
Proof.
  unfold thr. split; intros H.
  - apply Rabs_le_inv in H || (unfold Rabs in H; destruct (Rcase_abs x) in H).
    all: destruct (Rlt_dec eps x); [lra|destruct (Rlt_dec x (- eps)); [lra|ring]].
  - unfold Rabs in H. destruct (Rcase_abs x) in H;
    destruct (Rlt_dec eps x); try ring; destruct (Rlt_dec x (- eps)); try ring; lra.
Qed.

Lemma thr_close eps x : 0 <= eps -> Rabs (thr eps x - x) <= eps.
Proof.
  intros He. destruct (Rle_lt_dec (Rabs x) eps) as [H|H].
  - rewrite (proj1 (thr_cases eps x) H). rewrite <- Rabs_Ropp. replace (- (0 - x)) with x by ring.
    assumption.
  - rewrite (proj2 (thr_cases eps x) H). replace (x - x) with 0 by ring. rewrite Rabs_R0. assumption.
Qed.

Lemma thr_out eps x : 0 <= eps -> thr eps x = 0 \/ eps < Rabs (thr eps x).
Proof.
  intros He. destruct (Rle_lt_dec (Rabs x) eps) as [H|H].
  - left. apply (proj1 (thr_cases eps x) H).
  - right. rewrite (proj2 (thr_cases eps x) H). assumption.
Qed.

Lemma thr_exact eps x : (x = 0 \/ eps < Rabs x) -> thr eps x = x.
Proof.
  intros [->|H].
  - unfold thr. ring.
  - apply (proj2 (thr_cases eps x) H).
Qed.

Lemma euler_to_matrix_close g eps : 0 <= eps -> close3 eps (so3_euler_to_matrix g eps) (ZYZ g).
Proof.
  intros He. unfold so3_euler_to_matrix. rewrite euler_entries_ZYZ. unfold close3, entries3, map3.
  repeat apply Forall2_cons; try apply Forall2_nil;
    cbn [a00 a01 a02 a10 a11 a12 a20 a21 a22]; apply thr_close; assumption.
Qed.

Lemma euler_to_matrix_exact g eps :
  Forall (fun x => x = 0 \/ eps < Rabs x) (entries3 (ZYZ g)) ->
  so3_euler_to_matrix g eps = ZYZ g.
Proof.
  intros H. unfold so3_euler_to_matrix. rewrite euler_entries_ZYZ. unfold entries3 in H.
  repeat match goal with H : Forall _ (_ :: _) |- _ => inversion H; clear H; subst end.
  apply M3_ext; cbn [map3 a00 a01 a02 a10 a11 a12 a20 a21 a22]; apply thr_exact; assumption.
Qed.

Lemma euler_to_matrix_eps0 g : so3_euler_to_matrix g 0 = ZYZ g.
Proof.
  apply euler_to_matrix_exact. unfold entries3.
  assert (H : forall x : R, x = 0 \/ 0 < Rabs x).
  { intros x. destruct (Req_dec x 0); [left; assumption|right; apply Rabs_pos_lt; assumption]. }
  repeat apply Forall_cons; try apply Forall_nil; apply H.
Qed.

Lemma euler_to_matrix_no_small g eps : 0 <= eps ->
  Forall (fun x => x = 0 \/ eps < Rabs x) (entries3 (so3_euler_to_matrix g eps)).
Proof.
  intros He. unfold so3_euler_to_matrix, entries3.
  repeat apply Forall_cons; try apply Forall_nil; cbn [map3 a00 a01 a02 a10 a11 a12 a20 a21 a22]; apply thr_out; assumption.
Qed.

(** ** wrap *)
Lemma wrap_pi_range x : - PI <= x <= PI -> - PI <= wrap_pi x < PI.
Proof.
  intros H. unfold wrap_pi. pose proof PI_RGT_0.
  destruct (Rlt_dec x (- PI)); [lra|]. destruct (Rle_dec PI x); lra.
Qed.

Lemma wrap_pi_cos_sin x : cos (wrap_pi x) = cos x /\ sin (wrap_pi x) = sin x.
Proof.
  assert (P : forall y, cos (y + 2 * PI) = cos y /\ sin (y + 2 * PI) = sin y).
  { intros y. pose proof (cos_shift y 1). pose proof (sin_shift y 1).
    rewrite Rmult_1_r in *. split; assumption. }
  assert (M : forall y, cos (y - 2 * PI) = cos y /\ sin (y - 2 * PI) = sin y).
  { intros y. destruct (P (y - 2 * PI)) as [E1 E2].
    replace (y - 2 * PI + 2 * PI) with y in * by ring. split; congruence. }
  unfold wrap_pi. cbv zeta.
  destruct (Rlt_dec x (- PI)).
  - destruct (Rle_dec PI (x + 2 * PI)).
    + destruct (M (x + 2 * PI)), (P x). split; congruence.
    + apply P.
  - destruct (Rle_dec PI x); [apply M|split; reflexivity].
Qed.

Lemma ZYZ_wrap a b c : ZYZ (mkV3 (wrap_pi a) (wrap_pi b) (wrap_pi c)) = ZYZ (mkV3 a b c).
Proof.
  destruct (wrap_pi_cos_sin a) as [A1 A2], (wrap_pi_cos_sin b) as [B1 B2],
    (wrap_pi_cos_sin c) as [C1 C2].
  rewrite <- !euler_entries_ZYZ. unfold so3_euler_entries; cbn.
  rewrite A1, A2, B1, B2, C1, C2. reflexivity.
Qed.

(** ** reading the model on rotations *)
Lemma SO3_entry_bound r : isSO3 r -> -1 <= a22 r <= 1.
Proof.
  intros H. pose proof (isO3_eqs r (proj1 H)) as HO. destruct HO as (_&_&H2&_). nra.
Qed.

Lemma mt_entries r :
  so3_m2e_mt r = mkM3 (a11 r) (- a10 r) (a12 r) (- a01 r) (a00 r) (- a02 r)
                      (a21 r) (- a20 r) (clamp (a22 r) (-1) 1).
Proof.
  unfold so3_m2e_mt. cbn. f_equal; try ring. f_equal. ring.
Qed.

Definition m2e_beta (r : M3) : R := acos (a22 r).

Lemma mt_beta r : isSO3 r -> acos (a22 (so3_m2e_mt r)) = m2e_beta r.
Proof.
  intros H. rewrite mt_entries. cbn. rewrite clamp_id by (apply SO3_entry_bound; assumption).
  reflexivity.
Qed.

Lemma safe1_iff r eps : isSO3 r ->
  so3_m2e_safe1 r eps = if Rle_dec eps (m2e_beta r) then true else false.
Proof.
  intros H. unfold so3_m2e_safe1. rewrite mt_beta by assumption.
  rewrite Rabs_pos_eq by (apply acos_bound). reflexivity.
Qed.

Lemma safe2_iff r eps : isSO3 r ->
  so3_m2e_safe2 r eps = if Rle_dec eps (PI - m2e_beta r) then true else false.
Proof.
  intros H. unfold so3_m2e_safe2. rewrite mt_beta by assumption.
  rewrite Rabs_minus_sym, Rabs_pos_eq; [reflexivity|].
  pose proof (acos_bound (a22 r)). unfold m2e_beta. lra.
Qed.

(** The adjustment of so3.py:345-350 never fires: acos is in [0, PI]. *)
Lemma matrix_to_euler_eq r eps : isSO3 r -> 0 < eps < 1 ->
  so3_matrix_to_euler r eps =
  let b := m2e_beta r in
  if Rle_dec eps b then
    if Rle_dec eps (PI - b) then
      mkV3 (wrap_pi (atan2 (a21 r) (- a20 r))) (wrap_pi b) (wrap_pi (atan2 (a12 r) (a02 r)))
    else mkV3 (wrap_pi (- atan2 (- a01 r - a10 r) (a11 r - a00 r))) (wrap_pi b) 0
  else mkV3 (wrap_pi (atan2 (a10 r - a01 r) (a00 r + a11 r))) (wrap_pi b) 0.
Proof.
  intros H He. unfold so3_matrix_to_euler, so3_m2e_safe.
  rewrite safe1_iff, safe2_iff, mt_beta by assumption. rewrite mt_entries.
  cbn [a00 a01 a02 a10 a11 a12 a20 a21 a22].
  pose proof (acos_bound (a22 r)) as Hb. fold (m2e_beta r) in Hb.
  pose proof PI_RGT_0. pose proof PI2_1.
  assert (Ew : wrap_pi 0 = 0).
  { unfold wrap_pi. destruct (Rlt_dec 0 (- PI)); [lra|]. destruct (Rle_dec PI 0); lra. }
  destruct (Rlt_dec (m2e_beta r) 0); [lra|]. destruct (Rlt_dec PI (m2e_beta r)); [lra|].
  cbv zeta. cbn [andb].
  destruct (Rle_dec eps (m2e_beta r)); destruct (Rle_dec eps (PI - m2e_beta r)); cbn [andb];
    rewrite ?Ew.
  - f_equal; f_equal; f_equal; ring.
  - f_equal; f_equal; f_equal; f_equal; ring.
  - f_equal; f_equal; f_equal; ring.
  - exfalso. lra.
Qed.

Lemma sin_acos_sq x : -1 <= x <= 1 -> sin (acos x) * sin (acos x) = 1 - x * x.
Proof. intros H. pose proof (sc1 (acos x)). rewrite cos_acos in * by lra. lra. Qed.

(** Every rotation is ZYZ of its own angles: the safe formula with b = acos r22, sin b > 0. *)
Lemma safe_reproduces r : isSO3 r -> 0 < sin (m2e_beta r) ->
  ZYZ (mkV3 (atan2 (a21 r) (- a20 r)) (m2e_beta r) (atan2 (a12 r) (a02 r))) = r.
Proof.
  intros H Hs. pose proof (SO3_entry_bound r H) as Hb.
  pose proof (isO3_eqs r (proj1 H)) as HO. pose proof (isSO3_cofactor r H) as HC.
  pose proof (sin_acos_sq (a22 r) Hb) as S2. unfold m2e_beta in *.
  set (s := sin (acos (a22 r))) in *.
  destruct (atan2_polar (a21 r) (- a20 r)) as [A1 A2].
  destruct (atan2_polar (a12 r) (a02 r)) as [G1 G2].
  destruct HO as (O1&O2&O3&O4&O5&O6&O7&O8&O9&O10&O11&O12).
  assert (E1 : sqrt (- a20 r * - a20 r + a21 r * a21 r) = s).
  { rewrite <- (sqrt_square s) by lra. f_equal. lra. }
  assert (E2 : sqrt (a02 r * a02 r + a12 r * a12 r) = s).
  { rewrite <- (sqrt_square s) by lra. f_equal. lra. }
  cbv zeta in A1, A2, G1, G2. rewrite E1 in A1, A2. rewrite E2 in G1, G2.
  rewrite <- euler_entries_ZYZ. unfold so3_euler_entries. cbn [vx vy vz].
  rewrite cos_acos by assumption. fold s.
  set (ca := cos (atan2 (a21 r) (- a20 r))) in *. set (sa := sin (atan2 (a21 r) (- a20 r))) in *.
  set (cg := cos (atan2 (a12 r) (a02 r))) in *. set (sg := sin (atan2 (a12 r) (a02 r))) in *.
  clearbody s ca sa cg sg.
  destruct HC as (C1&C2&C3&C4&C5&C6&C7&C8&C9).
  assert (D : forall x y, s * s * x = s * s * y -> x = y).
  { intros x y E. apply Rmult_eq_reg_l with (s * s); [exact E|]. apply Rgt_not_eq, Rmult_lt_0_compat; exact Hs. }
  destruct r as [x00 x01 x02 x10 x11 x12 x20 x21 x22]. cbn [a00 a01 a02 a10 a11 a12 a20 a21 a22] in *.
  assert (x02 * x20 = x00 * x22 - x11) as K1 by (clear -C5; lra). assert (x12 * x21 = x11 * x22 - x00) as K2 by (clear -C1; lra).
  assert (x02 * x21 = x10 + x01 * x22) as K3 by (clear -C4; lra). assert (x12 * x20 = x01 + x10 * x22) as K4 by (clear -C2; lra).
  apply M3_ext; cbn [a00 a01 a02 a10 a11 a12 a20 a21 a22]; try lra.
  - apply D. replace (s * s * (ca * x22 * cg - sa * sg)) with ((s*ca)*(s*cg)*x22 - (s*sa)*(s*sg)) by ring.
    rewrite A1, A2, G1, G2, S2. transitivity (- (x02 * x20) * x22 - x12 * x21); [ring|]. rewrite K1, K2. ring.
  - apply D. replace (s * s * (- ca * sg - cg * x22 * sa)) with (-(s*ca)*(s*sg) - (s*cg)*(s*sa)*x22) by ring.
    rewrite A1, A2, G1, G2, S2. transitivity (x12 * x20 - (x02 * x21) * x22); [ring|]. rewrite K3, K4. ring.
  - apply D. replace (s * s * (cg * sa + x22 * ca * sg)) with ((s*cg)*(s*sa) + x22*(s*ca)*(s*sg)) by ring.
    rewrite A1, A2, G1, G2, S2. transitivity (x02 * x21 - x22 * (x12 * x20)); [ring|]. rewrite K3, K4. ring.
  - apply D. replace (s * s * (cg * ca - x22 * sa * sg)) with ((s*cg)*(s*ca) - x22*(s*sa)*(s*sg)) by ring.
    rewrite A1, A2, G1, G2, S2. transitivity (- (x02 * x20) - x22 * (x12 * x21)); [ring|]. rewrite K1, K2. ring.
Qed.

(** ** the gimbal zone *)
Lemma atan2_cos_sin k t : 0 < k ->
  cos (atan2 (k * sin t) (k * cos t)) = cos t /\ sin (atan2 (k * sin t) (k * cos t)) = sin t.
Proof.
  intros Hk. destruct (atan2_polar (k * sin t) (k * cos t)) as [H1 H2].
  assert (E : sqrt (k * cos t * (k * cos t) + k * sin t * (k * sin t)) = k).
  { replace (k * cos t * (k * cos t) + k * sin t * (k * sin t))
      with (k * k * (sin t * sin t + cos t * cos t)) by ring.
    rewrite sc1, Rmult_1_r. apply sqrt_square; lra. }
  cbv zeta in H1, H2. rewrite E in H1, H2. split; apply Rmult_eq_reg_l with k; lra.
Qed.

Lemma ZYZ_decomp r : isSO3 r -> exists a c, r = ZYZ (mkV3 a (m2e_beta r) c).
Proof.
  intros H. pose proof (SO3_entry_bound r H) as Hb.
  pose proof (acos_bound (a22 r)) as Ha. fold (m2e_beta r) in Ha.
  pose proof PI_RGT_0 as HPI.
  assert (Hs : 0 <= sin (m2e_beta r)) by (apply sin_ge_0; lra).
  destruct Hs as [Hs|Hs].
  - exists (atan2 (a21 r) (- a20 r)), (atan2 (a12 r) (a02 r)).
    symmetry. apply safe_reproduces; assumption.
  - pose proof (sin_acos_sq (a22 r) Hb) as S2. fold (m2e_beta r) in S2. rewrite <- Hs in S2.
    pose proof (isO3_eqs r (proj1 H)) as HO. pose proof (isSO3_cofactor r H) as HC.
    pose proof (cos_acos (a22 r) Hb) as HcB. fold (m2e_beta r) in HcB.
    destruct HO as (O1&O2&O3&O4&O5&O6&O7&O8&O9&O10&O11&O12).
    destruct HC as (C1&C2&C3&C4&C5&C6&C7&C8&C9).
    assert (Z02 : a02 r = 0) by (clear -O3 S2; nra). assert (Z12 : a12 r = 0) by (clear -O3 S2; nra).
    assert (Z20 : a20 r = 0) by (clear -O9 S2; nra). assert (Z21 : a21 r = 0) by (clear -O9 S2; nra).
    destruct (atan2_polar (a10 r) (a11 r)) as [A1 A2].
    assert (E1 : sqrt (a11 r * a11 r + a10 r * a10 r) = 1).
    { rewrite <- sqrt_1. f_equal. rewrite Z12 in O8. lra. }
    cbv zeta in A1, A2. rewrite E1, Rmult_1_l in A1, A2.
    exists (atan2 (a10 r) (a11 r)), 0.
    rewrite <- euler_entries_ZYZ. unfold so3_euler_entries. cbn [vx vy vz].
    rewrite HcB, <- Hs, cos_0, sin_0, A1, A2.
    rewrite Z02, Z12, Z20, Z21 in *.
    destruct r as [x00 x01 x02 x10 x11 x12 x20 x21 x22].
    cbn [a00 a01 a02 a10 a11 a12 a20 a21 a22] in *.
    apply M3_ext; cbn [a00 a01 a02 a10 a11 a12 a20 a21 a22]; lra.
Qed.

Lemma near0_formula a b c : 0 < 1 + cos b ->
  let r := ZYZ (mkV3 a b c) in
  ZYZ (mkV3 (atan2 (a10 r - a01 r) (a00 r + a11 r)) b 0) = ZYZ (mkV3 (a + c) b 0).
Proof.
  intros Hb r.
  assert (E1 : a10 r - a01 r = (1 + cos b) * sin (a + c)).
  { unfold r. rewrite <- euler_entries_ZYZ. cbn. rewrite sin_plus. ring. }
  assert (E2 : a00 r + a11 r = (1 + cos b) * cos (a + c)).
  { unfold r. rewrite <- euler_entries_ZYZ. cbn. rewrite cos_plus. ring. }
  rewrite E1, E2. destruct (atan2_cos_sin (1 + cos b) (a + c) Hb) as [F1 F2].
  rewrite <- !euler_entries_ZYZ. unfold so3_euler_entries. cbn [vx vy vz].
  rewrite F1, F2. reflexivity.
Qed.

Lemma nearpi_formula a b c : 0 < 1 - cos b ->
  let r := ZYZ (mkV3 a b c) in
  ZYZ (mkV3 (- atan2 (- a01 r - a10 r) (a11 r - a00 r)) b 0) = ZYZ (mkV3 (a - c) b 0).
Proof.
  intros Hb r.
  assert (E1 : - a01 r - a10 r = (1 - cos b) * sin (- (a - c))).
  { unfold r. rewrite <- euler_entries_ZYZ. cbn. rewrite sin_neg, sin_minus. ring. }
  assert (E2 : a11 r - a00 r = (1 - cos b) * cos (- (a - c))).
  { unfold r. rewrite <- euler_entries_ZYZ. cbn. rewrite cos_neg, cos_minus. ring. }
  rewrite E1, E2. destruct (atan2_cos_sin (1 - cos b) (- (a - c)) Hb) as [F1 F2].
  rewrite <- !euler_entries_ZYZ. unfold so3_euler_entries. cbn [vx vy vz].
  rewrite (cos_neg (atan2 _ _)), (sin_neg (atan2 _ _)), F1, F2, cos_neg, sin_neg, Ropp_involutive.
  reflexivity.
Qed.

Lemma sin_le_x x : 0 <= x -> sin x <= x.
Proof. intros [H|H]; [left; apply sin_lt_x; assumption|subst; rewrite sin_0; lra]. Qed.

Lemma one_minus_cos_le x : 0 <= x -> 1 - cos x <= x.
Proof.
  intros Hx.
  destruct (Rle_lt_dec x 2) as [H2|H2].
  - assert (E : 1 - cos x = 2 * (sin (x / 2) * sin (x / 2))).
    { replace x with (2 * (x / 2)) at 1 by field. rewrite cos_2a_sin. ring. }
    pose proof (sin_le_x (x / 2)). pose proof PI2_1.
    assert (0 <= sin (x / 2)) by (apply sin_ge_0; lra).
    pose proof (SIN_bound (x / 2)). rewrite E. nra.
  - pose proof (COS_bound x). lra.
Qed.

Lemma prod_bound a b k : -1 <= a <= 1 -> -1 <= b <= 1 -> 0 <= k -> - k <= a * b * k <= k.
Proof.
  intros Ha Hb Hk.
  assert (-1 <= a * b <= 1) by (split; nra). split; nra.
Qed.

Lemma near0_close a b c eps : 0 <= b < eps -> b <= PI ->
  close3 (2 * eps) (ZYZ (mkV3 (a + c) b 0)) (ZYZ (mkV3 a b c)).
Proof.
  intros Hb HbP. pose proof (sin_le_x b). pose proof (one_minus_cos_le b).
  assert (0 <= sin b) by (apply sin_ge_0; lra).
  pose proof (COS_bound b) as CB. pose proof (COS_bound a) as CA. pose proof (SIN_bound a) as SA.
  pose proof (COS_bound c) as CC. pose proof (SIN_bound c) as SC.
  pose proof (COS_bound (a + c)) as CD. pose proof (SIN_bound (a + c)) as SD.
  rewrite <- !euler_entries_ZYZ. unfold close3, entries3, so3_euler_entries.
  cbn [vx vy vz a00 a01 a02 a10 a11 a12 a20 a21 a22].
  rewrite cos_0, sin_0.
  assert (K : 0 <= 1 - cos b <= eps) by lra.
  assert (B1 : forall x y, -1 <= x <= 1 -> -1 <= y <= 1 -> Rabs (x * y * (1 - cos b)) <= 2 * eps).
  { intros x y Hx Hy. pose proof (prod_bound x y (1 - cos b) Hx Hy (proj1 K)).
    apply Rabs_le. lra. }
  assert (B2 : forall x, -2 <= x <= 2 -> Rabs (x * sin b) <= 2 * eps).
  { intros x Hx. apply Rabs_le. split; nra. }
  repeat apply Forall2_cons; try apply Forall2_nil.
  - rewrite cos_plus. replace (_ - _) with (sin a * sin c * (1 - cos b)) by ring. auto.
  - rewrite sin_plus. replace (_ - _) with (cos a * sin c * (1 - cos b)) by ring. auto.
  - replace (_ - _) with ((1 - cos c) * sin b) by ring. apply B2; lra.
  - rewrite sin_plus. replace (_ - _) with (cos a * sin c * (1 - cos b)) by ring. auto.
  - rewrite cos_plus. replace (_ - _) with (- sin a * sin c * (1 - cos b)) by ring. apply B1; lra.
  - replace (_ - _) with (- sin c * sin b) by ring. apply B2; lra.
  - replace (_ - _) with ((cos a - cos (a + c)) * sin b) by ring. apply B2; lra.
  - replace (_ - _) with ((sin (a + c) - sin a) * sin b) by ring. apply B2; lra.
  - replace (_ - _) with 0 by ring. rewrite Rabs_R0. lra.
Qed.

Lemma nearpi_close a b c eps : 0 <= PI - b < eps -> 0 <= b ->
  close3 (2 * eps) (ZYZ (mkV3 (a - c) b 0)) (ZYZ (mkV3 a b c)).
Proof.
  intros Hb HbP. pose proof (sin_le_x (PI - b)). pose proof (one_minus_cos_le (PI - b)).
  assert (0 <= sin b) by (apply sin_ge_0; lra).
  rewrite sin_PI_x in *. rewrite Rtrigo_facts.cos_pi_minus in *.
  pose proof (COS_bound b) as CB. pose proof (COS_bound a) as CA. pose proof (SIN_bound a) as SA.
  pose proof (COS_bound c) as CC. pose proof (SIN_bound c) as SC.
  pose proof (COS_bound (a - c)) as CD. pose proof (SIN_bound (a - c)) as SD.
  rewrite <- !euler_entries_ZYZ. unfold close3, entries3, so3_euler_entries.
  cbn [vx vy vz a00 a01 a02 a10 a11 a12 a20 a21 a22].
  rewrite cos_0, sin_0.
  assert (K : 0 <= 1 + cos b <= eps) by lra.
  assert (B1 : forall x y, -1 <= x <= 1 -> -1 <= y <= 1 -> Rabs (x * y * (1 + cos b)) <= 2 * eps).
  { intros x y Hx Hy. pose proof (prod_bound x y (1 + cos b) Hx Hy (proj1 K)).
    apply Rabs_le. lra. }
  assert (B2 : forall x, -2 <= x <= 2 -> Rabs (x * sin b) <= 2 * eps).
  { intros x Hx. apply Rabs_le. split; nra. }
  repeat apply Forall2_cons; try apply Forall2_nil.
  - rewrite cos_minus. replace (_ - _) with (sin a * sin c * (1 + cos b)) by ring. auto.
  - rewrite sin_minus. replace (_ - _) with (cos a * sin c * (1 + cos b)) by ring. auto.
  - replace (_ - _) with ((1 - cos c) * sin b) by ring. apply B2; lra.
  - rewrite sin_minus. replace (_ - _) with (- cos a * sin c * (1 + cos b)) by ring. apply B1; lra.
  - rewrite cos_minus. replace (_ - _) with (sin a * sin c * (1 + cos b)) by ring. apply B1; lra.
  - replace (_ - _) with (- sin c * sin b) by ring. apply B2; lra.
  - replace (_ - _) with ((cos a - cos (a - c)) * sin b) by ring. apply B2; lra.
  - replace (_ - _) with ((sin (a - c) - sin a) * sin b) by ring. apply B2; lra.
  - replace (_ - _) with 0 by ring. rewrite Rabs_R0. lra.
Qed.

(** ** matrix_to_euler as a whole *)
(** Polar angle of the image of the z axis. *)
Definition polar (r : M3) : R := acos (a22 r).

Lemma m2e_range r eps : isSO3 r -> 0 < eps < 1 ->
  let g := so3_matrix_to_euler r eps in
  (- PI <= vx g < PI) /\ (- PI <= vy g < PI) /\ (- PI <= vz g < PI).
Proof.
  intros H He g. unfold g. rewrite matrix_to_euler_eq by assumption.
  pose proof PI_RGT_0. pose proof (acos_bound (a22 r)) as Hb. fold (m2e_beta r) in Hb.
  cbv zeta. destruct (Rle_dec eps (m2e_beta r)); [destruct (Rle_dec eps (PI - m2e_beta r))|];
    cbn [vx vy vz]; repeat apply conj;
    try lra; apply wrap_pi_range;
    repeat match goal with |- context [atan2 ?y ?x] => pose proof (atan2_bounds y x); generalize dependent (atan2 y x); intros end; lra.
Qed.

Lemma m2e_safe r eps : isSO3 r -> 0 < eps < 1 -> eps <= polar r <= PI - eps ->
  ZYZ (so3_matrix_to_euler r eps) = r.
Proof.
  intros H He Hp. rewrite matrix_to_euler_eq by assumption. cbv zeta.
  unfold polar in Hp. fold (m2e_beta r) in Hp.
  destruct (Rle_dec eps (m2e_beta r)); [|lra]. destruct (Rle_dec eps (PI - m2e_beta r)); [|lra].
  rewrite ZYZ_wrap. apply safe_reproduces; [assumption|]. apply sin_gt_0; lra.
Qed.

Lemma m2e_zone r eps : isSO3 r -> 0 < eps < 1 -> ~ (eps <= polar r <= PI - eps) ->
  vz (so3_matrix_to_euler r eps) = 0 /\ close3 (2 * eps) (ZYZ (so3_matrix_to_euler r eps)) r.
Proof.
  intros H He Hp. rewrite matrix_to_euler_eq by assumption. cbv zeta.
  unfold polar in Hp. fold (m2e_beta r) in Hp.
  pose proof PI_RGT_0. pose proof PI2_1.
  pose proof (acos_bound (a22 r)) as Hb. fold (m2e_beta r) in Hb.
  destruct (ZYZ_decomp r H) as (a & c & Hr).
  assert (W0 : wrap_pi 0 = 0).
  { unfold wrap_pi. destruct (Rlt_dec 0 (- PI)); [lra|]. destruct (Rle_dec PI 0); lra. }
  set (b := m2e_beta r) in *. clearbody b.
  destruct (Rle_dec eps b).
  - destruct (Rle_dec eps (PI - b)); [lra|]. split; [reflexivity|].
    rewrite <- W0 at 1. rewrite ZYZ_wrap. rewrite Hr. rewrite nearpi_formula.
    + apply nearpi_close; lra.
    + assert (cos b < cos (PI / 2)) by (apply cos_decreasing_1; lra). rewrite cos_PI2 in *. lra.
  - split; [reflexivity|].
    rewrite <- W0 at 1. rewrite ZYZ_wrap. rewrite Hr. rewrite near0_formula.
    + apply near0_close; lra.
    + assert (cos (PI / 2) < cos b) by (apply cos_decreasing_1; lra). rewrite cos_PI2 in *. lra.
Qed.

Lemma m2e_locked r eps : isSO3 r -> 0 < eps < 1 -> (a22 r = 1 \/ a22 r = -1) ->
  ZYZ (so3_matrix_to_euler r eps) = r.
Proof.
  intros H He Hp. rewrite matrix_to_euler_eq by assumption. cbv zeta.
  pose proof PI_RGT_0. pose proof PI2_1.
  destruct (ZYZ_decomp r H) as (a & c & Hr).
  assert (W0 : wrap_pi 0 = 0).
  { unfold wrap_pi. destruct (Rlt_dec 0 (- PI)); [lra|]. destruct (Rle_dec PI 0); lra. }
  destruct Hp as [Hp|Hp].
  - assert (B : m2e_beta r = 0) by (unfold m2e_beta; rewrite Hp; apply acos_1).
    rewrite B in *. destruct (Rle_dec eps 0); [lra|].
    rewrite <- W0 at 2. rewrite ZYZ_wrap. rewrite Hr. rewrite near0_formula by (rewrite cos_0; lra).
    rewrite <- !euler_entries_ZYZ. unfold so3_euler_entries. cbn [vx vy vz].
    rewrite cos_0, sin_0, cos_plus, sin_plus. apply M3_ext; cbn; ring.
  - assert (B : m2e_beta r = PI) by (unfold m2e_beta; rewrite Hp; apply acos_opp || (rewrite <- (acos_cos PI) by lra; rewrite cos_PI; reflexivity)).
    rewrite B in *. destruct (Rle_dec eps PI); [|lra]. destruct (Rle_dec eps (PI - PI)); [lra|].
    rewrite <- W0 at 1. rewrite ZYZ_wrap. rewrite Hr. rewrite nearpi_formula by (rewrite cos_PI; lra).
    rewrite <- !euler_entries_ZYZ. unfold so3_euler_entries. cbn [vx vy vz].
    rewrite cos_PI, sin_PI, cos_0, sin_0, cos_minus, sin_minus. apply M3_ext; cbn; ring.
Qed.

(** A rotation strictly inside the zone that is not reproduced. *)
Lemma m2e_zone_wrong eps : 0 < eps < 1 ->
  let r := ZYZ (mkV3 0 (eps / 2) (PI / 2)) in
  isSO3 r /\ 0 < polar r < eps /\ ZYZ (so3_matrix_to_euler r eps) <> r.
Proof.
  intros He r. pose proof PI_RGT_0. pose proof PI2_1.
  assert (HS : isSO3 r) by apply ZYZ_SO3.
  assert (E22 : a22 r = cos (eps / 2)) by (unfold r; rewrite <- euler_entries_ZYZ; reflexivity).
  assert (HP : m2e_beta r = eps / 2).
  { unfold m2e_beta. rewrite E22. apply acos_cos. lra. }
  split; [assumption|]. split; [unfold polar; fold (m2e_beta r); lra|].
  rewrite matrix_to_euler_eq by assumption. cbv zeta. rewrite HP.
  destruct (Rle_dec eps (eps / 2)); [lra|].
  assert (W0 : wrap_pi 0 = 0).
  { unfold wrap_pi. destruct (Rlt_dec 0 (- PI)); [lra|]. destruct (Rle_dec PI 0); lra. }
  rewrite <- W0 at 1. rewrite ZYZ_wrap. unfold r.
  rewrite near0_formula.
  2:{ assert (cos (PI / 2) < cos (eps / 2)) by (apply cos_decreasing_1; lra). rewrite cos_PI2 in *. lra. }
  intros E. apply (f_equal a02) in E. rewrite <- !euler_entries_ZYZ in E. cbn in E.
  rewrite cos_0, cos_PI2 in E. assert (0 < sin (eps / 2)) by (apply sin_gt_0; lra). lra.
Qed.

(** ** warnings (C21) *)
Lemma safe_polar r eps : isSO3 r -> 0 < eps < 1 ->
  so3_m2e_safe r eps = true <-> eps <= polar r <= PI - eps.
Proof.
  intros H He. unfold so3_m2e_safe. rewrite safe1_iff, safe2_iff by assumption.
  unfold polar. fold (m2e_beta r).
  destruct (Rle_dec eps (m2e_beta r)), (Rle_dec eps (PI - m2e_beta r)); cbn; split; intros;
    try discriminate; try reflexivity; lra.
Qed.

Lemma warn_iff rs eps no_warn : Forall isSO3 rs -> 0 < eps < 1 ->
  snd (so3_matrix_to_euler_batch rs eps no_warn) = true <->
  no_warn = false /\ Forall (fun r => ~ (eps <= polar r <= PI - eps)) rs.
Proof.
  intros HF He. unfold so3_matrix_to_euler_batch. cbn [snd].
  rewrite andb_true_iff, !negb_true_iff.
  assert (E : existsb (fun r => so3_m2e_safe r eps) rs = false <->
              Forall (fun r => ~ (eps <= polar r <= PI - eps)) rs).
  { induction HF as [|r rs Hr HF IH]; cbn.
    - split; constructor.
    - rewrite orb_false_iff, IH, Forall_cons_iff.
      pose proof (safe_polar r eps Hr He) as S. rewrite <- S.
      destruct (so3_m2e_safe r eps); intuition congruence. }
  rewrite E. reflexivity.
Qed.

Lemma m2e_exact r eps : isSO3 r -> 0 < eps < 1 ->
  (eps <= polar r <= PI - eps \/ a22 r = 1 \/ a22 r = -1) ->
  ZYZ (so3_matrix_to_euler r eps) = r.
Proof. intros H He [Hp|Hp]; [apply m2e_safe|apply m2e_locked]; assumption. Qed.

Lemma m2e_examples :
  (isSO3 (so3_matrix_y 1) /\ / 2 <= polar (so3_matrix_y 1) <= PI - / 2) /\
  (isSO3 (so3_matrix_z 1) /\ a22 (so3_matrix_z 1) = 1).
Proof.
  pose proof PI2_1. split; split; auto using so3_matrix_y_SO3, so3_matrix_z_SO3.
  unfold polar. cbn. rewrite acos_cos by lra. lra.
Qed.

Lemma warn_missed eps : 0 < eps < 1 ->
  exists rs r, Forall isSO3 rs /\ In r rs /\ polar r = 0 /\
    snd (so3_matrix_to_euler_batch rs eps false) = false.
Proof.
  intros He. pose proof PI2_1. exists [I3; so3_matrix_y (PI / 2)], I3.
  assert (F : Forall isSO3 [I3; so3_matrix_y (PI / 2)]).
  { repeat apply Forall_cons; try apply Forall_nil; [apply isSO3_I|apply so3_matrix_y_SO3]. }
  split; [exact F|]. split; [left; reflexivity|].
  split; [unfold polar; cbn; apply acos_1|].
  apply not_true_iff_false. intros E. apply warn_iff in E; [|assumption|assumption].
  destruct E as [_ E]. rewrite Forall_forall in E.
  apply (E (so3_matrix_y (PI / 2)) (or_intror (or_introl eq_refl))).
  unfold polar. cbn. rewrite acos_cos by lra. lra.
Qed.
