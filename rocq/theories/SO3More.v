(** Geodesic distance, nearest neighbours, logarithms, cyclic groups, actions (C13, C15, C23-C26). *)
From Coq Require Import String Ascii Psatz Permutation Sorted.
From Verif Require Import Prelude RMath Mat Interp InterpFacts SO3 SO3Facts.
Open Scope R_scope.

(** ** geodesic distance (C23) *)
(** Specification: the rotation angle of a rotation matrix. *)
Definition rotation_angle (r : M3) : R := acos ((trace3 r - 1) / 2).

Lemma geo_sym p q eps : so3_geodesic_distance p q eps = so3_geodesic_distance q p eps.
Proof. unfold so3_geodesic_distance. rewrite qdot_sym. reflexivity. Qed.

Lemma geo_neg p q eps :
  so3_geodesic_distance (qneg p) q eps = so3_geodesic_distance p q eps /\
  so3_geodesic_distance p (qneg q) eps = so3_geodesic_distance p q eps.
Proof.
  unfold so3_geodesic_distance. split; f_equal; f_equal;
  rewrite <- Rabs_Ropp; f_equal; unfold qdot; cbn; ring.
Qed.

Lemma geo_rotations p p' q q' eps : unitq p -> unitq p' -> unitq q -> unitq q' ->
  so3_quat_to_matrix p = so3_quat_to_matrix p' -> so3_quat_to_matrix q = so3_quat_to_matrix q' ->
  so3_geodesic_distance p q eps = so3_geodesic_distance p' q' eps.
Proof.
  intros Hp Hp' Hq Hq' E1 E2.
  destruct (q2m_inj p p' Hp Hp' E1) as [->| ->]; destruct (q2m_inj q q' Hq Hq' E2) as [->| ->];
  rewrite ?(proj1 (geo_neg _ _ _)), ?(proj2 (geo_neg _ _ _)); reflexivity.
Qed.

Lemma geo_left p q g eps : unitq g ->
  so3_geodesic_distance (qmul g p) (qmul g q) eps = so3_geodesic_distance p q eps.
Proof.
  unfold unitq. intros H. unfold so3_geodesic_distance. rewrite qdot_qmul_l, H, Rmult_1_l. reflexivity.
Qed.

Lemma geo_right p q g eps : unitq g ->
  so3_geodesic_distance (qmul p g) (qmul q g) eps = so3_geodesic_distance p q eps.
Proof.
  unfold unitq. intros H. unfold so3_geodesic_distance. rewrite qdot_qmul_r, H, Rmult_1_l. reflexivity.
Qed.

Lemma geo_range p q eps : unitq p -> unitq q -> 0 < eps < 1 ->
  acos (1 - eps) <= so3_geodesic_distance p q eps <= PI / 2.
Proof.
  intros Hp Hq He. unfold so3_geodesic_distance.
  pose proof (clamp_bounds (Rabs (qdot p q)) (-1 + eps) (1 - eps)) as B.
  assert (0 <= clamp (Rabs (qdot p q)) (-1 + eps) (1 - eps)).
  { unfold clamp. apply Rmin_glb; [|lra]. eapply Rle_trans; [apply Rabs_pos|apply Rmax_l]. }
  split.
  - apply acos_decr_le; lra.
  - rewrite <- acos_0. apply acos_decr_le; lra.
Qed.

Lemma geo_self p eps : unitq p -> 0 < eps < 1 -> so3_geodesic_distance p p eps = acos (1 - eps).
Proof.
  unfold unitq. intros Hp He. unfold so3_geodesic_distance. rewrite Hp, Rabs_R1.
  rewrite clamp_hi by lra. reflexivity.
Qed.

Lemma acos_double x : 0 <= x <= 1 -> acos (2 * (x * x) - 1) = 2 * acos x.
Proof.
  intros Hx. rewrite <- (acos_cos (2 * acos x)).
  - f_equal. rewrite cos_2a_cos, cos_acos by lra. ring.
  - pose proof (acos_bound x). pose proof (acos_decr_le 0 x). rewrite acos_0 in *. lra.
Qed.

Lemma geo_angle p q eps : unitq p -> unitq q -> 0 < eps < 1 -> Rabs (qdot p q) <= 1 - eps ->
  2 * so3_geodesic_distance p q eps =
  rotation_angle (mul3 (so3_matrix_inverse (so3_quat_to_matrix p)) (so3_quat_to_matrix q)).
Proof.
  intros Hp Hq He Hd. unfold so3_geodesic_distance, rotation_angle.
  pose proof (Rabs_pos (qdot p q)).
  rewrite clamp_id by lra. rewrite <- acos_double by lra. f_equal.
  rewrite <- Rabs_mult, Rabs_pos_eq by nra.
  assert (E : trace3 (mul3 (so3_matrix_inverse (so3_quat_to_matrix p)) (so3_quat_to_matrix q))
              = 4 * (qdot p q * qdot p q) - qdot p p * qdot q q).
  { destruct p, q. unfold trace3, qdot; cbn. ring. }
  rewrite E. unfold unitq in Hp, Hq. rewrite Hp, Hq. lra.
Qed.

(** ** nearest neighbours (C24) *)
Lemma insertR_perm x l : Permutation (x :: l) (insertR x l).
Proof.
  induction l as [|y l IH]; cbn; [reflexivity|].
  destruct (Rle_dec x y); [reflexivity|].
  rewrite perm_swap. constructor. assumption.
Qed.

Lemma sortR_perm l : Permutation l (sortR l).
Proof.
  induction l as [|x l IH]; cbn; [reflexivity|].
  rewrite <- insertR_perm. constructor. assumption.
Qed.

Lemma insertR_sorted x l : StronglySorted Rle l -> StronglySorted Rle (insertR x l).
Proof.
  induction l as [|y l IH]; cbn; intros H.
  - repeat constructor.
  - inversion H as [|? ? HS HF]; subst. destruct (Rle_dec x y) as [E|E].
    + constructor; [assumption|]. constructor; [assumption|].
      eapply Forall_impl; [|exact HF]. cbn. intros; lra.
    + constructor; [apply IH; assumption|].
      eapply Permutation_Forall; [apply insertR_perm|]. constructor; [lra|assumption].
Qed.

Lemma sortR_sorted l : StronglySorted Rle (sortR l).
Proof. induction l; cbn; [constructor|apply insertR_sorted; assumption]. Qed.

(** Second smallest of a list whose element at the split point is a minimum. *)
Lemma sortR_second l1 d l2 m :
  (forall x, In x (l1 ++ l2) -> d <= x) ->
  nth_error (sortR (l1 ++ d :: l2)) 1 = Some m ->
  In m (l1 ++ l2) /\ forall x, In x (l1 ++ l2) -> m <= x.
Proof.
  intros Hd Hn. pose proof (sortR_perm (l1 ++ d :: l2)) as HP.
  pose proof (sortR_sorted (l1 ++ d :: l2)) as HS.
  destruct (sortR (l1 ++ d :: l2)) as [|s0 [|s1 rest]]; try discriminate.
  cbn in Hn. inversion Hn; subst. inversion HS as [|? ? HS1 HF]; subst.
  inversion HS1 as [|? ? HS2 HF1]; subst.
  assert (HP' : Permutation (d :: l1 ++ l2) (s0 :: m :: rest)).
  { etransitivity; [apply Permutation_middle|exact HP]. }
  assert (E : s0 = d).
  { apply Rle_antisym.
    - assert (In d (s0 :: m :: rest)) as [->|I]
        by (eapply Permutation_in; [exact HP'|left; reflexivity]); [lra|].
      rewrite Forall_forall in HF. apply HF; assumption.
    - assert (In s0 (d :: l1 ++ l2)) as [->|I]
        by (eapply Permutation_in; [symmetry; exact HP'|left; reflexivity]); [lra|].
      apply Hd; assumption. }
  subst s0. apply Permutation_cons_inv in HP'. split.
  - eapply Permutation_in; [symmetry; exact HP'|left; reflexivity].
  - intros x Hx. eapply Permutation_in in Hx; [|exact HP']. destruct Hx as [->|I]; [lra|].
    rewrite Forall_forall in HF1. apply HF1; assumption.
Qed.

Lemma so3_eps_range : 0 < so3_eps < 1.
Proof.
  unfold so3_eps. assert (0 < 10 ^ 7) by lra. split; [apply Rinv_0_lt_compat; lra|].
  rewrite <- Rinv_1. apply Rinv_lt_contravar; lra.
Qed.

Lemma so3_nn_spec q out : Forall unitq q ->
  so3_nearest_neighbour_distance q = Ok out ->
  List.length out = List.length q /\
  forall i a, nth_error q i = Some a ->
    exists m, nth_error out i = Some m /\
      (exists j b, j <> i /\ nth_error q j = Some b /\ m = so3_geodesic_distance a b so3_eps) /\
      (forall j b, j <> i -> nth_error q j = Some b -> m <= so3_geodesic_distance a b so3_eps).
Proof.
  intros HU H. unfold so3_nearest_neighbour_distance in H.
  destruct (Nat.ltb (List.length q) 2) eqn:L; [discriminate|].
  split; [apply mapM_length in H; assumption|].
  intros i a Hi. destruct (mapM_nth _ _ _ _ _ H Hi) as (m & Em & Hm).
  exists m. split; [assumption|].
  destruct (nth_error (sortR _) 1) as [m0|] eqn:E; cbn in Em; [|discriminate].
  injection Em as ->.
  pose proof Hi as Hsp. apply nth_error_split in Hsp. destruct Hsp as (q1 & q2 & Hq & Hl).
  rewrite Hq in E. rewrite map_app in E. cbn [map] in E.
  assert (UA : unitq a) by (rewrite Forall_forall in HU; apply HU; eapply nth_error_In; eauto).
  assert (UB : forall b, In b (q1 ++ q2) -> unitq b).
  { intros b Hb. rewrite Forall_forall in HU. apply HU. rewrite Hq.
    apply in_app_or in Hb. apply in_or_app. destruct Hb; [left|right; right]; assumption. }
  apply sortR_second in E.
  - rewrite <- map_app in E. destruct E as [E1 E2]. split.
    + apply in_map_iff in E1. destruct E1 as (b & Eb & Ib).
      apply in_app_or in Ib. destruct Ib as [Ib|Ib]; apply In_nth_error in Ib; destruct Ib as [k Hk].
      * exists k, b. pose proof (nth_error_Some_lt _ _ _ Hk).
        split; [lia|]. split; [|symmetry; exact Eb]. rewrite Hq, nth_error_app1 by assumption. assumption.
      * exists (S (List.length q1 + k)), b. split; [lia|]. split; [|symmetry; exact Eb].
        rewrite Hq, nth_error_app2 by lia.
        replace (S (List.length q1 + k) - List.length q1)%nat with (S k) by lia. assumption.
    + intros j b Hj Hb. apply E2. apply in_map_iff. exists b. split; [reflexivity|].
      rewrite Hq in Hb. apply in_or_app.
      destruct (Nat.lt_ge_cases j (List.length q1)) as [Lj|Lj].
      * left. rewrite nth_error_app1 in Hb by assumption. eapply nth_error_In; eauto.
      * right. rewrite nth_error_app2 in Hb by assumption.
        destruct (j - List.length q1)%nat as [|k] eqn:Ek; [lia|]. cbn in Hb.
        eapply nth_error_In; eauto.
  - intros x Hx. rewrite <- map_app in Hx. apply in_map_iff in Hx. destruct Hx as (b & <- & Ib).
    rewrite geo_self by (try assumption; apply so3_eps_range).
    apply geo_range; auto using so3_eps_range.
Qed.

Lemma so3_nn_total q : (2 <= List.length q)%nat -> exists out, so3_nearest_neighbour_distance q = Ok out.
Proof.
  intros H. unfold so3_nearest_neighbour_distance.
  destruct (Nat.ltb_spec (List.length q) 2); [lia|].
  apply mapM_ok_all. intros a _.
  destruct (nth_error (sortR (map (fun b => so3_geodesic_distance a b so3_eps) q)) 1) as [m|] eqn:E.
  - exists m. reflexivity.
  - exfalso. apply nth_error_None in E.
    rewrite <- (Permutation_length (sortR_perm _)), map_length in E. lia.
Qed.

Lemma so3_nn_short q : (List.length q < 2)%nat -> so3_nearest_neighbour_distance q = Err IndexError.
Proof.
  intros H. unfold so3_nearest_neighbour_distance.
  destruct (Nat.ltb_spec (List.length q) 2); [reflexivity|lia].
Qed.

(** ** so3_log (C25) *)
Definition axial (r : M3) : V3 := mkV3 (a21 r - a12 r) (a02 r - a20 r) (a10 r - a01 r).

Lemma axial_norm r : isSO3 r -> dot3 (axial r) (axial r) = (1 + trace3 r) * (3 - trace3 r).
Proof.
  intros H. pose proof (isO3_eqs r (proj1 H)) as HO. pose proof (isSO3_cofactor r H) as HC.
  destruct r as [x00 x01 x02 x10 x11 x12 x20 x21 x22]; cbn in *.
  destruct HO as (?&?&?&?&?&?&?&?&?&?&?&?). destruct HC as (?&?&?&?&?&?&?&?&?).
  unfold dot3, trace3, axial; cbn. lra.
Qed.

Lemma axial_sq r : isSO3 r ->
  mul3 (hat (axial r)) (hat (axial r)) =
  scal3 (1 + trace3 r) (add3 (add3 r (tr3 r)) (scal3 (-2) I3)).
Proof.
  intros H. pose proof (isO3_eqs r (proj1 H)) as HO. pose proof (isSO3_cofactor r H) as HC.
  destruct r as [x00 x01 x02 x10 x11 x12 x20 x21 x22]; cbn in *.
  destruct HO as (?&?&?&?&?&?&?&?&?&?&?&?). destruct HC as (?&?&?&?&?&?&?&?&?).
  unfold trace3, axial. mext; cbn; lra.
Qed.

Lemma so3_log_eq r eps : 0 < eps < 1 ->
  so3_log r eps =
  let theta := acos (clamp ((trace3 r - 1) / 2) (-1 + eps) (1 - eps)) in
  scalv3 (theta / (2 * sin theta)) (axial r).
Proof.
  intros He. unfold so3_log. change (a00 r + a11 r + a22 r) with (trace3 r). cbv zeta.
  pose proof (clamp_bounds ((trace3 r - 1) / 2) (-1 + eps) (1 - eps)) as B.
  set (x := clamp _ _ _) in *.
  assert (Hx : -1 <= x <= 1) by lra.
  destruct (Req_EM_T (acos x) 0) as [E|E].
  { exfalso. apply (f_equal cos) in E. rewrite cos_acos, cos_0 in E by assumption. lra. }
  destruct (Req_EM_T (acos x) PI) as [E'|E'].
  { exfalso. apply (f_equal cos) in E'. rewrite cos_acos, cos_PI in E' by assumption. lra. }
  assert (Hs : 0 < sin (acos x)).
  { pose proof (acos_bound x). apply sin_gt_0; lra. }
  unfold axial. mext; field; lra.
Qed.

Lemma so3_log_in_range r eps : isSO3 r -> 0 < eps < 1 ->
  -1 + eps <= (trace3 r - 1) / 2 <= 1 - eps ->
  norm3 (so3_log r eps) = rotation_angle r /\ rodrigues (so3_log r eps) = r.
Proof.
  intros H He Hr. rewrite so3_log_eq by assumption. cbv zeta. rewrite clamp_id by assumption.
  fold (rotation_angle r). set (t := rotation_angle r).
  assert (Hc : cos t = (trace3 r - 1) / 2) by (unfold t, rotation_angle; apply cos_acos; lra).
  assert (Ht : 0 < t < PI).
  { pose proof (acos_bound ((trace3 r - 1) / 2)) as B. fold (rotation_angle r) in B. fold t in B.
    split.
    - destruct B as [[B|B] _]; [assumption|]. rewrite <- B, cos_0 in Hc. lra.
    - destruct B as [_ [B|B]]; [assumption|]. rewrite B, cos_PI in Hc. lra. }
  assert (Hs : 0 < sin t) by (apply sin_gt_0; lra).
  assert (HA : dot3 (axial r) (axial r) = (2 * sin t) * (2 * sin t)).
  { rewrite axial_norm by assumption. pose proof (sc1 t).
    replace (trace3 r) with (2 * cos t + 1) by lra. nra. }
  assert (HN : norm3 (scalv3 (t / (2 * sin t)) (axial r)) = t).
  { unfold norm3. transitivity (sqrt (t * t)); [f_equal|apply sqrt_square; lra].
    replace (dot3 (scalv3 (t / (2 * sin t)) (axial r)) (scalv3 (t / (2 * sin t)) (axial r)))
      with (t / (2 * sin t) * (t / (2 * sin t)) * dot3 (axial r) (axial r))
      by (unfold dot3, scalv3; cbn; ring).
    rewrite HA. field. lra. }
  split; [exact HN|].
  unfold rodrigues. cbv zeta. rewrite HN. destruct (Req_EM_T t 0) as [E|_]; [lra|].
  assert (E1 : scal3 (sin t / t) (hat (scalv3 (t / (2 * sin t)) (axial r))) = scal3 (/ 2) (hat (axial r))).
  { unfold hat, axial. mext; field; lra. }
  assert (E2 : mul3 (hat (scalv3 (t / (2 * sin t)) (axial r))) (hat (scalv3 (t / (2 * sin t)) (axial r)))
               = scal3 (t / (2 * sin t) * (t / (2 * sin t))) (mul3 (hat (axial r)) (hat (axial r)))).
  { unfold hat, axial. mext; ring. }
  rewrite E1, E2, axial_sq by assumption.
  assert (E3 : (1 - cos t) / (t * t) * (t / (2 * sin t) * (t / (2 * sin t))) * (1 + trace3 r) = / 2).
  { replace (trace3 r) with (2 * cos t + 1) by lra.
    replace ((1 - cos t) / (t * t) * (t / (2 * sin t) * (t / (2 * sin t))) * (1 + (2 * cos t + 1)))
      with ((1 - cos t * cos t) * / 2 / (sin t * sin t)) by (field; lra).
    replace (1 - cos t * cos t) with (sin t * sin t) by (pose proof (sc1 t); lra). field. lra. }
  set (k := (1 - cos t) / (t * t)) in *. set (f := t / (2 * sin t) * (t / (2 * sin t))) in *.
  set (u := 1 + trace3 r) in *. clearbody k f u.
  replace (scal3 k (scal3 f (scal3 u (add3 (add3 r (tr3 r)) (scal3 (-2) I3)))))
    with (scal3 (k * f * u) (add3 (add3 r (tr3 r)) (scal3 (-2) I3))) by (mext; ring).
  rewrite E3. unfold hat, axial. mext; field.
Qed.

Lemma so3_log_identity eps : 0 < eps < 1 -> so3_log I3 eps = mkV3 0 0 0.
Proof. intros He. rewrite so3_log_eq by assumption. unfold axial. mext; cbn; ring. Qed.

Lemma half_turn_axial r : isSO3 r -> trace3 r = -1 -> axial r = mkV3 0 0 0.
Proof.
  intros H Ht. pose proof (axial_norm r H) as N. rewrite Ht in N. unfold dot3 in N.
  destruct (axial r) as [x y z]; cbn in *. f_equal; nra.
Qed.

Lemma so3_log_half_turn r eps : isSO3 r -> 0 < eps < 1 -> trace3 r = -1 ->
  so3_log r eps = mkV3 0 0 0 /\ rodrigues (so3_log r eps) = I3 /\ r <> I3.
Proof.
  intros H He Ht.
  assert (E : so3_log r eps = mkV3 0 0 0).
  { rewrite so3_log_eq by assumption. cbv zeta. rewrite half_turn_axial by assumption. mext; ring. }
  split; [assumption|]. split.
  - rewrite E. unfold rodrigues. cbv zeta.
    assert (N : norm3 (mkV3 0 0 0) = 0) by (unfold norm3, dot3; cbn; replace (0*0+0*0+0*0) with 0 by ring; apply sqrt_0).
    rewrite N. destruct (Req_EM_T 0 0); [reflexivity|congruence].
  - intros ->. unfold trace3 in Ht; cbn in Ht. lra.
Qed.

(** ** quaternion_log (C26) *)
(** Specification: the quaternion exponential. *)
Definition qexp (q : Q4) : Q4 :=
  let n := sqrt (qx q * qx q + qy q * qy q + qz q * qz q) in
  let s := if Req_EM_T n 0 then 1 else sin n / n in
  qscal (exp (qw q)) (mkQ (cos n) (s * qx q) (s * qy q) (s * qz q)).

Lemma qlog_vec q : 0 < qx q * qx q + qy q * qy q + qz q * qz q ->
  qexp (so3_quaternion_log q) = q /\
  exists t, 0 < t < PI /\ qw q = qnorm q * cos t /\
    sqrt (qx q * qx q + qy q * qy q + qz q * qz q) = qnorm q * sin t /\
    so3_quaternion_log q =
      (let v := sqrt (qx q * qx q + qy q * qy q + qz q * qz q) in
       mkQ (ln (qnorm q)) (t * (qx q / v)) (t * (qy q / v)) (t * (qz q / v))).
Proof.
  intros Hv. set (v2 := qx q * qx q + qy q * qy q + qz q * qz q) in *.
  set (v := sqrt v2).
  assert (Hvp : 0 < v) by (apply sqrt_lt_R0; assumption).
  assert (Hvv : v * v = v2) by (apply sqrt_sqrt; lra).
  pose proof (qnorm_sq q) as Hn. set (n := qnorm q) in *.
  assert (Hq : qdot q q = qw q * qw q + v2) by (unfold qdot, v2; ring).
  assert (Hnp : 0 < n).
  { unfold n, qnorm. apply sqrt_lt_R0. rewrite Hq. nra. }
  set (x := qw q / n).
  assert (Hx2 : x * x = 1 - v2 / (n * n)).
  { unfold x. replace (v2) with (n * n - qw q * qw q) by lra. field. lra. }
  assert (Hq2 : 0 < v2 / (n * n)).
  { apply Rdiv_lt_0_compat; [assumption|]. apply Rmult_lt_0_compat; assumption. }
  assert (Hx : -1 < x < 1) by (split; nra).
  set (t := acos x).
  assert (Hct : cos t = x) by (apply cos_acos; lra).
  assert (Ht : 0 < t < PI).
  { pose proof (acos_bound x) as B. fold t in B. split.
    - destruct B as [[B|B] _]; [assumption|]. rewrite <- B, cos_0 in Hct. lra.
    - destruct B as [_ [B|B]]; [assumption|]. rewrite B, cos_PI in Hct. lra. }
  assert (Hst : 0 < sin t) by (apply sin_gt_0; lra).
  assert (Hsin : v = n * sin t).
  { rewrite <- (sqrt_square (n * sin t)) by nra. unfold v. f_equal.
    pose proof (sc1 t) as S. rewrite Hct in S.
    replace (n * sin t * (n * sin t)) with (n * n * (sin t * sin t)) by ring.
    replace (sin t * sin t) with (v2 / (n * n)) by lra. field. lra. }
  assert (HL : so3_quaternion_log q = mkQ (ln n) (t * (qx q / v)) (t * (qy q / v)) (t * (qz q / v))).
  { unfold so3_quaternion_log. fold v2. fold v. fold n. fold x. fold t. cbv zeta.
    destruct (Req_EM_T v 0); [lra|]. mext; field; lra. }
  split.
  - rewrite HL. unfold qexp. cbn [qw qx qy qz].
    assert (E : sqrt (t * (qx q / v) * (t * (qx q / v)) + t * (qy q / v) * (t * (qy q / v)) +
                  t * (qz q / v) * (t * (qz q / v))) = t).
    { transitivity (sqrt (t * t)); [f_equal|apply sqrt_square; lra].
      replace (t * (qx q / v) * (t * (qx q / v)) + t * (qy q / v) * (t * (qy q / v)) +
                  t * (qz q / v) * (t * (qz q / v))) with (t * t * (v2 / (v * v)))
        by (unfold v2; field; lra).
      rewrite Hvv. field. lra. }
    rewrite E. destruct (Req_EM_T t 0); [lra|]. rewrite exp_ln by assumption.
    mext.
    + rewrite Hct. unfold x. field. lra.
    + rewrite Hsin. field. lra.
    + rewrite Hsin. field. lra.
    + rewrite Hsin. field. lra.
  - exists t. split; [assumption|]. split; [rewrite Hct; unfold x; field; lra|].
    split; [exact Hsin|]. exact HL.
Qed.

Lemma qlog_real w : w <> 0 ->
  so3_quaternion_log (mkQ w 0 0 0) = mkQ (ln (Rabs w)) 0 0 0 /\
  qexp (so3_quaternion_log (mkQ w 0 0 0)) = mkQ (Rabs w) 0 0 0.
Proof.
  intros Hw.
  assert (N : qnorm (mkQ w 0 0 0) = Rabs w).
  { unfold qnorm, qdot. cbn. replace (w * w + 0 * 0 + 0 * 0 + 0 * 0) with (Rsqr w) by (unfold Rsqr; ring).
    apply sqrt_Rsqr_abs. }
  assert (Z : sqrt (0 * 0 + 0 * 0 + 0 * 0) = 0) by (replace (0*0+0*0+0*0) with 0 by ring; apply sqrt_0).
  assert (E : so3_quaternion_log (mkQ w 0 0 0) = mkQ (ln (Rabs w)) 0 0 0).
  { unfold so3_quaternion_log. rewrite N. cbn [qx qy qz qw]. mext; ring. }
  split; [assumption|]. rewrite E. unfold qexp. cbn [qw qx qy qz]. rewrite Z.
  rewrite exp_ln by (apply Rabs_pos_lt; assumption).
  rewrite cos_0. mext; ring.
Qed.

(** ** cyclic groups (C15) *)
Lemma cyclic_nth m n i : (i < n)%nat ->
  nth_error (so3_cyclic_of m n) i = Some (so3_matrix_to_quat (m (2 * PI * INR i / INR n))).
Proof.
  intros Hi. unfold so3_cyclic_of, linspace. rewrite removelast_map.
  replace (n + 1)%nat with (S n) by lia. rewrite removelast_seq, map_map, nth_error_map.
  rewrite nth_error_seq by assumption. cbn [option_map]. do 3 f_equal.
  replace (S n - 1)%nat with n by lia. rewrite Nat.add_0_l. unfold Rdiv. ring.
Qed.

Lemma cyclic_length m n : List.length (so3_cyclic_of m n) = n.
Proof.
  unfold so3_cyclic_of, linspace. rewrite removelast_map.
  replace (n + 1)%nat with (S n) by lia. rewrite removelast_seq, !map_length, seq_length. reflexivity.
Qed.

(** A one-parameter family of rotations of period 2 pi. *)
Definition one_param (m : R -> M3) : Prop :=
  (forall t, isSO3 (m t)) /\ (forall a b, mul3 (m a) (m b) = m (a + b)) /\
  (forall a b, m a = m b <-> (cos a = cos b /\ sin a = sin b)).

Lemma one_param_x : one_param so3_matrix_x.
Proof.
  split; [apply so3_matrix_x_SO3|]. split; [apply so3_matrix_x_add|]. intros a b. split.
  - intros E. unfold so3_matrix_x in E. injection E; intros. split; congruence.
  - intros [E1 E2]. unfold so3_matrix_x. rewrite E1, E2. reflexivity.
Qed.
Lemma one_param_y : one_param so3_matrix_y.
Proof.
  split; [apply so3_matrix_y_SO3|]. split; [apply so3_matrix_y_add|]. intros a b. split.
  - intros E. unfold so3_matrix_y in E. injection E; intros. split; congruence.
  - intros [E1 E2]. unfold so3_matrix_y. rewrite E1, E2. reflexivity.
Qed.
Lemma one_param_z : one_param so3_matrix_z.
Proof.
  split; [apply so3_matrix_z_SO3|]. split; [apply so3_matrix_z_add|]. intros a b. split.
  - intros E. unfold so3_matrix_z in E. injection E; intros. split; congruence.
  - intros [E1 E2]. unfold so3_matrix_z. rewrite E1, E2. reflexivity.
Qed.

(** Specification of "a cyclic group of n rotations about the axis of m". *)
Definition cyclic_rotation_group (m : R -> M3) (n : nat) (G : list Q4) : Prop :=
  List.length G = n /\
  (forall i, (i < n)%nat -> exists q, nth_error G i = Some q /\ unitq q /\
     so3_quat_to_matrix q = m (2 * PI * INR i / INR n)) /\
  (forall i j p q, nth_error G i = Some p -> nth_error G j = Some q ->
     exists r, nth_error G ((i + j) mod n) = Some r /\
       so3_quat_to_matrix r = mul3 (so3_quat_to_matrix p) (so3_quat_to_matrix q)) /\
  (forall i j p q, nth_error G i = Some p -> nth_error G j = Some q ->
     so3_quat_to_matrix p = so3_quat_to_matrix q -> i = j).

Lemma cyclic_group_of m n : one_param m -> cyclic_rotation_group m n (so3_cyclic_of m n).
Proof.
  intros (HS & HA & HI).
  assert (HN : forall i, (i < n)%nat -> 0 < INR n).
  { intros i Hi. apply lt_0_INR. lia. }
  split; [apply cyclic_length|]. split; [|split].
  - intros i Hi. exists (so3_matrix_to_quat (m (2 * PI * INR i / INR n))).
    split; [apply cyclic_nth; assumption|]. split; [apply m2q_unit; apply HS|].
    apply m2q_right_inv. apply HS.
  - intros i j p q Hi Hj.
    assert (Li : (i < n)%nat) by (apply nth_error_Some_lt in Hi; rewrite cyclic_length in Hi; assumption).
    assert (Lj : (j < n)%nat) by (apply nth_error_Some_lt in Hj; rewrite cyclic_length in Hj; assumption).
    rewrite cyclic_nth in Hi, Hj by assumption. inversion Hi; inversion Hj; subst; clear Hi Hj.
    assert (Lk : ((i + j) mod n < n)%nat) by (apply Nat.mod_upper_bound; lia).
    eexists. split; [apply cyclic_nth; exact Lk|].
    rewrite !m2q_right_inv by apply HS. rewrite HA. apply HI.
    pose proof (Nat.div_mod (i + j) n ltac:(lia)) as D.
    assert (E : 2 * PI * INR i / INR n + 2 * PI * INR j / INR n =
                2 * PI * INR ((i + j) mod n) / INR n + 2 * PI * IZR (Z.of_nat ((i + j) / n))).
    { rewrite <- INR_IZR_INZ. apply (f_equal INR) in D. rewrite plus_INR, plus_INR, mult_INR in D.
      pose proof (HN i Li).
      replace (2 * PI * INR i / INR n + 2 * PI * INR j / INR n) with (2 * PI * (INR i + INR j) / INR n)
        by (field; lra).
      rewrite D. field. lra. }
    rewrite E. rewrite cos_shift, sin_shift. split; reflexivity.
  - intros i j p q Hi Hj E.
    assert (Li : (i < n)%nat) by (apply nth_error_Some_lt in Hi; rewrite cyclic_length in Hi; assumption).
    assert (Lj : (j < n)%nat) by (apply nth_error_Some_lt in Hj; rewrite cyclic_length in Hj; assumption).
    rewrite cyclic_nth in Hi, Hj by assumption. inversion Hi; inversion Hj; subst; clear Hi Hj.
    rewrite !m2q_right_inv in E by apply HS. apply HI in E. destruct E as [E1 E2].
    pose proof PI_RGT_0.
    assert (B : forall k, (k < n)%nat -> - PI < 2 * PI * INR k / INR n - PI + 0 \/ k = 0%nat).
    { intros k Hk. destruct k; [right; reflexivity|left].
      assert (0 < 2 * PI * INR (S k) / INR n).
      { apply Rdiv_lt_0_compat; [|apply (HN _ Hk)]. apply Rmult_lt_0_compat; [lra|]. apply lt_0_INR; lia. }
      lra. }
    assert (Rg : forall k, (k < n)%nat -> 0 <= 2 * PI * INR k / INR n < 2 * PI).
    { intros k Hk. pose proof (HN k Hk) as Np. pose proof (pos_INR k) as Kp. split.
      - apply Rmult_le_pos; [|left; apply Rinv_0_lt_compat; assumption].
        apply Rmult_le_pos; lra.
      - apply lt_INR in Hk. apply Rmult_lt_reg_r with (INR n); [assumption|].
        unfold Rdiv. rewrite Rmult_assoc, Rinv_l by lra. nra. }
    assert (Eang : 2 * PI * INR i / INR n = 2 * PI * INR j / INR n).
    { pose proof (Rg i Li) as Ri. pose proof (Rg j Lj) as Rj.
      set (a := 2 * PI * INR i / INR n) in *. set (b := 2 * PI * INR j / INR n) in *.
      assert (C : cos (a - b) = 1) by (rewrite cos_minus, E1, E2; pose proof (sc1 b); lra).
      assert (S1 : sin ((a - b) / 2) = 0).
      { replace (a - b) with (2 * ((a - b) / 2)) in C by field. rewrite cos_2a_sin in C.
        assert (sin ((a - b) / 2) * sin ((a - b) / 2) = 0) by lra. nra. }
      destruct (Rtotal_order a b) as [L|[L|L]]; [|assumption|].
      - assert (0 < sin ((b - a) / 2)) by (apply sin_gt_0; lra).
        replace ((b - a) / 2) with (- ((a - b) / 2)) in * by field. rewrite sin_neg in *. lra.
      - assert (0 < sin ((a - b) / 2)) by (apply sin_gt_0; lra). lra. }
    pose proof (HN i Li).
    assert (INR i = INR j).
    { apply Rmult_eq_reg_l with (2 * PI / INR n).
      - replace (2 * PI / INR n * INR i) with (2 * PI * INR i / INR n) by (field; lra).
        rewrite Eang. field. lra.
      - apply Rmult_integral_contrapositive_currified; [lra|]. apply Rinv_neq_0_compat. lra. }
    apply INR_eq. assumption.
Qed.

Lemma lower_one (c : ascii) s : lower s = String c EmptyString ->
  exists d, s = String d EmptyString /\ lower_ascii d = c.
Proof.
  destruct s as [|d s]; cbn; [discriminate|]. intros E. inversion E. exists d.
  destruct s; [split; reflexivity|discriminate].
Qed.

Lemma lower_xyz :
  (forall s, lower s = "x"%string <-> s = "x"%string \/ s = "X"%string) /\
  (forall s, lower s = "y"%string <-> s = "y"%string \/ s = "Y"%string) /\
  (forall s, lower s = "z"%string <-> s = "z"%string \/ s = "Z"%string).
Proof.
  split; [|split]; intros s; (split; intros H; [|destruct H; subst; reflexivity]);
  apply lower_one in H; destruct H as (d & -> & H);
  destruct d as [[] [] [] [] [] [] [] []]; cbv in H; try discriminate; auto.
Qed.

Lemma so3_cyclic_dispatch n axis :
  ((axis = "x"%string \/ axis = "X"%string) -> so3_cyclic n axis = Ok (so3_cyclic_x n)) /\
  ((axis = "y"%string \/ axis = "Y"%string) -> so3_cyclic n axis = Ok (so3_cyclic_y n)) /\
  ((axis = "z"%string \/ axis = "Z"%string) -> so3_cyclic n axis = Ok (so3_cyclic_z n)) /\
  (~ In axis ["x"; "X"; "y"; "Y"; "z"; "Z"]%string -> so3_cyclic n axis = Err ValueError).
Proof.
  destruct lower_xyz as (LX & LY & LZ).
  unfold so3_cyclic. repeat split.
  - intros [->| ->]; reflexivity.
  - intros [->| ->]; reflexivity.
  - intros [->| ->]; reflexivity.
  - intros H.
    destruct (String.eqb_spec (lower axis) "x") as [E|_].
    { exfalso. apply H. apply LX in E. cbn. intuition. }
    destruct (String.eqb_spec (lower axis) "y") as [E|_].
    { exfalso. apply H. apply LY in E. cbn. intuition. }
    destruct (String.eqb_spec (lower axis) "z") as [E|_].
    { exfalso. apply H. apply LZ in E. cbn. intuition. }
    reflexivity.
Qed.

(** ** random elements *)
Lemma so3_random_ok draw : 0 < qdot draw draw ->
  unitq (so3_random_quat draw) /\ isSO3 (so3_random_matrix draw).
Proof.
  intros H. assert (U : unitq (so3_random_quat draw)) by (apply qnormalize_unit; assumption).
  split; [assumption|apply q2m_SO3; assumption].
Qed.

Lemma rotation_angle_example : rotation_angle (so3_matrix_z 2) = 2 /\
  unitq (mkQ 1 0 0 0) /\ unitq (mkQ 0 1 0 0) /\ Rabs (qdot (mkQ 1 0 0 0) (mkQ 0 1 0 0)) <= 1 - / 2.
Proof.
  pose proof PI2_1. split; [|split; [|split]].
  - unfold rotation_angle, trace3. cbn.
    replace ((cos 2 + cos 2 + 1 - 1) / 2) with (cos 2) by field. apply acos_cos. lra.
  - unfold unitq, qdot; cbn; ring.
  - unfold unitq, qdot; cbn; ring.
  - unfold qdot; cbn. replace (1 * 0 + 0 * 1 + 0 * 0 + 0 * 0) with 0 by ring. rewrite Rabs_R0. lra.
Qed.

Lemma so3_log_examples :
  (isSO3 (so3_matrix_z (PI / 2)) /\ -1 + / 4 <= (trace3 (so3_matrix_z (PI / 2)) - 1) / 2 <= 1 - / 4) /\
  (isSO3 (so3_matrix_z PI) /\ trace3 (so3_matrix_z PI) = -1).
Proof.
  split; split; try apply so3_matrix_z_SO3.
  - unfold trace3; cbn. rewrite cos_PI2. lra.
  - unfold trace3; cbn. rewrite cos_PI. ring.
Qed.

Lemma qlog_pos_real w : 0 < w ->
  so3_quaternion_log (mkQ w 0 0 0) = mkQ (ln w) 0 0 0 /\
  qexp (so3_quaternion_log (mkQ w 0 0 0)) = mkQ w 0 0 0.
Proof.
  intros H. destruct (qlog_real w) as [E1 E2]; [lra|]. rewrite Rabs_pos_eq in E1, E2 by lra.
  split; assumption.
Qed.

Lemma qlog_neg_real w : w < 0 ->
  qexp (so3_quaternion_log (mkQ w 0 0 0)) = qneg (mkQ w 0 0 0) /\
  qexp (so3_quaternion_log (mkQ w 0 0 0)) <> mkQ w 0 0 0.
Proof.
  intros H. destruct (qlog_real w) as [E1 E2]; [lra|]. rewrite Rabs_left in E2 by lra.
  rewrite E2. split; [mext; ring|]. intros E. injection E; intros. lra.
Qed.
