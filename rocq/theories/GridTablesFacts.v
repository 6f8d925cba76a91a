(** The pre-computed grids are valid and consistent (C65). *)
From Coq Require Import ZArith Psatz.
From Verif Require Import Prelude RMath Mat SO3 SO3Euler GridTables.
Local Open Scope Z_scope.

Definition S11 : Z := 10 ^ 11.
Definition gdot (p q : ZQ) : Z := zw p * zw q + zx p * zx q + zy p * zy q + zz p * zz q.
Definition zle (tol a b : Z) : bool := Z.abs (a - b) <=? tol.

Definition zq2m (q : ZQ) : ZM :=
  let '(zq w x y z) := q in
  zm (x*x - y*y - z*z + w*w) (2 * (x*y - z*w)) (2 * (x*z + y*w))
     (2 * (x*y + z*w)) (- (x*x) + y*y - z*z + w*w) (2 * (y*z - x*w))
     (2 * (x*z - y*w)) (2 * (y*z + x*w)) (- (x*x) - y*y + z*z + w*w).
Definition zscaleM (c : Z) (m : ZM) : ZM :=
  zm (c * z00 m) (c * z01 m) (c * z02 m) (c * z10 m) (c * z11 m) (c * z12 m) (c * z20 m) (c * z21 m) (c * z22 m).
(** m^T m *)
Definition zgram (m : ZM) : ZM :=
  zm (z00 m * z00 m + z10 m * z10 m + z20 m * z20 m) (z00 m * z01 m + z10 m * z11 m + z20 m * z21 m)
     (z00 m * z02 m + z10 m * z12 m + z20 m * z22 m)
     (z01 m * z00 m + z11 m * z10 m + z21 m * z20 m) (z01 m * z01 m + z11 m * z11 m + z21 m * z21 m)
     (z01 m * z02 m + z11 m * z12 m + z21 m * z22 m)
     (z02 m * z00 m + z12 m * z10 m + z22 m * z20 m) (z02 m * z01 m + z12 m * z11 m + z22 m * z21 m)
     (z02 m * z02 m + z12 m * z12 m + z22 m * z22 m).
Definition zI : ZM := zm (S11 * S11) 0 0 0 (S11 * S11) 0 0 0 (S11 * S11).
Definition zcloseM (tol : Z) (a b : ZM) : bool :=
  zle tol (z00 a) (z00 b) && zle tol (z01 a) (z01 b) && zle tol (z02 a) (z02 b) &&
  zle tol (z10 a) (z10 b) && zle tol (z11 a) (z11 b) && zle tol (z12 a) (z12 b) &&
  zle tol (z20 a) (z20 b) && zle tol (z21 a) (z21 b) && zle tol (z22 a) (z22 b).

Fixpoint pairs_ok {A} (f : A -> A -> bool) (l : list A) : bool :=
  match l with [] => true | x :: r => forallb (f x) r && pairs_ok f r end.

Definition check_table (n : nat) : bool :=
  Nat.eqb (length (zquat n)) n && Nat.eqb (length (zmat n)) n &&
  forallb (fun q => zle (2 * 10 ^ 18) (gdot q q) (S11 * S11)) (zquat n) &&
  pairs_ok (fun p q => zle (74 * 10 ^ 20) (gdot p q) 0) (zquat n) &&
  forallb (fun p => zcloseM (25 * 10 ^ 17) (zscaleM S11 (snd p)) (zq2m (fst p))) (combine (zquat n) (zmat n)) &&
  forallb (fun m => zcloseM (2 * 10 ^ 18) (zgram m) zI) (zmat n).

Lemma tables_checked : forallb check_table (seq 1 24) = true.
Proof. vm_compute. reflexivity. Qed.

Local Open Scope R_scope.
Lemma p11 : 10 ^ 11 = IZR S11.
Proof. rewrite pow_IZR. reflexivity. Qed.
Lemma p22 : 10 ^ 22 = IZR S11 * IZR S11.
Proof. rewrite <- p11. ring. Qed.
Lemma S11_pos : 0 < IZR S11. Proof. apply IZR_lt. reflexivity. Qed.

Lemma zle_R tol a b : zle tol a b = true ->
  Rabs (IZR a / 10 ^ 22 - IZR b / 10 ^ 22) <= IZR tol / 10 ^ 22.
Proof.
  unfold zle. intros H. apply Z.leb_le in H.
  assert (H10 : 0 < 10 ^ 22) by (apply pow_lt; lra).
  replace (IZR a / 10 ^ 22 - IZR b / 10 ^ 22) with (IZR (a - b) / 10 ^ 22)
    by (rewrite minus_IZR; field; lra).
  unfold Rdiv. rewrite Rabs_mult, (Rabs_pos_eq (/ 10 ^ 22)) by (left; apply Rinv_0_lt_compat; assumption).
  apply Rmult_le_compat_r; [left; apply Rinv_0_lt_compat; assumption|].
  rewrite <- abs_IZR. apply IZR_le. assumption.
Qed.

Lemma gdot_R p q : qdot (gq_of p) (gq_of q) = IZR (gdot p q) / 10 ^ 22.
Proof.
  unfold qdot, gq_of, gdot, dec11; cbn [qw qx qy qz]. rewrite !plus_IZR, !mult_IZR, p22, p11.
  pose proof S11_pos. field. lra.
Qed.

Definition gm2 (m : ZM) : M3 :=
  mkM3 (IZR (z00 m) / 10 ^ 22) (IZR (z01 m) / 10 ^ 22) (IZR (z02 m) / 10 ^ 22)
       (IZR (z10 m) / 10 ^ 22) (IZR (z11 m) / 10 ^ 22) (IZR (z12 m) / 10 ^ 22)
       (IZR (z20 m) / 10 ^ 22) (IZR (z21 m) / 10 ^ 22) (IZR (z22 m) / 10 ^ 22).

Lemma zcloseM_R tol a b : zcloseM tol a b = true -> close3 (IZR tol / 10 ^ 22) (gm2 a) (gm2 b).
Proof.
  unfold zcloseM. rewrite !andb_true_iff. intros H. decompose [and] H.
  unfold close3, entries3, gm2; cbn [a00 a01 a02 a10 a11 a12 a20 a21 a22].
  repeat apply Forall2_cons; try apply Forall2_nil; apply zle_R; assumption.
Qed.

Lemma gm2_scale m : gm2 (zscaleM S11 m) = gm_of m.
Proof.
  unfold gm2, zscaleM, gm_of, dec11; cbn [z00 z01 z02 z10 z11 z12 z20 z21 z22].
  pose proof S11_pos. f_equal; rewrite mult_IZR, p22, p11; field; lra.
Qed.
Lemma gm2_q2m q : gm2 (zq2m q) = so3_quat_to_matrix (gq_of q).
Proof.
  destruct q as [w x y z]. unfold gm2, zq2m, so3_quat_to_matrix, gq_of, dec11.
  cbn [z00 z01 z02 z10 z11 z12 z20 z21 z22 zw zx zy zz].
  pose proof S11_pos.
  f_equal; repeat rewrite ?plus_IZR, ?minus_IZR, ?opp_IZR, ?mult_IZR; rewrite p22, p11; field; lra.
Qed.
Lemma gm2_gram m : gm2 (zgram m) = mul3 (tr3 (gm_of m)) (gm_of m).
Proof.
  destruct m as [m00 m01 m02 m10 m11 m12 m20 m21 m22]. unfold gm2, zgram, mul3, tr3, gm_of, dec11.
  cbn [z00 z01 z02 z10 z11 z12 z20 z21 z22 a00 a01 a02 a10 a11 a12 a20 a21 a22].
  pose proof S11_pos.
  f_equal; repeat rewrite ?plus_IZR, ?mult_IZR; rewrite p22, p11; field; lra.
Qed.
Lemma gm2_I : gm2 zI = I3.
Proof.
  unfold gm2, zI, I3; cbn [z00 z01 z02 z10 z11 z12 z20 z21 z22]. pose proof S11_pos.
  rewrite mult_IZR, p22. f_equal; field; lra.
Qed.

Lemma pairs_ok_nth {A} (f : A -> A -> bool) l i j x y : pairs_ok f l = true -> (i < j)%nat ->
  nth_error l i = Some x -> nth_error l j = Some y -> f x y = true.
Proof.
  revert i j; induction l as [|a l IH]; intros i j H Hij Hi Hj; [destruct i; discriminate|].
  simpl in H. apply andb_true_iff in H as [H1 H2]. destruct j as [|j]; [lia|].
  destruct i as [|i]; simpl in *.
  - injection Hi as <-. rewrite forallb_forall in H1. apply H1. eapply nth_error_In; eauto.
  - apply (IH i j); auto; lia.
Qed.

Lemma nth_error_combine {A B} (l1 : list A) (l2 : list B) i a b :
  nth_error l1 i = Some a -> nth_error l2 i = Some b -> nth_error (combine l1 l2) i = Some (a, b).
Proof.
  revert l2 i; induction l1 as [|x l1 IH]; intros [|y l2] [|i] H1 H2; simpl in *; try discriminate.
  - congruence.
  - apply IH; assumption.
Qed.

Lemma qdot_comm p q : qdot p q = qdot q p.
Proof. unfold qdot. ring. Qed.

Lemma tol_a : IZR (2 * 10 ^ 18) / 10 ^ 22 = 2 / 10 ^ 4.
Proof. rewrite mult_IZR. change (10 ^ 18)%Z with (10 ^ Z.of_nat 18)%Z. rewrite <- pow_IZR. field. Qed.
Lemma tol_b : IZR (74 * 10 ^ 20) / 10 ^ 22 = 74 / 100.
Proof. rewrite mult_IZR. change (10 ^ 20)%Z with (10 ^ Z.of_nat 20)%Z. rewrite <- pow_IZR. field. Qed.
Lemma tol_c : IZR (25 * 10 ^ 17) / 10 ^ 22 = 25 / 10 ^ 5.
Proof. rewrite mult_IZR. change (10 ^ 17)%Z with (10 ^ Z.of_nat 17)%Z. rewrite <- pow_IZR. field. Qed.

Lemma tables_valid n : (1 <= n <= 24)%nat ->
  length (table_quat n) = n /\ length (table_matrix n) = n /\
  (forall q, In q (table_quat n) -> Rabs (qdot q q - 1) <= 2 / 10 ^ 4) /\
  (forall i j p q, i <> j -> nth_error (table_quat n) i = Some p -> nth_error (table_quat n) j = Some q ->
     Rabs (qdot p q) <= 74 / 100) /\
  (forall i q m, nth_error (table_quat n) i = Some q -> nth_error (table_matrix n) i = Some m ->
     close3 (25 / 10 ^ 5) m (so3_quat_to_matrix q)) /\
  (forall m, In m (table_matrix n) -> close3 (2 / 10 ^ 4) (mul3 (tr3 m) m) I3).
Proof.
  intros Hn. pose proof tables_checked as HC. rewrite forallb_forall in HC.
  specialize (HC n ltac:(apply in_seq; lia)). unfold check_table in HC.
  rewrite !andb_true_iff in HC. destruct HC as [[[[[L1 L2] H1] H2] H3] H4].
  apply Nat.eqb_eq in L1, L2. rewrite forallb_forall in H1, H3, H4.
  unfold table_quat, table_matrix. rewrite !map_length.
  assert (H10 : IZR S11 <> 0) by (pose proof S11_pos; lra).
  split; [assumption|]. split; [assumption|]. split; [|split; [|split]].
  - intros q Hq. apply in_map_iff in Hq as [z [<- Hz]]. specialize (H1 z Hz). apply zle_R in H1.
    rewrite gdot_R. replace 1 with (IZR (S11 * S11) / 10 ^ 22) by (rewrite mult_IZR, p22; field; assumption).
    eapply Rle_trans; [exact H1|]. right. apply tol_a.
  - assert (Hlt : forall i j p q, (i < j)%nat -> nth_error (map gq_of (zquat n)) i = Some p ->
              nth_error (map gq_of (zquat n)) j = Some q -> Rabs (qdot p q) <= 74 / 100).
    { intros i j p q Hij Hi Hj. apply nth_error_map_inv in Hi as (zi & Hi & ->).
      apply nth_error_map_inv in Hj as (zj & Hj & ->).
      pose proof (pairs_ok_nth _ _ i j zi zj H2 Hij Hi Hj) as H. apply zle_R in H.
      rewrite gdot_R. replace (IZR (gdot zi zj) / 10 ^ 22) with (IZR (gdot zi zj) / 10 ^ 22 - 0 / 10 ^ 22) by field.
      eapply Rle_trans; [exact H|]. right. apply tol_b. }
    intros i j p q Hij Hi Hj. destruct (lt_eq_lt_dec i j) as [[H|H]|H]; [eauto|contradiction|].
    rewrite qdot_comm. eauto.
  - intros i q m Hi Hj. apply nth_error_map_inv in Hi as (zi & Hi & ->).
    apply nth_error_map_inv in Hj as (zj & Hj & ->).
    assert (H : In (zi, zj) (combine (zquat n) (zmat n))).
    { eapply nth_error_In. eapply nth_error_combine; eauto. }
    specialize (H3 _ H). cbn [fst snd] in H3. apply zcloseM_R in H3.
    rewrite gm2_scale, gm2_q2m in H3.
    rewrite <- tol_c. exact H3.
  - intros m Hm. apply in_map_iff in Hm as [z [<- Hz]]. specialize (H4 z Hz). apply zcloseM_R in H4.
    rewrite gm2_gram, gm2_I in H4.
    rewrite <- tol_a. exact H4.
Qed.
