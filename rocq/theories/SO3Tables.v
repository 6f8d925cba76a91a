(** The tabulated groups of so3.py:737-902 (C16), with decimals written as numerators over 10^8. *)
From Coq Require Import ZArith Psatz.
From Verif Require Import Prelude RMath Mat SO3 SO3Facts.

(** Models so3.py:724-902: the listed quaternions, as integers over 10^8. *)
Record ZQ := zq { zw : Z; zx : Z; zy : Z; zz : Z }.
(** The tensor entry written in the source. *)
Definition dec8 (z : Z) : R := IZR z / 10 ^ 8.
Definition q_of (q : ZQ) : Q4 := mkQ (dec8 (zw q)) (dec8 (zx q)) (dec8 (zy q)) (dec8 (zz q)).

(** so3.py:737-755 [klein_group]. *)
Definition z_klein_group : list ZQ :=
  [zq 100000000 0 0 0;
   zq 0 0 0 100000000;
   zq 0 0 100000000 0;
   zq 0 100000000 0 0].
Definition so3_klein_group : list Q4 := map q_of z_klein_group.

(** so3.py:758-784 [tetrahedral]. *)
Definition z_tetrahedral : list ZQ :=
  [zq 0 100000000 0 0;
   zq 0 0 100000000 0;
   zq 0 0 0 100000000;
   zq 100000000 0 0 0;
   zq 50000000 50000000 (-50000000) (-50000000);
   zq 50000000 50000000 (-50000000) 50000000;
   zq 50000000 50000000 50000000 (-50000000);
   zq 50000000 50000000 50000000 50000000;
   zq (-50000000) 50000000 (-50000000) (-50000000);
   zq (-50000000) 50000000 (-50000000) 50000000;
   zq (-50000000) 50000000 50000000 (-50000000);
   zq (-50000000) 50000000 50000000 50000000].
Definition so3_tetrahedral : list Q4 := map q_of z_tetrahedral.

(** so3.py:787-825 [octahedral]. *)
Definition z_octahedral : list ZQ :=
  [zq 0 100000000 0 0;
   zq 0 0 100000000 0;
   zq 0 0 0 100000000;
   zq 100000000 0 0 0;
   zq 50000000 50000000 (-50000000) (-50000000);
   zq 50000000 50000000 (-50000000) 50000000;
   zq 50000000 50000000 50000000 (-50000000);
   zq 50000000 50000000 50000000 50000000;
   zq (-50000000) 50000000 (-50000000) (-50000000);
   zq (-50000000) 50000000 (-50000000) 50000000;
   zq (-50000000) 50000000 50000000 (-50000000);
   zq (-50000000) 50000000 50000000 50000000;
   zq 70710678 70710678 0 0;
   zq 70710678 0 70710678 0;
   zq 70710678 0 0 70710678;
   zq 70710678 0 0 (-70710678);
   zq 70710678 0 (-70710678) 0;
   zq 70710678 (-70710678) 0 0;
   zq 0 0 70710678 70710678;
   zq 0 0 (-70710678) 70710678;
   zq 0 70710678 0 70710678;
   zq 0 (-70710678) 0 70710678;
   zq 0 70710678 70710678 0;
   zq 0 (-70710678) 70710678 0].
Definition so3_octahedral : list Q4 := map q_of z_octahedral.

(** so3.py:828-902 [icosahedral]. *)
Definition z_icosahedral : list ZQ :=
  [zq 0 100000000 0 0;
   zq 0 0 100000000 0;
   zq 0 0 0 100000000;
   zq 100000000 0 0 0;
   zq 50000000 50000000 (-50000000) (-50000000);
   zq 50000000 50000000 (-50000000) 50000000;
   zq 50000000 50000000 50000000 (-50000000);
   zq 50000000 50000000 50000000 50000000;
   zq (-50000000) 50000000 (-50000000) (-50000000);
   zq (-50000000) 50000000 (-50000000) 50000000;
   zq (-50000000) 50000000 50000000 (-50000000);
   zq (-50000000) 50000000 50000000 50000000;
   zq 0 50000000 30901699 80901699;
   zq 0 50000000 30901699 (-80901699);
   zq 30901699 50000000 80901699 0;
   zq (-30901699) 50000000 80901699 0;
   zq 0 50000000 (-30901699) 80901699;
   zq 0 50000000 (-30901699) (-80901699);
   zq 30901699 50000000 (-80901699) 0;
   zq (-30901699) 50000000 (-80901699) 0;
   zq 80901699 50000000 0 30901699;
   zq (-80901699) 50000000 0 30901699;
   zq 80901699 50000000 0 (-30901699);
   zq (-80901699) 50000000 0 (-30901699);
   zq 80901699 30901699 50000000 0;
   zq (-80901699) 30901699 50000000 0;
   zq 0 30901699 80901699 50000000;
   zq 0 30901699 80901699 (-50000000);
   zq 80901699 30901699 (-50000000) 0;
   zq (-80901699) 30901699 (-50000000) 0;
   zq 0 30901699 (-80901699) 50000000;
   zq 0 30901699 (-80901699) (-50000000);
   zq 50000000 30901699 0 80901699;
   zq (-50000000) 30901699 0 80901699;
   zq 50000000 30901699 0 (-80901699);
   zq (-50000000) 30901699 0 (-80901699);
   zq 0 80901699 50000000 30901699;
   zq 0 80901699 50000000 (-30901699);
   zq 50000000 80901699 30901699 0;
   zq (-50000000) 80901699 30901699 0;
   zq 0 80901699 (-50000000) 30901699;
   zq 0 80901699 (-50000000) (-30901699);
   zq 50000000 80901699 (-30901699) 0;
   zq (-50000000) 80901699 (-30901699) 0;
   zq 30901699 80901699 0 50000000;
   zq (-30901699) 80901699 0 50000000;
   zq 30901699 80901699 0 (-50000000);
   zq (-30901699) 80901699 0 (-50000000);
   zq 30901699 0 50000000 80901699;
   zq (-30901699) 0 50000000 80901699;
   zq 30901699 0 50000000 (-80901699);
   zq (-30901699) 0 50000000 (-80901699);
   zq 80901699 0 30901699 50000000;
   zq (-80901699) 0 30901699 50000000;
   zq 80901699 0 30901699 (-50000000);
   zq (-80901699) 0 30901699 (-50000000);
   zq 50000000 0 80901699 30901699;
   zq (-50000000) 0 80901699 30901699;
   zq 50000000 0 80901699 (-30901699);
   zq (-50000000) 0 80901699 (-30901699)].
Definition so3_icosahedral : list Q4 := map q_of z_icosahedral.

(** so3.py:724-734 [identity]. *)
Definition so3_identity : list Q4 := [mkQ 1 0 0 0].

(** ** integer checks and their lifting *)
Open Scope Z_scope.
(** Checkers and specification for the tables of so3.py:724-902. *)
Definition S8 : Z := 10 ^ 8.
Definition zmul (p q : ZQ) : ZQ :=
  zq (zw p * zw q - zx p * zx q - zy p * zy q - zz p * zz q)
     (zw p * zx q + zx p * zw q + zy p * zz q - zz p * zy q)
     (zw p * zy q - zx p * zz q + zy p * zw q + zz p * zx q)
     (zw p * zz q + zx p * zy q - zy p * zx q + zz p * zw q).
Definition zclose (tol : Z) (a b : Z) : bool := Z.abs (a - b) <=? tol.
(** p (over 10^16) is within tol of s * r (r over 10^8), per coordinate. *)
Definition znear (tol s : Z) (p r : ZQ) : bool :=
  if zclose tol (zw p) (s * S8 * zw r) then
  if zclose tol (zx p) (s * S8 * zx r) then
  if zclose tol (zy p) (s * S8 * zy r) then zclose tol (zz p) (s * S8 * zz r)
  else false else false else false.
Definition znear_pm tol p r := if znear tol 1 p r then true else znear tol (-1) p r.
(** [existsb] that stops at the first hit. *)
Fixpoint exists1 {A} (f : A -> bool) (l : list A) : bool :=
  match l with [] => false | x :: r => if f x then true else exists1 f r end.
Lemma exists1_exists {A} (f : A -> bool) l : exists1 f l = true -> exists x, In x l /\ f x = true.
Proof.
  induction l as [|x l IH]; cbn; [discriminate|]. destruct (f x) eqn:E.
  - intros _. exists x. auto.
  - intros H. destruct (IH H) as (y & Hy & Ey). exists y. auto.
Qed.
Definition zconj8 (q : ZQ) : ZQ := zq (S8 * zw q) (- (S8 * zx q)) (- (S8 * zy q)) (- (S8 * zz q)).
Definition znorm (q : ZQ) : Z := zw q * zw q + zx q * zx q + zy q * zy q + zz q * zz q.
Definition zdot (p q : ZQ) : Z := zw p * zw q + zx p * zx q + zy p * zy q + zz p * zz q.

(** Checkers and specification for the tables of so3.py:724-902. *)
Definition zclosed (tol : Z) (l : list ZQ) : bool :=
  forallb (fun p => forallb (fun q => exists1 (znear_pm tol (zmul p q)) l) l) l.
Definition zinv (tol : Z) (l : list ZQ) : bool :=
  forallb (fun p => exists1 (znear_pm tol (zconj8 p)) l) l.
Definition zunit (tol : Z) (l : list ZQ) : bool :=
  forallb (fun p => zclose tol (znorm p) (S8 * S8)) l.
(** |p . q| at most 9/10 for different positions. *)
Fixpoint zsep (l : list ZQ) : bool :=
  match l with
  | [] => true
  | p :: r => (forallb (fun q => Z.abs (zdot p q) <=? 9 * 10 ^ 15) r && zsep r)%bool
  end.
Definition zhas1 (l : list ZQ) : bool :=
  existsb (fun q => ((zw q =? S8) && (zx q =? 0) && (zy q =? 0) && (zz q =? 0))%bool) l.
Definition zgroup (tol : Z) (l : list ZQ) : bool :=
  (zclosed tol l && zinv tol l && zunit tol l && zsep l && zhas1 l)%bool.

Lemma klein_ok : zgroup 0 z_klein_group = true. Proof. vm_compute. reflexivity. Qed.
Lemma tetra_ok : zgroup 0 z_tetrahedral = true. Proof. vm_compute. reflexivity. Qed.
Lemma octa_ok : zgroup (10 ^ 9) z_octahedral = true. Proof. vm_compute. reflexivity. Qed.
Lemma icosa_ok : zgroup (10 ^ 9) z_icosahedral = true. Proof. vm_compute. reflexivity. Qed.

Open Scope R_scope.
(** Specification: a list of quaternions that is a finite rotation group up to tol per coordinate. *)
(** Checkers and specification for the tables of so3.py:724-902. *)
Definition qclose (tol : R) (p q : Q4) : Prop :=
  Rabs (qw p - qw q) <= tol /\ Rabs (qx p - qx q) <= tol /\
  Rabs (qy p - qy q) <= tol /\ Rabs (qz p - qz q) <= tol.
Definition qclose_pm (tol : R) (p q : Q4) : Prop := qclose tol p q \/ qclose tol p (qneg q).
Definition approx_rotation_group (tol : R) (G : list Q4) : Prop :=
  In qone G /\
  (forall p, In p G -> Rabs (qdot p p - 1) <= tol) /\
  (forall p q, In p G -> In q G -> exists r, In r G /\ qclose_pm tol (qmul p q) r) /\
  (forall p, In p G -> exists r, In r G /\ qclose_pm tol (qconj p) r) /\
  (forall i j p q, nth_error G i = Some p -> nth_error G j = Some q -> i <> j ->
     Rabs (qdot p q) <= 9 / 10).

Lemma pow8 : 10 ^ 8 = IZR S8.
Proof. unfold S8. rewrite (pow_IZR 10 8). reflexivity. Qed.

Lemma zclose_R tol a b : zclose tol a b = true ->
  Rabs (IZR a / 10 ^ 16 - IZR b / 10 ^ 16) <= IZR tol / 10 ^ 16.
Proof.
  unfold zclose. intros H. apply Z.leb_le in H.
  replace (IZR a / 10 ^ 16 - IZR b / 10 ^ 16) with (IZR (a - b) / 10 ^ 16)
    by (rewrite minus_IZR; field).
  unfold Rdiv. rewrite Rabs_mult, <- abs_IZR. rewrite (Rabs_pos_eq (/ 10 ^ 16)).
  - apply Rmult_le_compat_r; [left; apply Rinv_0_lt_compat; lra|]. apply IZR_le; assumption.
  - left; apply Rinv_0_lt_compat; lra.
Qed.

Lemma dec8_16 z : dec8 z = IZR (S8 * z) / 10 ^ 16.
Proof. unfold dec8. rewrite mult_IZR, <- pow8. field. Qed.

Lemma znear_R tol p r P : znear_pm tol p r = true ->
  P = mkQ (IZR (zw p) / 10 ^ 16) (IZR (zx p) / 10 ^ 16) (IZR (zy p) / 10 ^ 16) (IZR (zz p) / 10 ^ 16) ->
  qclose_pm (IZR tol / 10 ^ 16) P (q_of r).
Proof.
  assert (Z : forall s, znear tol s p r = true ->
    zclose tol (zw p) (s * S8 * zw r) = true /\ zclose tol (zx p) (s * S8 * zx r) = true /\
    zclose tol (zy p) (s * S8 * zy r) = true /\ zclose tol (zz p) (s * S8 * zz r) = true).
  { intros s. unfold znear. destruct (zclose tol (zw p) _); [|discriminate].
    destruct (zclose tol (zx p) _); [|discriminate].
    destruct (zclose tol (zy p) _); [|discriminate]. auto. }
  unfold znear_pm. intros H ->.
  destruct (znear tol 1 p r) eqn:N; [clear H; rename N into H; left|right]; apply Z in H;
  destruct H as (H1 & H2 & H3 & H4);
  apply zclose_R in H1, H2, H3, H4; unfold qclose; cbn -[pow IZR Z.mul];
  rewrite !dec8_16.
  - rewrite !Z.mul_1_l in *. repeat split; assumption.
  - replace (-1 * S8)%Z with (- S8)%Z in * by reflexivity.
    rewrite !Z.mul_opp_l, !opp_IZR in *. unfold Rdiv in *.
    rewrite !Ropp_mult_distr_l_reverse in *.
    repeat split; assumption.
Qed.

Lemma qmul_q_of p q : qmul (q_of p) (q_of q) =
  let m := zmul p q in
  mkQ (IZR (zw m) / 10 ^ 16) (IZR (zx m) / 10 ^ 16) (IZR (zy m) / 10 ^ 16) (IZR (zz m) / 10 ^ 16).
Proof.
  destruct p, q. unfold q_of, dec8. mext; cbn -[pow IZR];
  repeat first [rewrite minus_IZR | rewrite plus_IZR | rewrite mult_IZR]; field.
Qed.

Lemma qconj_q_of p : qconj (q_of p) =
  let m := zconj8 p in
  mkQ (IZR (zw m) / 10 ^ 16) (IZR (zx m) / 10 ^ 16) (IZR (zy m) / 10 ^ 16) (IZR (zz m) / 10 ^ 16).
Proof.
  destruct p. unfold q_of. mext; cbn -[pow IZR S8]; rewrite dec8_16; try reflexivity;
  rewrite opp_IZR; field.
Qed.

Lemma zdot_R p q : qdot (q_of p) (q_of q) = IZR (zdot p q) / 10 ^ 16.
Proof.
  unfold qdot, zdot, q_of, dec8. cbn -[pow IZR Z.mul Z.add].
  repeat first [rewrite plus_IZR | rewrite mult_IZR]; field.
Qed.

Lemma zsep_nth l i j p q : zsep l = true ->
  nth_error l i = Some p -> nth_error l j = Some q -> (i < j)%nat ->
  (Z.abs (zdot p q) <= 9 * 10 ^ 15)%Z.
Proof.
  revert i j. induction l as [|a l IH]; intros i j H Hi Hj Hij; [destruct i; discriminate|].
  cbn [zsep] in H. apply andb_true_iff in H. destruct H as [H1 H2].
  destruct i as [|i]; destruct j as [|j]; try lia; cbn in Hi, Hj.
  - inversion Hi; subst. rewrite forallb_forall in H1. apply nth_error_In in Hj.
    apply H1 in Hj. apply Z.leb_le in Hj. exact Hj.
  - eapply IH; eauto; lia.
Qed.

Lemma zdot_sym p q : zdot p q = zdot q p.
Proof. unfold zdot. ring. Qed.

Lemma zgroup_R tol l : zgroup tol l = true ->
  approx_rotation_group (IZR tol / 10 ^ 16) (map q_of l).
Proof.
  unfold zgroup. rewrite !andb_true_iff. intros ((((H1 & H2) & H3) & H4) & H5).
  split; [|split; [|split; [|split]]].
  - unfold zhas1 in H5. apply existsb_exists in H5. destruct H5 as (x & Hx & H5).
    rewrite !andb_true_iff in H5. destruct H5 as (((E1 & E2) & E3) & E4).
    apply Z.eqb_eq in E1, E2, E3, E4. apply in_map_iff. exists x. split; [|assumption].
    unfold q_of. rewrite E1, E2, E3, E4. unfold dec8, qone. rewrite <- pow8.
    f_equal; field.
  - intros p Hp. apply in_map_iff in Hp. destruct Hp as (z & <- & Hz).
    unfold zunit in H3. rewrite forallb_forall in H3. specialize (H3 z Hz).
    apply zclose_R in H3. rewrite zdot_R. unfold zdot. unfold znorm in H3.
    replace 1 with (IZR (S8 * S8) / 10 ^ 16) by (rewrite mult_IZR, <- pow8; field). exact H3.
  - intros p q Hp Hq. apply in_map_iff in Hp. destruct Hp as (z & <- & Hz).
    apply in_map_iff in Hq. destruct Hq as (y & <- & Hy).
    unfold zclosed in H1. rewrite forallb_forall in H1. specialize (H1 z Hz).
    rewrite forallb_forall in H1. specialize (H1 y Hy).
    apply exists1_exists in H1. destruct H1 as (x & Hx & H1).
    exists (q_of x). split; [apply in_map; assumption|].
    eapply znear_R; [exact H1|apply qmul_q_of].
  - intros p Hp. apply in_map_iff in Hp. destruct Hp as (z & <- & Hz).
    unfold zinv in H2. rewrite forallb_forall in H2. specialize (H2 z Hz).
    apply exists1_exists in H2. destruct H2 as (x & Hx & H2).
    exists (q_of x). split; [apply in_map; assumption|].
    eapply znear_R; [exact H2|apply qconj_q_of].
  - intros i j p q Hi Hj Hij.
    apply nth_error_map_inv in Hi. destruct Hi as (x & Hi & ->).
    apply nth_error_map_inv in Hj. destruct Hj as (y & Hj & ->).
    rewrite zdot_R. unfold Rdiv. rewrite Rabs_mult, <- abs_IZR.
    rewrite (Rabs_pos_eq (/ 10 ^ 16)) by (left; apply Rinv_0_lt_compat; lra).
    assert (B : (Z.abs (zdot x y) <= 9 * 10 ^ 15)%Z).
    { destruct (Nat.lt_total i j) as [L|[L|L]]; [|contradiction|].
      - eapply zsep_nth; eauto.
      - rewrite zdot_sym. eapply zsep_nth; eauto. }
    apply IZR_le in B. rewrite mult_IZR in B.
    replace (IZR (10 ^ 15)) with (10 ^ 15) in B by (rewrite (pow_IZR 10 15); reflexivity).
    apply Rmult_le_reg_r with (10 ^ 16); [lra|]. rewrite Rmult_assoc, Rinv_l by lra. lra.
Qed.

Lemma tables_exact :
  approx_rotation_group 0 so3_klein_group /\ List.length so3_klein_group = 4%nat /\
  approx_rotation_group 0 so3_tetrahedral /\ List.length so3_tetrahedral = 12%nat.
Proof.
  assert (E : 0 = IZR 0 / 10 ^ 16) by field.
  split; [|split; [reflexivity|split; [|reflexivity]]]; rewrite E.
  - exact (zgroup_R _ _ klein_ok).
  - exact (zgroup_R _ _ tetra_ok).
Qed.

Lemma tol_7 : / 10 ^ 7 = IZR (10 ^ 9) / 10 ^ 16.
Proof. replace (IZR (10 ^ 9)) with (10 ^ 9) by (rewrite (pow_IZR 10 9); reflexivity). field. Qed.

Lemma tables_approx :
  approx_rotation_group (/ 10 ^ 7) so3_octahedral /\ List.length so3_octahedral = 24%nat /\
  approx_rotation_group (/ 10 ^ 7) so3_icosahedral /\ List.length so3_icosahedral = 60%nat.
Proof.
  rewrite tol_7. split; [|split; [reflexivity|split; [|reflexivity]]].
  - exact (zgroup_R _ _ octa_ok).
  - exact (zgroup_R _ _ icosa_ok).
Qed.

Lemma klein_units : Forall unitq so3_klein_group /\ (2 <= List.length so3_klein_group)%nat.
Proof.
  destruct tables_exact as ((_ & H & _) & L & _). split; [|rewrite L; lia].
  apply Forall_forall. intros q Hq. specialize (H q Hq). unfold unitq.
  pose proof (Rabs_pos (qdot q q - 1)).
  assert (E : Rabs (qdot q q - 1) = 0) by lra.
  destruct (Req_dec (qdot q q - 1) 0) as [Z|Z]; [lra|]. apply Rabs_no_R0 in Z. contradiction.
Qed.
