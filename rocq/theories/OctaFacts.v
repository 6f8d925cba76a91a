(** The 24 tabulated octahedral rotations (so3.py:787-825) against the 24 exact rotations of the cube. *)
From Coq Require Import ZArith Lra Permutation.
From Verif Require Import Prelude RMath Mat SO3 SO3Facts SO3Euler SO3Tables SignedPerm Tensor Functional FunctionalFacts.
Open Scope R_scope.

Record ZM := zm { z00 : Z; z01 : Z; z02 : Z; z10 : Z; z11 : Z; z12 : Z; z20 : Z; z21 : Z; z22 : Z }.
Definition m3_of (A : ZM) : M3 := mkM3 (IZR (z00 A)) (IZR (z01 A)) (IZR (z02 A)) (IZR (z10 A)) (IZR (z11 A)) (IZR (z12 A)) (IZR (z20 A)) (IZR (z21 A)) (IZR (z22 A)).
Definition zmul (A B : ZM) : ZM :=
  zm (z00 A * z00 B + z01 A * z10 B + z02 A * z20 B) (z00 A * z01 B + z01 A * z11 B + z02 A * z21 B) (z00 A * z02 B + z01 A * z12 B + z02 A * z22 B)
     (z10 A * z00 B + z11 A * z10 B + z12 A * z20 B) (z10 A * z01 B + z11 A * z11 B + z12 A * z21 B) (z10 A * z02 B + z11 A * z12 B + z12 A * z22 B)
     (z20 A * z00 B + z21 A * z10 B + z22 A * z20 B) (z20 A * z01 B + z21 A * z11 B + z22 A * z21 B) (z20 A * z02 B + z21 A * z12 B + z22 A * z22 B).
Lemma m3_of_mul A B : m3_of (zmul A B) = mul3 (m3_of A) (m3_of B).
Proof. unfold m3_of, zmul, mul3. cbn [z00 z01 z02 z10 z11 z12 z20 z21 z22 a00 a01 a02 a10 a11 a12 a20 a21 a22]. rewrite !plus_IZR, !mult_IZR. reflexivity. Qed.

(** Matrix of an 8-decimal quaternion, scaled by 10^16. *)
Definition zquat (q : ZQ) : ZM :=
  let w := zw q in let x := zx q in let y := zy q in let z := zz q in
  zm (x * x - y * y - z * z + w * w) (2 * (x * y - z * w)) (2 * (x * z + y * w))
     (2 * (x * y + z * w)) (- (x * x) + y * y - z * z + w * w) (2 * (y * z - x * w))
     (2 * (x * z - y * w)) (2 * (y * z + x * w)) (- (x * x) - y * y + z * z + w * w).
Definition zround (x : Z) : Z := ((x + 5 * 10 ^ 15) / 10 ^ 16)%Z.
Definition zexact (q : ZQ) : ZM :=
  let A := zquat q in zm (zround (z00 A)) (zround (z01 A)) (zround (z02 A)) (zround (z10 A)) (zround (z11 A)) (zround (z12 A)) (zround (z20 A)) (zround (z21 A)) (zround (z22 A)).
(** The exact rotations, in the order of the table. *)
Definition zocta : list ZM := Eval vm_compute in map zexact z_octahedral.

Definition znear (a b : Z) : bool := (Z.abs (a - 10 ^ 16 * b) <=? 4 * 10 ^ 7)%Z.
Definition znear3 (A B : ZM) : bool :=
  znear (z00 A) (z00 B) && znear (z01 A) (z01 B) && znear (z02 A) (z02 B) && znear (z10 A) (z10 B) && znear (z11 A) (z11 B) && znear (z12 A) (z12 B) &&
  znear (z20 A) (z20 B) && znear (z21 A) (z21 B) && znear (z22 A) (z22 B).
Lemma octa_near : forallb (fun p => znear3 (fst p) (snd p)) (combine (map zquat z_octahedral) zocta) = true.
Proof. vm_compute. reflexivity. Qed.

Lemma pow16 : 10 ^ 16 = IZR (10 ^ 16).
Proof. change (10 ^ 16)%Z with (10 ^ Z.of_nat 16)%Z. rewrite <- pow_IZR. reflexivity. Qed.
Lemma quat_scaled q : so3_quat_to_matrix (q_of q) = scal3 (/ 10 ^ 16) (m3_of (zquat q)).
Proof.
  unfold so3_quat_to_matrix, q_of, scal3, m3_of, zquat, dec8. cbv zeta. cbn [z00 z01 z02 z10 z11 z12 z20 z21 z22 a00 a01 a02 a10 a11 a12 a20 a21 a22].
  rewrite ?plus_IZR, ?minus_IZR, ?mult_IZR, ?opp_IZR, ?plus_IZR, ?minus_IZR, ?mult_IZR, ?opp_IZR, ?mult_IZR.
  assert (10 ^ 16 = IZR S8 * IZR S8) as E by (rewrite <- pow8; ring). rewrite E.
  assert (IZR S8 <> 0) as N by (rewrite <- pow8; apply pow_nonzero; lra). rewrite ?pow8. generalize dependent (IZR S8). clear. intros K E N. f_equal; field; exact N.
Qed.
Lemma near_R a b : znear a b = true -> Rabs (/ 10 ^ 16 * IZR a - IZR b) <= 4 / 10 ^ 9.
Proof.
  unfold znear. intros H. apply Z.leb_le in H. apply IZR_le in H. rewrite abs_IZR, minus_IZR, !mult_IZR in H. rewrite <- pow16 in H.
  assert (0 < / 10 ^ 16) as P by (apply Rinv_0_lt_compat, pow_lt; lra).
  replace (/ 10 ^ 16 * IZR a - IZR b) with (/ 10 ^ 16 * (IZR a - 10 ^ 16 * IZR b)) by (field; apply pow_nonzero; lra).
  rewrite Rabs_mult, (Rabs_right (/ 10 ^ 16)) by lra. apply (Rmult_le_compat_l (/ 10 ^ 16)) in H; [|lra]. eapply Rle_trans; [exact H|]. right.
  replace (IZR (10 ^ 7)) with (10 ^ 7) by (change (10 ^ 7)%Z with (10 ^ Z.of_nat 7)%Z; rewrite <- pow_IZR; reflexivity). replace (10 ^ 16) with (10 ^ 7 * 10 ^ 9) by ring. field; lra.
Qed.

(** The tabulated matrices. *)
Definition octa : list M3 := map so3_quat_to_matrix so3_octahedral.
Lemma octa_length : List.length octa = 24%nat.
Proof. reflexivity. Qed.
Lemma zocta_length : List.length zocta = 24%nat.
Proof. reflexivity. Qed.
Lemma combine_nth_error {A B} (l : list A) : forall (l' : list B) i a b, nth_error l i = Some a -> nth_error l' i = Some b -> In (a, b) (combine l l').
Proof.
  induction l as [|x l IH]; intros [|y l'] [|i] a b; cbn; try discriminate; [intros [= <-] [= <-]; left; reflexivity|]. intros. right. eapply IH; eassumption.
Qed.
Lemma octa_exact i r A : nth_error octa i = Some r -> nth_error zocta i = Some A -> close3 (4 / 10 ^ 9) r (m3_of A).
Proof.
  intros Hr HA. unfold octa, so3_octahedral in Hr. rewrite map_map, nth_error_map in Hr. destruct (nth_error z_octahedral i) as [q|] eqn:Eq; [|discriminate]. assert (r = so3_quat_to_matrix (q_of q)) as -> by (symmetry; injection Hr; trivial). clear Hr.
  pose proof octa_near as N. rewrite forallb_forall in N. specialize (N (zquat q, A)).
  assert (In (zquat q, A) (combine (map zquat z_octahedral) zocta)) as Hin by (eapply combine_nth_error; [rewrite nth_error_map, Eq; reflexivity|exact HA]).
  specialize (N Hin). clear Hin. cbn [fst snd] in N. unfold znear3 in N. rewrite !andb_true_iff in N. destruct N as ((((((((N1 & N2) & N3) & N4) & N5) & N6) & N7) & N8) & N9).
  cbv beta. rewrite quat_scaled. unfold close3, entries3, scal3, m3_of. cbn [a00 a01 a02 a10 a11 a12 a20 a21 a22].
  repeat (apply Forall2_cons; [apply near_R; assumption|]). apply Forall2_nil.
Qed.

(** ** Signed permutations of determinant 1 *)
Definition zsgn (b : bool) : Z := if b then (-1)%Z else 1%Z.
Definition zsp (sp : sperm) : ZM :=
  let e j k := let p := nth (2 - j) sp (0%nat, false) in if Nat.eqb (fst p) (2 - k) then zsgn (snd p) else 0%Z in
  zm (e 0 0)%nat (e 0 1)%nat (e 0 2)%nat (e 1 0)%nat (e 1 1)%nat (e 1 2)%nat (e 2 0)%nat (e 2 1)%nat (e 2 2)%nat.
Lemma zsp_R sp : m3_of (zsp sp) = sp_mat3 sp.
Proof.
  unfold m3_of, zsp, sp_mat3. cbn [z00 z01 z02 z10 z11 z12 z20 z21 z22].
  assert (forall (c b : bool), IZR (if c then zsgn b else 0%Z) = if c then sgn b else 0) as E by (intros [|] [|]; reflexivity).
  rewrite !E. reflexivity.
Qed.
Definition zdet (A : ZM) : Z := (z00 A * (z11 A * z22 A - z12 A * z21 A) - z01 A * (z10 A * z22 A - z12 A * z20 A) + z02 A * (z10 A * z21 A - z11 A * z20 A))%Z.
Definition zeqb (A B : ZM) : bool :=
  Z.eqb (z00 A) (z00 B) && Z.eqb (z01 A) (z01 B) && Z.eqb (z02 A) (z02 B) && Z.eqb (z10 A) (z10 B) && Z.eqb (z11 A) (z11 B) && Z.eqb (z12 A) (z12 B) &&
  Z.eqb (z20 A) (z20 B) && Z.eqb (z21 A) (z21 B) && Z.eqb (z22 A) (z22 B).
Lemma zeqb_eq A B : zeqb A B = true -> A = B.
Proof. destruct A, B. unfold zeqb. cbn. rewrite !andb_true_iff, !Z.eqb_eq. intuition congruence. Qed.
Fixpoint zfind (A : ZM) (l : list ZM) : nat := match l with [] => 0 | B :: r => if zeqb A B then 0 else S (zfind A r) end.

(** All signed permutations of three axes. *)
Definition bools := [true; false].
Definition all_sp : list sperm :=
  flat_map (fun p => flat_map (fun a => flat_map (fun b => map (fun c => [(nth 0 p 0%nat, a); (nth 1 p 0%nat, b); (nth 2 p 0%nat, c)]) bools) bools) bools)
    [[0; 1; 2]; [0; 2; 1]; [1; 0; 2]; [1; 2; 0]; [2; 0; 1]; [2; 1; 0]]%nat.
Lemma all_sp_complete sp : sp_ok 3 sp -> In sp all_sp.
Proof.
  intros H. pose proof (sp_length 3 sp H) as L. unfold sp_ok in H.
  destruct sp as [|[a x] [|[b y] [|[c z] [|]]]]; try discriminate. cbn [map fst seq] in H. clear L.
  assert (In a [0; 1; 2]%nat) as Ha by (eapply Permutation_in; [exact H|left; reflexivity]).
  assert (In b [0; 1; 2]%nat) as Hb by (eapply Permutation_in; [exact H|right; left; reflexivity]).
  assert (In c [0; 1; 2]%nat) as Hc by (eapply Permutation_in; [exact H|right; right; left; reflexivity]).
  assert (NoDup [a; b; c]) as Hn by (eapply Permutation_NoDup; [symmetry; exact H|]; repeat constructor; cbn; intuition discriminate).
  inversion Hn as [|? ? N1 Hn']; subst. inversion Hn' as [|? ? N2 _]; subst. cbn in N1, N2.
  destruct Ha as [<-|[<-|[<-|[]]]], Hb as [<-|[<-|[<-|[]]]], Hc as [<-|[<-|[<-|[]]]]; try (exfalso; tauto); destruct x, y, z; vm_compute; tauto.
Qed.

(** g permutes the 24 rotations: position of g A. *)
Definition zperm (g : ZM) : list nat := map (fun A => zfind (zmul g A) zocta) zocta.
Definition sortedb (l : list nat) : bool := forallb (fun i => existsb (Nat.eqb i) l) (seq 0 24) && Nat.eqb (List.length l) 24.
Definition good (sp : sperm) : bool :=
  if Z.eqb (zdet (zsp sp)) 1 then
    sortedb (zperm (zsp sp)) && forallb (fun A => match nth_error zocta (zfind (zmul (zsp sp) A) zocta) with Some B => zeqb B (zmul (zsp sp) A) | None => false end) zocta
  else true.
Lemma all_good : forallb good all_sp = true.
Proof. vm_compute. reflexivity. Qed.
Lemma sortedb_perm l : sortedb l = true -> Permutation l (seq 0 24).
Proof.
  unfold sortedb. intros H. apply andb_true_iff in H. destruct H as [H L]. apply Nat.eqb_eq in L. symmetry.
  apply NoDup_Permutation_bis; [apply seq_NoDup|rewrite seq_length; lia|]. intros i Hi. rewrite forallb_forall in H. specialize (H i Hi). apply existsb_exists in H. destruct H as (j & Hj & E).
  apply Nat.eqb_eq in E. subst j. exact Hj.
Qed.

Lemma det3_R A : det3 (m3_of A) = IZR (zdet A).
Proof. unfold det3, m3_of, zdet. cbn [a00 a01 a02 a10 a11 a12 a20 a21 a22]. rewrite ?plus_IZR, ?minus_IZR, ?mult_IZR, ?minus_IZR, ?mult_IZR. ring. Qed.

Lemma unit_abs x : unit_entry x -> Rabs x <= 1.
Proof. intros [->|[->| ->]]; apply Rabs_le; lra. Qed.
Lemma close3_trans e e' A B C : close3 e A B -> close3 e' B C -> close3 (e + e') A C.
Proof.
  unfold close3. intros H. revert H. generalize (entries3 A) (entries3 B) (entries3 C). clear. intros l1 l2 l3 H. revert l3.
  induction H as [|x y l l' Hxy H IH]; intros l3 H'; inversion H' as [|y' z l2' l3' Hyz H'']; subst; constructor; [|apply IH; assumption].
  replace (x - z) with ((x - y) + (y - z)) by ring. eapply Rle_trans; [apply Rabs_triang|]. lra.
Qed.
Lemma close3_sym e A B : close3 e A B -> close3 e B A.
Proof.
  unfold close3. generalize (entries3 A) (entries3 B). intros l1 l2 H. induction H; constructor; [rewrite Rabs_minus_sym; assumption|assumption].
Qed.
Lemma close3_mono e e' A B : e <= e' -> close3 e A B -> close3 e' A B.
Proof.
  unfold close3. intros He. generalize (entries3 A) (entries3 B). intros l1 l2 H. induction H; constructor; [lra|assumption].
Qed.
Lemma dotrow p q r a b c a' b' c' e : Rabs p <= 1 -> Rabs q <= 1 -> Rabs r <= 1 -> Rabs (a - a') <= e -> Rabs (b - b') <= e -> Rabs (c - c') <= e ->
  Rabs (p * a + q * b + r * c - (p * a' + q * b' + r * c')) <= 3 * e.
Proof.
  intros Hp Hq Hr Ha Hb Hc. replace (p * a + q * b + r * c - (p * a' + q * b' + r * c')) with (p * (a - a') + q * (b - b') + r * (c - c')) by ring.
  eapply Rle_trans; [apply Rabs_triang|]. eapply Rle_trans; [apply Rplus_le_compat_r, Rabs_triang|]. rewrite !Rabs_mult.
  assert (forall u v, Rabs u <= 1 -> Rabs v <= e -> Rabs u * Rabs v <= e) as K.
  { intros u v Hu Hv. pose proof (Rabs_pos u). pose proof (Rabs_pos v). apply Rle_trans with (1 * Rabs v); [apply Rmult_le_compat_r; lra|lra]. }
  pose proof (K p _ Hp Ha). pose proof (K q _ Hq Hb). pose proof (K r _ Hr Hc). lra.
Qed.
Lemma mul_close g A B e : signed3 g -> close3 e A B -> close3 (3 * e) (mul3 g A) (mul3 g B).
Proof.
  intros (_ & U1 & U2 & U3 & U4 & U5 & U6 & U7 & U8 & U9) H. apply unit_abs in U1, U2, U3, U4, U5, U6, U7, U8, U9.
  unfold close3, entries3 in H. repeat match goal with A : Forall2 _ (_ :: _) _ |- _ => inversion A; clear A; subst end.
  unfold close3, entries3, mul3. cbn [a00 a01 a02 a10 a11 a12 a20 a21 a22].
  repeat (apply Forall2_cons; [apply dotrow; assumption|]). apply Forall2_nil.
Qed.

Lemma octa_permuted g : signed3 g -> det3 g = 1 -> exists sg, Permutation sg (seq 0 24) /\
  forall i r, nth_error octa i = Some r -> exists i' r', nth_error sg i = Some i' /\ nth_error octa i' = Some r' /\ close3 (2 / 10 ^ 8) r' (mul3 g r).
Proof.
  intros Hg Hdet. destruct (signed3_sperm g Hg) as (sp & Hok & ->). pose proof all_good as AG. rewrite forallb_forall in AG. specialize (AG sp (all_sp_complete sp Hok)).
  rewrite <- zsp_R, det3_R in Hdet. apply eq_IZR in Hdet. unfold good in AG. rewrite (proj2 (Z.eqb_eq _ _) Hdet) in AG. apply andb_true_iff in AG. destruct AG as [S F].
  exists (zperm (zsp sp)). split; [apply sortedb_perm; exact S|]. intros i r Hr.
  assert (i < 24)%nat as Hi by (rewrite <- octa_length; apply nth_error_Some; congruence).
  destruct (nth_error zocta i) as [A|] eqn:EA; [|apply nth_error_None in EA; rewrite zocta_length in EA; lia].
  rewrite forallb_forall in F. specialize (F A (nth_error_In _ _ EA)). set (i' := zfind (zmul (zsp sp) A) zocta) in *.
  destruct (nth_error zocta i') as [B|] eqn:EB; [|discriminate]. apply zeqb_eq in F.
  assert (i' < 24)%nat as Hi' by (rewrite <- zocta_length; apply nth_error_Some; congruence).
  destruct (nth_error octa i') as [r'|] eqn:Er'; [|apply nth_error_None in Er'; rewrite octa_length in Er'; lia].
  exists i', r'. split; [unfold zperm; rewrite nth_error_map, EA; reflexivity|]. split; [exact Er'|].
  pose proof (octa_exact i r A Hr EA) as C1. pose proof (octa_exact i' r' B Er' EB) as C2. apply (mul_close _ _ _ _ Hg) in C1. apply close3_sym in C1.
  rewrite F, m3_of_mul, zsp_R in C2. pose proof (close3_trans _ _ _ _ _ C2 C1) as C3.
  apply (close3_mono (4 / 10 ^ 9 + 3 * (4 / 10 ^ 9))); [|exact C3].
  assert (0 < 10 ^ 8) as P by (apply pow_lt; lra). replace (10 ^ 9) with (10 * 10 ^ 8) by ring.
  replace (4 / (10 * 10 ^ 8) + 3 * (4 / (10 * 10 ^ 8))) with (16 / 10 * / 10 ^ 8) by (field; lra). unfold Rdiv. pose proof (Rinv_0_lt_compat _ P). lra.
Qed.
