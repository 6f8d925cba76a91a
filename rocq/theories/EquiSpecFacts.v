(** The moved images of EquiSpec.v as re-indexing by signed permutations of the axes. *)
From Coq Require Import Permutation.
From Verif Require Import Prelude RMath Mat Tensor TensorFacts SignedPerm Functional FunctionalFacts Kernel KernelFacts EquiSpec.
Open Scope R_scope.

Definition carried_sp (d : nat) (sp : sperm) (rel : list nat -> R -> R -> Prop) (X X' : tensor R) : Prop :=
  exists lead s s', List.length s = d /\ has_shape X (lead ++ s) /\ has_shape X' (lead ++ s') /\ sp_shape sp s s' /\
    forall pre i, valid lead pre -> valid s' i -> rel pre (at_ X (pre ++ sp_idx sp s i)) (at_ X' (pre ++ i)).

Lemma len2 {A} (l : list A) : List.length l = 2%nat -> exists a b, l = [a; b].
Proof. destruct l as [|a [|b [|]]]; intros; try discriminate. eauto. Qed.
Lemma len3 {A} (l : list A) : List.length l = 3%nat -> exists a b c, l = [a; b; c].
Proof. destruct l as [|a [|b [|c [|]]]]; intros; try discriminate. eauto. Qed.

Lemma valid2_split a b z : valid [a; b] z -> exists i j, z = [i; j] /\ (i < a)%nat /\ (j < b)%nat.
Proof.
  intros H. apply valid_nth in H. destruct H as [L H]. destruct (len2 z (eq_sym L)) as (i & j & ->) || destruct (len2 z L) as (i & j & ->).
  exists i, j. split; [reflexivity|]. split; [apply (H 0%nat); simpl; lia|apply (H 1%nat); simpl; lia].
Qed.
Lemma valid3_split a b c z : valid [a; b; c] z -> exists i j k, z = [i; j; k] /\ (i < a)%nat /\ (j < b)%nat /\ (k < c)%nat.
Proof.
  intros H. apply valid_nth in H. destruct H as [L H]. destruct (len3 z (eq_sym L)) as (i & j & k & ->) || destruct (len3 z L) as (i & j & k & ->).
  exists i, j, k. split; [reflexivity|]. split; [apply (H 0%nat); simpl; lia|]. split; [apply (H 1%nat); simpl; lia|apply (H 2%nat); simpl; lia].
Qed.

Lemma sp2_cases sp : sp_ok 2 sp -> exists fa fb, sp = [(0%nat, fa); (1%nat, fb)] \/ sp = [(1%nat, fa); (0%nat, fb)].
Proof.
  intros H. destruct (sp2_inv sp H) as (a & b & fa & fb & -> & Ha & Hb). exists fa, fb.
  unfold sp_ok in H. cbn in H.
  assert (NoDup [a; b]) as N by (apply (Permutation_NoDup (Permutation_sym H)); repeat constructor; simpl; intuition discriminate).
  apply NoDup_cons_iff in N. destruct N as [N _]. cbn in N.
  destruct a as [|[|]], b as [|[|]]; try lia; auto.
Qed.
Lemma sp3_cases sp : sp_ok 3 sp -> exists a b c fa fb fc, sp = [(a, fa); (b, fb); (c, fc)] /\
  ((a = 0 /\ b = 1 /\ c = 2) \/ (a = 0 /\ b = 2 /\ c = 1) \/ (a = 1 /\ b = 0 /\ c = 2) \/
   (a = 1 /\ b = 2 /\ c = 0) \/ (a = 2 /\ b = 0 /\ c = 1) \/ (a = 2 /\ b = 1 /\ c = 0))%nat.
Proof.
  intros H. destruct (sp3_inv sp H) as (a & b & c & fa & fb & fc & -> & Ha & Hb & Hc). exists a, b, c, fa, fb, fc. split; [reflexivity|].
  unfold sp_ok in H. cbn in H.
  assert (NoDup [a; b; c]) as N by (apply (Permutation_NoDup (Permutation_sym H)); repeat constructor; simpl; intuition discriminate).
  apply NoDup_cons_iff in N. destruct N as [N1 N2]. apply NoDup_cons_iff in N2. destruct N2 as [N2 _]. cbn in N1, N2. lia.
Qed.

Lemma INR_flip n i : (i < n)%nat -> INR (n - 1 - i) = INR n - 1 - INR i.
Proof. intros H. rewrite !minus_INR by lia. simpl. reflexivity. Qed.

Lemma abs_sgn b : Rabs (sgn b) = 1.
Proof. destruct b; cbn; [rewrite Rabs_left by lra; lra|apply Rabs_R1]. Qed.

Lemma centred2_sp sp h w h' w' i' j' : sp_ok 2 sp -> sp_shape sp [h; w] [h'; w'] -> (i' < h')%nat -> (j' < w')%nat ->
  exists i j, sp_idx sp [h; w] [i'; j'] = [i; j] /\ centred2 h w i j = app2 (sp_mat2 sp) (centred2 h' w' i' j').
Proof.
  intros Hok [_ E] Hi Hj. destruct (sp2_cases sp Hok) as (fa & fb & [-> | ->]);
    cbn in E; injection E as E1 E2; subst; unfold sp_idx; cbn [map2 nth fst snd]; do 2 eexists; (split; [reflexivity|]);
    unfold sp_mat2, app2, centred2; cbn [nth fst snd Nat.eqb b00 b01 b10 b11 v2x v2y]; destruct fa, fb; rewrite ?INR_flip by assumption;
    cbn [sgn]; f_equal; ring.
Qed.
Lemma centred3_sp sp d h w d' h' w' i' j' k' : sp_ok 3 sp -> sp_shape sp [d; h; w] [d'; h'; w'] ->
  (i' < d')%nat -> (j' < h')%nat -> (k' < w')%nat ->
  exists i j k, sp_idx sp [d; h; w] [i'; j'; k'] = [i; j; k] /\ centred3 d h w i j k = app3 (sp_mat3 sp) (centred3 d' h' w' i' j' k').
Proof.
  intros Hok [_ E] Hi Hj Hk. destruct (sp3_cases sp Hok) as (a & b & c & fa & fb & fc & -> & C).
  destruct C as [(-> & -> & ->)|[(-> & -> & ->)|[(-> & -> & ->)|[(-> & -> & ->)|[(-> & -> & ->)|(-> & -> & ->)]]]]];
    cbn in E; injection E as E1 E2 E3; subst; unfold sp_idx; cbn [map2 nth fst snd]; do 3 eexists; (split; [reflexivity|]);
    unfold sp_mat3, app3, centred3; cbn [nth fst snd Nat.sub Nat.eqb a00 a01 a02 a10 a11 a12 a20 a21 a22 vx vy vz];
    destruct fa, fb, fc; rewrite ?INR_flip by assumption; cbn [sgn]; f_equal; ring.
Qed.

Lemma shape2_sp sp h w h' w' A : sp_ok 2 sp -> tr2 A = sp_mat2 sp ->
  (sp_shape sp [h; w] [h'; w'] <->
   INR h' = Rabs (b00 A) * INR h + Rabs (b01 A) * INR w /\ INR w' = Rabs (b10 A) * INR h + Rabs (b11 A) * INR w).
Proof.
  intros Hok E. assert (A = tr2 (sp_mat2 sp)) as -> by (rewrite <- E; destruct A; reflexivity).
  destruct (sp2_cases sp Hok) as (fa & fb & [-> | ->]); unfold sp_shape, sp_mat2, tr2; cbn; rewrite !abs_sgn, !Rabs_R0;
    (split; [intros [_ E1]; injection E1 as <- <-; split; ring|intros [E1 E2]; split; [reflexivity|];
      repeat f_equal; apply INR_eq; lra]).
Qed.
Lemma shape3_sp sp d h w d' h' w' A : sp_ok 3 sp -> tr3 A = sp_mat3 sp ->
  (sp_shape sp [d; h; w] [d'; h'; w'] <->
   INR w' = Rabs (a00 A) * INR w + Rabs (a01 A) * INR h + Rabs (a02 A) * INR d /\
   INR h' = Rabs (a10 A) * INR w + Rabs (a11 A) * INR h + Rabs (a12 A) * INR d /\
   INR d' = Rabs (a20 A) * INR w + Rabs (a21 A) * INR h + Rabs (a22 A) * INR d).
Proof.
  intros Hok E. assert (A = tr3 (sp_mat3 sp)) as -> by (rewrite <- E; destruct A; reflexivity).
  destruct (sp3_cases sp Hok) as (a & b & c & fa & fb & fc & -> & C).
  destruct C as [(-> & -> & ->)|[(-> & -> & ->)|[(-> & -> & ->)|[(-> & -> & ->)|[(-> & -> & ->)|(-> & -> & ->)]]]]];
    unfold sp_shape, sp_mat3, tr3; cbn; rewrite !abs_sgn, !Rabs_R0;
    (split; [intros [_ E1]; injection E1 as <- <- <-; repeat split; ring|intros (E1 & E2 & E3); split; [reflexivity|];
      repeat f_equal; apply INR_eq; lra]).
Qed.

Lemma centred2_inj h w i j i' j' : centred2 h w i j = centred2 h w i' j' -> i = i' /\ j = j'.
Proof. intros E. injection E as E1 E2. split; apply INR_eq; lra. Qed.
Lemma centred3_inj d h w i j k i' j' k' : centred3 d h w i j k = centred3 d h w i' j' k' -> i = i' /\ j = j' /\ k = k'.
Proof. intros E. injection E as E1 E2 E3. split; [|split]; apply INR_eq; lra. Qed.

Lemma app2_mul A B v : app2 A (app2 B v) = app2 (mul2 A B) v.
Proof. unfold app2, mul2. destruct A, B, v. cbn. f_equal; ring. Qed.
Lemma app3_mul A B v : app3 A (app3 B v) = app3 (mul3 A B) v.
Proof. unfold app3, mul3. destruct A, B, v. cbn. f_equal; ring. Qed.
Lemma app2_I v : app2 I2 v = v.
Proof. destruct v. unfold app2, I2. cbn. f_equal; ring. Qed.
Lemma app3_I v : app3 I3 v = v.
Proof. destruct v. unfold app3, I3. cbn. f_equal; ring. Qed.

Lemma carried2_sp rel A sp X X' : sp_ok 2 sp -> tr2 A = sp_mat2 sp -> mul2 A (tr2 A) = I2 -> mul2 (tr2 A) A = I2 ->
  (carried2 rel A X X' <-> carried_sp 2 sp rel X X').
Proof.
  intros Hok E O1 O2. split.
  - intros (lead & h & w & h' & w' & S1 & S2 & D1 & D2 & V). exists lead, [h; w], [h'; w'].
    assert (sp_shape sp [h; w] [h'; w']) as Hsh by (apply (shape2_sp sp h w h' w' A Hok E); auto).
    do 4 (split; [auto|]). intros pre i Hp Hi. pose proof (sp_idx_valid 2 sp Hok [h; w] [h'; w'] eq_refl Hsh i Hi) as Hv.
    destruct (valid2_split _ _ _ Hi) as (i' & j' & -> & Hi' & Hj').
    destruct (centred2_sp sp h w h' w' i' j' Hok Hsh Hi' Hj') as (i & j & Eij & C). rewrite Eij in *.
    destruct (valid2_split _ _ _ Hv) as (i0 & j0 & E0 & Hi0 & Hj0). injection E0 as <- <-.
    apply V; try assumption. rewrite C, <- E, app2_mul, O1, app2_I. reflexivity.
  - intros (lead & s & s' & Ls & S1 & S2 & Hsh & V). assert (List.length s' = 2%nat) as Ls' by (destruct Hsh; congruence).
    destruct (len2 s Ls) as (h & w & ->). destruct (len2 s' Ls') as (h' & w' & ->).
    destruct (proj1 (shape2_sp sp h w h' w' A Hok E) Hsh) as [D1 D2].
    exists lead, h, w, h', w'. do 4 (split; [auto|]). intros pre i j i' j' Hp Hi Hj Hi' Hj' C.
    assert (valid [h'; w'] [i'; j']) as Hv by (repeat apply valid_cons; try assumption; apply valid_nil).
    specialize (V pre _ Hp Hv).
    destruct (centred2_sp sp h w h' w' i' j' Hok Hsh Hi' Hj') as (i0 & j0 & Eij & C0). rewrite Eij in V.
    rewrite C, <- E, app2_mul, O2, app2_I in C0. apply centred2_inj in C0. destruct C0 as [-> ->]. exact V.
Qed.
Lemma carried3_sp rel A sp X X' : sp_ok 3 sp -> tr3 A = sp_mat3 sp -> mul3 A (tr3 A) = I3 -> mul3 (tr3 A) A = I3 ->
  (carried3 rel A X X' <-> carried_sp 3 sp rel X X').
Proof.
  intros Hok E O1 O2. split.
  - intros (lead & d & h & w & d' & h' & w' & S1 & S2 & D1 & D2 & D3 & V). exists lead, [d; h; w], [d'; h'; w'].
    assert (sp_shape sp [d; h; w] [d'; h'; w']) as Hsh by (apply (shape3_sp sp d h w d' h' w' A Hok E); auto).
    do 4 (split; [auto|]). intros pre i Hp Hi. pose proof (sp_idx_valid 3 sp Hok [d; h; w] [d'; h'; w'] eq_refl Hsh i Hi) as Hv.
    destruct (valid3_split _ _ _ _ Hi) as (i' & j' & k' & -> & Hi' & Hj' & Hk').
    destruct (centred3_sp sp d h w d' h' w' i' j' k' Hok Hsh Hi' Hj' Hk') as (i & j & k & Eij & C). rewrite Eij in *.
    destruct (valid3_split _ _ _ _ Hv) as (i0 & j0 & k0 & E0 & Hi0 & Hj0 & Hk0). injection E0 as <- <- <-.
    apply V; try assumption. rewrite C, <- E, app3_mul, O1, app3_I. reflexivity.
  - intros (lead & s & s' & Ls & S1 & S2 & Hsh & V). assert (List.length s' = 3%nat) as Ls' by (destruct Hsh; congruence).
    destruct (len3 s Ls) as (d & h & w & ->). destruct (len3 s' Ls') as (d' & h' & w' & ->).
    destruct (proj1 (shape3_sp sp d h w d' h' w' A Hok E) Hsh) as (D1 & D2 & D3).
    exists lead, d, h, w, d', h', w'. do 5 (split; [auto|]). intros pre i j k i' j' k' Hp Hi Hj Hk Hi' Hj' Hk' C.
    assert (valid [d'; h'; w'] [i'; j'; k']) as Hv by (repeat apply valid_cons; try assumption; apply valid_nil).
    specialize (V pre _ Hp Hv).
    destruct (centred3_sp sp d h w d' h' w' i' j' k' Hok Hsh Hi' Hj' Hk') as (i0 & j0 & k0 & Eij & C0). rewrite Eij in V.
    rewrite C, <- E, app3_mul, O2, app3_I in C0. apply centred3_inj in C0. destruct C0 as (-> & -> & ->). exact V.
Qed.
