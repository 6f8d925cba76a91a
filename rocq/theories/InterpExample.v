(** A torch environment meeting [torch_ok] whose solver succeeds on every nonsingular system:
    shows the hypotheses of the interpolation theorems are satisfiable. Uses classical epsilon
    from the standard library; no property theorem depends on this file. *)
From Coq Require Import ClassicalEpsilon.
From Verif Require Import Prelude RMath Interp InterpFacts.
From Verif Require Export SolveSpec.
Open Scope R_scope.

Definition ex_solve (m b : mat) : result mat :=
  match excluded_middle_informative
    (exists x, (exists n s, wfm n s b /\ nonsingular n m /\ solution n s m b x)) with
  | left H => Ok (proj1_sig (constructive_indefinite_description _ H))
  | right _ => Err RuntimeError
  end.

Definition ex_argmin (l : list R) : nat :=
  match excluded_middle_informative
    (exists i, exists v, nth_error l i = Some v /\ forall z, In z l -> v <= z) with
  | left H => proj1_sig (constructive_indefinite_description _ H)
  | right _ => 0%nat
  end.

Definition top3_spec (l : list R) (t : nat * nat * nat) : Prop :=
  exists i j k a b c, t = (i, j, k) /\ i <> j /\ i <> k /\ j <> k /\
      nth_error l i = Some a /\ nth_error l j = Some b /\ nth_error l k = Some c /\
      a <= b <= c /\
      forall n z, nth_error l n = Some z -> n <> i -> n <> j -> c <= z.

Definition ex_top3 (l : list R) : nat * nat * nat :=
  match excluded_middle_informative (exists t, top3_spec l t) with
  | left H => proj1_sig (constructive_indefinite_description _ H)
  | right _ => (0, 0, 0)%nat
  end.

Definition ex_env : torch_env :=
  {| te_solve := ex_solve; te_argmin := ex_argmin; te_top3 := ex_top3 |}.

Lemma exists_argmin_not (l : list R) (P : nat -> bool) :
  (exists i, (i < length l)%nat /\ P i = true) ->
  exists i v, nth_error l i = Some v /\ P i = true /\
    forall n z, nth_error l n = Some z -> P n = true -> v <= z.
Proof.
  revert P; induction l as [|x l IH]; intros P (i & Hi & HP); [simpl in Hi; lia|].
  destruct (excluded_middle_informative (exists i, (i < length l)%nat /\ P (S i) = true)) as [H|H].
  - destruct (IH (fun i => P (S i)) H) as (j & v & Hj & Pj & Hmin).
    destruct (P 0%nat) eqn:P0.
    + destruct (Rle_lt_dec x v).
      * exists 0%nat, x. repeat split; try assumption. intros n z Hn Pn.
        destruct n; simpl in Hn; [injection Hn as <-; lra|]. specialize (Hmin n z Hn Pn). lra.
      * exists (S j), v. repeat split; try assumption. intros n z Hn Pn.
        destruct n; simpl in Hn; [injection Hn as <-; lra|]. exact (Hmin n z Hn Pn).
    + exists (S j), v. repeat split; try assumption. intros n z Hn Pn.
      destruct n; simpl in Hn; [congruence|]. exact (Hmin n z Hn Pn).
  - destruct i as [|i]; [|exfalso; apply H; exists i; simpl in Hi; split; [lia|assumption]].
    exists 0%nat, x. repeat split; try assumption. intros n z Hn Pn.
    destruct n; simpl in Hn; [injection Hn as <-; lra|]. exfalso. apply H. exists n.
    split; [apply nth_error_Some_lt in Hn; assumption|assumption].
Qed.

Lemma wfm_unique_rows n n' s (b : mat) : wfm n s b -> length b = n' -> n = n'.
Proof. intros [H _] H'. lia. Qed.

Lemma solution_unique n s s' m b x x' :
  wfm n s b -> wfm n s' b -> solution n s m b x -> solution n s' m b x' -> x = x'.
Proof.
  intros [Hb Hb1] [_ Hb2] (Wx & Ex & Ux) (Wx' & Ex' & Ux').
  destruct b as [|r b].
  - simpl in Hb. subst n. destruct Wx as [Wx _], Wx' as [Wx' _].
    destruct x; [|discriminate]. destruct x'; [|discriminate]. reflexivity.
  - assert (s = s') as <-.
    { rewrite <- (Hb1 r (or_introl eq_refl)). apply Hb2. left; reflexivity. }
    apply Ux'; assumption.
Qed.

Lemma ex_env_ok : torch_ok ex_env.
Proof.
  constructor; simpl.
  - intros n s m b x Hm Hb H. unfold ex_solve in H.
    destruct (excluded_middle_informative _) as [E|E]; [|discriminate].
    destruct (constructive_indefinite_description _ E) as [x' (n' & s' & Hb' & Hns & Hsol)].
    simpl in H. injection H as <-.
    assert (n' = n) as -> by (destruct Hb, Hb'; lia).
    destruct Hns as [_ Hns]. destruct (Hns s b Hb) as [x'' Hx''].
    rewrite (solution_unique n s' s m b x' x'') by assumption. exact Hx''.
  - intros n s m b x s' b' Hm Hb Hb' H. unfold ex_solve in *.
    destruct (excluded_middle_informative _) as [E|E]; [|discriminate]. clear H.
    destruct E as (x0 & n0 & s0 & Hb0 & Hns & _).
    assert (n0 = n) as -> by (destruct Hb, Hb0; lia).
    destruct (excluded_middle_informative _) as [E'|E']; [eauto|].
    exfalso. apply E'. destruct Hns as [Hw Hns]. destruct (Hns s' b' Hb') as [x' Hx'].
    exists x', n, s'. split; [assumption|]. split; [split; assumption|assumption].
  - intros l Hl. unfold ex_argmin. destruct (excluded_middle_informative _) as [E|E].
    + destruct (constructive_indefinite_description _ E) as [i Hi]. exact Hi.
    + exfalso. apply E. destruct (exists_argmin_not l (fun _ => true)) as (i & v & Hi & _ & Hmin).
      * exists 0%nat. destruct l; [congruence|]. simpl. split; [lia|reflexivity].
      * exists i, v. split; [assumption|]. intros z Hz. apply In_nth_error in Hz as [n Hn].
        exact (Hmin n z Hn eq_refl).
  - intros l Hl. unfold ex_top3. destruct (excluded_middle_informative _) as [E|E].
    + destruct (constructive_indefinite_description _ E) as [t Ht]. exact Ht.
    + exfalso. apply E.
      assert (Hex : forall a b, exists c, (c < length l)%nat /\ c <> a /\ c <> b).
      { intros a b. destruct (Nat.eq_dec a 0), (Nat.eq_dec b 0), (Nat.eq_dec a 1), (Nat.eq_dec b 1);
          try (exists 2%nat; lia); try (exists 1%nat; lia); exists 0%nat; lia. }
      destruct (exists_argmin_not l (fun _ => true)) as (i & a & Hi & _ & Hi').
      { exists 0%nat. split; [lia|reflexivity]. }
      destruct (exists_argmin_not l (fun n => negb (Nat.eqb n i))) as (j & b & Hj & Pj & Hj').
      { destruct (Hex i i) as (c & Hc & Hc1 & _). exists c. split; [assumption|].
        apply Bool.negb_true_iff, Nat.eqb_neq. assumption. }
      destruct (exists_argmin_not l (fun n => negb (Nat.eqb n i) && negb (Nat.eqb n j))%bool)
        as (k & c & Hk & Pk & Hk').
      { destruct (Hex i j) as (c & Hc & Hc1 & Hc2). exists c. split; [assumption|].
        apply Nat.eqb_neq in Hc1, Hc2. rewrite Hc1, Hc2. reflexivity. }
      apply Bool.negb_true_iff, Nat.eqb_neq in Pj. apply Bool.andb_true_iff in Pk as [Pk1 Pk2].
      apply Bool.negb_true_iff, Nat.eqb_neq in Pk1. apply Bool.negb_true_iff, Nat.eqb_neq in Pk2.
      exists (i, j, k), i, j, k, a, b, c.
      split; [reflexivity|]. split; [congruence|]. split; [congruence|]. split; [congruence|].
      split; [assumption|]. split; [assumption|]. split; [assumption|]. split.
      * split; [exact (Hi' j b Hj eq_refl)|].
        apply (Hj' k c Hk). apply Bool.negb_true_iff, Nat.eqb_neq. assumption.
      * intros n z Hn Hni Hnj. apply (Hk' n z Hn). apply Nat.eqb_neq in Hni, Hnj.
        rewrite Hni, Hnj. reflexivity.
Qed.

(** The example solver succeeds on every nonsingular system. *)
Lemma ex_solve_succeeds n s m b : nonsingular n m -> wfm n s b -> exists x, ex_solve m b = Ok x.
Proof.
  intros Hm Hb. unfold ex_solve. destruct (excluded_middle_informative _) as [E|E]; [eauto|].
  exfalso. apply E. destruct Hm as [Hw Hns]. destruct (Hns s b Hb) as [x Hx].
  exists x, n, s. split; [assumption|]. split; [split; assumption|assumption].
Qed.

(** A 2x2 system with distinct entries is nonsingular: [[1, r], [r, 1]] with r <> +-1. *)
Lemma gram2_nonsingular r : r * r <> 1 -> nonsingular 2 [[1; r]; [r; 1]].
Proof.
  intros Hr. split.
  - split; [reflexivity|]. intros q [<-|[<-|[]]]; reflexivity.
  - intros s b [Hb Hb']. destruct b as [|b1 [|b2 [|]]]; try discriminate.
    assert (L1 : length b1 = s) by (apply Hb'; left; reflexivity).
    assert (L2 : length b2 = s) by (apply Hb'; right; left; reflexivity).
    set (d := 1 - r * r). assert (Hd : d <> 0) by (unfold d; lra).
    set (x1 := map (fun j => (nth j b1 0 - r * nth j b2 0) / d) (seq 0 s)).
    set (x2 := map (fun j => (nth j b2 0 - r * nth j b1 0) / d) (seq 0 s)).
    assert (Hn : forall (f : nat -> R) j, (j < s)%nat -> nth j (map f (seq 0 s)) 0 = f j).
    { intros f j Hj. apply nth_error_nth. rewrite nth_error_map, nth_error_seq by assumption.
      reflexivity. }
    assert (Hl : forall (v : list R), length v = s -> map (fun j => nth j v 0) (seq 0 s) = v).
    { intros v Hv. rewrite <- Hv. clear. induction v as [|a v IH] using rev_ind; [reflexivity|].
      rewrite app_length. simpl. rewrite Nat.add_1_r, seq_S, map_app. simpl.
      rewrite app_nth2 by lia. rewrite Nat.sub_diag. simpl. f_equal.
      rewrite <- IH at 2. apply map_ext_in. intros j Hj. apply in_seq in Hj.
      apply app_nth1. lia. }
    exists [x1; x2]. split; [|split].
    + split; [reflexivity|]. intros q [<-|[<-|[]]]; unfold x1, x2; rewrite map_length, seq_length;
        reflexivity.
    + unfold matmul, rowmul, col, dotl. simpl.
      rewrite <- (Hl b1 L1) at 1. rewrite <- (Hl b2 L2) at 1.
      f_equal; [|f_equal]; apply map_ext_in; intros j Hj; apply in_seq in Hj;
        unfold x1, x2; rewrite !Hn by lia; unfold d; field; exact Hd.
    + intros y [Hy Hy'] E. destruct y as [|y1 [|y2 [|]]]; try discriminate.
      assert (M1 : length y1 = s) by (apply Hy'; left; reflexivity).
      assert (M2 : length y2 = s) by (apply Hy'; right; left; reflexivity).
      unfold matmul, rowmul, col, dotl in E. simpl in E. injection E as E1 E2.
      rewrite <- (Hl y1 M1), <- (Hl y2 M2). unfold x1, x2.
      f_equal; [|f_equal]; apply map_ext_in; intros j Hj; apply in_seq in Hj;
        rewrite <- E1, <- E2, !Hn by lia; unfold d; field; exact Hd.
Qed.
