(** Proofs about the order-restoring split. *)
From Coq Require Import Permutation Sorted.
From Verif Require Import Prelude RMath Interp InterpFacts OSplit.
Open Scope R_scope.

(** ** argsort *)
Lemma insert_kv_perm x l : Permutation (x :: l) (insert_kv x l).
Proof.
  induction l as [|y r IH]; simpl; [reflexivity|].
  destruct (Nat.leb (fst x) (fst y)); [reflexivity|].
  rewrite perm_swap. apply perm_skip. assumption.
Qed.

Lemma sort_kv_perm l : Permutation l (sort_kv l).
Proof.
  induction l as [|x l IH]; simpl; [reflexivity|].
  rewrite <- insert_kv_perm. apply perm_skip. assumption.
Qed.

Lemma insert_kv_sorted x l :
  StronglySorted le (map fst l) -> StronglySorted le (map fst (insert_kv x l)).
Proof.
  induction l as [|y r IH]; simpl; intros H.
  - repeat constructor.
  - inversion H as [|? ? Hs Hf]; subst. destruct (Nat.leb_spec (fst x) (fst y)) as [Hle|Hlt]; simpl.
    + constructor; [assumption|]. constructor; [assumption|].
      eapply Forall_impl; [|exact Hf]. simpl; intros; lia.
    + constructor; [apply IH; assumption|].
      assert (Hp : Permutation (map fst (x :: r)) (map fst (insert_kv x r)))
        by (apply Permutation_map, insert_kv_perm).
      apply (Permutation_Forall Hp). simpl. constructor; [lia|assumption].
Qed.

Lemma sort_kv_sorted l : StronglySorted le (map fst (sort_kv l)).
Proof. induction l as [|x l IH]; simpl; [constructor|]. apply insert_kv_sorted; assumption. Qed.

Lemma sorted_perm_unique l1 l2 :
  StronglySorted le l1 -> StronglySorted le l2 -> Permutation l1 l2 -> l1 = l2.
Proof.
  revert l2; induction l1 as [|a l1 IH]; intros l2 H1 H2 HP.
  - apply Permutation_nil in HP. congruence.
  - destruct l2 as [|b l2]; [symmetry in HP; apply Permutation_nil in HP; discriminate|].
    inversion H1 as [|? ? S1 F1]; inversion H2 as [|? ? S2 F2]; subst.
    assert (a = b).
    { rewrite Forall_forall in F1, F2.
      assert (Ha : In a (b :: l2)) by (apply (Permutation_in _ HP); left; reflexivity).
      assert (Hb : In b (a :: l1)) by (apply (Permutation_in _ (Permutation_sym HP)); left; reflexivity).
      destruct Ha as [->|Ha]; [reflexivity|]. destruct Hb as [->|Hb]; [reflexivity|].
      specialize (F1 _ Hb). specialize (F2 _ Ha). lia. }
    subst b. f_equal. apply IH; try assumption. apply Permutation_cons_inv with a; assumption.
Qed.

Lemma seq_sorted a n : StronglySorted le (seq a n).
Proof.
  revert a; induction n as [|n IH]; intros a; simpl; constructor; [apply IH|].
  apply Forall_forall. intros x Hx. apply in_seq in Hx. lia.
Qed.

Lemma map_fst_combine {A B} (l : list A) (m : list B) :
  length l = length m -> map fst (combine l m) = l.
Proof.
  revert m; induction l as [|a l IH]; intros m H; [reflexivity|].
  destruct m as [|b m]; [discriminate|]. simpl. f_equal. apply IH. simpl in H; lia.
Qed.

Lemma argsort_length l : length (argsort l) = length l.
Proof.
  unfold argsort. rewrite map_length, <- (Permutation_length (sort_kv_perm _)), combine_length, seq_length.
  lia.
Qed.

(** argsort of a permutation of 0..n-1 is its inverse. *)
Lemma argsort_inverse l n i : Permutation l (seq 0 n) -> (i < n)%nat ->
  exists p, nth_error (argsort l) i = Some p /\ nth_error l p = Some i.
Proof.
  intros HP Hi. unfold argsort. set (kv := combine l (seq 0 (length l))).
  assert (E : map fst (sort_kv kv) = seq 0 n).
  { apply sorted_perm_unique; [apply sort_kv_sorted|apply seq_sorted|].
    rewrite <- HP. rewrite <- (Permutation_map fst (sort_kv_perm kv)).
    unfold kv. rewrite map_fst_combine by (rewrite seq_length; reflexivity). reflexivity. }
  assert (Hn : nth_error (map fst (sort_kv kv)) i = Some i)
    by (rewrite E; apply nth_error_seq; assumption).
  apply nth_error_map_inv in Hn as ([k p] & Hkp & Hk). simpl in Hk. subst k.
  exists p. rewrite nth_error_map, Hkp. split; [reflexivity|].
  apply nth_error_In in Hkp. apply (Permutation_in _ (Permutation_sym (sort_kv_perm kv))) in Hkp.
  unfold kv in Hkp. clear -Hkp.
  assert (H : forall (l : list nat) a, In (i, p) (combine l (seq a (length l))) ->
            exists d, p = (a + d)%nat /\ nth_error l d = Some i).
  { induction l0 as [|x l0 IH]; intros a H; simpl in H; [tauto|].
    destruct H as [H|H].
    - injection H as -> ->. exists 0%nat. split; [lia|reflexivity].
    - destruct (IH _ H) as (d & -> & Hd). exists (S d). split; [lia|assumption]. }
  destruct (H _ _ Hkp) as (d & -> & Hd). exact Hd.
Qed.

(** ** where *)
Lemma where_eq_In c coeffs i : In i (where_eq c coeffs) <-> nth_error coeffs i = Some c.
Proof.
  unfold where_eq. rewrite filter_In, in_seq. split.
  - intros [_ H]. destruct (nth_error coeffs i) as [x|]; [|discriminate].
    destruct (Req_EM_T x c); [congruence|discriminate].
  - intros H. split; [apply nth_error_Some_lt in H; lia|]. rewrite H.
    destruct (Req_EM_T c c); congruence.
Qed.

Lemma where_eq_NoDup c coeffs : NoDup (where_eq c coeffs).
Proof. apply NoDup_filter, seq_NoDup. Qed.

Lemma NoDup_app_disj {A} (l1 l2 : list A) :
  NoDup l1 -> NoDup l2 -> (forall x, In x l1 -> ~ In x l2) -> NoDup (l1 ++ l2).
Proof.
  induction l1 as [|a l1 IH]; intros H1 H2 Hd; simpl; [assumption|].
  inversion H1; subst. constructor.
  - rewrite in_app_iff. intros [H|H]; [contradiction|]. exact (Hd a (or_introl eq_refl) H).
  - apply IH; try assumption. intros x Hx. apply Hd. right; assumption.
Qed.

Lemma where_split_perm coeffs :
  (forall x, In x coeffs -> x = 1 \/ x = -1) ->
  Permutation (where_eq 1 coeffs ++ where_eq (-1) coeffs) (seq 0 (length coeffs)).
Proof.
  intros H. apply NoDup_Permutation.
  - apply NoDup_app_disj; try apply where_eq_NoDup.
    intros i. rewrite !where_eq_In. intros H1 H2. rewrite H1 in H2. injection H2. lra.
  - apply seq_NoDup.
  - intros i. rewrite in_app_iff, !where_eq_In, in_seq. split.
    + intros [Hi|Hi]; apply nth_error_Some_lt in Hi; lia.
    + intros Hi. destruct (nth_error coeffs i) as [x|] eqn:E.
      * destruct (H x) as [->| ->]; [apply nth_error_In with i; assumption|auto|auto].
      * apply nth_error_None in E. lia.
Qed.

Lemma take_idx_nth {A} (l : list A) idx out k i :
  take_idx l idx = Ok out -> nth_error idx k = Some i -> nth_error out k = nth_error l i.
Proof.
  intros H Hk. destruct (mapM_nth _ _ _ _ _ H Hk) as (b & Hb & Hb').
  destruct (nth_error l i); [|discriminate]. simpl in Hb. congruence.
Qed.

Lemma take_idx_ok {A} (l : list A) idx :
  (forall i, In i idx -> (i < length l)%nat) -> exists out, take_idx l idx = Ok out.
Proof.
  intros H. apply mapM_ok_all. intros i Hi. specialize (H i Hi).
  destruct (nth_error l i) eqn:E; [simpl; eauto|]. apply nth_error_None in E. lia.
Qed.

Lemma take_idx_err {A} (l : list A) idx i :
  In i idx -> (length l <= i)%nat -> take_idx l idx = Err IndexError.
Proof.
  unfold take_idx. induction idx as [|j idx IH]; intros Hi Hl; [destruct Hi|]. simpl.
  destruct Hi as [->|Hi].
  - rewrite (proj2 (nth_error_None l i)) by assumption. reflexivity.
  - destruct (nth_error l j); [|reflexivity]. simpl. rewrite IH by assumption. reflexivity.
Qed.

(** Row-wise samplers: row k of the output depends on query k only. *)
Definition rowwise {G Row} (samp : list G -> list Row -> list G -> result (list Row)) : Prop :=
  forall q s g out, samp q s g = Ok out ->
    length out = length q /\
    forall k a, nth_error q k = Some a ->
      exists row, nth_error out k = Some row /\ samp [a] s g = Ok [row].

Section SplitFacts.
  Context {E G Row : Type} (coeff : E -> R) (part : E -> G).
  Context (samp_rot samp_ref : list G -> list Row -> list G -> result (list Row)).
  Context (Hrot : rowwise samp_rot) (Href : rowwise samp_ref).
  Context (grid : list E) (signal : list Row) (signal_grid : list E) (n_rot n_ref : nat).
  Context (Hpm : forall e, In e grid -> coeff e = 1 \/ coeff e = -1).
  Context (Hsize : (n_rot + n_ref)%nat = length signal).

  Let rot1 (e : E) := samp_rot [part e] (firstn n_rot signal) (map part (firstn n_rot signal_grid)).
  Let ref1 (e : E) := samp_ref [part e] (skipn n_rot signal) (map part (skipn n_rot signal_grid)).

  Let HP : Permutation (where_eq 1 (map coeff grid) ++ where_eq (-1) (map coeff grid))
                       (seq 0 (length grid)).
  Proof using Hpm.
    rewrite <- (map_length coeff grid). apply where_split_perm.
    intros x Hx. apply in_map_iff in Hx as (e & <- & He). auto.
  Qed.

  Let Hwlen c : forall i, In i (where_eq c (map coeff grid)) -> (i < length (map part grid))%nat.
  Proof using.
    intros i Hi. apply where_eq_In in Hi. apply nth_error_Some_lt in Hi.
    rewrite map_length in *. assumption.
  Qed.

  Lemma split_sample_rows out :
    split_sample coeff part samp_rot samp_ref grid signal signal_grid n_rot n_ref = Ok out ->
    length out = length grid /\
    forall i e, nth_error grid i = Some e ->
      exists row, nth_error out i = Some row /\
        ((coeff e = 1 /\ n_rot <> 0%nat /\ rot1 e = Ok [row]) \/
         (coeff e = -1 /\ n_ref <> 0%nat /\ ref1 e = Ok [row])).
  Proof using Hrot Href Hpm Hsize HP Hwlen.
    unfold split_sample. set (rot_idx := where_eq 1 (map coeff grid)) in *.
    set (ref_idx := where_eq (-1) (map coeff grid)) in *.
    intros H.
    destruct (if Nat.eqb n_rot 0 then _ else _) as [ro|] eqn:Hro in H; [|discriminate].
    cbn [bind] in H.
    destruct (if Nat.eqb n_ref 0 then _ else _) as [re|] eqn:Hre in H; [|discriminate].
    cbn [bind] in H.
    split.
    { apply mapM_length in H. rewrite H, argsort_length, (Permutation_length HP), seq_length.
      reflexivity. }
    intros i e He.
    assert (Hi : (i < length grid)%nat) by (apply nth_error_Some_lt in He; assumption).
    destruct (argsort_inverse _ _ _ HP Hi) as (p & Hp & Hpi).
    pose proof (take_idx_nth _ _ _ _ _ H Hp) as Hout.
    assert (Hpart : nth_error (map part grid) i = Some (part e)) by (rewrite nth_error_map, He; reflexivity).
    destruct (mapM_nth _ _ _ _ _ H Hp) as (row & Hrow & Hrow').
    destruct (nth_error (ro ++ re) p) as [row0|] eqn:Ep; [|discriminate].
    simpl in Hrow. injection Hrow as <-. exists row0. split; [assumption|].
    (* lengths of the two sampled halves *)
    assert (Hlro : n_rot <> 0%nat -> length ro = length rot_idx).
    { intros Hn. destruct (Nat.eqb_spec n_rot 0) as [|_]; [lia|].
      destruct (take_idx (map part grid) rot_idx) as [q|] eqn:Eq; [|discriminate]. simpl in Hro.
      destruct (Hrot _ _ _ _ Hro) as [Hl _]. rewrite Hl. apply mapM_length in Eq. assumption. }
    assert (Hro0 : n_rot = 0%nat -> ro = []).
    { intros ->. simpl in Hro. injection Hro as <-. reflexivity. }
    assert (Hre0 : n_ref = 0%nat -> re = []).
    { intros E0. destruct (Nat.eqb_spec n_ref 0); [|lia]. injection Hre as <-.
      apply skipn_all2. lia. }
    assert (Hlre : n_ref <> 0%nat -> length re = length ref_idx).
    { intros Hn. destruct (Nat.eqb_spec n_ref 0) as [|_]; [lia|].
      destruct (take_idx (map part grid) ref_idx) as [q|] eqn:Eq; [|discriminate]. simpl in Hre.
      destruct (Href _ _ _ _ Hre) as [Hl _]. rewrite Hl. apply mapM_length in Eq. assumption. }
    (* if the rotation half is missing there can be no rotation query at all *)
    assert (Hno : n_rot = 0%nat -> rot_idx = []).
    { intros E0. destruct rot_idx as [|j0 rest] eqn:Erot; [reflexivity|exfalso].
      rewrite (Hro0 E0) in *. rewrite app_nil_l in H.
      assert (Hlen : (length re <= length ref_idx)%nat).
      { destruct (Nat.eq_dec n_ref 0) as [E1|E1]; [rewrite (Hre0 E1); simpl; lia|].
        rewrite (Hlre E1); lia. }
      set (q := (length (j0 :: rest ++ ref_idx) - 1)%nat).
      assert (Hin : In q (argsort ((j0 :: rest) ++ ref_idx))).
      { assert (Hperm : Permutation (argsort ((j0 :: rest) ++ ref_idx))
                 (seq 0 (length ((j0 :: rest) ++ ref_idx)))).
        { unfold argsort. rewrite <- (Permutation_map snd (sort_kv_perm _)).
          assert (Es : forall (l : list nat) a, map snd (combine l (seq a (length l))) = seq a (length l)).
          { induction l as [|x l IH]; intros a; simpl; [reflexivity|]. rewrite IH. reflexivity. }
          rewrite Es. reflexivity. }
        apply (Permutation_in _ (Permutation_sym Hperm)). apply in_seq. unfold q. simpl. lia. }
      rewrite (take_idx_err re _ q Hin) in H; [discriminate|].
      unfold q. simpl. rewrite app_length. lia. }
    destruct (Nat.lt_ge_cases p (length rot_idx)) as [Hlt|Hge].
    - left. rewrite nth_error_app1 in Hpi by assumption.
      assert (Hn : n_rot <> 0%nat) by (intros E0; rewrite (Hno E0) in Hlt; simpl in Hlt; lia).
      rewrite nth_error_app1 in Ep by (rewrite Hlro; assumption).
      assert (Hc : coeff e = 1).
      { apply nth_error_In in Hpi. apply where_eq_In in Hpi.
        rewrite nth_error_map, He in Hpi. simpl in Hpi. congruence. }
      split; [assumption|]. split; [assumption|].
      destruct (Nat.eqb_spec n_rot 0) as [|_]; [lia|].
      destruct (take_idx (map part grid) rot_idx) as [q|] eqn:Eq; [|discriminate]. simpl in Hro.
      destruct (Hrot _ _ _ _ Hro) as [_ Hrows].
      pose proof (take_idx_nth _ _ _ _ _ Eq Hpi) as Hq. rewrite Hpart in Hq.
      destruct (Hrows _ _ Hq) as (row' & Hr1 & Hr2). unfold rot1. congruence.
    - right. rewrite nth_error_app2 in Hpi by assumption.
      assert (Hlen : length ro = length rot_idx).
      { destruct (Nat.eq_dec n_rot 0) as [E0|E0]; [rewrite (Hno E0), (Hro0 E0); reflexivity|auto]. }
      rewrite nth_error_app2 in Ep by (rewrite Hlen; assumption). rewrite Hlen in Ep.
      assert (Hn : n_ref <> 0%nat).
      { intros E0. rewrite (Hre0 E0) in Ep. destruct (p - length rot_idx)%nat; discriminate. }
      assert (Hc : coeff e = -1).
      { apply nth_error_In in Hpi. apply where_eq_In in Hpi.
        rewrite nth_error_map, He in Hpi. simpl in Hpi. congruence. }
      split; [assumption|]. split; [assumption|].
      destruct (Nat.eqb_spec n_ref 0) as [|_]; [lia|].
      destruct (take_idx (map part grid) ref_idx) as [q|] eqn:Eq; [|discriminate]. simpl in Hre.
      destruct (Href _ _ _ _ Hre) as [_ Hrows].
      pose proof (take_idx_nth _ _ _ _ _ Eq Hpi) as Hq. rewrite Hpart in Hq.
      destruct (Hrows _ _ Hq) as (row' & Hr1 & Hr2). unfold ref1. congruence.
  Qed.

  Let queries c : list G := map part (filter (fun e => if Req_EM_T (coeff e) c then true else false) grid).

  Lemma take_idx_where c : take_idx (map part grid) (where_eq c (map coeff grid)) = Ok (queries c).
  Proof using.
    unfold queries, take_idx, where_eq. rewrite map_length.
    assert (H : forall (pre l : list E), grid = pre ++ l ->
      mapM (fun i => of_option IndexError (nth_error (map part grid) i))
        (filter (fun i => match nth_error (map coeff grid) i with
                          | Some x => if Req_EM_T x c then true else false
                          | None => false end) (seq (length pre) (length l)))
      = Ok (map part (filter (fun e => if Req_EM_T (coeff e) c then true else false) l))).
    { intros pre l; revert pre; induction l as [|e l IH]; intros pre Hg; [reflexivity|].
      cbn [length seq filter].
      assert (He : nth_error grid (length pre) = Some e).
      { rewrite Hg, nth_error_app2, Nat.sub_diag by apply le_n. reflexivity. }
      rewrite nth_error_map, He. cbn [option_map].
      assert (IH' := IH (pre ++ [e])). rewrite app_length, Nat.add_1_r, <- app_assoc in IH'.
      specialize (IH' Hg).
      destruct (Req_EM_T (coeff e) c).
      - cbn [mapM map]. rewrite nth_error_map, He. cbn [option_map of_option bind].
        rewrite IH'. reflexivity.
      - exact IH'. }
    apply (H [] grid eq_refl).
  Qed.

  (** Sampling succeeds when both halves that are needed exist and can be sampled. *)
  Lemma split_sample_total ro re :
    (n_rot = 0%nat -> forall e, In e grid -> coeff e <> 1) ->
    (n_ref = 0%nat -> forall e, In e grid -> coeff e <> -1) ->
    (n_rot <> 0%nat -> samp_rot (queries 1) (firstn n_rot signal) (map part (firstn n_rot signal_grid)) = Ok ro) ->
    (n_ref <> 0%nat -> samp_ref (queries (-1)) (skipn n_rot signal) (map part (skipn n_rot signal_grid)) = Ok re) ->
    exists out, split_sample coeff part samp_rot samp_ref grid signal signal_grid n_rot n_ref = Ok out.
  Proof using Hrot Href Hpm Hsize HP.
    intros H1 H2 H3 H4. unfold split_sample.
    rewrite !take_idx_where. cbn [bind].
    assert (Hlq : forall c, length (queries c) = length (where_eq c (map coeff grid))).
    { intros c. pose proof (take_idx_where c) as Ht. apply mapM_length in Ht. assumption. }
    assert (Hnone : forall c, (forall e, In e grid -> coeff e <> c) -> where_eq c (map coeff grid) = []).
    { intros c Hc. destruct (where_eq c (map coeff grid)) as [|j r] eqn:Ew; [reflexivity|exfalso].
      assert (Hj : In j (where_eq c (map coeff grid))) by (rewrite Ew; left; reflexivity).
      apply where_eq_In in Hj. apply nth_error_map_inv in Hj as (e & He & Hce).
      apply nth_error_In in He. exact (Hc e He (eq_sym Hce)). }
    assert (Ha : exists ro', (if Nat.eqb n_rot 0 then Ok (firstn n_rot signal)
         else samp_rot (queries 1) (firstn n_rot signal) (map part (firstn n_rot signal_grid))) = Ok ro'
         /\ length ro' = length (where_eq 1 (map coeff grid))).
    { destruct (Nat.eqb_spec n_rot 0) as [E0|E0].
      - eexists. split; [reflexivity|]. rewrite (Hnone 1 (H1 E0)), E0. reflexivity.
      - exists ro. split; [auto|]. rewrite <- Hlq. apply (Hrot _ _ _ _ (H3 E0)). }
    assert (Hb : exists re', (if Nat.eqb n_ref 0 then Ok (skipn n_rot signal)
         else samp_ref (queries (-1)) (skipn n_rot signal) (map part (skipn n_rot signal_grid))) = Ok re'
         /\ length re' = length (where_eq (-1) (map coeff grid))).
    { destruct (Nat.eqb_spec n_ref 0) as [E0|E0].
      - eexists. split; [reflexivity|]. rewrite (Hnone (-1) (H2 E0)), skipn_all2 by lia. reflexivity.
      - exists re. split; [auto|]. rewrite <- Hlq. apply (Href _ _ _ _ (H4 E0)). }
    destruct Ha as (ro' & -> & Hlro). destruct Hb as (re' & -> & Hlre). cbn [bind].
    apply take_idx_ok. intros p Hp. apply In_nth_error in Hp as [i Hi].
    assert (Hin : (i < length grid)%nat).
    { apply nth_error_Some_lt in Hi. rewrite argsort_length, (Permutation_length HP), seq_length in Hi.
      assumption. }
    destruct (argsort_inverse _ _ _ HP Hin) as (p' & Hp' & Hpi). assert (p' = p) by congruence. subst p'.
    apply nth_error_Some_lt in Hpi. rewrite app_length in *. lia.
  Qed.

  (** Queries of a kind with no signal half: IndexError once the other half has been sampled. *)
  Lemma split_sample_missing_rot e re :
    n_rot = 0%nat -> In e grid -> coeff e = 1 ->
    (n_ref <> 0%nat -> samp_ref (queries (-1)) signal (map part signal_grid) = Ok re) ->
    split_sample coeff part samp_rot samp_ref grid signal signal_grid n_rot n_ref = Err IndexError.
  Proof using Href Hsize Hpm HP.
    intros E0 He Hc Hs. unfold split_sample. rewrite !take_idx_where. subst n_rot. cbn [bind Nat.eqb firstn].
    assert (Hlq : length (queries (-1)) = length (where_eq (-1) (map coeff grid))).
    { pose proof (take_idx_where (-1)) as Ht. apply mapM_length in Ht. assumption. }
    assert (Hb : exists re', (if Nat.eqb n_ref 0 then Ok (skipn 0 signal)
         else samp_ref (queries (-1)) (skipn 0 signal) (map part (skipn 0 signal_grid))) = Ok re'
         /\ (length re' <= length (where_eq (-1) (map coeff grid)))%nat).
    { destruct (Nat.eqb_spec n_ref 0) as [E1|E1].
      - eexists. split; [reflexivity|]. simpl. simpl in Hsize. lia.
      - exists re. split; [simpl; auto|]. destruct (Href _ _ _ _ (Hs E1)) as [Hl _]. lia. }
    destruct Hb as (re' & -> & Hlre). cbn [bind app].
    apply In_nth_error in He as [i Hi].
    assert (Hin : In i (where_eq 1 (map coeff grid))).
    { apply where_eq_In. rewrite nth_error_map, Hi, <- Hc. reflexivity. }
    set (n := length (where_eq 1 (map coeff grid) ++ where_eq (-1) (map coeff grid))).
    assert (Hn : (length re' < n)%nat).
    { unfold n. rewrite app_length. destruct (where_eq 1 (map coeff grid)); [destruct Hin|simpl; lia]. }
    assert (Hperm : Permutation (argsort (where_eq 1 (map coeff grid) ++ where_eq (-1) (map coeff grid))) (seq 0 n)).
    { unfold argsort, n. rewrite <- (Permutation_map snd (sort_kv_perm _)).
      assert (Es : forall (l : list nat) a, map snd (combine l (seq a (length l))) = seq a (length l)).
      { induction l as [|x l IH]; intros a; simpl; [reflexivity|]. rewrite IH. reflexivity. }
      rewrite Es. reflexivity. }
    apply take_idx_err with (length re'); [|lia].
    apply (Permutation_in _ (Permutation_sym Hperm)). apply in_seq. lia.
  Qed.

  Lemma split_sample_missing_ref e ro :
    n_ref = 0%nat -> In e grid -> coeff e = -1 ->
    (n_rot <> 0%nat -> samp_rot (queries 1) signal (map part (firstn n_rot signal_grid)) = Ok ro) ->
    split_sample coeff part samp_rot samp_ref grid signal signal_grid n_rot n_ref = Err IndexError.
  Proof using Hrot Hsize Hpm HP.
    intros E0 He Hc Hs. unfold split_sample. rewrite !take_idx_where.
    assert (Hf : firstn n_rot signal = signal) by (apply firstn_all2; lia).
    assert (Hk : skipn n_rot signal = []) by (apply skipn_all2; lia).
    rewrite Hf, Hk, E0. cbn [bind Nat.eqb].
    assert (Hlq : length (queries 1) = length (where_eq 1 (map coeff grid))).
    { pose proof (take_idx_where 1) as Ht. apply mapM_length in Ht. assumption. }
    assert (Hb : exists ro', (if Nat.eqb n_rot 0 then Ok signal
         else samp_rot (queries 1) signal (map part (firstn n_rot signal_grid))) = Ok ro'
         /\ (length ro' <= length (where_eq 1 (map coeff grid)))%nat).
    { destruct (Nat.eqb_spec n_rot 0) as [E1|E1].
      - eexists. split; [reflexivity|]. lia.
      - exists ro. split; [simpl; auto|]. destruct (Hrot _ _ _ _ (Hs E1)) as [Hl _]. lia. }
    destruct Hb as (re' & -> & Hlre). cbn [bind]. rewrite app_nil_r.
    apply In_nth_error in He as [i Hi].
    assert (Hin : In i (where_eq (-1) (map coeff grid))).
    { apply where_eq_In. rewrite nth_error_map, Hi, <- Hc. reflexivity. }
    set (n := length (where_eq 1 (map coeff grid) ++ where_eq (-1) (map coeff grid))).
    assert (Hn : (length re' < n)%nat).
    { unfold n. rewrite app_length. destruct (where_eq (-1) (map coeff grid)); [destruct Hin|simpl; lia]. }
    assert (Hperm : Permutation (argsort (where_eq 1 (map coeff grid) ++ where_eq (-1) (map coeff grid))) (seq 0 n)).
    { unfold argsort, n. rewrite <- (Permutation_map snd (sort_kv_perm _)).
      assert (Es : forall (l : list nat) a, map snd (combine l (seq a (length l))) = seq a (length l)).
      { induction l as [|x l IH]; intros a; simpl; [reflexivity|]. rewrite IH. reflexivity. }
      rewrite Es. reflexivity. }
    apply take_idx_err with (length re'); [|lia].
    apply (Permutation_in _ (Permutation_sym Hperm)). apply in_seq. lia.
  Qed.
End SplitFacts.

(** Elements whose coefficient is neither 1 nor -1 are silently dropped. *)
Lemma split_sample_drops {E G Row} (coeff : E -> R) (part : E -> G)
    (samp_rot samp_ref : list G -> list Row -> list G -> result (list Row))
    grid signal signal_grid n_rot n_ref out :
  split_sample coeff part samp_rot samp_ref grid signal signal_grid n_rot n_ref = Ok out ->
  length out = length (filter (fun e => if Req_EM_T (coeff e) 1 then true
                                        else if Req_EM_T (coeff e) (-1) then true else false) grid).
Proof.
  unfold split_sample. intros H.
  destruct (if Nat.eqb n_rot 0 then _ else _) as [ro|] in H; [|discriminate]. cbn [bind] in H.
  destruct (if Nat.eqb n_ref 0 then _ else _) as [re|] in H; [|discriminate]. cbn [bind] in H.
  apply mapM_length in H. rewrite H, argsort_length, app_length.
  pose proof (take_idx_where coeff (fun e : E => e) grid 1) as H1.
  pose proof (take_idx_where coeff (fun e : E => e) grid (-1)) as H2.
  apply mapM_length in H1, H2. rewrite map_length in H1, H2. rewrite <- H1, <- H2.
  clear. induction grid as [|e l IH]; [reflexivity|]. cbn [filter].
  destruct (Req_EM_T (coeff e) 1), (Req_EM_T (coeff e) (-1)); cbn [length]; try lia. lra.
Qed.
