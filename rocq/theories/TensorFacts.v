(** Facts about row-major tensors. *)
From Verif Require Import Prelude RMath Mat Tensor.
Open Scope nat_scope.

Lemma Forall2_len {A B} (P : A -> B -> Prop) l m : Forall2 P l m -> length l = length m.
Proof. induction 1; simpl; auto. Qed.

Lemma prodn_app s t : prodn (s ++ t) = prodn s * prodn t.
Proof. induction s as [|d s IH]; simpl; [lia|]. fold (prodn (s ++ t)) (prodn s). rewrite IH. lia. Qed.
Lemma prodn_cons d s : prodn (d :: s) = d * prodn s.
Proof. reflexivity. Qed.
Lemma prodn_nil : prodn [] = 1.
Proof. reflexivity. Qed.

Lemma valid_length s idx : valid s idx -> length idx = length s.
Proof. unfold valid. apply Forall2_len. Qed.
Lemma valid_nil : valid [] [].
Proof. constructor. Qed.
Lemma valid_cons d s i idx : i < d -> valid s idx -> valid (d :: s) (i :: idx).
Proof. intros; constructor; assumption. Qed.
Lemma valid_cons_inv d s i idx : valid (d :: s) (i :: idx) -> i < d /\ valid s idx.
Proof. intros H; inversion H; subst; auto. Qed.
Lemma valid_inv_cons d s idx : valid (d :: s) idx -> exists i r, idx = i :: r /\ i < d /\ valid s r.
Proof. intros H; inversion H; subst; eauto. Qed.
Lemma valid_inv_nil idx : valid [] idx -> idx = [].
Proof. intros H; inversion H; reflexivity. Qed.
Lemma valid_app s t a b : valid s a -> valid t b -> valid (s ++ t) (a ++ b).
Proof. intros; apply Forall2_app; assumption. Qed.
Lemma valid_app_inv s t idx : valid (s ++ t) idx -> exists a b, idx = a ++ b /\ valid s a /\ valid t b.
Proof.
  intros H. unfold valid in *. apply Forall2_app_inv_r in H.
  destruct H as (a & b & Ha & Hb & ->). eauto.
Qed.

Lemma ravel_lt s idx : valid s idx -> ravel s idx < prodn s.
Proof.
  intros H. induction H as [|i d idx s Hi H IH]; simpl; [lia|].
  fold (prodn s). nia.
Qed.
Lemma prodn_pos_valid s idx : valid s idx -> 0 < prodn s.
Proof. intros H. pose proof (ravel_lt _ _ H). lia. Qed.

Lemma ravel_app s t a b : length a = length s ->
  ravel (s ++ t) (a ++ b) = ravel s a * prodn t + ravel t b.
Proof.
  revert a; induction s as [|d s IH]; intros [|i a] H; simpl in H; try discriminate; simpl.
  - reflexivity.
  - rewrite IH by lia. fold (prodn (s ++ t)). rewrite prodn_app. fold (prodn s). nia.
Qed.

Lemma unravel_length s k : length (unravel s k) = length s.
Proof. revert k; induction s; intros; simpl; auto. Qed.

Lemma unravel_ravel s idx : valid s idx -> unravel s (ravel s idx) = idx.
Proof.
  intros H. induction H as [|i d idx s Hi H IH]; simpl; [reflexivity|].
  pose proof (ravel_lt _ _ H) as L.
  rewrite Nat.div_add_l by lia. rewrite (Nat.div_small (ravel s idx)) by lia.
  replace ((i * prodn s + ravel s idx) mod prodn s) with (ravel s idx)
    by (rewrite (Nat.add_comm (i * prodn s)), Nat.mod_add by lia; symmetry; apply Nat.mod_small; lia).
  rewrite Nat.add_0_r, IH. reflexivity.
Qed.

Lemma unravel_valid s k : k < prodn s -> valid s (unravel s k).
Proof.
  revert k; induction s as [|d s IH]; intros k H; simpl; [constructor|].
  rewrite prodn_cons in H. assert (prodn s <> 0) by nia.
  constructor.
  - apply Nat.div_lt_upper_bound; lia.
  - apply IH. apply Nat.mod_upper_bound. assumption.
Qed.
Lemma ravel_unravel s k : k < prodn s -> ravel s (unravel s k) = k.
Proof.
  revert k; induction s as [|d s IH]; intros k H; simpl.
  - rewrite prodn_nil in H. lia.
  - rewrite prodn_cons in H. assert (prodn s <> 0) by nia.
    rewrite IH by (apply Nat.mod_upper_bound; assumption).
    pose proof (Nat.div_mod k (prodn s)). lia.
Qed.

Lemma ravel_inj s a b : valid s a -> valid s b -> ravel s a = ravel s b -> a = b.
Proof. intros Ha Hb H. rewrite <- (unravel_ravel s a), <- (unravel_ravel s b), H by assumption. reflexivity. Qed.

Lemma indices_length s : length (indices s) = prodn s.
Proof. unfold indices. rewrite map_length, seq_length. reflexivity. Qed.
Lemma in_indices s idx : In idx (indices s) <-> valid s idx.
Proof.
  unfold indices. rewrite in_map_iff. split.
  - intros (k & <- & Hk). apply in_seq in Hk. apply unravel_valid. lia.
  - intros H. exists (ravel s idx). split; [apply unravel_ravel; assumption|].
    apply in_seq. pose proof (ravel_lt _ _ H). lia.
Qed.
Lemma indices_NoDup s : NoDup (indices s).
Proof.
  unfold indices. apply NoDup_nth_error. intros i j Hi H.
  rewrite map_length, seq_length in Hi.
  rewrite !nth_error_map in H. rewrite (nth_error_seq 0 _ i) in H by assumption. simpl in H.
  destruct (nth_error (seq 0 (prodn s)) j) as [j'|] eqn:E; [|discriminate].
  assert (j < prodn s) as Hj. { rewrite <- (seq_length (prodn s) 0). apply nth_error_Some. congruence. }
  rewrite nth_error_seq in E by assumption. inversion E; subst j'. simpl in H.
  inversion H as [H']. rewrite <- (ravel_unravel s i), <- (ravel_unravel s j), H' by assumption. reflexivity.
Qed.
Lemma nth_indices s idx d : valid s idx -> nth (ravel s idx) (indices s) d = idx.
Proof.
  intros H. unfold indices. pose proof (ravel_lt _ _ H).
  rewrite (nth_indep _ d (unravel s 0)) by (rewrite map_length, seq_length; assumption).
  rewrite map_nth, seq_nth by assumption. apply unravel_ravel; assumption.
Qed.

Section At.
  Context {E : Type} {D : Dflt E}.

  Lemma wft_build s (f : list nat -> E) : wft (build s f).
  Proof. unfold wft, build; simpl. rewrite map_length. apply indices_length. Qed.
  Lemma shape_build s (f : list nat -> E) : shape (build s f) = s.
  Proof. reflexivity. Qed.
  Lemma at_build s (f : list nat -> E) idx : valid s idx -> at_ (build s f) idx = f idx.
  Proof.
    intros H. unfold at_, build; simpl. pose proof (ravel_lt _ _ H).
    rewrite (nth_indep _ dflt (f [])) by (rewrite map_length, indices_length; assumption).
    rewrite map_nth. rewrite nth_indices by assumption. reflexivity.
  Qed.
  Lemma build_ext s (f g : list nat -> E) : (forall idx, valid s idx -> f idx = g idx) -> build s f = build s g.
  Proof.
    intros H. unfold build. f_equal. apply map_ext_in. intros idx Hi. apply H. apply in_indices; assumption.
  Qed.
  Lemma tensor_ext (t u : tensor E) : wft t -> wft u -> shape t = shape u ->
    (forall idx, valid (shape t) idx -> at_ t idx = at_ u idx) -> t = u.
  Proof.
    destruct t as [s x], u as [s' y]; unfold wft, at_; simpl. intros Ht Hu <- H. f_equal.
    apply nth_ext with (d := dflt) (d' := dflt); [congruence|]. intros k Hk.
    rewrite Ht in Hk. pose proof (H (unravel s k) (unravel_valid _ _ Hk)) as H'.
    rewrite !ravel_unravel in H' by assumption. exact H'.
  Qed.
  Lemma build_at (t : tensor E) : wft t -> build (shape t) (at_ t) = t.
  Proof.
    intros H. apply tensor_ext; [apply wft_build|assumption|reflexivity|].
    intros idx Hi. apply at_build. exact Hi.
  Qed.

  (** *** view *)
  Lemma view_ok s (t : tensor E) : prodn s = prodn (shape t) -> view s t = Ok (mkT s (data t)).
  Proof. intros H. unfold view. rewrite H, Nat.eqb_refl. reflexivity. Qed.
  Lemma view_inv s (t u : tensor E) : view s t = Ok u ->
    prodn s = prodn (shape t) /\ u = mkT s (data t).
  Proof.
    unfold view. destruct (Nat.eqb_spec (prodn s) (prodn (shape t))); intros H; inversion H; auto.
  Qed.
  Lemma view_err s (t : tensor E) : prodn s <> prodn (shape t) -> view s t = Err RuntimeError.
  Proof. intros H. unfold view. apply Nat.eqb_neq in H. rewrite H. reflexivity. Qed.
  Lemma view_lead_ok n s (t : tensor E) : prodn (shape t) = n * prodn s -> prodn s <> 0 ->
    view_lead s t = Ok (mkT (n :: s) (data t)).
  Proof.
    intros H H0. unfold view_lead. destruct (Nat.eqb_spec (prodn s) 0); [lia|].
    rewrite H, Nat.div_mul by assumption. apply view_ok. rewrite prodn_cons. lia.
  Qed.
  Lemma view_trail_ok d n (t : tensor E) : prodn (shape t) = d * n -> d <> 0 ->
    view_trail d t = Ok (mkT [d; n] (data t)).
  Proof.
    intros H H0. unfold view_trail. destruct (Nat.eqb_spec d 0); [lia|].
    rewrite H, Nat.mul_comm, Nat.div_mul by assumption. apply view_ok. unfold prodn; simpl. fold (prodn (shape t)). lia.
  Qed.
  (** Reading a reshaped tensor: equal row-major positions. *)
  Lemma at_reshape (s s' : list nat) (x : list E) idx idx' : ravel s idx = ravel s' idx' ->
    at_ (mkT s x) idx = at_ (mkT s' x) idx'.
  Proof. intros H. unfold at_; simpl. rewrite H. reflexivity. Qed.

  (** *** repeats *)
  Lemma wft_repeat0 k (t : tensor E) : wft t -> wft (repeat0 k t).
  Proof. unfold repeat0. destruct (shape t); [auto|]. intros. apply wft_build. Qed.
  Lemma at_repeat0 k d s (t : tensor E) i idx : shape t = d :: s -> valid (k * d :: s) (i :: idx) ->
    at_ (repeat0 k t) (i :: idx) = at_ t (i mod d :: idx).
  Proof. intros Hs H. unfold repeat0. rewrite Hs. rewrite at_build by assumption. reflexivity. Qed.
  Lemma shape_repeat0 k d s (t : tensor E) : shape t = d :: s -> shape (repeat0 k t) = k * d :: s.
  Proof. intros Hs. unfold repeat0. rewrite Hs. reflexivity. Qed.
  Lemma at_repeat_interleave0 k d s (t : tensor E) i idx : shape t = d :: s -> valid (d * k :: s) (i :: idx) ->
    at_ (repeat_interleave0 k t) (i :: idx) = at_ t (i / k :: idx).
  Proof. intros Hs H. unfold repeat_interleave0. rewrite Hs. rewrite at_build by assumption. reflexivity. Qed.
  Lemma shape_repeat_interleave0 k d s (t : tensor E) : shape t = d :: s ->
    shape (repeat_interleave0 k t) = d * k :: s.
  Proof. intros Hs. unfold repeat_interleave0. rewrite Hs. reflexivity. Qed.

  (** *** transpose *)
  Lemma swap_nth_length a b l : length (swap_nth a b l) = length l.
  Proof. unfold swap_nth. rewrite map_length, seq_length. reflexivity. Qed.
  Lemma nth_swap_nth a b l i : i < length l ->
    nth i (swap_nth a b l) 0 = nth (if Nat.eqb i a then b else if Nat.eqb i b then a else i) l 0.
  Proof.
    intros H. unfold swap_nth.
    set (f := fun i0 : nat => nth (if Nat.eqb i0 a then b else if Nat.eqb i0 b then a else i0) l 0).
    rewrite (nth_indep _ 0 (f 0)) by (rewrite map_length, seq_length; assumption).
    rewrite map_nth, seq_nth by assumption. reflexivity.
  Qed.

  Lemma valid_nth s idx : valid s idx <-> length idx = length s /\ forall k, k < length s -> nth k idx 0 < nth k s 0.
  Proof.
    split.
    - intros H. split; [apply valid_length; assumption|].
      induction H as [|i d idx s Hi H IH]; simpl; intros k Hk; [lia|].
      destruct k; [assumption|]. apply IH. lia.
    - revert idx; induction s as [|d s IH]; intros [|i idx] [Hl H]; simpl in Hl; try discriminate; [constructor|].
      constructor; [apply (H 0); simpl; lia|]. apply IH. split; [lia|].
      intros k Hk. apply (H (S k)). simpl; lia.
  Qed.

  Lemma valid_swap a b s idx : a < length s -> b < length s -> valid (swap_nth a b s) idx -> valid s (swap_nth a b idx).
  Proof.
    intros Ha Hb H. apply valid_nth in H. destruct H as [Hl H]. rewrite swap_nth_length in *.
    apply valid_nth. rewrite swap_nth_length. split; [assumption|]. intros k Hk.
    rewrite nth_swap_nth by lia.
    set (k' := if Nat.eqb k a then b else if Nat.eqb k b then a else k).
    assert (k' < length s) as Hk'. { unfold k'. destruct (Nat.eqb_spec k a); destruct (Nat.eqb_spec k b); lia. }
    pose proof (H k' Hk') as H'. rewrite nth_swap_nth in H' by assumption.
    assert ((if Nat.eqb k' a then b else if Nat.eqb k' b then a else k') = k) as E0.
    { unfold k'. destruct (Nat.eqb_spec k a); destruct (Nat.eqb_spec k b); subst;
      repeat match goal with |- context [Nat.eqb ?x ?y] => destruct (Nat.eqb_spec x y) end; lia. }
    rewrite E0 in H'. exact H'.
  Qed.

  Lemma wft_transpose a b (t : tensor E) : wft (transpose a b t).
  Proof. apply wft_build. Qed.
  Lemma at_transpose a b (t : tensor E) idx : valid (swap_nth a b (shape t)) idx ->
    at_ (transpose a b t) idx = at_ t (swap_nth a b idx).
  Proof. intros H. unfold transpose. rewrite at_build by assumption. reflexivity. Qed.

  Lemma slice_ext (t u : tensor E) s p q : (forall y, valid s y -> at_ t (p ++ y) = at_ u (q ++ y)) ->
    slice t s p = slice u s q.
  Proof. intros H. unfold slice. apply map_ext_in. intros y Hy. apply H. apply in_indices; assumption. Qed.
  Lemma slice_length (t : tensor E) s p : length (slice t s p) = prodn s.
  Proof. unfold slice. rewrite map_length. apply indices_length. Qed.
End At.

(** *** broadcasting *)
Lemma bidx_exact s idx : length idx = length s ->
  bidx s idx = map2 (fun d i => if Nat.eqb d 1 then 0 else i) s idx.
Proof. intros H. unfold bidx. rewrite H, Nat.sub_diag. reflexivity. Qed.
Lemma bidx_self s idx : valid s idx -> bidx s idx = idx.
Proof.
  intros H. rewrite bidx_exact by (apply valid_length; assumption).
  induction H as [|i d idx s Hi H IH]; simpl; [reflexivity|]. rewrite IH.
  destruct (Nat.eqb_spec d 1); [|reflexivity]. f_equal. lia.
Qed.
Lemma bidx_suffix s pre idx : length idx = length s -> bidx s (pre ++ idx) = bidx s idx.
Proof.
  intros H. unfold bidx. rewrite app_length. rewrite H, Nat.sub_diag.
  replace (length pre + length s - length s) with (length pre) by lia.
  rewrite skipn_app, skipn_all, Nat.sub_diag. reflexivity.
Qed.
Lemma bidx_ones n idx : length idx = n -> bidx (repeat 1 n) idx = repeat 0 n.
Proof.
  intros H. rewrite bidx_exact by (rewrite repeat_length; assumption). subst n.
  induction idx; simpl; [reflexivity|]. rewrite IHidx. reflexivity.
Qed.
Lemma bidx_cons d s i idx : length idx = length s ->
  bidx (d :: s) (i :: idx) = (if Nat.eqb d 1 then 0 else i) :: bidx s idx.
Proof. intros H. rewrite !bidx_exact by (simpl; lia). reflexivity. Qed.

Lemma bdim_refl d : bdim d d = Some d.
Proof. unfold bdim. rewrite Nat.eqb_refl. reflexivity. Qed.
Lemma bdim_1_r d : bdim d 1 = Some d.
Proof. unfold bdim. destruct (Nat.eqb_spec d 1); [subst; reflexivity|]. reflexivity. Qed.
Lemma bshape_rev_prefix a b s : bshape_rev a b = Some s -> length b <= length a -> length s = length a.
Proof.
  revert b s; induction a as [|x a IH]; intros [|y b] s H L; simpl in *; try (inversion H; subst; simpl; lia).
  destruct (bdim x y); [|discriminate]. destruct (bshape_rev a b) eqn:E; [|discriminate].
  inversion H; subst. simpl. f_equal. eapply IH; eauto. lia.
Qed.
Lemma bshape_rev_app a1 b1 a2 : length a1 = length b1 -> bshape_rev a1 b1 = Some a1 ->
  bshape_rev (a1 ++ a2) b1 = Some (a1 ++ a2).
Proof.
  revert b1; induction a1 as [|x a1 IH]; intros [|y b1] L H; simpl in *; try discriminate.
  - destruct a2; reflexivity.
  - destruct (bdim x y) eqn:Ed; [|discriminate]. destruct (bshape_rev a1 b1) eqn:E; [|discriminate].
    inversion H; subst. rewrite (IH b1) by (auto; lia). reflexivity.
Qed.
(** A shape broadcasts against a right-aligned shape whose axes are equal or one. *)
Lemma bshape_suffix pre s b : Forall2 (fun d e => e = d \/ e = 1) s b ->
  bshape (pre ++ s) b = Some (pre ++ s).
Proof.
  intros H. unfold bshape. rewrite rev_app_distr.
  rewrite bshape_rev_app.
  - rewrite <- rev_app_distr, rev_involutive. reflexivity.
  - rewrite !rev_length. eapply Forall2_len; eauto.
  - assert (Forall2 (fun d e => e = d \/ e = 1) (rev s) (rev b)) as H'.
    { clear pre. induction H as [|x y l m Hxy H IH]; simpl; [constructor|].
      apply Forall2_app; [exact IH|]. constructor; [exact Hxy|constructor]. }
    clear H. revert H'. generalize (rev s) (rev b). clear. intros l m H.
    induction H as [|x y l m Hxy H IH]; simpl; [reflexivity|]. rewrite IH.
    destruct Hxy; subst; [rewrite bdim_refl|rewrite bdim_1_r]; reflexivity.
Qed.
Lemma bshape_comm a b : bshape a b = bshape b a.
Proof.
  unfold bshape. f_equal. generalize (rev a) (rev b). clear. intros a.
  assert (forall x y, bdim x y = bdim y x) as Hc.
  { intros x y. unfold bdim. destruct (Nat.eqb_spec x y); destruct (Nat.eqb_spec y x); try lia; [congruence|].
    destruct (Nat.eqb_spec x 1); destruct (Nat.eqb_spec y 1); try lia; reflexivity. }
  intros b. assert (bshape_rev a b = bshape_rev b a) as ->; [|reflexivity].
  revert b; induction a as [|x a IH]; intros [|y b]; simpl; try reflexivity.
  rewrite Hc, IH. reflexivity.
Qed.
