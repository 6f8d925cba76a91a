(** Proofs about the spatial pooling layers. *)
From Coq Require Import String ZArith Permutation.
From Verif Require Import Prelude RMath Mat Repulse RepulseFacts Tensor TensorFacts Kernel KernelFacts Conv ConvFacts Layers LayersSpec LayersFacts NormFacts.
Open Scope nat_scope.

Lemma existsb_zero l : existsb (Nat.eqb 0) l = true <-> prodn l = 0.
Proof.
  induction l as [|a l IH]; [split; discriminate|]. cbn [existsb]. rewrite Bool.orb_true_iff, IH, prodn_cons, Nat.eq_mul_0. destruct a; simpl; intuition (try discriminate; try lia).
Qed.

(** The (batched) input handed to the stock pooling module. *)
Definition flat12 (N C n : nat) (sp : list nat) (x : tensor R) : tensor R := mkT (N :: C * n :: sp) (data x).
Lemma flat12_shape x N C n sp : has_shape x (N :: C :: n :: sp) -> has_shape (flat12 N C n sp x) (N :: C * n :: sp).
Proof. intros H. apply (has_shape_mk x _ _ H). rewrite !prodn_cons. lia. Qed.
Lemma at_flat12 (x : tensor R) N C n sp a c e z : has_shape x (N :: C :: n :: sp) ->
  at_ (flat12 N C n sp x) (a :: (c * n + e) :: z) = at_ x (a :: c :: e :: z).
Proof.
  intros [Hs _]. unfold at_, flat12. cbn [shape data]. rewrite Hs. f_equal. cbn [ravel]. rewrite !prodn_cons. lia.
Qed.

Lemma pool_forward_spec d spec (x : tensor R) N K sp : has_shape x (N :: K :: sp) -> List.length sp = d ->
  (pool_axes d spec sp = None \/ K * prodn sp = 0 -> pool_forward d spec x = Err RuntimeError) /\
  (forall axs, pool_axes d spec sp = Some axs -> K * prodn sp <> 0 -> exists y, pool_forward d spec x = Ok y /\ has_shape y (N :: K :: map px_out axs) /\
    forall a b z, a < N -> b < K -> valid (map px_out axs) z ->
      at_ y (a :: b :: z) = pool_value spec (map (fun q => at_ x (a :: b :: q)) (cart (map2 px_win axs z))) (prodn (map2 px_full axs z))).
Proof.
  intros [Hs Hw] Hd. unfold pool_forward. rewrite Hs. cbn [List.length]. rewrite Hd. destruct (Nat.eqb_spec (S (S d)) (S d)) as [Q|_]; [lia|].
  unfold pool_batched. rewrite Hs, Hd, Nat.eqb_refl. cbn [andb].
  destruct (existsb (Nat.eqb 0) (K :: sp)) eqn:Ez.
  - apply existsb_zero in Ez. rewrite prodn_cons in Ez. cbn [negb]. split; [reflexivity|]. intros; contradiction.
  - assert (K * prodn sp <> 0) as Hz. { intros Q. rewrite <- prodn_cons in Q. apply existsb_zero in Q. congruence. }
    cbn [negb]. split.
    + intros [->|Q]; [reflexivity|contradiction].
    + intros axs -> _. eexists. split; [reflexivity|]. split; [split; [reflexivity|apply wft_build]|].
      intros a b z Ha Hb Hz'. rewrite at_build by (do 2 (apply valid_cons; [assumption|]); assumption). reflexivity.
Qed.

Lemma valid_ones s : prodn s = 1 -> valid s (repeat 0 (List.length s)).
Proof.
  induction s as [|a s IH]; intros H; [apply valid_nil|]. rewrite prodn_cons in H. apply Nat.eq_mul_1 in H. destruct H as [-> H].
  simpl. apply valid_cons; [lia|]. apply IH. exact H.
Qed.
Lemma ravel_zeros s : ravel s (repeat 0 (List.length s)) = 0.
Proof. induction s as [|a s IH]; [reflexivity|]. simpl. exact IH. Qed.

Section SP.
  Context {G : Type} (H : list G).

  Lemma spatial_pool_spec d spec (x : tensor R) N C n sp : has_shape x (N :: C :: n :: sp) -> List.length sp = d ->
    (pool_axes d spec sp = None \/ C * n * prodn sp = 0 -> g_spatial_pool d spec x H = Err RuntimeError) /\
    (forall axs, pool_axes d spec sp = Some axs -> C * n * prodn sp <> 0 ->
      (returns_pair spec = true -> g_spatial_pool d spec x H = Err AttributeError) /\
      (returns_pair spec = false -> N <> 0 -> prodn (map px_out axs) <> 1 -> g_spatial_pool d spec x H = Err RuntimeError) /\
      (returns_pair spec = false -> prodn (map px_out axs) = 1 -> exists v, g_spatial_pool d spec x H = Ok (v, H) /\ has_shape v [N; C; n] /\
        forall a c e, a < N -> c < C -> e < n ->
          at_ v [a; c; e] = pool_value spec (map (fun q => at_ x (a :: c :: e :: q)) (cart (map (fun p => px_win p 0) axs))) (prodn (map (fun p => px_full p 0) axs)))).
  Proof.
    intros Hx Hd. pose proof (flat12_shape x N C n sp Hx) as Hf.
    destruct (pool_forward_spec d spec _ N (C * n) sp Hf Hd) as [A B].
    assert (g_spatial_pool d spec x H = y <- pool_forward d spec (flat12 N C n sp x) ;; if returns_pair spec then Err AttributeError else v <- view [N; C; n] y ;; Ok (v, H)) as E.
    { unfold g_spatial_pool, flatten12. rewrite (proj1 Hx). reflexivity. }
    rewrite E. split.
    - intros Q. rewrite (A Q). reflexivity.
    - intros axs Ea Hz. destruct (B axs Ea Hz) as (y & Ey & Sy & Vy). rewrite Ey. cbn [bind].
      split; [|split].
      + intros ->. reflexivity.
      + intros -> HN Ho. rewrite view_err; [reflexivity|]. rewrite (proj1 Sy), !prodn_cons, prodn_nil. intros Q. apply Ho.
        assert (N * (C * n) <> 0) as Hne. { intros Z. apply Nat.eq_mul_0 in Z. destruct Z as [Z|Z]; [lia|]. rewrite Z in Hz. simpl in Hz. lia. }
        apply (Nat.mul_cancel_l _ _ (N * (C * n)) Hne). lia.
      + intros -> Ho. rewrite view_ok by (rewrite (proj1 Sy), !prodn_cons, prodn_nil, Ho; lia). cbn [bind].
        eexists. split; [reflexivity|]. split; [apply (has_shape_mk y _ _ Sy); rewrite !prodn_cons, prodn_nil, Ho; lia|].
        intros a c e Ha Hc He. set (o := map px_out axs) in *. set (z := repeat 0 (List.length o)).
        assert (c * n + e < C * n) as Hlt by nia.
        assert (at_ (mkT [N; C; n] (data y)) [a; c; e] = at_ y (a :: (c * n + e) :: z)) as Ev.
        { destruct y as [sy dy]. destruct Sy as [Hs _]. cbn in Hs. subst sy. cbn [data]. apply at_reshape. cbn [ravel]. unfold z. rewrite ravel_zeros, !prodn_cons, prodn_nil, Ho. lia. }
        rewrite Ev, Vy by (try assumption; unfold z; apply valid_ones; exact Ho).
        assert (List.length z = List.length axs) as Lz by (unfold z, o; rewrite repeat_length, map_length; reflexivity).
        assert (forall {A} (F : paxis -> nat -> A), map2 F axs z = map (fun p => F p 0) axs) as M.
        { intros A0 F. unfold z, o. rewrite map_length. clear. induction axs as [|p l IH]; [reflexivity|]. simpl. f_equal. exact IH. }
        rewrite !M. f_equal. apply map_ext. intros q. apply at_flat12. exact Hx.
  Qed.
End SP.

(** ** Output sizes *)
Lemma pool_out_default a k : 0 < k -> pool_out a k k 0 1 false = Z.of_nat (a / k).
Proof.
  intros Hk. unfold pool_out. cbn [andb].
  replace (Z.of_nat a + 2 * Z.of_nat 0 - Z.of_nat 1 * (Z.of_nat k - 1) - 1)%Z with (Z.of_nat a + -1 * Z.of_nat k)%Z by lia.
  rewrite Z.div_add by lia. rewrite Nat2Z.inj_div. lia.
Qed.
Lemma axes_length {A} d (f : nat -> A) : List.length (axes d f) = d.
Proof. unfold axes. rewrite map_length, seq_length. reflexivity. Qed.

Lemma sequence_map_some {A B} (F : B -> option A) (g : B -> A) l : (forall b, In b l -> F b = Some (g b)) -> sequence (map F l) = Some (map g l).
Proof.
  induction l as [|b l IH]; intros E; [reflexivity|]. simpl. rewrite E by (left; reflexivity). rewrite IH by (intros; apply E; right; assumption). reflexivity.
Qed.
Lemma sequence_map_none {A B} (F : B -> option A) l : (exists b, In b l /\ F b = None) -> sequence (map F l) = None.
Proof.
  induction l as [|c l IH]; intros (b & Hb & E); [destruct Hb|]. simpl. destruct (F c) eqn:Ec; [|reflexivity].
  destruct Hb as [->|Hb]; [congruence|]. rewrite IH by eauto. reflexivity.
Qed.

(** Stride = kernel, no padding, floor mode: sizes a / k, refused when some size is 0. *)
Lemma window_axis_default a k : 0 < k ->
  (k <= a -> exists p, window_axis a k k 0 1 false = Some p /\ px_out p = a / k) /\ (a < k -> window_axis a k k 0 1 false = None).
Proof.
  intros Hk. unfold window_axis. rewrite pool_out_default by exact Hk. destruct (Nat.ltb_spec 0 k); [|lia]. cbn [andb Nat.ltb Nat.leb].
  split.
  - intros Ha. assert (1 <= a / k) by (apply Nat.div_le_lower_bound; lia).
    destruct (Z.leb_spec 1 (Z.of_nat (a / k))); [|lia]. eexists. split; [reflexivity|]. cbn [px_out]. lia.
  - intros Ha. rewrite Nat.div_small by exact Ha. reflexivity.
Qed.

Lemma prodn_one l : prodn l = 1 <-> Forall (fun a => a = 1) l.
Proof.
  induction l as [|a l IH]; [split; constructor|]. rewrite prodn_cons, Nat.eq_mul_1, IH. split.
  - intros [A B]. constructor; assumption.
  - intros A. inversion A; subst. split; [reflexivity|assumption].
Qed.
Lemma nth_repeat_lt {A} (x d : A) n j : j < n -> nth j (repeat x n) d = x.
Proof. revert j; induction n as [|n IH]; intros [|j] H; simpl; try lia; [reflexivity|apply IH; lia]. Qed.

Lemma default_axes (sp : list nat) k d : List.length sp = d -> 0 < k ->
  let F := fun j => window_axis (nth j sp 0) k k 0 1 false in
  (Forall (fun a => k <= a) sp -> exists axs, all_some (axes d F) = Some axs /\ map px_out axs = map (fun a => a / k) sp) /\
  (~ Forall (fun a => k <= a) sp -> all_some (axes d F) = None).
Proof.
  intros <- Hk F.
  assert (axes (List.length sp) F = map (fun a => window_axis a k k 0 1 false) sp) as E.
  { unfold axes, F. clear. apply nth_ext with (d := None) (d' := None); [rewrite !map_length, seq_length; reflexivity|].
    intros j Hj. rewrite map_length, seq_length in Hj. rewrite nth_map_seq by exact Hj.
    rewrite (nth_indep _ None (window_axis 0 k k 0 1 false)) by (rewrite map_length; exact Hj).
    rewrite (map_nth (fun a => window_axis a k k 0 1 false)). reflexivity. }
  unfold all_some. rewrite E. split.
  - clear E F. induction 1 as [|a sp Ha Hsp IH]; [exists []; split; reflexivity|].
    destruct (proj1 (window_axis_default a k Hk) Ha) as (p & Ep & Eo). destruct IH as (axs & E1 & E2).
    exists (p :: axs). cbn [map sequence]. rewrite Ep, E1, Eo, E2. split; reflexivity.
  - intros Hn. apply sequence_map_none. clear E F. induction sp as [|a sp IH]; [exfalso; apply Hn; constructor|].
    destruct (le_lt_dec k a) as [Ha|Ha].
    + destruct IH as (b & Hb & Eb). { intros Q. apply Hn. constructor; assumption. }
      exists b. split; [right; exact Hb|exact Eb].
    + exists a. split; [left; reflexivity|]. apply window_axis_default; assumption.
Qed.
Lemma window_default_spec (spec : poolspec) sp k d : List.length sp = d -> 0 < k ->
  (spec = MaxPool (repeat k d) (repeat k d) (repeat 0 d) (repeat 1 d) false false \/
   exists incl, spec = AvgPool (repeat k d) (repeat k d) (repeat 0 d) false incl None) ->
  returns_pair spec = false /\ pool_axes d spec sp = all_some (axes d (fun j => window_axis (nth j sp 0) k k 0 1 false)).
Proof.
  intros Hd Hk Hs.
  assert (forall (p t : list nat), t = repeat 1 d -> p = repeat 0 d ->
    axes d (fun j => window_axis (nth j sp 0) (nth j (repeat k d) 0) (nth j (repeat k d) 0) (nth j p 0) (nth j t 0) false)
    = axes d (fun j => window_axis (nth j sp 0) k k 0 1 false)) as E.
  { intros p t -> ->. apply map_ext_in. intros j Hj. apply in_seq in Hj. rewrite !nth_repeat_lt by lia. reflexivity. }
  destruct Hs as [->|(incl & ->)]; (split; [reflexivity|]); unfold pool_axes; rewrite !repeat_length, !Nat.eqb_refl; cbn [andb negb]; f_equal.
  - apply E; reflexivity.
  - rewrite <- (E (repeat 0 d) (repeat 1 d) eq_refl eq_refl). apply map_ext_in. intros j Hj. apply in_seq in Hj. rewrite !nth_repeat_lt by lia. reflexivity.
Qed.

(** Adaptive pooling. *)
Definition adaptive_sizes (sp : list nat) (o : list (option nat)) : list nat :=
  map (fun p => match snd p with Some v => v | None => fst p end) (combine sp o).
Lemma adaptive_axes_spec spec o sp d : List.length sp = d -> List.length o = d ->
  (spec = AdaptiveMax o false \/ spec = AdaptiveAvg o) ->
  returns_pair spec = false /\ exists axs, pool_axes d spec sp = Some axs /\ map px_out axs = adaptive_sizes sp o.
Proof.
  intros Hd Ho Hs.
  assert (pool_axes d spec sp = Some (axes d (fun j => adaptive_axis (nth j sp 0) (match nth j o None with Some v => v | None => nth j sp 0 end)))) as E.
  { destruct Hs as [->| ->]; unfold pool_axes; rewrite Ho, Nat.eqb_refl; reflexivity. }
  split; [destruct Hs as [->| ->]; reflexivity|]. eexists. split; [exact E|].
  unfold axes. rewrite map_map. cbn [adaptive_axis px_out]. unfold adaptive_sizes.
  apply nth_ext with (d := 0) (d' := 0); [rewrite !map_length, combine_length, seq_length; lia|].
  intros j Hj. rewrite map_length, seq_length in Hj. rewrite nth_map_seq by exact Hj.
  set (F := fun p : nat * option nat => match snd p with Some v => v | None => fst p end).
  assert (j < List.length (map F (combine sp o))) as Hj2 by (rewrite map_length, combine_length; lia).
  change (match nth j o None with Some v => v | None => nth j sp 0 end = nth j (map F (combine sp o)) 0).
  rewrite (nth_indep _ 0 (F (0, None)) Hj2). rewrite map_nth, combine_nth by lia. reflexivity.
Qed.

(** Pooling to a single cell adaptively reads everything. *)
Lemma cart_seq sp : cart (map (fun a => seq 0 a) sp) = indices sp.
Proof.
  induction sp as [|a sp IH]; [reflexivity|]. cbn [map cart]. rewrite IH. unfold indices at 2. cbn [unravel].
  assert (forall b, flat_map (fun i => map (cons i) (indices sp)) (seq b a) =
    map (fun k => (k / prodn sp) :: unravel sp (k mod prodn sp)) (seq (b * prodn sp) (a * prodn sp))) as K.
  { clear IH. induction a as [|a IH]; intros b; [reflexivity|]. cbn [seq flat_map]. rewrite IH.
    change (S a * prodn sp) with (prodn sp + a * prodn sp). rewrite seq_app, map_app. f_equal.
    - unfold indices. rewrite map_map. rewrite <- (Nat.add_0_l (b * prodn sp)) at 1.
      assert (forall c m, seq (0 + c) m = map (fun k => k + c) (seq 0 m)) as Sh.
      { clear. intros c m. generalize 0 at 1 2. induction m as [|m IH]; intros a; [reflexivity|]. simpl. f_equal. apply (IH (S a)). }
      rewrite Sh, map_map. apply map_ext_in. intros k Hk. apply in_seq in Hk.
      rewrite Nat.div_add by lia. rewrite Nat.mod_add by lia. rewrite Nat.div_small, Nat.mod_small by lia. reflexivity.
    - f_equal. f_equal. simpl. lia. }
  specialize (K 0). rewrite K. reflexivity.
Qed.
Lemma adaptive_one_window a : px_win (adaptive_axis a 1) 0 = seq 0 a.
Proof. unfold adaptive_axis. cbn [px_win]. rewrite !Nat.div_1_r. f_equal. lia. Qed.
