(** Proofs about the layers on tensors in memory. *)
From Verif Require Import Prelude RMath Mat Tensor TensorFacts Layers Kernel KernelFacts Conv ConvFacts NormFacts NoBatchFacts Strides StridesSpec StridesFacts.
Open Scope nat_scope.

(** ** Splitting and merging one axis *)
Lemma split_offsets pre : forall a b rest s sp sq k, length sp = length pre -> k < prodn (pre ++ a * b :: rest) ->
  dot (sp ++ b * s :: s :: sq) (unravel (pre ++ a :: b :: rest) k) = dot (sp ++ s :: sq) (unravel (pre ++ a * b :: rest) k).
Proof.
  induction pre as [|n pre IH]; intros a b rest s sp sq k Hl Hk.
  - destruct sp; [|discriminate]. cbn [app] in *. cbn [unravel dot]. rewrite !prodn_cons in *.
    set (p := prodn rest) in *.
    assert (Hp : p <> 0) by (intro E; rewrite E in Hk; lia).
    assert (Hb : b <> 0) by (intro E; rewrite E in Hk; lia).
    rewrite (Nat.mul_comm b p), Nat.mod_mul_r by assumption.
    rewrite (Nat.mul_comm p (_ mod b)), Nat.div_add, Nat.mod_add, Nat.mod_mod by assumption.
    rewrite Nat.div_small with (a := k mod p) by (apply Nat.mod_upper_bound; assumption).
    rewrite <- Nat.div_div by assumption.
    rewrite (Nat.div_mod (k / p) b) at 3 by assumption. lia.
  - destruct sp as [|t sp]; [discriminate|]. cbn [app] in *. cbn [unravel dot].
    assert (E : prodn (pre ++ a * b :: rest) = prodn (pre ++ a :: b :: rest)) by (rewrite !prodn_app, !prodn_cons; lia).
    rewrite <- E. f_equal. rewrite prodn_cons in Hk. apply IH; [injection Hl; auto|].
    apply Nat.mod_upper_bound. intro E0. rewrite E0 in Hk. lia.
Qed.
(** The stride of an axis of size one is never used. *)
Lemma unit_stride pre : forall rest s t sp sq k, length sp = length pre -> k < prodn (pre ++ 1 :: rest) ->
  dot (sp ++ s :: sq) (unravel (pre ++ 1 :: rest) k) = dot (sp ++ t :: sq) (unravel (pre ++ 1 :: rest) k).
Proof.
  induction pre as [|n pre IH]; intros rest s t sp sq k Hl Hk.
  - destruct sp; [|discriminate]. cbn [app] in *. cbn [unravel dot]. rewrite prodn_cons in Hk.
    rewrite Nat.div_small by lia. lia.
  - destruct sp as [|u sp]; [discriminate|]. cbn [app] in *. cbn [unravel dot]. f_equal.
    rewrite prodn_cons in Hk. apply IH; [injection Hl; auto|].
    apply Nat.mod_upper_bound. intro E0. rewrite E0 in Hk. lia.
Qed.
Lemma packed_offset sh : forall k, k < prodn sh -> dot (packed sh) (unravel sh k) = k.
Proof.
  induction sh as [|n sh IH]; intros k Hk; [cbn in *; lia|]. rewrite prodn_cons in Hk.
  assert (Hp : prodn sh <> 0) by (intro E; rewrite E in Hk; lia).
  cbn [packed unravel dot]. rewrite IH by (apply Nat.mod_upper_bound; assumption).
  symmetry. apply Nat.div_mod. assumption.
Qed.

Lemma empty_addressable new x : prodn (s_shape x) = 0 -> addressable new x.
Proof. intros E. exists (map (fun _ => 0) new). split; [apply map_length|]. intros k Hk. lia. Qed.

(** An axis can always be split. *)
Lemma split_addressable pre a b c rest x : laid_out x -> s_shape x = pre ++ c :: rest ->
  prodn (pre ++ a :: b :: rest) = prodn (s_shape x) -> addressable (pre ++ a :: b :: rest) x.
Proof.
  intros Hl Hs Hp. destruct (Nat.eq_dec (prodn (s_shape x)) 0) as [E0|E0]; [apply empty_addressable; exact E0|].
  assert (Hc : c = a * b).
  { rewrite Hs, !prodn_app, !prodn_cons in *. assert (prodn pre <> 0 /\ prodn rest <> 0) as [A B] by (split; intro E; rewrite E in E0; lia).
    apply Nat.mul_cancel_l in Hp; [|exact A]. rewrite Nat.mul_assoc in Hp. apply Nat.mul_cancel_r in Hp; [lia|exact B]. }
  subst c. unfold laid_out in Hl. rewrite Hs in Hl. rewrite app_length in Hl. cbn [length] in Hl.
  assert (Hst : exists sp s sq, s_strides x = sp ++ s :: sq /\ length sp = length pre /\ length sq = length rest).
  { exists (firstn (length pre) (s_strides x)), (nth (length pre) (s_strides x) 0), (skipn (S (length pre)) (s_strides x)).
    repeat split.
    - rewrite <- (firstn_skipn (length pre) (s_strides x)) at 1. f_equal.
      assert (Hd : length pre < length (s_strides x)) by lia. clear -Hd. revert Hd. generalize (length pre). induction (s_strides x) as [|y l IH]; intros n Hn; [cbn in Hn; lia|].
      destruct n; [reflexivity|]. cbn. apply IH. cbn in Hn. lia.
    - rewrite firstn_length. lia.
    - rewrite skipn_length. lia. }
  destruct Hst as [sp [s [sq [Hst [Hsp Hsq]]]]].
  exists (sp ++ b * s :: s :: sq). split; [rewrite !app_length; cbn; lia|].
  intros k Hk. rewrite Hst, Hs in *. apply split_offsets; assumption.
Qed.

Lemma unit_tail o : prodn o = 1 -> forall sq, dot sq (unravel o 0) = 0.
Proof.
  induction o as [|n o IH]; intros Ho [|s sq]; try reflexivity. rewrite prodn_cons in Ho. apply Nat.eq_mul_1 in Ho. destruct Ho as [-> Ho].
  cbn [unravel dot]. rewrite Ho. change (0 / 1) with 0. change (0 mod 1) with 0. rewrite IH by exact Ho. lia.
Qed.
Lemma tail_units o (Ho : prodn o = 1) pre : forall sp sq k, length sp = length pre -> k < prodn pre ->
  dot (sp ++ sq) (unravel (pre ++ o) k) = dot sp (unravel pre k).
Proof.
  induction pre as [|n pre IH]; intros sp sq k Hl Hk.
  - destruct sp; [|discriminate]. cbn in Hk. assert (k = 0) by lia. subst k. cbn [app]. rewrite unit_tail by exact Ho. reflexivity.
  - destruct sp as [|s sp]; [discriminate|]. cbn [app unravel dot]. rewrite prodn_app, Ho, Nat.mul_1_r. f_equal.
    rewrite prodn_cons in Hk. apply IH; [injection Hl; auto|]. apply Nat.mod_upper_bound. intro E. rewrite E in Hk. lia.
Qed.

(** The group axis and the first spatial axis. *)
Lemma one_axis_addressable N C n Z dims x : laid_out x -> s_shape x = N :: C :: n :: Z :: dims ->
  (one_axis x <-> addressable (N :: C :: n * Z :: dims) x).
Proof.
  intros Hl Hs. unfold one_axis, laid_out in *. rewrite Hs in *.
  destruct (s_strides x) as [|s0 [|s1 [|s2 [|s3 sq]]]] eqn:Et; try discriminate. cbn [nth].
  assert (Hq : length sq = length dims) by (cbn in Hl; lia).
  split.
  - intros [E|[E|[E|E]]].
    + apply empty_addressable. rewrite Hs. exact E.
    + subst n. exists (s0 :: s1 :: s3 :: sq). split; [cbn; lia|]. rewrite Hs, Et. intros k Hk.
      assert (Hk' : k < prodn ([N; C] ++ (1 * Z) :: dims)) by (cbn [app]; rewrite !prodn_cons in *; lia).
      etransitivity; [symmetry; exact (split_offsets [N; C] 1 Z dims s3 [s0; s1] sq k eq_refl Hk')|].
      exact (unit_stride [N; C] (Z :: dims) (Z * s3) s2 [s0; s1] (s3 :: sq) k eq_refl Hk).
    + subst Z. exists (s0 :: s1 :: s2 :: sq). split; [cbn; lia|]. rewrite Hs, Et. intros k Hk.
      assert (Hk' : k < prodn ([N; C] ++ (n * 1) :: dims)) by (cbn [app]; rewrite !prodn_cons in *; lia).
      etransitivity; [symmetry; exact (split_offsets [N; C] n 1 dims s2 [s0; s1] sq k eq_refl Hk')|].
      rewrite (Nat.mul_1_l s2).
      exact (unit_stride [N; C; n] dims s2 s3 [s0; s1; s2] sq k eq_refl Hk).
    + exists (s0 :: s1 :: s3 :: sq). split; [cbn; lia|]. rewrite Hs, Et, E. intros k Hk.
      assert (Hk' : k < prodn ([N; C] ++ (n * Z) :: dims)) by (cbn [app]; rewrite !prodn_cons in *; lia).
      symmetry. exact (split_offsets [N; C] n Z dims s3 [s0; s1] sq k eq_refl Hk').
  - intros [st [Hst HF]]. rewrite Hs, Et in HF.
    destruct (Nat.eq_dec (prodn (N :: C :: n :: Z :: dims)) 0) as [|H0]; [auto|].
    destruct (Nat.eq_dec n 1) as [|Hn]; [auto|]. destruct (Nat.eq_dec Z 1) as [|HZ]; [auto|]. right; right; right.
    destruct st as [|t0 [|t1 [|t2 tq]]]; try discriminate.
    rewrite !prodn_cons in H0.
    assert (HN : 0 < N) by (destruct N; [lia|lia]). assert (HC : 0 < C) by (destruct C; lia).
    assert (Hn0 : 1 < n) by (destruct n as [|[|]]; lia). assert (HZ0 : 1 < Z) by (destruct Z as [|[|]]; lia).
    assert (Hd : 0 < prodn dims) by (destruct (prodn dims); lia).
    assert (Hz : forall s, 0 < prodn s -> valid s (repeat 0 (length s)) /\ ravel s (repeat 0 (length s)) = 0 /\ forall q, dot q (repeat 0 (length s)) = 0).
    { induction s as [|a s IHs]; intros Hp; [repeat split; [constructor|intros [|? ?]; reflexivity]|].
      rewrite prodn_cons in Hp. destruct IHs as [V [Rv Dv]]; [lia|]. cbn [length repeat]. split; [apply valid_cons; [nia|exact V]|].
      split; [cbn [ravel]; lia|]. intros [|? ?]; [reflexivity|]. cbn [dot]. rewrite Dv. lia. }
    destruct (Hz dims Hd) as [V [Rv Dv]]. set (z := repeat 0 (length dims)) in *.
    assert (V1 : valid (N :: C :: n :: Z :: dims) (0 :: 0 :: 1 :: 0 :: z)) by (repeat apply valid_cons; try lia; exact V).
    assert (V2 : valid (N :: C :: n :: Z :: dims) (0 :: 0 :: 0 :: 1 :: z)) by (repeat apply valid_cons; try lia; exact V).
    assert (W1 : valid (N :: C :: n * Z :: dims) (0 :: 0 :: Z :: z)) by (repeat apply valid_cons; try nia; exact V).
    assert (W2 : valid (N :: C :: n * Z :: dims) (0 :: 0 :: 1 :: z)) by (repeat apply valid_cons; try nia; exact V).
    assert (E1 : ravel (N :: C :: n * Z :: dims) (0 :: 0 :: Z :: z) = ravel (N :: C :: n :: Z :: dims) (0 :: 0 :: 1 :: 0 :: z)).
    { cbn [ravel]. rewrite !prodn_cons. lia. }
    assert (E2 : ravel (N :: C :: n * Z :: dims) (0 :: 0 :: 1 :: z) = ravel (N :: C :: n :: Z :: dims) (0 :: 0 :: 0 :: 1 :: z)).
    { cbn [ravel]. lia. }
    pose proof (HF _ (ravel_lt _ _ V1)) as F1. rewrite unravel_ravel in F1 by exact V1. rewrite <- E1, unravel_ravel in F1 by exact W1.
    pose proof (HF _ (ravel_lt _ _ V2)) as F2. rewrite unravel_ravel in F2 by exact V2. rewrite <- E2, unravel_ravel in F2 by exact W2.
    cbn [dot] in F1, F2. rewrite !Dv in F1, F2. nia.
Qed.

(** ** Layouts of results *)
Lemma contiguous_faithful : faithful contiguous.
Proof.
  intros t Ht. split; [apply packed_length|]. unfold dense, contiguous. cbn [s_shape s_strides s_offset s_memory].
  transitivity (build (shape t) (at_ t)); [|apply build_at; exact Ht]. apply build_ext. intros idx V. unfold at_. cbn [plus]. f_equal.
  rewrite <- (packed_offset (shape t) (ravel (shape t) idx)) by (apply ravel_lt; exact V). rewrite unravel_ravel by exact V. reflexivity.
Qed.
Lemma dot_scale C l : forall idx, dot (map (fun s => C * s) l) idx = C * dot l idx.
Proof. induction l as [|s l IH]; intros [|i idx]; cbn [map dot]; try lia. rewrite IH. lia. Qed.
Lemma packed_dot sh idx : valid sh idx -> dot (packed sh) idx = ravel sh idx.
Proof. intros V. rewrite <- (packed_offset sh (ravel sh idx)) by (apply ravel_lt; exact V). rewrite unravel_ravel by exact V. reflexivity. Qed.
Lemma channels_last_faithful : faithful channels_last.
Proof.
  intros t Ht. split.
  - unfold laid_out, channels_last. cbn [s_shape s_strides]. unfold channels_last_strides.
    destruct (shape t) as [|N [|C sp]]; try reflexivity. cbn [length]. rewrite map_length, packed_length. reflexivity.
  - unfold dense, channels_last. cbn [s_shape s_strides s_offset s_memory]. unfold channels_last_strides.
    transitivity (build (shape t) (at_ t)); [|apply build_at; exact Ht]. apply build_ext. intros idx V. cbn [plus].
    destruct (shape t) as [|N [|C sp]] eqn:Es.
    + unfold at_. rewrite Es, packed_dot by exact V. reflexivity.
    + unfold at_. rewrite Es, packed_dot by exact V. reflexivity.
    + destruct (valid_inv_cons _ _ _ V) as [a [r [-> [Ha V1]]]]. destruct (valid_inv_cons _ _ _ V1) as [c [y [-> [Hc V2]]]].
      cbn [dot]. rewrite dot_scale, packed_dot by exact V2. pose proof (ravel_lt _ _ V2) as Hr.
      set (p := prodn sp) in *. set (r := ravel sp y) in *.
      assert (E : C * p * a + (1 * c + C * r) = c + (p * a + r) * C) by lia. rewrite E.
      assert (HC : C <> 0) by lia. assert (Hp : p <> 0) by lia.
      rewrite <- Nat.div_div by assumption. rewrite Nat.mod_add, (Nat.mod_small c), Nat.div_add, (Nat.div_small c) by assumption. cbn [plus].
      replace (p * a + r) with (r + a * p) by lia. rewrite Nat.div_add, Nat.mod_add, (Nat.div_small r), (Nat.mod_small r) by assumption.
      unfold r. rewrite unravel_ravel by exact V2. reflexivity.
Qed.

(** ** Normalization *)
Definition keeps_shape (base : norm_state -> tensor R -> result (tensor R * norm_state)) : Prop :=
  forall s v r, base s v = Ok r -> shape (fst r) = shape v /\ wft (fst r).
Lemma batch_norm_keeps d : keeps_shape (batch_norm d).
Proof.
  intros s v r. unfold batch_norm. destruct (shape v) as [|N [|C rest]]; try discriminate. cbv zeta.
  destruct (negb (Nat.eqb (length rest) d)); [discriminate|].
  match goal with |- (if ?c then _ else _) = _ -> _ => destruct c end; [discriminate|].
  destruct (negb (check_channels s C)); [discriminate|]. intros E. injection E as <-. split; [reflexivity|apply wft_build].
Qed.
Lemma instance_batched_keeps d : keeps_shape (instance_batched d).
Proof.
  intros s v r. unfold instance_batched. destruct (shape v) as [|N [|C rest]]; try discriminate. cbv zeta.
  destruct (negb (Nat.eqb (length rest) d)); [discriminate|].
  match goal with |- (if ?c then _ else _) = _ -> _ => destruct c end; [discriminate|].
  match goal with |- (if ?c then _ else _) = _ -> _ => destruct c end; [discriminate|].
  destruct (negb (check_channels s C)); [discriminate|]. intros E. injection E as <-. split; [reflexivity|apply wft_build].
Qed.
Lemma instance_norm_keeps d : keeps_shape (instance_norm d).
Proof.
  intros s v r. unfold instance_norm. destruct (Nat.eqb _ _); [|apply instance_batched_keeps].
  destruct (instance_batched d s (unsqueeze0 v)) as [q|] eqn:E; [|discriminate]. cbn [rmap]. intros E'. injection E' as <-.
  destruct (instance_batched_keeps d _ _ _ E) as [Hs Hw]. cbn [unsqueeze0 shape] in Hs. cbn [fst squeeze0 shape]. rewrite Hs. split; [reflexivity|].
  unfold wft in *. cbn [squeeze0 shape data]. rewrite Hw, Hs. cbn [tl]. rewrite prodn_cons. lia.
Qed.

Lemma rmap_ok {A B} (f : A -> B) (r : result A) b : rmap f r = Ok b -> exists a, r = Ok a /\ f a = b.
Proof. destruct r; cbn; [intros E; injection E as <-; eauto|discriminate]. Qed.
Lemma rmap_err {A B} (f : A -> B) (r : result A) e : rmap f r = Err e -> r = Err e.
Proof. destruct r; cbn; [discriminate|congruence]. Qed.

Lemma norm_accepts {G} place base (s : norm_state) x (H : list G) : faithful place -> keeps_shape base -> laid_out x -> one_axis x ->
  values3 (s_norm place base s x H) = g_norm base s (dense x) H.
Proof.
  intros Hf Hb Hl Ho. unfold s_norm, g_norm. rewrite dense_shape.
  destruct (s_shape x) as [|N [|C [|n [|Z dims]]]] eqn:Hs; try reflexivity.
  pose proof (proj1 (one_axis_addressable _ _ _ _ _ _ Hl Hs) Ho) as Ha.
  pose proof (sview_dense _ _ Hl (fun _ => Ha)) as Hv.
  destruct (sview (N :: C :: n * Z :: dims) x) as [v|e] eqn:Ev.
  - cbn [rmap] in Hv. rewrite <- Hv. cbn [bind].
    destruct (sview_ok _ _ _ Hl Ev) as [Hp [Hvs [Hvl _]]].
    destruct (base s (dense v)) as [r|e] eqn:Eb; [|reflexivity]. cbn [bind].
    destruct (Hb _ _ _ Eb) as [Hrs Hrw]. rewrite dense_shape, Hvs in Hrs.
    destruct (Hf _ Hrw) as [Hpl Hpd].
    assert (Hps : s_shape (place (fst r)) = N :: C :: n * Z :: dims) by (rewrite <- dense_shape, Hpd; exact Hrs).
    assert (Hd : rmap dense (sview (N :: C :: n :: Z :: dims) (place (fst r))) = view (N :: C :: n :: Z :: dims) (dense (place (fst r)))).
    { apply sview_dense; [exact Hpl|]. intros E. exact (split_addressable [N; C] n Z (n * Z) dims _ Hpl Hps E). }
    rewrite Hpd in Hd. rewrite <- Hd. destruct (sview _ (place (fst r))) as [y|e]; reflexivity.
  - cbn [rmap] in Hv. rewrite <- Hv. reflexivity.
Qed.
Lemma norm_refuses {G} place base (s : norm_state) x (H : list G) : laid_out x -> 4 <= length (s_shape x) -> ~ one_axis x ->
  s_norm place base s x H = Err RuntimeError.
Proof.
  intros Hl Hr Ho. unfold s_norm.
  destruct (s_shape x) as [|N [|C [|n [|Z dims]]]] eqn:Hs; try (cbn in Hr; lia).
  destruct (sview (N :: C :: n * Z :: dims) x) as [v|e] eqn:Ev.
  - exfalso. apply Ho. apply (one_axis_addressable _ _ _ _ _ _ Hl Hs). apply sview_addressable; [exact Hl|rewrite Hs, !prodn_cons; lia|eauto].
  - rewrite (sview_err _ _ _ Ev). reflexivity.
Qed.

(** ** Convolutions *)
Section Layer.
  Context {G P : Type} {D : Dflt P} (L : gconv G P) (place : tensor R -> strided) (Hf : faithful place).

  Lemma tail_layout N out n Co o (Y : tensor R) (H : list G) : has_shape Y (N :: Co :: o) ->
    values (x <- sview (N :: out :: n :: skipn 2 (shape Y)) (place Y) ;; x <- s_add_bias L place x ;; Ok (x, H)) =
    (x <- view (N :: out :: n :: skipn 2 (shape Y)) Y ;; x <- add_bias L x ;; Ok (x, H)).
  Proof.
    intros [Hs Hw]. rewrite Hs. cbn [skipn]. destruct (Hf _ Hw) as [Hpl Hpd].
    assert (Hps : s_shape (place Y) = N :: Co :: o) by (rewrite <- dense_shape, Hpd; exact Hs).
    assert (Hd : rmap dense (sview (N :: out :: n :: o) (place Y)) = view (N :: out :: n :: o) (dense (place Y))).
    { apply sview_dense; [exact Hpl|]. intros E. exact (split_addressable [N] out n Co o _ Hpl Hps E). }
    rewrite Hpd in Hd. rewrite <- Hd. destruct (sview (N :: out :: n :: o) (place Y)) as [v|e] eqn:Ev; [|reflexivity]. cbn [rmap bind].
    unfold s_add_bias, add_bias. destruct (l_bias L) as [b|]; [|reflexivity].
    destruct (bcast2 Rplus (dense v) b) as [z|e] eqn:Eb; [|reflexivity]. cbn [bind values rmap fst snd].
    assert (Hz : wft z). { unfold bcast2 in Eb. destruct (bshape _ _); [|discriminate]. injection Eb as <-. apply wft_build. }
    unfold values. cbn [rmap fst snd]. rewrite (proj2 (Hf _ Hz)). reflexivity.
  Qed.
  Lemma values_bind {A B} (r : result A) (k : A -> result (strided * B)) : values (x <- r ;; k x) = (x <- r ;; values (k x)).
  Proof. destruct r; reflexivity. Qed.
  Lemma bind_ext' {A B} (r : result A) (k k' : A -> result B) : (forall a, r = Ok a -> k a = k' a) -> (x <- r ;; k x) = (x <- r ;; k' x).
  Proof. destruct r; cbn; auto. Qed.
  Lemma view_shape {E} s (t u : tensor E) : view s t = Ok u -> shape u = s.
  Proof. unfold view. destruct (Nat.eqb _ _); [|discriminate]. intros Q. injection Q as <-. reflexivity. Qed.

  Lemma conv_result X W g Y Co Cg ks : conv_forward L X W g = Ok Y -> shape W = Co :: Cg :: ks -> length (shape X) <> S (length ks) ->
    exists o, has_shape Y (hd 0 (shape X) :: Co :: o) /\ length o = length ks.
  Proof.
    intros E Hw Hx. unfold conv_forward in E. rewrite Hw in E. cbn [length] in E.
    destruct (Nat.eqb_spec (S (length (shape X))) (S (S (length ks)))); [lia|].
    destruct (conv_batched_inv L _ _ _ _ _ _ _ E Hw) as (N & sp & o & Es & SY & Lo & _). exists o. rewrite Es. auto.
  Qed.

  Lemma hd_nth0 (l : list nat) : nth 0 l 0 = hd 0 l.
  Proof. destruct l; reflexivity. Qed.

  Lemma lifting_layout weight input (H : list G) : laid_out input -> length (s_shape input) <> 1 + length (l_ks L) ->
    values (s_lifting_forward L place weight input H) = lifting_forward L weight (dense input) H.
  Proof.
    intros Hl Hr. unfold s_lifting_forward, lifting_forward. cbv zeta. rewrite dense_shape.
    rewrite values_bind. apply bind_ext'. intros w _. rewrite values_bind. apply bind_ext'. intros w' Ew.
    rewrite values_bind. apply bind_ext'. intros Y EY.
    assert (Hw : exists c, shape w' = c :: l_in L / l_groups L :: l_ks L).
    { unfold view_lead in Ew. destruct (Nat.eqb _ 0); [discriminate|]. apply view_shape in Ew. eauto. }
    destruct Hw as [c Hw].
    destruct (conv_result _ _ _ _ _ _ _ EY Hw) as [o [SY _]]; [rewrite dense_shape; exact Hr|].
    rewrite dense_shape in SY. rewrite <- hd_nth0 in SY. apply (tail_layout _ _ _ _ _ _ H SY).
  Qed.

  Lemma group_layout kf input (in_H out_H : list G) : laid_out input -> length (s_shape input) <> 2 + length (l_ks L) ->
    values (s_group_forward_with L place kf input in_H out_H) = group_forward_with L kf (dense input) in_H out_H.
  Proof.
    intros Hl Hr. unfold s_group_forward_with, group_forward_with. cbv zeta. rewrite dense_shape.
    destruct (s_shape input) as [|N [|A [|B dims]]] eqn:Hs; try reflexivity.
    rewrite values_bind. apply bind_ext'. intros w _. rewrite values_bind. apply bind_ext'. intros i Ei.
    rewrite values_bind. apply bind_ext'. intros w' Ew. rewrite values_bind. apply bind_ext'. intros Y EY.
    apply view_shape in Ei. apply view_shape in Ew.
    destruct (conv_result _ _ _ _ _ _ _ EY Ew) as [o [SY _]]; [rewrite Ei; cbn in *; lia|].
    rewrite Ei in SY. cbn [hd] in SY. apply (tail_layout N _ _ _ _ _ out_H SY).
  Qed.

  Lemma separable_layout weight_H weight input (in_H out_H : list G) : laid_out input -> length (s_shape input) <> 2 + length (l_ks L) ->
    k_size (l_kernel L) = l_ks L ->
    values (s_separable_forward L place weight_H weight input in_H out_H) = separable_forward L weight_H weight (dense input) in_H out_H.
  Proof.
    intros Hl Hr Hk. unfold s_separable_forward, separable_forward. cbv zeta. rewrite dense_shape.
    destruct (s_shape input) as [|N [|A [|B dims]]] eqn:Hs; try reflexivity.
    rewrite values_bind. apply bind_ext'. intros [wh w] Ek. rewrite values_bind. apply bind_ext'. intros i Ei.
    cbn [fst snd].
    assert (Hwh : length (skipn 4 (shape wh)) = length (l_ks L)).
    { unfold separable_kernel_forward in Ek. destruct (sample_group _ _ _ _); [|discriminate]. cbn [bind] in Ek.
      apply bind_ok' in Ek. destruct Ek as (v & Ev & Ek). apply view_shape in Ev.
      repeat (apply bind_ok' in Ek; destruct Ek as (? & _ & Ek)). injection Ek as <- _.
      rewrite skipn_length. unfold transpose. cbn [shape build]. rewrite !swap_nth_length, Ev. cbn [length].
      rewrite repeat_length, Hk. lia. }
    rewrite values_bind. apply bind_ext'. intros w1 E1. rewrite values_bind. apply bind_ext'. intros Y1 EY1.
    rewrite values_bind. apply bind_ext'. intros w2 E2. rewrite values_bind. apply bind_ext'. intros Y EY.
    apply view_shape in Ei. apply view_shape in E1. apply view_shape in E2.
    destruct (conv_result _ _ _ _ _ _ _ EY1 E1) as [o1 [SY1 Lo]]; [rewrite Ei, Hwh; cbn in *; lia|].
    rewrite Ei in SY1. cbn [hd] in SY1.
    destruct (conv_result _ _ _ _ _ _ _ EY E2) as [o [SY _]]; [rewrite (proj1 SY1); cbn [length]; rewrite Lo, Hwh; lia|].
    rewrite (proj1 SY1) in SY. cbn [hd] in SY. apply (tail_layout N _ _ _ _ _ out_H SY).
  Qed.
End Layer.

(** ** Pooling *)
Lemma pool_layout {G} place d spec x (H : list G) : faithful place -> laid_out x -> length (s_shape x) = 3 + d ->
  values (s_spatial_pool place d spec x H) = g_spatial_pool d spec (dense x) H.
Proof.
  intros Hf Hl Hr. unfold s_spatial_pool, g_spatial_pool. rewrite dense_shape.
  rewrite values_bind. apply bind_ext'. intros f Ef. rewrite values_bind. apply bind_ext'. intros y Ey.
  destruct (returns_pair spec); [reflexivity|].
  unfold flatten12 in Ef. rewrite dense_shape in Ef.
  destruct (s_shape x) as [|N [|C [|n sp]]] eqn:Hs; try discriminate. injection Ef as <-.
  assert (Lsp : length sp = d) by (cbn in Hr; lia).
  assert (Hy : exists o, has_shape y (N :: C * n :: o)).
  { unfold pool_forward in Ey. cbn [shape length] in Ey. rewrite Lsp in Ey.
    destruct (Nat.eqb_spec (S (S d)) (S d)); [lia|]. unfold pool_batched in Ey. cbn [shape] in Ey.
    destruct (_ && _); [|discriminate]. destruct (pool_axes d spec sp) as [axs|]; [|discriminate]. injection Ey as <-.
    eexists. split; [reflexivity|apply wft_build]. }
  destruct Hy as [o [Hys Hyw]]. cbn [firstn]. destruct (Hf _ Hyw) as [Hpl Hpd].
  assert (Hps : s_shape (place y) = N :: C * n :: o) by (rewrite <- dense_shape, Hpd; exact Hys).
  assert (Hd : rmap dense (sview [N; C; n] (place y)) = view [N; C; n] (dense (place y))).
  { apply sview_dense; [exact Hpl|]. intros E.
    destruct (Nat.eq_dec (prodn (s_shape (place y))) 0) as [E0|E0]; [apply empty_addressable; exact E0|].
    assert (Ho : prodn o = 1).
    { rewrite Hps, !prodn_cons, prodn_nil in *. rewrite Nat.mul_1_r in E.
      assert (N * (C * n) <> 0 /\ N * (C * n) * 1 = N * (C * n) * prodn o) as [A B].
      { split; [intro Q; apply E0; rewrite Nat.mul_assoc, Q; reflexivity|lia]. }
      apply Nat.mul_cancel_l in B; [lia|exact A]. }
    unfold laid_out in Hpl. rewrite Hps in Hpl.
    destruct (s_strides (place y)) as [|s0 [|s1 sq]] eqn:Et; try discriminate.
    exists [s0; n * s1; s1]. split; [reflexivity|]. rewrite Hps, Et. intros k Hk.
    assert (Hk2 : k < prodn ([N] ++ C * n :: [])) by (cbn [app]; rewrite !prodn_cons, Ho in *; rewrite prodn_nil; lia).
    etransitivity; [exact (split_offsets [N] C n [] s1 [s0] [] k eq_refl Hk2)|]. symmetry.
    exact (tail_units o Ho [N; C * n] [s0; s1] sq k eq_refl Hk2). }
  rewrite Hpd in Hd. rewrite <- Hd. destruct (sview [N; C; n] (place y)) as [v|e]; reflexivity.
Qed.

(** ** Chains *)
(** The k-th entry lies k places after the first. *)
Definition in_order (x : strided) : Prop :=
  laid_out x /\ forall k, k < prodn (s_shape x) -> dot (s_strides x) (unravel (s_shape x) k) = k.
Lemma in_order_addressable x new : in_order x -> prodn new = prodn (s_shape x) -> addressable new x.
Proof.
  intros [Hl Hk] Hp. exists (packed new). split; [apply packed_length|]. intros k H. rewrite Hk by exact H. apply packed_offset. lia.
Qed.
Lemma in_order_one_axis x : in_order x -> 4 <= length (s_shape x) -> one_axis x.
Proof.
  intros Ho Hr. destruct (s_shape x) as [|N [|C [|n [|Z dims]]]] eqn:Hs; try (cbn in Hr; lia).
  apply (one_axis_addressable _ _ _ _ _ _ (proj1 Ho) Hs). apply in_order_addressable; [exact Ho|]. rewrite Hs, !prodn_cons. lia.
Qed.
Lemma contiguous_in_order t : in_order (contiguous t).
Proof. split; [apply packed_length|]. intros k Hk. apply packed_offset. exact Hk. Qed.
Lemma sview_in_order new x y : in_order x -> sview new x = Ok y -> in_order y.
Proof.
  intros [Hl Hk] H. unfold sview in H. destruct (Nat.eqb_spec (prodn new) (prodn (s_shape x))) as [Hp|]; [|discriminate].
  destruct (view_strides _ _ _) as [st|] eqn:E; [|discriminate]. injection H as <-.
  destruct (view_strides_sound _ _ _ _ Hl Hp E) as [A B]. split; [exact A|]. cbn [s_shape s_strides]. intros k H. rewrite B by lia. apply Hk. lia.
Qed.
Section Chain.
  Context {G P : Type} {D : Dflt P} (L : gconv G P).
  Lemma tail_in_order N out n (Y : tensor R) (H : list G) r :
    (x <- sview (N :: out :: n :: skipn 2 (shape Y)) (contiguous Y) ;; x <- s_add_bias L contiguous x ;; Ok (x, H)) = Ok r -> in_order (fst r).
  Proof.
    intros E. apply bind_ok' in E. destruct E as (x & Ex & E). apply bind_ok' in E. destruct E as (y & Ey & E). injection E as <-. cbn [fst].
    pose proof (sview_in_order _ _ _ (contiguous_in_order Y) Ex) as Ho.
    unfold s_add_bias in Ey. destruct (l_bias L); [|injection Ey as <-; exact Ho].
    apply bind_ok' in Ey. destruct Ey as (z & _ & Ey). injection Ey as <-. apply contiguous_in_order.
  Qed.
  Lemma lifting_in_order weight input (H : list G) r : s_lifting_forward L contiguous weight input H = Ok r -> in_order (fst r).
  Proof. intros E. unfold s_lifting_forward in E. cbv zeta in E. do 3 (apply bind_ok' in E; destruct E as (? & _ & E)). exact (tail_in_order _ _ _ _ _ _ E). Qed.
  Lemma group_in_order kf input (in_H out_H : list G) r : s_group_forward_with L contiguous kf input in_H out_H = Ok r -> in_order (fst r).
  Proof.
    intros E. unfold s_group_forward_with in E. destruct (s_shape input) as [|N [|A [|B dims]]]; try discriminate. cbv zeta in E.
    do 4 (apply bind_ok' in E; destruct E as (? & _ & E)). exact (tail_in_order _ _ _ _ _ _ E).
  Qed.
  Lemma separable_in_order wH w input (in_H out_H : list G) r : s_separable_forward L contiguous wH w input in_H out_H = Ok r -> in_order (fst r).
  Proof.
    intros E. unfold s_separable_forward in E. destruct (s_shape input) as [|N [|A [|B dims]]]; try discriminate. cbv zeta in E.
    do 6 (apply bind_ok' in E; destruct E as (? & _ & E)). exact (tail_in_order _ _ _ _ _ _ E).
  Qed.
End Chain.
(** Of a convolution result in channels_last layout, the group axis and the first spatial axis are not one axis. *)
Lemma channels_last_split Y N out n Z dims x : shape Y = N :: out * n :: Z :: dims -> 2 <= n -> 2 <= Z -> prodn (shape Y) <> 0 ->
  sview (N :: out :: n :: Z :: dims) (channels_last Y) = Ok x -> ~ one_axis x.
Proof.
  intros Hs Hn HZ H0 E Ho.
  assert (Hl : laid_out (channels_last Y)).
  { unfold laid_out, channels_last. cbn [s_shape s_strides]. unfold channels_last_strides. rewrite Hs. cbn [length]. rewrite map_length, packed_length. reflexivity. }
  destruct (sview_ok _ _ _ Hl E) as [Hp [Hxs [Hxl _]]].
  pose proof (proj1 (one_axis_addressable _ _ _ _ _ _ Hxl Hxs) Ho) as [st [Hst HF]].
  unfold sview in E. destruct (Nat.eqb _ _); [|discriminate]. destruct (view_strides _ _ _) as [st'|] eqn:Ev; [|discriminate]. injection E as <-.
  destruct (view_strides_sound _ _ _ _ Hl Hp Ev) as [A B]. cbn [s_shape s_strides] in *.
  rewrite Hs, !prodn_cons in H0.
  assert (prodn dims <> 0 /\ N <> 0 /\ out <> 0) as (Hd & HN & Hout) by (repeat split; intro Q; rewrite Q in H0; lia).
  destruct st as [|t0 [|t1 [|t2 tq]]]; try discriminate.
  unfold channels_last, channels_last_strides in B. cbn [s_shape s_strides] in B. rewrite Hs in B. cbn [packed map] in B.
  assert (Hz : forall s, prodn s <> 0 -> valid s (repeat 0 (length s)) /\ ravel s (repeat 0 (length s)) = 0 /\ forall q, dot q (repeat 0 (length s)) = 0).
  { induction s as [|a s IHs]; intros Hq; [repeat split; [constructor|intros [|? ?]; reflexivity]|].
    rewrite prodn_cons in Hq. destruct IHs as [V [Rv Dv]]; [intro X; rewrite X in Hq; lia|]. cbn [length repeat].
    split; [apply valid_cons; [destruct a; lia|exact V]|].
    split; [cbn [ravel]; lia|]. intros [|? ?]; [reflexivity|]. cbn [dot]. rewrite Dv. lia. }
  destruct (Hz dims Hd) as [V [Rv Dv]]. set (z := repeat 0 (length dims)) in *.
  assert (V1 : valid (N :: out * n :: Z :: dims) (0 :: 1 :: 0 :: z)) by (repeat apply valid_cons; try nia; exact V).
  assert (W1 : valid (N :: out :: n * Z :: dims) (0 :: 0 :: Z :: z)) by (repeat apply valid_cons; try nia; exact V).
  assert (E1 : ravel (N :: out :: n * Z :: dims) (0 :: 0 :: Z :: z) = ravel (N :: out * n :: Z :: dims) (0 :: 1 :: 0 :: z)).
  { cbn [ravel]. rewrite !prodn_cons. lia. }
  pose proof (ravel_lt _ _ V1) as K1. pose proof (ravel_lt _ _ W1) as K2.
  assert (K3 : ravel (N :: out :: n * Z :: dims) (0 :: 0 :: Z :: z) < prodn (N :: out :: n :: Z :: dims)) by (rewrite !prodn_cons in *; lia).
  pose proof (HF _ K3) as F1. rewrite B in F1 by (rewrite E1; exact K1).
  rewrite unravel_ravel in F1 by exact W1. rewrite E1, unravel_ravel in F1 by exact V1.
  cbn [dot] in F1. rewrite !Dv, !Nat.mul_0_r in F1. assert (F2 : t2 * Z = 1) by lia. apply Nat.eq_mul_1 in F2. lia.
Qed.

(** ** Results in channels_last layout *)
Section ChannelsLast.
  Context {G P : Type} {D : Dflt P} (L : gconv G P) (Hb : l_bias L = None).
  Lemma tail_channels_last N n Co o (Y : tensor R) (H : list G) r : has_shape Y (N :: Co :: o) -> 1 <= length o ->
    (x <- sview (N :: l_out L :: n :: skipn 2 (shape Y)) (channels_last Y) ;; x <- s_add_bias L channels_last x ;; Ok (x, H)) = Ok r ->
    2 <= nth 2 (s_shape (fst r)) 0 -> 2 <= nth 3 (s_shape (fst r)) 0 -> prodn (s_shape (fst r)) <> 0 -> laid_out (fst r) /\ 4 <= length (s_shape (fst r)) /\ ~ one_axis (fst r).
  Proof.
    intros [Hs Hw] Ho E. rewrite Hs in E. cbn [skipn] in E. apply bind_ok' in E. destruct E as (x & Ex & E).
    unfold s_add_bias in E. rewrite Hb in E. cbn [bind] in E. injection E as <-. cbn [fst].
    destruct (channels_last_faithful Y Hw) as [Hl _].
    destruct (sview_ok _ _ _ Hl Ex) as [Hp [Hxs [Hxl _]]]. rewrite Hxs. destruct o as [|Z dims]; [cbn in Ho; lia|]. cbn [nth length].
    intros Hn HZ H0. split; [exact Hxl|]. split; [lia|].
    change (s_shape (channels_last Y)) with (shape Y) in Hp. rewrite Hs in Hp.
    assert (HCo : Co = l_out L * n).
    { rewrite !prodn_cons in *. assert (N <> 0 /\ Z * prodn dims <> 0) as [A B] by (split; intro Q; [rewrite Q in H0|rewrite Q, !Nat.mul_0_r in H0]; lia).
      apply Nat.mul_cancel_l in Hp; [|exact A]. rewrite (Nat.mul_assoc (l_out L) n) in Hp. apply Nat.mul_cancel_r in Hp; [lia|exact B]. }
    subst Co. apply (channels_last_split Y N (l_out L) n Z dims x Hs Hn HZ); [rewrite Hs, <- Hp; exact H0|exact Ex].
  Qed.
  Lemma lifting_channels_last weight input (H : list G) r : laid_out input -> length (s_shape input) = S (S (length (l_ks L))) -> 1 <= length (l_ks L) ->
    s_lifting_forward L channels_last weight input H = Ok r ->
    2 <= nth 2 (s_shape (fst r)) 0 -> 2 <= nth 3 (s_shape (fst r)) 0 -> prodn (s_shape (fst r)) <> 0 -> laid_out (fst r) /\ 4 <= length (s_shape (fst r)) /\ ~ one_axis (fst r).
  Proof.
    intros Hl Hr Hd E. unfold s_lifting_forward in E. cbv zeta in E.
    apply bind_ok' in E; destruct E as (w & _ & E). apply bind_ok' in E; destruct E as (w' & Ew & E). apply bind_ok' in E; destruct E as (Y & EY & E).
    assert (Hw : exists c, shape w' = c :: l_in L / l_groups L :: l_ks L).
    { unfold view_lead in Ew. destruct (Nat.eqb _ 0); [discriminate|]. apply view_shape in Ew. eauto. }
    destruct Hw as [c Hw].
    destruct (conv_result L _ _ _ _ _ _ _ EY Hw) as [o [SY Lo]]; [rewrite dense_shape; lia|].
    rewrite dense_shape in SY. destruct (s_shape input) as [|N rest] eqn:Hs; [discriminate|]. cbn [hd nth] in *.
    apply (tail_channels_last _ _ _ _ _ _ _ SY ltac:(lia) E).
  Qed.
  Lemma group_channels_last kf input (in_H out_H : list G) r : laid_out input -> length (s_shape input) = S (S (S (length (l_ks L)))) -> 1 <= length (l_ks L) ->
    s_group_forward_with L channels_last kf input in_H out_H = Ok r ->
    2 <= nth 2 (s_shape (fst r)) 0 -> 2 <= nth 3 (s_shape (fst r)) 0 -> prodn (s_shape (fst r)) <> 0 -> laid_out (fst r) /\ 4 <= length (s_shape (fst r)) /\ ~ one_axis (fst r).
  Proof.
    intros Hl Hr Hd E. unfold s_group_forward_with in E. destruct (s_shape input) as [|N [|A [|B dims]]] eqn:Hs; try discriminate. cbv zeta in E.
    apply bind_ok' in E; destruct E as (w & _ & E). apply bind_ok' in E; destruct E as (i & Ei & E).
    apply bind_ok' in E; destruct E as (w' & Ew & E). apply bind_ok' in E; destruct E as (Y & EY & E).
    apply view_shape in Ei. apply view_shape in Ew.
    destruct (conv_result L _ _ _ _ _ _ _ EY Ew) as [o [SY Lo]]; [rewrite Ei; cbn in *; lia|].
    rewrite Ei in SY. cbn [hd] in SY. apply (tail_channels_last _ _ _ _ _ _ _ SY ltac:(lia) E).
  Qed.
End ChannelsLast.
