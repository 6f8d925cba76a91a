(** Property theorems C85: running statistics of GBatchNorm* and GInstanceNorm* over the whole life of a module.
    Reading guide.  [norm_new ..] is a new module, [norm_run kind d s es] its state after the events es (calls, train(), eval(),
    parameter updates; raising calls included), NormHistory.v. [training_calls kind C d true es] (NormHistSpec.v) lists the calls made
    in training mode, [Some x] where the module took x and [None] where it raised; [used] keeps the former. [batch_mean], [batch_var]:
    average and unbiased variance of a channel of a batch (instance normalization: of each sample, averaged). [moving_sum m r l] is the
    exponential average of l with initial value r, as a sum. [proper]: well-formed, non-empty tensors with d spatial axes. *)
From Coq Require Import String ZArith Lra.
From Verif Require Import Prelude RMath Mat Repulse RepulseFacts Tensor TensorFacts Kernel KernelFacts Conv Layers LayersSpec LayersFacts NormFacts NormHistory NormHistSpec NormHistFacts.
Open Scope nat_scope.

Lemma new_good C eps mom affine : good C (norm_new C eps mom affine true) (repeat 0%R C) (repeat 1%R C).
Proof.
  unfold good, norm_new. cbn [nm_features nm_mean nm_var nm_weight nm_bias]. rewrite !repeat_length.
  repeat split; destruct affine; cbn [fits_channels]; rewrite ?repeat_length, ?Nat.eqb_refl; reflexivity.
Qed.
Lemma nth_repeat_R (a : R) C c : c < C -> nth c (repeat a C) 0%R = a.
Proof. intros H. revert c H. induction C as [|C IH]; intros [|c] H; cbn [repeat nth]; try lia; [reflexivity|]. apply IH. lia. Qed.

(** With a momentum m (0.1 by default), whatever happened, the running statistics are the exponential averages, from 0 and 1, of the
    statistics of the batches taken in training mode, in order. Evaluation calls, raising calls, changes of mode and parameter updates
    leave no trace in them. Batch normalization also counts the training calls; instance normalization never counts. *)
Theorem C85_momentum : forall G kind d C eps m affine (es : list (norm_event G)), 0 < d -> Forall (proper d) es -> Forall (params_fit C) es ->
  let s := norm_run kind d (norm_new C eps (Some m) affine true) es in
  let calls := training_calls kind C d true es in
  nm_count s = match kind with KBatch => length calls | KInstance => 0 end /\
  exists mean var, nm_mean s = Some mean /\ nm_var s = Some var /\ length mean = C /\ length var = C /\
    forall c, c < C ->
      nth c mean 0%R = moving_sum m 0 (map (batch_mean kind c) (used calls)) /\
      nth c var 0%R = moving_sum m 1 (map (batch_var kind c) (used calls)).
Proof.
  intros G kind d C eps m affine es Hd Hp Hf s calls.
  destruct (run_good d C Hd kind es _ _ _ (new_good C eps (Some m) affine) Hp Hf) as (_ & Hc & mean & var & (_ & Em & Ev & Lm & Lv & _) & V).
  split; [unfold s; rewrite Hc; destruct kind; reflexivity|]. exists mean, var. do 4 (split; [assumption|]).
  intros c Hcc. destruct (V c Hcc) as [A B]. rewrite !nth_repeat_R in A, B by exact Hcc. cbn [norm_new nm_momentum nm_count nm_training] in A, B.
  rewrite track_moving, moving_closed in A, B. split; assumption.
Qed.
Print Assumptions C85_momentum.

(** momentum=None: GBatchNorm keeps plain averages over all training batches, provided no training call raised. GInstanceNorm never
    moves its statistics from 0 and 1, whatever it is trained on. *)
Theorem C85_no_momentum : forall G d C eps affine (es : list (norm_event G)), 0 < d -> Forall (proper d) es -> Forall (params_fit C) es ->
  (let s := norm_run KBatch d (norm_new C eps None affine true) es in
   let calls := training_calls KBatch C d true es in
   (forall o, In o calls -> o <> None) -> calls <> [] ->
   exists mean var, nm_mean s = Some mean /\ nm_var s = Some var /\ length mean = C /\ length var = C /\
     forall c, c < C -> nth c mean 0%R = average (map (batch_mean KBatch c) (used calls)) /\ nth c var 0%R = average (map (batch_var KBatch c) (used calls))) /\
  (let s := norm_run KInstance d (norm_new C eps None affine true) es in
   exists mean var, nm_mean s = Some mean /\ nm_var s = Some var /\ length mean = C /\ length var = C /\
     forall c, c < C -> nth c mean 0%R = 0%R /\ nth c var 0%R = 1%R).
Proof.
  intros G d C eps affine es Hd Hp Hf. split.
  - intros s calls Hn Hne.
    destruct (run_good d C Hd KBatch es _ _ _ (new_good C eps None affine) Hp Hf) as (_ & _ & mean & var & (_ & Em & Ev & Lm & Lv & _) & V).
    exists mean, var. do 4 (split; [assumption|]). intros c Hcc. destruct (V c Hcc) as [A B]. cbn [norm_new nm_momentum nm_count nm_training] in A, B.
    rewrite track_none_average in A, B by assumption. split; assumption.
  - intros s.
    destruct (run_good d C Hd KInstance es _ _ _ (new_good C eps None affine) Hp Hf) as (_ & _ & mean & var & (_ & Em & Ev & Lm & Lv & _) & V).
    exists mean, var. do 4 (split; [assumption|]). intros c Hcc. destruct (V c Hcc) as [A B]. cbn [norm_new nm_momentum nm_count nm_training] in A, B.
    rewrite !track_instance_none, !nth_repeat_R in A, B by exact Hcc. split; assumption.
Qed.
Print Assumptions C85_no_momentum.

(** A raising training call still counts as a batch: with momentum=None the plain average is lost for good. One refused call, then
    one batch of average a: the running mean is a / 2. *)
Theorem C85_refused_call_counts_refuted : forall a b : R,
  let one := mkT [1; 1; 1; 1; 1] [a] in let two := mkT [1; 1; 1; 1; 2] [a; b] in
  let s := norm_run KBatch 2 (norm_new 1 0 None false true) [NCall one ([] : list unit); NCall two []] in
  training_calls KBatch 1 2 true [NCall one ([] : list unit); NCall two []] = [None; Some two] /\
  nm_count s = 2 /\ nm_mean s = Some [((a + b) / 4)%R].
Proof.
  intros a b one two s. split; [reflexivity|]. split; [reflexivity|].
  assert (Forall (proper 2) [NCall one ([] : list unit); NCall two []]) as Hp by (repeat constructor).
  assert (Forall (params_fit 1) [NCall one ([] : list unit); NCall two []]) as Hf by (repeat constructor).
  destruct (run_good 2 1 ltac:(lia) KBatch _ _ _ _ (new_good 1 0 None false) Hp Hf) as (_ & _ & mean & var & (_ & Em & _ & Lm & _ & _) & V).
  fold s in Em. rewrite Em. destruct mean as [|x [|y mean]]; cbn [length] in Lm; try lia. f_equal. f_equal. destruct (V 0 ltac:(lia)) as [A _]. cbn [nth] in A. rewrite A.
  change (training_calls KBatch 1 2 _ _) with [None; Some two]. cbn [track norm_new nm_momentum nm_count repeat nth factor].
  assert (batch_mean KBatch 0 two = (a + (b + 0)) / (1 + 1))%R as -> by reflexivity. replace (INR 2) with 2%R by (cbn; lra). field.
Qed.
Print Assumptions C85_refused_call_counts_refuted.

(** Over any history the running variance is nonnegative, so an evaluation never divides by zero (eps > 0), and the running mean stays
    between the bounds of the training data (and 0, where it starts). *)
Theorem C85_bounds : forall G d C eps mom affine (es : list (norm_event G)) lo hi, 0 < d -> Forall (proper d) es -> Forall (params_fit C) es ->
  match mom with Some m => (0 <= m <= 1)%R | None => True end -> (lo <= 0 <= hi)%R ->
  (forall x c i, In (Some x) (training_calls KBatch C d true es) -> c < C -> In i (channel_entries (nth 0 (shape x) 0) (skipn 2 (shape x)) x c) -> (lo <= i <= hi)%R) ->
  let s := norm_run KBatch d (norm_new C eps mom affine true) es in
  exists mean var, nm_mean s = Some mean /\ nm_var s = Some var /\
    forall c, c < C -> (lo <= nth c mean 0 <= hi)%R /\ (0 <= nth c var 0)%R /\ ((0 < eps)%R -> (0 < sqrt (nth c var 0 + eps))%R).
Proof.
  intros G d C eps mom affine es lo hi Hd Hp Hf Hm Hlh Hb s.
  destruct (run_good d C Hd KBatch es _ _ _ (new_good C eps mom affine) Hp Hf) as (_ & _ & mean & var & (_ & Em & Ev & _) & V).
  exists mean, var. do 2 (split; [assumption|]). intros c Hcc. destruct (V c Hcc) as [A B]. rewrite !nth_repeat_R in A, B by exact Hcc. cbn [norm_new nm_momentum nm_count nm_training] in A, B.
  assert (forall x, In (Some x) (training_calls KBatch C d true es) -> 2 <= length (channel_entries (nth 0 (shape x) 0) (skipn 2 (shape x)) x c)) as L.
  { clear - Hp. intros x Hx. assert (exists H, In (NCall x H) es /\ takes KBatch C d x = true) as (H & Hi & Ht).
    { assert (forall b, In (Some x) (training_calls KBatch C d b es) -> exists H, In (NCall x H) es /\ takes KBatch C d x = true) as K; [|exact (K true Hx)]. clear Hp Hx. induction es as [|e es IH]; intros b Hx; cbn [training_calls] in Hx; [contradiction|]. destruct e as [y H| | |w v].
      - apply in_app_or in Hx. destruct Hx as [Hx|Hx].
        + destruct b; [|contradiction]. destruct Hx as [Hx|[]]. destruct (takes KBatch C d y) eqn:Et; [|discriminate Hx]. injection Hx as <-. exists H. split; [left; reflexivity|exact Et].
        + destruct (IH _ Hx) as (H' & Hi & Ht). exists H'. split; [right; exact Hi|exact Ht].
      - destruct (IH _ Hx) as (H' & Hi & Ht). exists H'. split; [right; exact Hi|exact Ht].
      - destruct (IH _ Hx) as (H' & Hi & Ht). exists H'. split; [right; exact Hi|exact Ht].
      - destruct (IH _ Hx) as (H' & Hi & Ht). exists H'. split; [right; exact Hi|exact Ht]. }
    rewrite Forall_forall in Hp. destruct (Hp _ Hi) as (_ & Hne & _). unfold takes in Ht. destruct (shape x) as [|N [|C' [|n sp]]]; try discriminate Ht.
    apply andb_prop in Ht. destruct Ht as [Ht1 Ht]. apply Bool.negb_true_iff, Nat.eqb_neq in Ht. cbn [nth skipn].
    unfold channel_entries. rewrite flat_map_concat_map.
    assert (forall l, length (concat (map (fun a => map (fun y => at_ x (a :: c :: y)) (indices (n :: sp))) l)) = length l * (n * prodn sp)) as K.
    { induction l as [|a l IH]; [reflexivity|]. cbn [map concat]. rewrite app_length, map_length, indices_length, prodn_cons, IH. cbn [length]. lia. }
    rewrite K, seq_length. rewrite !prodn_cons in Hne. assert (0 < N /\ 0 < n * prodn sp) as [P1 P2] by (split; nia). nia. }
  assert (0 <= nth c var 0)%R as Hv.
  { rewrite B. destruct (track_bounds KBatch mom (batch_var KBatch c) (training_calls KBatch C d true es) 0 (1 + total (map (batch_var KBatch c) (used (training_calls KBatch C d true es))))%R Hm 0 1%R) as [Q _]; [|..|exact Q].
    - split; [lra|]. enough (0 <= total (map (batch_var KBatch c) (used (training_calls KBatch C d true es))))%R by lra.
      apply total_nonneg. intros z Hz. apply in_map_iff in Hz. destruct Hz as (x & <- & Hx). unfold used in Hx. apply in_flat_map in Hx. destruct Hx as ([y|] & Ho & Hy); [|contradiction]. destruct Hy as [->|[]].
      apply sample_variance_nonneg. apply L. exact Ho.
    - intros x Hx. assert (0 <= batch_var KBatch c x)%R by (apply sample_variance_nonneg, L, Hx). split; [assumption|].
      assert (In x (used (training_calls KBatch C d true es))) as Hu by (unfold used; apply in_flat_map; exists (Some x); split; [exact Hx|left; reflexivity]).
      enough (batch_var KBatch c x <= total (map (batch_var KBatch c) (used (training_calls KBatch C d true es))))%R by lra.
      assert (forall y, In y (used (training_calls KBatch C d true es)) -> 0 <= batch_var KBatch c y)%R as Hall.
      { intros y Hy. unfold used in Hy. apply in_flat_map in Hy. destruct Hy as ([z|] & Ho & Hy); [|contradiction]. destruct Hy as [->|[]]. apply sample_variance_nonneg, L, Ho. }
      revert Hu Hall. generalize (used (training_calls KBatch C d true es)). intros l. clear. induction l as [|y l IH]; intros Hi Hall; [contradiction|]. cbn [map total].
      destruct Hi as [->|Hi].
      + enough (0 <= total (map (batch_var KBatch c) l))%R by lra. apply total_nonneg. intros z Hz. apply in_map_iff in Hz. destruct Hz as (w & <- & Hw). apply Hall. right. exact Hw.
      + specialize (IH Hi (fun z Hz => Hall z (or_intror Hz))). pose proof (Hall y (or_introl eq_refl)). lra. }
  split; [|split; [exact Hv|intros He; apply sqrt_lt_R0; lra]].
  rewrite A. apply track_bounds; [exact Hm|exact Hlh|]. intros x Hx. apply average_bounds; [|intros i Hi; exact (Hb x c i Hx Hcc Hi)].
  specialize (L x Hx). intros Q. rewrite Q in L. cbn in L. lia.
Qed.
Print Assumptions C85_bounds.

(** In evaluation mode calls change nothing, successful or not, on any input: the module is a pure function of its argument. *)
Theorem C85_evaluation_pure : forall G kind d s (calls : list (tensor R * list G)), nm_training s = false -> (nm_mean s = None <-> nm_var s = None) ->
  norm_run kind d s (map (fun c => NCall (fst c) (snd c)) calls) = s.
Proof.
  intros G kind d s calls Ht Hmv. induction calls as [|[x H] calls IH]; [reflexivity|]. transitivity (norm_run kind d (norm_after kind d s (NCall x H)) (map (fun c => NCall (fst c) (snd c)) calls)); [reflexivity|]. enough (norm_after kind d s (NCall x H) = s) as Q by (rewrite Q; exact IH).
  assert (forall y h st, norm_call kind d s x H = Ok (y, h, st) -> st = s) as K.
  { intros y h st E. destruct kind; cbn [norm_call] in E.
    - unfold g_batch_norm, g_norm in E. destruct (shape x) as [|N [|C [|n [|Z dims]]]]; try discriminate E. destruct (view _ _); [|discriminate E]. cbn [bind] in E.
      destruct (batch_norm d s _) as [[b sb]|] eqn:Eb; [|discriminate E]. cbn [bind fst snd] in E. destruct (view _ _); [|discriminate E]. cbn [bind] in E. injection E as _ _ <-.
      unfold batch_norm in Eb. destruct (shape _) as [|N' [|C' rest]]; try discriminate Eb. destruct (negb _); [discriminate Eb|]. destruct (_ && Nat.eqb _ _); [discriminate Eb|].
      destruct (negb _); [discriminate Eb|]. injection Eb as _ <-. rewrite Ht. destruct s; cbn in *. rewrite Ht. reflexivity.
    - unfold g_instance_norm, g_norm in E. destruct (shape x) as [|N [|C [|n [|Z dims]]]]; try discriminate E. destruct (view _ _) as [t|]; [|discriminate E]. cbn [bind] in E.
      destruct (instance_norm d s t) as [[b sb]|] eqn:Eb; [|discriminate E]. cbn [bind fst snd] in E. destruct (view _ _); [|discriminate E]. cbn [bind] in E. injection E as _ _ <-.
      assert (forall u w sw, instance_batched d s u = Ok (w, sw) -> sw = s) as KK.
      { intros u w sw Eu. unfold instance_batched in Eu. destruct (shape u) as [|N' [|C' rest]]; try discriminate Eu. destruct (negb _); [discriminate Eu|]. destruct (_ && match nm_weight s with _ => _ end); [discriminate Eu|].
        destruct (_ && Nat.eqb _ _); [discriminate Eu|]. destruct (negb _); [discriminate Eu|]. injection Eu as _ <-. rewrite Ht. destruct s as [f e mo w0 b0 [mm|] [vv|] ct tr]; cbn in *; rewrite ?Ht; try reflexivity;
          exfalso; destruct Hmv as [H1 H2]; first [discriminate (H2 eq_refl)|discriminate (H1 eq_refl)]. }
      unfold instance_norm in Eb. destruct (Nat.eqb _ _); [|exact (KK _ _ _ Eb)]. destruct (instance_batched d s (unsqueeze0 t)) as [[w sw]|] eqn:Eu; [|discriminate Eb].
      cbn [rmap fst snd] in Eb. injection Eb as _ <-. exact (KK _ _ _ Eu). }
  cbn [norm_after]. destruct (norm_call kind d s x H) as [[[y h] st]|e] eqn:E; [exact (K _ _ _ eq_refl)|]. unfold norm_failed. destruct kind; [|reflexivity]. rewrite Ht, Bool.andb_false_r. reflexivity.
Qed.
Print Assumptions C85_evaluation_pure.

(** After training and eval(), a call normalizes with the averages of the history. *)
Theorem C85_evaluation_uses_history : forall G kind d C eps m affine (es : list (norm_event G)) (x : tensor R) (H : list G) N n sp,
  0 < d -> Forall (proper d) es -> Forall (params_fit C) es -> has_shape x (N :: C :: n :: sp) -> length sp = d ->
  let calls := used (training_calls kind C d true es) in
  let s := norm_run kind d (norm_new C eps (Some m) affine true) (es ++ [NEval]) in
  exists y, norm_call kind d s x H = Ok (y, H, s) /\ has_shape y (N :: C :: n :: sp) /\
    forall a c z, a < N -> c < C -> valid (n :: sp) z ->
      at_ y (a :: c :: z) = affine1 (nm_weight s) (nm_bias s) c
        ((at_ x (a :: c :: z) - moving_sum m 0 (map (batch_mean kind c) calls)) / sqrt (moving_sum m 1 (map (batch_var kind c) calls) + eps))%R.
Proof.
  intros G kind d C eps m affine es x H N n sp Hd Hp Hf Hx Hsp calls s.
  assert (Forall (proper d) (es ++ [NEval])) as Hp' by (apply Forall_app; split; [assumption|repeat constructor]).
  assert (Forall (params_fit C) (es ++ [NEval])) as Hf' by (apply Forall_app; split; [assumption|repeat constructor]).
  destruct (run_good d C Hd kind _ _ _ _ (new_good C eps (Some m) affine) Hp' Hf') as (Hse & _ & mean & var & Hgood & V).
  change (norm_run kind d _ (es ++ [NEval])) with s in Hse, Hgood. destruct Hse as (_ & Heps & _). cbn [norm_new nm_eps] in Heps.
  assert (nm_training s = false) as Ht by (unfold s, norm_run; rewrite fold_left_app; reflexivity).
  destruct Hgood as (Hfe & Em & Ev & Lm & Lv & Hw & Hb).
  assert (check_channels s C = true) as Hc by (rewrite (check_channels_eq s C C mean var) by assumption; apply Nat.eqb_refl).
  assert (bn_batch s = false) as Hbb by (unfold bn_batch, bn_tracked; rewrite Ht, Em; reflexivity).
  assert (forall b, training_calls kind C d b (es ++ [NEval]) = training_calls kind C d b es) as Htc.
  { clear. induction es as [|[y h| | |w v] es IH]; intros b; cbn [app training_calls]; try reflexivity; rewrite ?IH; try reflexivity. }
  assert (forall c, c < C -> nth c mean 0%R = moving_sum m 0 (map (batch_mean kind c) calls) /\ nth c var 0%R = moving_sum m 1 (map (batch_var kind c) calls)) as Vc.
  { intros c Hcc. destruct (V c Hcc) as [A B]. rewrite !nth_repeat_R in A, B by exact Hcc. cbn [norm_new nm_momentum nm_count nm_training] in A, B.
    rewrite track_moving, moving_closed, Htc in A, B. split; assumption. }
  assert (exists y st, norm_call kind d s x H = Ok (y, H, st) /\ has_shape y (N :: C :: n :: sp) /\ forall a c z, a < N -> c < C -> valid (n :: sp) z ->
     at_ y (a :: c :: z) = affine1 (nm_weight s) (nm_bias s) c (normalized (at_ x (a :: c :: z)) (nth c mean 0%R) (nth c var 0%R) (nm_eps s))) as (y & st & E & Hs & Vy).
  { destruct kind.
    - destruct (g_batch_norm_spec H d s x N C n sp Hx Hsp Hd) as (_ & _ & A). destruct A as (y & E & Hs & Vy); [intros [Q _]; congruence|exact Hc|].
      exists y. eexists. split; [exact E|]. split; [exact Hs|]. intros a c z Ha Hcc Hz. rewrite Vy by assumption. unfold bn_mean, bn_var. rewrite Hbb, Em, Ev. reflexivity.
    - destruct (g_instance_norm_spec H d s x N C n sp Hx Hsp Hd) as (_ & _ & A). destruct A as (y & E & Hs & Vy); [intros [[Q _]|[Q _]]; congruence|exact Hc|].
      exists y. eexists. split; [exact E|]. split; [exact Hs|]. intros a c z Ha Hcc Hz. rewrite Vy by assumption. unfold bn_mean, bn_var. rewrite Hbb, Em, Ev. reflexivity. }
  exists y. split.
  - rewrite E. do 2 f_equal. assert (norm_run kind d s [NCall x H] = s) as Q.
    { apply (C85_evaluation_pure G kind d s [(x, H)] Ht). rewrite Em, Ev. split; discriminate. }
    cbn [norm_run fold_left norm_after] in Q. rewrite E in Q. exact Q.
  - split; [exact Hs|]. intros a c z Ha Hcc Hz. rewrite Vy by assumption. destruct (Vc c Hcc) as [-> ->]. rewrite Heps. reflexivity.
Qed.
Print Assumptions C85_evaluation_uses_history.

(** A history with training, a refused call, evaluation and a parameter update meets the hypotheses, and its training calls are as
    expected. *)
Example C85_nonvacuous :
  let x := mkT [2; 1; 1; 1; 2] [1; 2; 3; 6]%R in let bad := mkT [1; 1; 1; 1; 1] [5]%R in
  let es := [NCall x ([] : list unit); NCall bad []; NEval; NCall x []; NParams [2%R] [1%R]; NTrain; NCall x []] in
  Forall (proper 2) es /\ Forall (params_fit 1) es /\ training_calls KBatch 1 2 true es = [Some x; None; Some x] /\
  exists mean, nm_mean (norm_run KBatch 2 (norm_new 1 1 (Some (1 / 2)%R) true true) es) = Some [mean] /\ mean = (9 / 4)%R.
Proof.
  intros x bad es.
  assert (Forall (proper 2) es) as Hp by (repeat constructor). assert (Forall (params_fit 1) es) as Hf by (repeat constructor).
  split; [exact Hp|]. split; [exact Hf|]. split; [reflexivity|].
  destruct (C85_momentum unit KBatch 2 1 1 (1 / 2) true es ltac:(lia) Hp Hf) as (_ & mean & var & Em & _ & Lm & _ & V). rewrite Em.
  destruct mean as [|a [|b mean]]; cbn [length] in Lm; try lia. exists a. split; [reflexivity|]. destruct (V 0 ltac:(lia)) as [A _]. cbn [nth] in A. rewrite A.
  change (used (training_calls KBatch 1 2 true es)) with [x; x]. cbn [map]. assert (batch_mean KBatch 0 x = (1 + (2 + (3 + (6 + 0)))) / (1 + 1 + 1 + 1))%R as -> by reflexivity.
  unfold moving_sum. cbn [length seq map nth total Nat.sub pow]. field.
Qed.
