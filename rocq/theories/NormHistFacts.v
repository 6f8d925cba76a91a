(** Proofs: running statistics over histories. *)
From Coq Require Import String ZArith Lra.
From Verif Require Import Prelude RMath Mat Repulse RepulseFacts Tensor TensorFacts Kernel KernelFacts Conv Layers LayersSpec LayersFacts NormFacts NormHistory NormHistSpec.
Open Scope nat_scope.

(** The number the running statistic follows: [k] counted calls so far, statistic F of a batch. *)
Definition factor (kind : norm_kind) (mom : option R) (k : nat) : R :=
  match mom with Some m => m | None => match kind with KBatch => (1 / INR (S k))%R | KInstance => 0%R end end.
Fixpoint track (kind : norm_kind) (mom : option R) (k : nat) (F : tensor R -> R) (r : R) (log : list (option (tensor R))) : R :=
  match log with
  | [] => r
  | None :: l => track kind mom (S k) F r l
  | Some x :: l => track kind mom (S k) F ((1 - factor kind mom k) * r + factor kind mom k * F x)%R l
  end.

Lemma nth_blend f o v c : c < length o -> c < length v -> nth c (blend f o v) 0%R = ((1 - f) * nth c o 0 + f * nth c v 0)%R.
Proof.
  unfold blend. revert v c. induction o as [|a o IH]; intros [|b v] [|c] Ho Hv; cbn [length map2 nth] in *; try lia; try reflexivity. apply IH; lia.
Qed.
Lemma length_blend f o v : length o = length v -> length (blend f o v) = length o.
Proof. unfold blend. revert v. induction o as [|a o IH]; intros [|b v] E; cbn in *; try lia. rewrite IH; lia. Qed.
Lemma check_channels_eq s C C' m v : nm_mean s = Some m -> nm_var s = Some v -> length m = C -> length v = C -> fits_channels (nm_weight s) C = true -> fits_channels (nm_bias s) C = true ->
  check_channels s C' = Nat.eqb C' C.
Proof.
  intros Em Ev Lm Lv Hw Hb. unfold check_channels. rewrite Em, Ev. cbn [fits_channels]. rewrite Lm, Lv. destruct (Nat.eqb_spec C' C) as [->|N].
  - rewrite Hw, Hb, Nat.eqb_refl. reflexivity.
  - destruct (Nat.eqb_spec C C'); [congruence|]. rewrite !Bool.andb_false_r. reflexivity.
Qed.
Lemma blend_zero l v : length l = length v -> blend 0 l v = l.
Proof. unfold blend. revert v. induction l as [|a l IH]; intros [|b v] E; cbn in *; try lia; [reflexivity|]. rewrite IH by lia. f_equal. ring. Qed.

Section Run.
  Context {G : Type} (d C : nat).
  Hypothesis Hd : 0 < d.

  Definition good (s : norm_state) (m v : list R) : Prop :=
    nm_features s = C /\ nm_mean s = Some m /\ nm_var s = Some v /\ length m = C /\ length v = C /\
    fits_channels (nm_weight s) C = true /\ fits_channels (nm_bias s) C = true.
  Definition same_settings (s s' : norm_state) : Prop :=
    nm_features s' = nm_features s /\ nm_eps s' = nm_eps s /\ nm_momentum s' = nm_momentum s.
  Definition counts (kind : norm_kind) (n : nat) : nat := match kind with KBatch => n | KInstance => 0 end.

  (** The mode after an event. *)
  Definition mode_after (e : norm_event G) (b : bool) : bool := match e with NTrain => true | NEval => false | _ => b end.

  Lemma step_good kind s m v e : good s m v -> proper d e -> params_fit C e ->
    let s' := norm_after kind d s e in
    let log := training_calls kind C d (nm_training s) [e] in
    same_settings s s' /\ nm_training s' = mode_after e (nm_training s) /\ nm_count s' = nm_count s + counts kind (length log) /\
    exists m' v', good s' m' v' /\ forall c, c < C ->
      nth c m' 0%R = track kind (nm_momentum s) (nm_count s) (batch_mean kind c) (nth c m 0%R) log /\
      nth c v' 0%R = track kind (nm_momentum s) (nm_count s) (batch_var kind c) (nth c v 0%R) log.
  Proof using Hd.
    intros Hg Hp Hf s' log. destruct Hg as (Ef & Em & Ev & Lm & Lv & Hw & Hb).
    destruct e as [x H| | |w b].
    2: { unfold s', log. cbn [norm_after training_calls length]. split; [repeat split|]. split; [reflexivity|]. split; [destruct kind; cbn [counts set_training nm_count]; lia|].
         exists m, v. split; [repeat split; assumption|]. intros c Hc. split; reflexivity. }
    2: { unfold s', log. cbn [norm_after training_calls length]. split; [repeat split|]. split; [reflexivity|]. split; [destruct kind; cbn [counts set_training nm_count]; lia|].
         exists m, v. split; [repeat split; assumption|]. intros c Hc. split; reflexivity. }
    2: { unfold s', log. cbn [norm_after training_calls length]. split; [repeat split|]. split; [reflexivity|]. split; [destruct kind; cbn [counts set_params nm_count]; lia|].
         exists m, v. split; [|intros c Hc; split; reflexivity]. destruct Hf as [Hf1 Hf2]. unfold good, set_params. cbn [nm_features nm_mean nm_var nm_weight nm_bias].
         repeat split; try assumption; [destruct (nm_weight s)|destruct (nm_bias s)]; cbn [fits_channels]; try reflexivity; apply Nat.eqb_eq; assumption. }
    cbn [proper] in Hp. destruct Hp as (Hwx & Hne & Hr).
    destruct (shape x) as [|N [|C' [|n sp]]] eqn:Es; cbn [length] in Hr; try lia. assert (length sp = d) as Hsp by lia.
    assert (has_shape x (N :: C' :: n :: sp)) as Hx by (split; assumption).
    assert (check_channels s C' = Nat.eqb C' C) as Hc by (eapply check_channels_eq; eassumption).
    assert (bn_tracked s = true) as Ht by (unfold bn_tracked; rewrite Em; reflexivity).
    assert (bn_batch s = nm_training s) as Hbb by (unfold bn_batch; rewrite Ht, Bool.orb_false_r; reflexivity).
    assert (takes kind C d x = Nat.eqb C' C && negb (Nat.eqb (match kind with KBatch => N | KInstance => 1 end * (n * prodn sp)) 1)) as Etk.
    { unfold takes. rewrite Es, Hsp, Nat.eqb_refl, Bool.andb_true_r. reflexivity. }
    unfold s', log. cbn [norm_after training_calls app]. rewrite Etk.
    destruct kind; cbn [norm_call norm_failed].
    - destruct (g_batch_norm_spec H d s x N C' n sp Hx Hsp Hd) as (A1 & A2 & A3). rewrite Hbb in A1, A2, A3.
      destruct (nm_training s) eqn:Tr.
      + destruct (Nat.eqb_spec (N * (n * prodn sp)) 1) as [K|K].
        * rewrite A1 by auto. rewrite Bool.andb_false_r. rewrite ?Es. cbn [length]. rewrite Hsp. rewrite Nat.eqb_refl, ?Tr, Em. cbn [andb].
          split; [repeat split|]. split; [exact Tr|]. split; [cbn [set_count nm_count app length counts]; lia|].
          exists m, v. split; [repeat split; assumption|]. intros c Hcc. split; reflexivity.
        * rewrite Bool.andb_true_r. destruct (Nat.eqb_spec C' C) as [->|Nc].
          -- destruct (A3 ltac:(intros [_ Q]; contradiction) Hc) as (y & E & _). rewrite E.
             split; [repeat split|]. split; [exact Tr|]. split; [cbn [bn_next nm_count app length counts]; unfold bn_count; rewrite Ht, Tr; cbn [andb]; lia|].
             set (V := channel_values N (n :: sp) x).
             exists (blend (bn_factor s) m (map (fun c => meanR (V c)) (seq 0 C))), (blend (bn_factor s) v (map (fun c => uvarR (V c)) (seq 0 C))).
             split.
             { unfold good, bn_next. cbn [nm_features nm_mean nm_var nm_weight nm_bias]. rewrite Tr, Em, Ev. repeat split; try assumption; rewrite length_blend; rewrite ?map_length, ?seq_length; congruence. }
             intros c Hcc. cbn [track app andb negb]. rewrite !nth_blend by (rewrite ?map_length, ?seq_length; lia). rewrite !nth_map_seq by exact Hcc.
             assert (factor KBatch (nm_momentum s) (nm_count s) = bn_factor s) as -> by (unfold factor, bn_factor, bn_count; rewrite Ht, Tr; cbn [andb]; destruct (nm_momentum s); reflexivity).
             unfold batch_mean, batch_var. rewrite ?Es. cbn [nth skipn]. split; [exact (f_equal (fun z => (1 - bn_factor s) * nth c m 0 + bn_factor s * z)%R (eq_sym (average_meanR _)))|exact (f_equal (fun z => (1 - bn_factor s) * nth c v 0 + bn_factor s * z)%R (eq_sym (sample_variance_uvarR _)))].
          -- rewrite A2; [|intros [_ Q]; contradiction|exact Hc]. rewrite ?Es. cbn [length]. rewrite Hsp, Nat.eqb_refl, ?Tr, Em. cbn [andb].
             split; [repeat split|]. split; [exact Tr|]. split; [cbn [set_count nm_count app length counts]; lia|].
             exists m, v. split; [repeat split; assumption|]. intros c Hcc. split; reflexivity.
      + cbn [app length counts].
        assert (forall s', s' = s -> same_settings s s' /\ nm_training s' = mode_after (NCall x H) false /\ nm_count s' = nm_count s + 0 /\ exists m' v', good s' m' v' /\ (forall c, c < C ->
           nth c m' 0%R = track KBatch (nm_momentum s) (nm_count s) (batch_mean KBatch c) (nth c m 0%R) [] /\ nth c v' 0%R = track KBatch (nm_momentum s) (nm_count s) (batch_var KBatch c) (nth c v 0%R) [])) as K.
        { intros s0 ->. split; [repeat split|]. split; [exact Tr|]. split; [lia|]. exists m, v. split; [repeat split; assumption|]. intros c Hcc. split; reflexivity. }
        destruct (Nat.eqb_spec C' C) as [->|Nc].
        * destruct (A3 ltac:(intros [Q _]; discriminate) Hc) as (y & E & _). rewrite E. apply K.
          unfold bn_next, bn_count. rewrite Ht, Tr. cbn [andb]. destruct s; cbn in *. rewrite Tr. reflexivity.
        * rewrite A2; [|intros [Q _]; discriminate|exact Hc]. apply K. rewrite ?Tr, Bool.andb_false_r. reflexivity.
    - destruct (g_instance_norm_spec H d s x N C' n sp Hx Hsp Hd) as (A1 & A2 & A3). cbn [Nat.mul]. rewrite (Nat.add_0_r (n * prodn sp)).
      destruct (nm_training s) eqn:Tr.
      + destruct (Nat.eqb_spec (n * prodn sp) 1) as [K|K].
        * rewrite A1 by (right; rewrite Hbb; auto). rewrite Bool.andb_false_r.
          split; [repeat split|]. split; [exact Tr|]. split; [cbn [counts]; lia|].
          exists m, v. split; [repeat split; assumption|]. intros c Hcc. split; reflexivity.
        * rewrite Bool.andb_true_r. destruct (Nat.eqb_spec C' C) as [->|Nc].
          -- destruct (A3 ltac:(intros [[Q _]|[_ Q]]; congruence) Hc) as (y & E & _). rewrite E.
             split; [repeat split|]. split; [exact Tr|]. split; [cbn [in_next nm_count counts]; lia|].
             set (V := sample_values (n :: sp) x).
             eexists (blend (in_factor s) m _), (blend (in_factor s) v _).
             split.
             { unfold good, in_next. cbn [nm_features nm_mean nm_var nm_weight nm_bias]. rewrite Hbb, Em, Ev. split; [exact Ef|]. split; [reflexivity|]. split; [reflexivity|].
               repeat split; try assumption; rewrite length_blend; rewrite ?map_length, ?seq_length; congruence. }
             intros c Hcc. cbn [track app andb negb]. rewrite !nth_blend by (rewrite ?map_length, ?seq_length; lia). rewrite !nth_map_seq by exact Hcc.
             change (factor KInstance (nm_momentum s) (nm_count s)) with (in_factor s).
             unfold batch_mean, batch_var. rewrite ?Es. cbn [nth skipn].
             assert (forall F F' : nat -> R, (forall a, F a = F' a) -> meanR (map F (seq 0 N)) = average (map F' (seq 0 N))) as MM.
             { intros F F' EF. transitivity (meanR (map F' (seq 0 N))); [f_equal; apply map_ext; exact EF|symmetry; apply average_meanR]. }
             split; [apply (f_equal (fun z => (1 - in_factor s) * nth c m 0 + in_factor s * z)%R)|apply (f_equal (fun z => (1 - in_factor s) * nth c v 0 + in_factor s * z)%R)]; apply MM; intros a; symmetry; [apply average_meanR|apply sample_variance_uvarR].
          -- assert (g_instance_norm d s x H = Err ValueError \/ g_instance_norm d s x H = Err RuntimeError) as Q.
             { destruct (nm_weight s) eqn:Ew.
               - left. apply A1. left. rewrite Ef. split; [exact Nc|rewrite Ew; discriminate].
               - right. apply A2; [|exact Hc]. intros [[_ Q]|[_ Q]]; [rewrite Ew in Q; congruence|contradiction]. }
             assert (forall s', s' = s -> same_settings s s' /\ nm_training s' = mode_after (NCall x H) true /\ nm_count s' = nm_count s + counts KInstance (length ([None] : list (option (tensor R)))) /\ exists m' v', good s' m' v' /\ (forall c, c < C ->
               nth c m' 0%R = track KInstance (nm_momentum s) (nm_count s) (batch_mean KInstance c) (nth c m 0%R) [None] /\ nth c v' 0%R = track KInstance (nm_momentum s) (nm_count s) (batch_var KInstance c) (nth c v 0%R) [None])) as KK.
             { intros s0 ->. split; [repeat split|]. split; [exact Tr|]. split; [cbn [counts]; lia|]. exists m, v. split; [repeat split; assumption|]. intros c Hcc. split; reflexivity. }
             destruct Q as [Q|Q]; rewrite Q; apply KK; reflexivity.
      + cbn [app length counts].
        assert (forall s', s' = s -> same_settings s s' /\ nm_training s' = mode_after (NCall x H) false /\ nm_count s' = nm_count s + 0 /\ exists m' v', good s' m' v' /\ (forall c, c < C ->
           nth c m' 0%R = track KInstance (nm_momentum s) (nm_count s) (batch_mean KInstance c) (nth c m 0%R) [] /\ nth c v' 0%R = track KInstance (nm_momentum s) (nm_count s) (batch_var KInstance c) (nth c v 0%R) [])) as K.
        { intros s0 ->. split; [repeat split|]. split; [exact Tr|]. split; [lia|]. exists m, v. split; [repeat split; assumption|]. intros c Hcc. split; reflexivity. }
        destruct (g_instance_norm d s x H) as [[[y h] st]|e] eqn:E; [|apply K; reflexivity]. apply K.
        assert (~ in_rejected s C' (n * prodn sp)) as Q1 by (intros Q; specialize (A1 Q); congruence).
        assert (check_channels s C' = true) as Q2 by (destruct (check_channels s C'); [reflexivity|]; specialize (A2 Q1 eq_refl); congruence).
        destruct (A3 Q1 Q2) as (y0 & E0 & _). injection E0 as _ _ ->. unfold in_next. rewrite Hbb. destruct s; cbn in *. rewrite Tr. reflexivity.
  Qed.

  Lemma training_calls_cons kind b e es : training_calls kind C d b (e :: es) = training_calls kind C d b [e] ++ training_calls kind C d (mode_after e b) es.
  Proof using Type. destruct e; cbn [training_calls mode_after]; try reflexivity. rewrite app_nil_r. reflexivity. Qed.
  Lemma track_app kind mom F l : forall k r l', track kind mom k F r (l ++ l') = track kind mom (k + length l) F (track kind mom k F r l) l'.
  Proof using Type.
    induction l as [|[x|] l IH]; intros k r l'; cbn [app track length]; [rewrite Nat.add_0_r; reflexivity|..]; rewrite IH, <- plus_n_Sm; reflexivity.
  Qed.
  Lemma track_count kind mom F (l : list (option (tensor R))) k r l' : track kind mom (k + counts kind (length l)) F r l' = track kind mom (k + length l) F r l'.
  Proof using Type.
    destruct kind; [reflexivity|]. cbn [counts]. rewrite Nat.add_0_r.
    assert (forall k k' r, track KInstance mom k F r l' = track KInstance mom k' F r l') as K.
    { induction l' as [|[x|] l' IH]; intros a b r'; cbn [track]; [reflexivity|apply IH|apply IH]. }
    apply K.
  Qed.

  Lemma run_good kind (es : list (norm_event G)) : forall s m v, good s m v -> Forall (proper d) es -> Forall (params_fit C) es ->
    let s' := norm_run kind d s es in
    let log := training_calls kind C d (nm_training s) es in
    same_settings s s' /\ nm_count s' = nm_count s + counts kind (length log) /\
    exists m' v', good s' m' v' /\ forall c, c < C ->
      nth c m' 0%R = track kind (nm_momentum s) (nm_count s) (batch_mean kind c) (nth c m 0%R) log /\
      nth c v' 0%R = track kind (nm_momentum s) (nm_count s) (batch_var kind c) (nth c v 0%R) log.
  Proof using Hd.
    induction es as [|e es IH]; intros s m v Hg Hp Hf s' log.
    - cbn in s', log. subst s' log. split; [repeat split|]. split; [destruct kind; cbn; lia|]. exists m, v. split; [exact Hg|]. intros c Hc. split; reflexivity.
    - inversion Hp as [|? ? P1 P2]; subst. inversion Hf as [|? ? F1 F2]; subst.
      destruct (step_good kind s m v e Hg P1 F1) as ((B1 & B2 & B3) & B4 & B5 & m1 & v1 & G1 & V1).
      destruct (IH _ m1 v1 G1 P2 F2) as ((D1 & D2 & D3) & D5 & m2 & v2 & G2 & V2).
      unfold s', log. change (norm_run kind d s (e :: es)) with (norm_run kind d (norm_after kind d s e) es). rewrite training_calls_cons. rewrite B4 in *.
      split; [unfold same_settings; repeat split; congruence|].
      split; [rewrite D5, B5, app_length; destruct kind; cbn [counts]; lia|].
      exists m2, v2. split; [exact G2|]. intros c Hc. destruct (V1 c Hc) as [Q1 Q2], (V2 c Hc) as [Q3 Q4].
      rewrite Q3, Q4, Q1, Q2, !track_app, B3, B5, !track_count. split; reflexivity.
  Qed.
End Run.

(** ** Closed forms *)
Open Scope R_scope.
Lemma track_moving kind m k F r log : track kind (Some m) k F r log = moving m r (map F (used log)).
Proof. revert k r. induction log as [|[x|] l IH]; intros k r; cbn [track used flat_map app map moving factor]; [reflexivity|apply IH|apply IH]. Qed.
Lemma total_app l l' : total (l ++ l') = total l + total l'.
Proof. induction l as [|x l IH]; cbn [app total]; [ring|rewrite IH; ring]. Qed.
Lemma moving_snoc m r l x : moving m r (l ++ [x]) = (1 - m) * moving m r l + m * x.
Proof. revert r. induction l as [|y l IH]; intros r; cbn [app moving]; [reflexivity|apply IH]. Qed.
Lemma total_ext {A} (f g : A -> R) l : (forall a, In a l -> f a = g a) -> total (map f l) = total (map g l).
Proof. intros E. f_equal. apply map_ext_in. exact E. Qed.
Lemma total_scale {A} (c : R) (f : A -> R) l : total (map (fun a => c * f a) l) = c * total (map f l).
Proof. induction l as [|a l IH]; cbn [map total]; [ring|rewrite IH; ring]. Qed.
Lemma moving_closed m r l : moving m r l = moving_sum m r l.
Proof.
  induction l as [|x l IH] using rev_ind.
  - unfold moving_sum. cbn [moving length seq map total pow]. ring.
  - rewrite moving_snoc, IH. unfold moving_sum. rewrite app_length. cbn [length]. rewrite Nat.add_1_r, seq_S, map_app, total_app. cbn [map total Nat.add].
    rewrite app_nth2, Nat.sub_diag by lia. cbn [nth].
    replace (S (length l) - 1 - length l)%nat with 0%nat by lia. cbn [pow].
    rewrite (total_ext (fun i => m * (1 - m) ^ (S (length l) - 1 - i) * nth i (l ++ [x]) 0) (fun i => (1 - m) * (m * (1 - m) ^ (length l - 1 - i) * nth i l 0)) (seq 0 (length l))).
    + rewrite (total_scale (1 - m) (fun i => m * (1 - m) ^ (length l - 1 - i) * nth i l 0)). ring.
    + intros i Hi. apply in_seq in Hi. rewrite app_nth1 by lia. replace (S (length l) - 1 - i)%nat with (S (length l - 1 - i)) by lia. cbn [pow]. ring.
Qed.
(** Cumulative average: no call was refused. *)
Lemma track_average F l : forall k r, track KBatch None k F r (map Some l) * INR (k + length l) = INR k * r + total (map F l).
Proof.
  induction l as [|x l IH]; intros k r; cbn [map track length total].
  - rewrite Nat.add_0_r. ring.
  - rewrite <- plus_n_Sm. change (S (k + length l)) with (S k + length l)%nat. rewrite IH. cbn [factor]. rewrite S_INR. pose proof (pos_INR k). field. lra.
Qed.
Lemma used_none log : (forall o, In o log -> o <> None) -> log = map Some (used log).
Proof.
  induction log as [|[x|] l IH]; intros Q; cbn [used flat_map app map]; [reflexivity| |].
  - f_equal. apply IH. intros o Ho. apply Q. right. exact Ho.
  - exfalso. exact (Q None (or_introl eq_refl) eq_refl).
Qed.
Lemma track_none_average F log : (forall o, In o log -> o <> None) -> log <> [] -> forall r, track KBatch None 0 F r log = average (map F (used log)).
Proof.
  intros Q N r. rewrite (used_none log Q) at 1. pose proof (track_average F (used log) 0 r) as T. cbn [Nat.add INR] in T.
  assert (length (used log) <> 0%nat) as L by (rewrite (used_none log Q) in N; destruct (used log); [contradiction N; reflexivity|discriminate]).
  unfold average. rewrite map_length. apply Rmult_eq_reg_r with (INR (length (used log))); [|apply not_0_INR; exact L].
  rewrite T. field. apply not_0_INR. exact L.
Qed.
Lemma track_instance_none F log : forall k r, track KInstance None k F r log = r.
Proof. induction log as [|[x|] l IH]; intros k r; cbn [track factor]; [reflexivity|rewrite IH; ring|apply IH]. Qed.
(** Bounds. *)
Lemma track_bounds kind mom F log lo hi : (match mom with Some m => 0 <= m <= 1 | None => True end) -> forall k r, lo <= r <= hi ->
  (forall x, In (Some x) log -> lo <= F x <= hi) -> lo <= track kind mom k F r log <= hi.
Proof.
  intros Hm. induction log as [|[x|] l IH]; intros k r Hr HF; cbn [track].
  - exact Hr.
  - apply IH; [|intros y Hy; apply HF; right; exact Hy].
    assert (0 <= factor kind mom k <= 1) as Hf.
    { unfold factor. destruct mom; [exact Hm|]. destruct kind; [|lra]. rewrite S_INR. pose proof (pos_INR k).
      split; [apply Rmult_le_pos; [lra|apply Rlt_le, Rinv_0_lt_compat; lra]|]. apply Rmult_le_reg_r with (INR k + 1); [lra|]. field_simplify; lra. }
    pose proof (HF x (or_introl eq_refl)) as Hx. set (f := factor kind mom k) in *.
    assert (0 <= (1 - f) * (r - lo)) by (apply Rmult_le_pos; lra). assert (0 <= f * (F x - lo)) by (apply Rmult_le_pos; lra).
    assert (0 <= (1 - f) * (hi - r)) by (apply Rmult_le_pos; lra). assert (0 <= f * (hi - F x)) by (apply Rmult_le_pos; lra).
    split; lra.
  - apply IH; [exact Hr|]. intros y Hy. apply HF. right. exact Hy.
Qed.
Lemma total_nonneg l : (forall x, In x l -> 0 <= x) -> 0 <= total l.
Proof. induction l as [|x l IH]; intros Q; cbn [total]; [lra|]. pose proof (Q x (or_introl eq_refl)). specialize (IH (fun y Hy => Q y (or_intror Hy))). lra. Qed.
Lemma sample_variance_nonneg l : (2 <= length l)%nat -> 0 <= sample_variance l.
Proof.
  intros L. unfold sample_variance. apply Rmult_le_pos.
  - apply total_nonneg. intros x Hx. unfold squares in Hx. apply in_map_iff in Hx. destruct Hx as (y & <- & _). apply Rle_0_sqr.
  - apply Rlt_le, Rinv_0_lt_compat, lt_0_INR. lia.
Qed.
Lemma average_bounds l lo hi : l <> [] -> (forall x, In x l -> lo <= x <= hi) -> lo <= average l <= hi.
Proof.
  intros N Q. assert (lo * INR (length l) <= total l <= hi * INR (length l)) as T.
  { clear N. induction l as [|x l IH]; cbn [total length]; [cbn; lra|]. rewrite S_INR. pose proof (Q x (or_introl eq_refl)). specialize (IH (fun y Hy => Q y (or_intror Hy))). lra. }
  assert (0 < INR (length l)) as P by (apply lt_0_INR; destruct l; [contradiction|cbn; lia]).
  unfold average. split; apply Rmult_le_reg_r with (INR (length l)); try exact P; unfold Rdiv; rewrite Rmult_assoc, Rinv_l by lra; lra.
Qed.
