(** Padding and convolution lemmas. *)
From Coq Require Import String ZArith.
From Verif Require Import Prelude RMath Mat Repulse RepulseFacts Tensor TensorFacts SignedPerm Kernel KernelFacts Conv ConvSpec.
Open Scope nat_scope.

(** ** axes *)
Lemma axes_length {A} d (f : nat -> A) : length (axes d f) = d.
Proof. unfold axes. rewrite map_length. apply seq_length. Qed.
Lemma nth_axes {A} d (f : nat -> A) j x : j < d -> nth j (axes d f) x = f j.
Proof.
  intros H. unfold axes. rewrite (nth_indep _ x (f 0)) by (rewrite map_length, seq_length; assumption).
  rewrite map_nth, seq_nth by assumption. reflexivity.
Qed.
Lemma axes_ext {A} d (f g : nat -> A) : (forall j, j < d -> f j = g j) -> axes d f = axes d g.
Proof. intros H. apply map_ext_in. intros j Hj. apply in_seq in Hj. apply H. lia. Qed.
Lemma axes_nth {A} (l : list A) d x : length l = d -> axes d (fun j => nth j l x) = l.
Proof.
  intros <-. apply nth_ext with (d := x) (d' := x); [apply axes_length|].
  intros n Hn. rewrite axes_length in Hn. rewrite nth_axes by assumption. reflexivity.
Qed.
Lemma valid_axes d (f : nat -> nat) s : length s = d -> (forall j, j < d -> f j < nth j s 0) -> valid s (axes d f).
Proof.
  intros Hl H. apply valid_nth. rewrite axes_length. split; [auto|]. intros j Hj. rewrite nth_axes by lia. apply H. lia.
Qed.
Lemma valid_nth_lt s x j : valid s x -> j < length s -> nth j x 0 < nth j s 0.
Proof. intros H. apply valid_nth in H. apply H. Qed.

Lemma sequence_some {A} (l : list A) : sequence (map Some l) = Some l.
Proof. induction l as [|a l IH]; simpl; [reflexivity|]. rewrite IH. reflexivity. Qed.
Lemma sequence_inv {A} (l : list (option A)) r : sequence l = Some r -> l = map Some r.
Proof.
  revert r; induction l as [|[a|] l IH]; intros r H; simpl in H; [inversion H; reflexivity| |discriminate].
  destruct (sequence l) as [t|]; [|discriminate]. inversion H. simpl. f_equal. apply IH. reflexivity.
Qed.
Lemma sequence_axes {A} d (f : nat -> option A) r x : sequence (axes d f) = Some r ->
  length r = d /\ forall j, j < d -> f j = Some (nth j r x).
Proof.
  intros H. apply sequence_inv in H.
  assert (length r = d) as Hl by (rewrite <- (map_length Some), <- H; apply axes_length).
  split; [assumption|]. intros j Hj. rewrite <- (nth_axes d f j None Hj), H.
  rewrite (nth_indep _ None (Some x)) by (rewrite map_length; lia). apply map_nth.
Qed.
Lemma sequence_axes_some {A} d (f : nat -> option A) g : (forall j, j < d -> f j = Some (g j)) ->
  sequence (axes d f) = Some (axes d g).
Proof.
  intros H. rewrite (axes_ext d f (fun j => Some (g j)) H). unfold axes. rewrite <- map_map. apply sequence_some.
Qed.
Lemma sequence_none {A} (l : list (option A)) : In None l -> sequence l = None.
Proof.
  induction l as [|[a|] l IH]; simpl; intros H; [contradiction| |reflexivity].
  destruct H as [H|H]; [discriminate|]. rewrite IH by assumption. reflexivity.
Qed.
Lemma sequence_axes_none {A} d (f : nat -> option A) j : j < d -> f j = None -> sequence (axes d f) = None.
Proof.
  intros Hj H. apply sequence_none. rewrite <- H. unfold axes. apply in_map. apply in_seq. lia.
Qed.

(** ** The padded axis shows what the specification says *)
Lemma pad_src_shown m n l r q : pad_ok m n l r = true -> q < n + l + r ->
  pad_src m n l q = shown m n (Z.of_nat q - Z.of_nat l).
Proof.
  intros Hok Hq. unfold shown.
  destruct (Z.leb_spec 0 (Z.of_nat q - Z.of_nat l)) as [H0|H0];
    [destruct (Z.ltb_spec (Z.of_nat q - Z.of_nat l) (Z.of_nat n)) as [H1|H1]|]; cbn [andb];
    destruct m; cbn [pad_src pad_ok] in *;
    repeat match goal with |- context [Nat.ltb ?a ?b] => destruct (Nat.ltb_spec a b); try lia end;
    rewrite ?andb_true_iff in Hok; try reflexivity; try (f_equal; lia);
    repeat match goal with |- context [Z.ltb ?a ?b] => destruct (Z.ltb_spec a b); try lia end;
    try (f_equal; lia).
  - (* circular, inside *)
    f_equal. destruct Hok as [Hl%Nat.leb_le Hr%Nat.leb_le].
    replace (q + n - l) with ((q - l) + 1 * n) by lia. rewrite (Nat.mod_add (q - l) 1 n) by lia.
    rewrite Nat.mod_small by lia. lia.
  - f_equal. destruct Hok as [Hl%Nat.leb_le Hr%Nat.leb_le].
    assert (n <> 0) by lia.
    replace (q + n - l) with ((q - l) + 1 * n) by lia. rewrite (Nat.mod_add (q - l) 1 n) by lia.
    rewrite <- Nat2Z.inj_sub by lia. rewrite <- Nat2Z.inj_mod. rewrite Nat2Z.id. reflexivity.
  - f_equal. destruct Hok as [Hl%Nat.leb_le Hr%Nat.leb_le].
    assert (n <> 0) by lia.
    rewrite <- (Z.mod_add _ 1) by lia. rewrite Z.mul_1_l.
    replace (Z.of_nat q - Z.of_nat l + Z.of_nat n)%Z with (Z.of_nat (q + n - l)) by lia.
    rewrite <- Nat2Z.inj_mod. rewrite Nat2Z.id. reflexivity.
Qed.

Lemma some_inj {A} (a b : A) : Some a = Some b -> a = b.
Proof. congruence. Qed.
Lemma shown_lt m n l r q i : pad_ok m n l r = true -> q < n + l + r ->
  shown m n (Z.of_nat q - Z.of_nat l) = Some i -> i < n.
Proof.
  intros Hok Hq. unfold shown.
  destruct (Z.leb_spec 0 (Z.of_nat q - Z.of_nat l)) as [H0|H0];
    [destruct (Z.ltb_spec (Z.of_nat q - Z.of_nat l) (Z.of_nat n)) as [H1|H1]|]; cbn [andb];
    destruct m; cbn [pad_ok] in *; intros H; try discriminate H; apply some_inj in H; rewrite <- H; clear H; rewrite ?andb_true_iff in Hok;
    rewrite ?Nat.ltb_lt, ?Nat.leb_le in Hok;
    repeat match goal with |- context [Z.ltb ?a ?b] => destruct (Z.ltb_spec a b); try lia end; try lia;
  match goal with |- context [(?a mod ?b)%Z] => pose proof (Z.mod_pos_bound a b); lia end.
Qed.

Lemma pad_axes_spec m pads input N C sp : has_shape input (N :: C :: sp) -> length pads = length sp ->
  (forall j, j < length sp -> pad_ok m (nth j sp 0) (fst (nth j pads (0, 0))) (snd (nth j pads (0, 0))) = true) ->
  exists p, pad_axes m pads input = Ok p /\ has_shape p (N :: C :: pad_shape sp pads) /\
    forall n c q, n < N -> c < C -> valid (pad_shape sp pads) q ->
      at_ p (n :: c :: q) = image_at m input sp [n; c]
        (axes (length sp) (fun j => (Z.of_nat (nth j q 0%nat) - Z.of_nat (fst (nth j pads (0%nat, 0%nat))))%Z)).
Proof.
  intros [Hs Hw] Hl Hok. unfold pad_axes. rewrite Hs, Hl, Nat.eqb_refl. simpl andb.
  replace (forallb _ _) with true.
  2: { symmetry. apply forallb_forall. intros j Hj. apply in_seq in Hj. apply Hok. lia. }
  eexists; split; [reflexivity|]. split; [split; [reflexivity|apply wft_build]|].
  intros n c q Hn Hc Hq. rewrite at_build by (repeat apply valid_cons; assumption).
  cbn [nth skipn]. unfold pad_index, image_at.
  replace (axes (length sp) (fun j => pad_src m (nth j sp 0) (fst (nth j pads (0, 0))) (nth j q 0)))
    with (axes (length sp) (fun j => shown m (nth j sp 0)
      (nth j (axes (length sp) (fun j0 => (Z.of_nat (nth j0 q 0%nat) - Z.of_nat (fst (nth j0 pads (0%nat, 0%nat))))%Z)) 0%Z))).
  2: { apply axes_ext. intros j Hj. rewrite nth_axes by assumption. symmetry.
       apply pad_src_shown with (r := snd (nth j pads (0, 0))); [apply Hok; assumption|].
       apply valid_nth in Hq. unfold pad_shape in Hq. rewrite axes_length in Hq. destruct Hq as [_ Hq].
       specialize (Hq j Hj). rewrite nth_axes in Hq by assumption. exact Hq. }
  destruct (sequence _); reflexivity.
Qed.
Lemma pad_axes_bad m pads input N C sp j : shape input = N :: C :: sp -> j < length sp ->
  pad_ok m (nth j sp 0) (fst (nth j pads (0, 0))) (snd (nth j pads (0, 0))) = false ->
  pad_axes m pads input = Err RuntimeError.
Proof.
  intros Hs Hj H. unfold pad_axes. rewrite Hs. destruct (Nat.eqb _ _); [|reflexivity]. simpl andb.
  replace (forallb _ _) with false; [reflexivity|]. symmetry. apply not_true_is_false. intros Hf.
  rewrite forallb_forall in Hf. specialize (Hf j). rewrite Hf in H; [discriminate|]. apply in_seq. lia.
Qed.

(** ** conv_nd *)
Lemma expand_param_id d l : length l = d -> expand_param d l = l.
Proof. intros <-. destruct l as [|x [|y l]]; reflexivity. Qed.

Definition conv_axes_ok (sp ks stride dil : list nat) : Prop :=
  forall j, j < length ks -> 0 < nth j stride 0 /\ 0 < nth j dil 0 /\ 0 < nth j ks 0 /\
    nth j dil 0 * (nth j ks 0 - 1) + 1 <= nth j sp 0.

Lemma conv_nd_spec stride dil groups input weight N C sp cog Cg ks :
  has_shape input (N :: C :: sp) -> has_shape weight (cog * groups :: Cg :: ks) ->
  length sp = length ks -> length stride = length ks -> length dil = length ks ->
  0 < groups -> 0 < cog -> C = Cg * groups -> conv_axes_ok sp ks stride dil ->
  let osz := axes (length ks) (fun j => out_size (nth j sp 0) (nth j ks 0) (nth j stride 0) (nth j dil 0)) in
  exists x, conv_nd stride dil groups input weight = Ok x /\
    has_shape x (N :: cog * groups :: osz) /\
    forall n o y, n < N -> o < cog * groups -> valid osz y ->
      at_ x (n :: o :: y) = sumR (map (fun c => sumR (map (fun k =>
        (at_ weight (o :: c :: k) * at_ input (n :: (o / cog * Cg + c)%nat ::
           axes (length ks) (fun j => (nth j y 0 * nth j stride 0 + nth j k 0 * nth j dil 0)%nat)))%R)
        (indices ks))) (seq 0 Cg)).
Proof.
  intros [Hi Hiw] [Hw Hww] Lsp Lst Ldi Hg Hcog HC Hok osz. unfold conv_nd. rewrite Hi, Hw.
  rewrite !expand_param_id by assumption.
  rewrite Lsp, Lst, Ldi, !Nat.eqb_refl. rewrite (proj2 (Nat.ltb_lt 0 groups) Hg).
  rewrite (proj2 (Nat.eqb_eq C (Cg * groups)) HC).
  rewrite (proj2 (Nat.leb_le groups (cog * groups))) by nia.
  rewrite Nat.mod_mul by lia. rewrite Nat.eqb_refl. simpl andb.
  replace (forallb _ _) with true.
  2: { symmetry. apply forallb_forall. intros j Hj. apply in_seq in Hj. destruct (Hok j) as (H1 & H2 & H3 & H4); [lia|].
       rewrite !andb_true_iff, !Nat.ltb_lt, Nat.leb_le. auto. }
  rewrite Nat.div_mul by lia.
  eexists; split; [reflexivity|]. split; [split; [reflexivity|apply wft_build]|].
  intros n o y Hn Ho Hy. rewrite at_build by (repeat apply valid_cons; assumption). reflexivity.
Qed.
Lemma conv_nd_bad stride dil groups input weight N C sp Co Cg ks j :
  shape input = N :: C :: sp -> shape weight = Co :: Cg :: ks -> length stride = length ks -> length dil = length ks ->
  j < length ks -> nth j sp 0 < nth j dil 0 * (nth j ks 0 - 1) + 1 ->
  conv_nd stride dil groups input weight = Err RuntimeError.
Proof.
  intros Hi Hw Ls Ld Hj H. unfold conv_nd. rewrite Hi, Hw. rewrite !expand_param_id by assumption.
  match goal with |- (if ?b then _ else _) = _ => assert (b = false) as -> end; [|reflexivity].
  match goal with |- _ && forallb ?f ?l = _ => assert (forallb f l = false) as -> end; [|apply andb_false_r].
  apply not_true_is_false. intros Hf. rewrite forallb_forall in Hf. specialize (Hf j).
  rewrite !andb_true_iff, Nat.leb_le in Hf. destruct Hf as [_ Hf]; [apply in_seq; lia|]. lia.
Qed.

(** ** The flat padding argument *)
Lemma dup_length r : length (flat_map (fun x : nat => [x; x]) r) = 2 * length r.
Proof. induction r; simpl in *; lia. Qed.
Lemma dup_nth r i : i < length r ->
  nth (2 * i) (flat_map (fun x : nat => [x; x]) r) 0 = nth i r 0 /\
  nth (2 * i + 1) (flat_map (fun x : nat => [x; x]) r) 0 = nth i r 0.
Proof.
  revert i; induction r as [|a r IH]; intros i Hi; simpl in Hi; [lia|].
  destruct i as [|i]; [split; reflexivity|]. destruct (IH i) as [H1 H2]; [lia|].
  replace (2 * S i) with (S (S (2 * i))) by lia. replace (S (S (2 * i)) + 1) with (S (S (2 * i + 1))) by lia.
  cbn [flat_map app nth]. split; assumption.
Qed.
Lemma reverse_repeat2_spec l j : j < length l ->
  nth (2 * (length l - 1 - j)) (reverse_repeat2 l) 0 = nth j l 0 /\
  nth (2 * (length l - 1 - j) + 1) (reverse_repeat2 l) 0 = nth j l 0.
Proof.
  intros H. unfold reverse_repeat2. destruct (dup_nth (rev l) (length l - 1 - j)) as [H1 H2]; [rewrite rev_length; lia|].
  rewrite H1, H2. rewrite rev_nth by lia. replace (length l - S (length l - 1 - j)) with j by lia. auto.
Qed.
Lemma reverse_repeat2_length l : length (reverse_repeat2 l) = 2 * length l.
Proof. unfold reverse_repeat2. rewrite dup_length, rev_length. reflexivity. Qed.

Lemma conv_set_nth_length i v l : length (set_nth i v l) = length l.
Proof.
  unfold set_nth. destruct (Nat.ltb_spec i (length l)); [|reflexivity].
  rewrite app_length, firstn_length. cbn [length]. rewrite skipn_length. lia.
Qed.
Lemma nth_firstn' {A} (l : list A) i n d : i < n -> nth i (firstn n l) d = nth i l d.
Proof. revert i n; induction l; intros [|i] [|n] H; simpl; try lia; auto. apply IHl. lia. Qed.
Lemma nth_skipn' {A} (l : list A) i n d : nth i (skipn n l) d = nth (n + i) l d.
Proof. revert n; induction l; intros [|n]; simpl; auto; destruct i; auto. Qed.
Lemma nth_set_nth i v l j : i < length l -> nth j (set_nth i v l) 0 = if Nat.eqb j i then v else nth j l 0.
Proof.
  intros H. unfold set_nth. rewrite (proj2 (Nat.ltb_lt _ _) H).
  assert (length (firstn i l) = i) as Hf by (rewrite firstn_length; lia).
  destruct (Nat.eqb_spec j i) as [->|Hn].
  - rewrite app_nth2 by lia. rewrite Hf, Nat.sub_diag. reflexivity.
  - destruct (Nat.lt_ge_cases j i).
    + rewrite app_nth1 by lia. apply nth_firstn'; assumption.
    + rewrite app_nth2 by lia. rewrite Hf. destruct (j - i) as [|k] eqn:E; [lia|].
      cbn [nth]. rewrite nth_skipn'. f_equal. lia.
Qed.
Lemma same_loop_spec n dil ks acc : length dil = n -> length ks = n -> 2 * n <= length acc ->
  let r := same_loop dil ks (rev (seq 0 n)) acc in
  length r = length acc /\
  (forall j, j < n -> nth (2 * (n - 1 - j)) r 0 = nth j dil 0 * (nth j ks 0 - 1) / 2 /\
     nth (2 * (n - 1 - j) + 1) r 0 = nth j dil 0 * (nth j ks 0 - 1) - nth j dil 0 * (nth j ks 0 - 1) / 2) /\
  (forall i, 2 * n <= i -> nth i r 0 = nth i acc 0).
Proof.
  revert dil ks acc; induction n as [|n IH]; intros dil ks acc Ld Lk La; cbv zeta.
  - destruct dil, ks; try discriminate. simpl. repeat split; auto; intros; lia.
  - destruct dil as [|t dil], ks as [|k ks]; try discriminate.
    rewrite seq_S, rev_app_distr. cbn [rev app plus same_loop].
    set (tot := t * (k - 1)). set (acc' := set_nth _ _ _).
    assert (length acc' = length acc) as La' by (unfold acc'; rewrite !conv_set_nth_length; reflexivity).
    destruct (IH dil ks acc') as (H1 & H2 & H3); [simpl in *; lia..|].
    split; [lia|]. split.
    + intros j Hj. destruct j as [|j].
      * rewrite Nat.sub_0_r. replace (S n - 1) with n by lia. rewrite !H3 by lia.
        unfold acc'. rewrite !nth_set_nth by (rewrite ?conv_set_nth_length; lia).
        cbn [nth]. rewrite Nat.eqb_refl.
        destruct (Nat.eqb_spec (2 * n) (2 * n + 1)); [lia|]. rewrite Nat.eqb_refl. split; reflexivity.
      * replace (S n - 1 - S j) with (n - 1 - j) by lia. cbn [nth]. apply H2. lia.
    + intros i Hi. rewrite H3 by lia. unfold acc'. rewrite !nth_set_nth by (rewrite ?conv_set_nth_length; lia).
      destruct (Nat.eqb_spec i (2 * n + 1)); [lia|]. destruct (Nat.eqb_spec i (2 * n)); [lia|]. reflexivity.
Qed.

Definition pad_arity (p : padset) (d : nat) : Prop :=
  match p with PadTuple l => length l = d | PadStr _ => True end.

(** The pairs F.pad uses. *)
Lemma unflatten_reversed p dil ks : length dil = length ks -> pad_arity p (length ks) ->
  unflatten_pads (length ks) (reversed_padding p dil ks) =
  Ok (axes (length ks) (fun j => (left_pad p j (nth j ks 0) (nth j dil 0), right_pad p j (nth j ks 0) (nth j dil 0)))).
Proof.
  intros Ld Hp. unfold unflatten_pads.
  assert (length (reversed_padding p dil ks) = 2 * length ks) as Hl.
  { destruct p as [l|s]; simpl in Hp; unfold reversed_padding.
    - rewrite reverse_repeat2_length. lia.
    - destruct (String.eqb s "same"); [|apply repeat_length].
      destruct (same_loop_spec (length ks) dil ks (repeat 0 (2 * length ks))) as (H & _); try lia.
      + rewrite repeat_length. lia.
      + rewrite H. apply repeat_length. }
  rewrite Hl, Nat.eqb_refl. f_equal. apply axes_ext. intros j Hj.
  destruct p as [l|s]; simpl in Hp; unfold reversed_padding, left_pad, right_pad.
  - destruct (reverse_repeat2_spec l j) as [H1 H2]; [lia|]. rewrite <- Hp, H1, H2. reflexivity.
  - destruct (String.eqb s "same").
    + destruct (same_loop_spec (length ks) dil ks (repeat 0 (2 * length ks))) as (_ & H & _); try lia.
      * rewrite repeat_length. lia.
      * destruct (H j Hj) as [H1 H2]. rewrite H1, H2. reflexivity.
    + rewrite !nth_repeat. reflexivity.
Qed.
Lemma conv_pads_spec p dil ks : length dil = length ks -> pad_arity p (length ks) ->
  conv_pads p dil ks =
  axes (length ks) (fun j => (left_pad p j (nth j ks 0) (nth j dil 0), right_pad p j (nth j ks 0) (nth j dil 0))).
Proof.
  intros Ld Hp. unfold conv_pads. destruct p as [l|s]; simpl in Hp.
  - rewrite expand_param_id by assumption. unfold left_pad, right_pad.
    rewrite <- (axes_nth l (length ks) 0 Hp) at 1. unfold axes. rewrite map_map. reflexivity.
  - rewrite expand_param_id by assumption. unfold left_pad, right_pad.
    apply axes_ext. intros j Hj. destruct (String.eqb s "same"); reflexivity.
Qed.

(** ** One padded convolution *)
Lemma fits_dec m sp ks stride dil left right :
  fits m sp ks stride dil left right \/
  exists j, j < length ks /\
    (nth j sp 0 + nth j left 0 + nth j right 0 < nth j dil 0 * (nth j ks 0 - 1) + 1 \/
     pad_ok m (nth j sp 0) (nth j left 0) (nth j right 0) = false).
Proof.
  unfold fits. generalize (length ks) at 1 2. intros n. induction n as [|n IH].
  - left. intros; lia.
  - destruct IH as [IH|(j & Hj & H)]; [|right; exists j; split; [lia|assumption]].
    destruct (Nat.lt_ge_cases (nth n sp 0 + nth n left 0 + nth n right 0) (nth n dil 0 * (nth n ks 0 - 1) + 1)) as [H|H].
    { right. exists n. split; [lia|]. left. assumption. }
    destruct (pad_ok m (nth n sp 0) (nth n left 0) (nth n right 0)) eqn:E.
    + left. intros j Hj. destruct (Nat.eq_dec j n) as [->|Hn]; [|apply IH; lia]. split; [lia|].
      destruct m; simpl in E; rewrite ?andb_true_iff, ?Nat.ltb_lt, ?Nat.leb_le in E; auto.
    + right. exists n. split; [lia|]. right. assumption.
Qed.
Lemma fits_pad_ok m sp ks stride dil left right j : fits m sp ks stride dil left right -> j < length ks ->
  pad_ok m (nth j sp 0) (nth j left 0) (nth j right 0) = true.
Proof.
  intros H Hj. destruct (H j Hj) as [_ H']. destruct m; simpl; rewrite ?andb_true_iff, ?Nat.ltb_lt, ?Nat.leb_le; auto.
Qed.

Definition conv_value (m : padmode) (input weight : tensor R) (sp : list nat) (Cg : nat) (ks stride dil left : list nat)
    (cog n o : nat) (y : list nat) : R :=
  sumR (map (fun c => sumR (map (fun x =>
    (at_ weight (o :: c :: x) * image_at m input sp [n; (o / cog * Cg + c)%nat] (read_pos stride dil left y x))%R)
    (indices ks))) (seq 0 Cg)).

Section PaddedConv.
  Context (m : padmode) (input weight : tensor R) (N C : nat) (sp : list nat) (groups cog Cg : nat) (ks stride dil : list nat).
  Context (left right : list nat) (pads : list (nat * nat)).
  Hypothesis Hi : has_shape input (N :: C :: sp).
  Hypothesis Hw : has_shape weight (cog * groups :: Cg :: ks).
  Hypothesis Lsp : length sp = length ks.
  Hypothesis Lst : length stride = length ks.
  Hypothesis Ldi : length dil = length ks.
  Hypothesis Hpads : pads = axes (length ks) (fun j => (nth j left 0, nth j right 0)).
  Hypothesis Hg : 0 < groups.
  Hypothesis Hcog : 0 < cog.
  Hypothesis HC : C = Cg * groups.
  Hypothesis Hpos : forall j, j < length ks -> 0 < nth j stride 0 /\ 0 < nth j dil 0 /\ 0 < nth j ks 0.

  Lemma pads_nth j : j < length ks -> nth j pads (0, 0) = (nth j left 0, nth j right 0).
  Proof. intros Hj. rewrite Hpads, nth_axes by assumption. reflexivity. Qed.

  Lemma padded_conv_spec : fits m sp ks stride dil left right ->
    exists x, (p <- pad_axes m pads input ;; conv_nd stride dil groups p weight) = Ok x /\
      has_shape x (N :: cog * groups :: conv_size sp ks stride dil left right) /\
      forall n o y, n < N -> o < cog * groups -> valid (conv_size sp ks stride dil left right) y ->
        at_ x (n :: o :: y) = conv_value m input weight sp Cg ks stride dil left cog n o y.
  Proof.
    intros Hf.
    assert (length pads = length ks) as Lp by (rewrite Hpads; apply axes_length).
    destruct (pad_axes_spec m pads input N C sp Hi) as (p & Hp & Hps & Hpe); [lia| |].
    { intros j Hj. rewrite pads_nth by lia. cbn [fst snd]. eapply fits_pad_ok; [exact Hf|lia]. }
    rewrite Hp. cbn [bind].
    assert (pad_shape sp pads = axes (length ks) (fun j => nth j sp 0 + nth j left 0 + nth j right 0)) as Eps.
    { unfold pad_shape. rewrite Lsp. apply axes_ext. intros j Hj. rewrite pads_nth by assumption. reflexivity. }
    destruct (conv_nd_spec stride dil groups p weight N C (pad_shape sp pads) cog Cg ks) as (x & Hx & Hxs & Hxe); auto.
    { rewrite Eps, axes_length. reflexivity. }
    { intros j Hj. destruct (Hpos j Hj) as (? & ? & ?). repeat split; auto. rewrite Eps, nth_axes by assumption.
      apply Hf; assumption. }
    assert (axes (length ks) (fun j => out_size (nth j (pad_shape sp pads) 0) (nth j ks 0) (nth j stride 0) (nth j dil 0))
      = conv_size sp ks stride dil left right) as Eo.
    { apply axes_ext. intros j Hj. rewrite Eps, nth_axes by assumption. unfold out_size. do 2 f_equal. lia. }
    rewrite Eo in Hxs, Hxe. exists x. split; [assumption|]. split; [assumption|].
    intros n o y Hn Ho Hy. rewrite Hxe by assumption. unfold conv_value. f_equal. apply map_ext_in. intros c Hc.
    apply in_seq in Hc. f_equal. apply map_ext_in. intros k Hk. apply in_indices in Hk. f_equal.
    assert (o / cog < groups) by (apply Nat.div_lt_upper_bound; lia).
    rewrite Hpe.
    - f_equal. rewrite Lsp. unfold read_pos. rewrite Lst. apply axes_ext. intros j Hj.
      rewrite nth_axes by assumption. rewrite pads_nth by assumption. reflexivity.
    - assumption.
    - rewrite HC. nia.
    - rewrite Eps. apply valid_axes; [apply axes_length|]. intros j Hj. rewrite nth_axes by assumption.
      apply valid_nth in Hy. unfold conv_size in Hy. rewrite axes_length in Hy. destruct Hy as [_ Hy].
      specialize (Hy j Hj). rewrite nth_axes in Hy by assumption.
      pose proof (valid_nth_lt _ _ j Hk Hj) as Hkj. destruct (Hf j Hj) as [Hf1 _]. destruct (Hpos j Hj) as (Hs & Ht & Hk0).
      set (a := nth j sp 0 + nth j left 0 + nth j right 0) in *.
      set (t := nth j dil 0) in *. set (s := nth j stride 0) in *. set (kk := nth j ks 0) in *.
      set (q := (a - t * (kk - 1) - 1) / s) in *.
      assert (q * s <= a - t * (kk - 1) - 1) as Hq by (unfold q; rewrite Nat.mul_comm; apply Nat.mul_div_le; lia).
      assert (nth j y 0 * s <= q * s) by (apply Nat.mul_le_mono_r; lia).
      assert (nth j k 0 * t <= t * (kk - 1)) by (rewrite Nat.mul_comm; apply Nat.mul_le_mono_l; lia).
      lia.
  Qed.

  Lemma padded_conv_bad : ~ fits m sp ks stride dil left right ->
    (p <- pad_axes m pads input ;; conv_nd stride dil groups p weight) = Err RuntimeError.
  Proof.
    intros Hf. destruct (fits_dec m sp ks stride dil left right) as [H|(j & Hj & H)]; [contradiction|].
    assert (length pads = length ks) as Lp by (rewrite Hpads; apply axes_length).
    destruct (forallb (fun j => pad_ok m (nth j sp 0) (nth j left 0) (nth j right 0)) (seq 0 (length ks))) eqn:Eall.
    - rewrite forallb_forall in Eall.
      destruct (pad_axes_spec m pads input N C sp Hi) as (p & Hp & (Hps & _) & _); [lia| |].
      { intros i Hi'. rewrite pads_nth by lia. cbn [fst snd]. apply Eall. apply in_seq. lia. }
      rewrite Hp. cbn [bind]. destruct H as [H|H].
      + destruct Hw as [Hw' _]. eapply conv_nd_bad; [exact Hps|exact Hw'|assumption|assumption|exact Hj|].
        unfold pad_shape. rewrite nth_axes by lia. rewrite pads_nth by lia. exact H.
      + rewrite Eall in H; [discriminate|]. apply in_seq. lia.
    - destruct (existsb (fun j => negb (pad_ok m (nth j sp 0) (nth j left 0) (nth j right 0))) (seq 0 (length ks))) eqn:Eex.
      + apply existsb_exists in Eex. destruct Eex as (i & Hin & Hb). apply in_seq in Hin. apply negb_true_iff in Hb.
        destruct Hi as [Hi' _]. rewrite (pad_axes_bad m pads input N C sp i Hi'); [reflexivity|lia|].
        rewrite pads_nth by lia. exact Hb.
      + exfalso. assert (forallb (fun j => pad_ok m (nth j sp 0) (nth j left 0) (nth j right 0)) (seq 0 (length ks)) = true) as Ha.
        { apply forallb_forall. intros i Hin. apply not_false_is_true. intros Hb.
          assert (existsb (fun j => negb (pad_ok m (nth j sp 0) (nth j left 0) (nth j right 0))) (seq 0 (length ks)) = true).
          { apply existsb_exists. exists i. rewrite Hb. auto. }
          congruence. }
        congruence.
  Qed.
End PaddedConv.

(** ** The layer's convolution step *)

(** Attributes are consistent: what the constructor establishes. *)
Record layer_ok {G P} (L : gconv G P) : Prop := {
  lo_stride : length (l_stride L) = length (l_ks L);
  lo_dil : length (l_dil L) = length (l_ks L);
  lo_pad : pad_arity (l_padding L) (length (l_ks L));
  lo_size : k_size (l_kernel L) = l_ks L;
  lo_rev : l_rev L = reversed_padding (l_padding L) (l_dil L) (l_ks L);
  lo_pos : forall j, j < length (l_ks L) -> 0 < nth j (l_stride L) 0 /\ 0 < nth j (l_dil L) 0 /\ 0 < nth j (l_ks L) 0;
}.
(** The kernel sizes from which the padding of a stage with weight size wks is computed. *)
Definition pad_ks {G P} (L : gconv G P) (wks : list nat) : list nat :=
  match l_mode L with Zeros => wks | _ => l_ks L end.

Section Step.
  Context {G P : Type} (L : gconv G P) (HL : layer_ok L).
  Context (input weight : tensor R) (N C : nat) (sp : list nat) (groups cog Cg : nat) (ks : list nat).
  Hypothesis Hi : has_shape input (N :: C :: sp).
  Hypothesis Hw : has_shape weight (cog * groups :: Cg :: ks).
  Hypothesis Lk : length ks = length (l_ks L).
  Hypothesis Lsp : length sp = length ks.
  Hypothesis Hg : 0 < groups.
  Hypothesis Hcog : 0 < cog.
  Hypothesis HC : C = Cg * groups.
  Hypothesis Hk : forall j, j < length ks -> 0 < nth j ks 0.
  Let left := lefts (l_padding L) (pad_ks L ks) (l_dil L).
  Let right := rights (l_padding L) (pad_ks L ks) (l_dil L).

  Lemma conv_forward_unfold :
    conv_forward L input weight groups =
    (p <- pad_axes (l_mode L) (axes (length ks) (fun j => (nth j left 0, nth j right 0))) input ;;
     conv_nd (l_stride L) (l_dil L) groups p weight).
  Proof.
    destruct HL as [Hst Hdi Hpa Hsz Hrev Hpos]. destruct Hi as [Hi' _], Hw as [Hw' _].
    assert (forall m, pad_ks L ks = l_ks L ->
      fpad m (l_rev L) input = pad_axes m (axes (length ks) (fun j => (nth j left 0, nth j right 0))) input) as HF.
    { intros m E. unfold fpad. rewrite Hi'. cbn [length]. replace (S (S (length sp)) - 2) with (length (l_ks L)) by lia.
      rewrite Hrev, unflatten_reversed by (assumption || congruence). cbn [bind]. f_equal.
      unfold left, right, lefts, rights. rewrite E. rewrite Lk.
      apply axes_ext. intros j Hj. rewrite !nth_axes by assumption. reflexivity. }
    unfold conv_forward. rewrite Hi', Hw'. cbn [length]. destruct (Nat.eqb_spec (S (S (S (length sp)))) (S (S (length ks)))) as [Q|_]; [lia|].
    unfold conv_batched. destruct (l_mode L) eqn:Em; try (rewrite HF; [reflexivity|unfold pad_ks; rewrite Em; reflexivity]).
    rewrite Hw'. cbn [skipn]. rewrite conv_pads_spec; [|lia|rewrite Lk; assumption].
    unfold left, right, lefts, rights, pad_ks. rewrite Em. do 2 f_equal.
    apply axes_ext. intros j Hj. rewrite !nth_axes by assumption. reflexivity.
  Qed.

  Lemma conv_forward_spec : fits (l_mode L) sp ks (l_stride L) (l_dil L) left right ->
    exists x, conv_forward L input weight groups = Ok x /\
      has_shape x (N :: cog * groups :: conv_size sp ks (l_stride L) (l_dil L) left right) /\
      forall n o y, n < N -> o < cog * groups -> valid (conv_size sp ks (l_stride L) (l_dil L) left right) y ->
        at_ x (n :: o :: y) = conv_value (l_mode L) input weight sp Cg ks (l_stride L) (l_dil L) left cog n o y.
  Proof.
    intros Hf. rewrite conv_forward_unfold.
    destruct HL as [Hst Hdi Hpa Hsz Hrev Hpos].
    apply padded_conv_spec with (C := C) (right := right); auto; try lia.
    intros j Hj. destruct (Hpos j) as (? & ? & ?); [lia|]. auto.
  Qed.
  Lemma conv_forward_bad : ~ fits (l_mode L) sp ks (l_stride L) (l_dil L) left right ->
    conv_forward L input weight groups = Err RuntimeError.
  Proof.
    intros Hf. rewrite conv_forward_unfold.
    destruct HL as [Hst Hdi Hpa Hsz Hrev Hpos].
    apply padded_conv_bad with (N := N) (C := C) (cog := cog) (Cg := Cg) (sp := sp) (ks := ks) (left := left) (right := right); auto; lia.
  Qed.
End Step.
