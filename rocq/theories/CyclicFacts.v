(** Proofs: convolutions with circular padding commute with rolling the image. *)
From Coq Require Import String ZArith Permutation.
From Verif Require Import Prelude RMath Mat Repulse RepulseFacts Tensor TensorFacts Kernel KernelFacts Conv ConvSpec ConvFacts GConvFacts ConvInit ConvShift SepProduct EquiKernel Prop_Conv CyclicSpec.
Open Scope nat_scope.

(** Periodic reading of an image. *)
Definition wrap (sp : list nat) (z : list Z) : list nat := axes (length sp) (fun j => Z.to_nat (nth j z 0 mod Z.of_nat (nth j sp 0%nat))%Z).
Lemma shown_circular n z : 0 < n -> shown Circular n z = Some (Z.to_nat (z mod Z.of_nat n)%Z).
Proof.
  intros Hn. unfold shown. destruct (Z.leb_spec 0 z); [|reflexivity]. destruct (Z.ltb_spec z (Z.of_nat n)); [|reflexivity]. cbn [andb].
  rewrite Z.mod_small by lia. reflexivity.
Qed.
Lemma image_circular X sp pre z : (forall j, j < length sp -> 0 < nth j sp 0) -> image_at Circular X sp pre z = at_ X (pre ++ wrap sp z).
Proof.
  intros Hp. unfold image_at. rewrite (sequence_axes_some _ _ (fun j => Z.to_nat (nth j z 0 mod Z.of_nat (nth j sp 0%nat))%Z)); [reflexivity|].
  intros j Hj. apply shown_circular, Hp, Hj.
Qed.
Lemma wrap_valid sp z : (forall j, j < length sp -> 0 < nth j sp 0) -> valid sp (wrap sp z).
Proof.
  intros Hp. apply valid_axes; [reflexivity|]. intros j Hj. pose proof (Z.mod_pos_bound (nth j z 0%Z) (Z.of_nat (nth j sp 0))) as B. specialize (Hp j Hj). lia.
Qed.
(** Rolling the image by t and reading at z + t. *)
Lemma wrap_roll sp t z z' : (forall j, j < length sp -> 0 < nth j sp 0) ->
  (forall j, j < length sp -> exists k : Z, nth j z' 0%Z = (nth j z 0 + Z.of_nat (nth j t 0%nat) + k * Z.of_nat (nth j sp 0%nat))%Z) ->
  wrap sp z' = roll_pos sp t (wrap sp z).
Proof.
  intros Hp Hz. unfold wrap at 1, roll_pos. apply axes_ext. intros j Hj. unfold wrap. rewrite nth_axes by exact Hj. specialize (Hp j Hj). destruct (Hz j Hj) as [k ->].
  set (n := nth j sp 0) in *. set (a := nth j z 0%Z). set (u := nth j t 0).
  rewrite Z.mod_add by lia. apply Nat2Z.inj. rewrite Nat2Z.inj_mod, Nat2Z.inj_add.
  pose proof (Z.mod_pos_bound a (Z.of_nat n) ltac:(lia)). pose proof (Z.mod_pos_bound (a + Z.of_nat u) (Z.of_nat n) ltac:(lia)).
  rewrite !Z2Nat.id by lia. rewrite Z.add_mod_idemp_l by lia. reflexivity.
Qed.

(** The reads of an output position and of the rolled one. *)
Lemma read_rolled sp os stride dil left u y x j : length stride = length sp -> length os = length sp -> goes_round sp os stride -> valid os y -> j < length sp -> 0 < nth j sp 0 ->
  exists k : Z, nth j (read_pos stride dil left (roll_pos os u y) x) 0%Z =
    (nth j (read_pos stride dil left y x) 0 + Z.of_nat (nth j (times u stride) 0%nat) + k * Z.of_nat (nth j sp 0%nat))%Z \/ length u <> length sp.
Proof.
  intros Ls Lo Hr Hy Hj Hp. destruct (Nat.eq_dec (length u) (length sp)) as [Lu|Lu]; [|exists 0%Z; right; exact Lu].
  rewrite !read_pos_nth by lia. unfold roll_pos. rewrite nth_axes by lia. specialize (Hr j Hj).
  assert (nth j (times u stride) 0 = nth j u 0 * nth j stride 0) as ->.
  { unfold times. clear - Lu Ls Hj. revert stride Ls j Hj. rewrite <- Lu. clear Lu. induction u as [|a u IH]; intros [|b stride] Ls j Hj; cbn [length] in *; try lia. destruct j; cbn [map2 nth]; [reflexivity|]. apply IH; lia. }
  set (o := nth j os 0) in *. set (st := nth j stride 0) in *. set (a := nth j y 0). set (v := nth j u 0).
  assert (o <> 0) as Ho by (intros ->; lia).
  exists (- Z.of_nat ((a + v) / o))%Z. left. rewrite <- Hr. pose proof (Nat.div_mod (a + v) o Ho) as D. set (q := (a + v) / o) in *. set (r := (a + v) mod o) in *. nia.
Qed.

Lemma roll_pos_valid s u y : valid s y -> valid s (roll_pos s u y).
Proof.
  intros H. apply valid_axes; [reflexivity|]. intros j Hj. pose proof (valid_nth_lt s y j H Hj). apply Nat.mod_upper_bound. lia.
Qed.


Lemma times_nth u v j : j < length u -> length v = length u -> nth j (times u v) 0 = nth j u 0 * nth j v 0.
Proof.
  unfold times. revert v j. induction u as [|a u IH]; intros [|b v] j Hj L; cbn [length] in *; try lia. destruct j; cbn [map2 nth]; [reflexivity|]. apply IH; lia.
Qed.
Lemma times_length u v : length v = length u -> length (times u v) = length u.
Proof. unfold times. revert v. induction u as [|a u IH]; intros [|b v] L; cbn [length map2] in *; try lia. rewrite IH; lia. Qed.

(** The reads of an output position and of the rolled one, on the torus. *)
Lemma image_rolled X X' sp os stride dil left u y x pre : length stride = length sp -> length os = length sp -> length u = length sp -> goes_round sp os stride ->
  (forall j, j < length stride -> 0 < nth j stride 0) -> valid os y ->
  (forall z, valid sp z -> at_ X' (pre ++ roll_pos sp (times u stride) z) = at_ X (pre ++ z)) ->
  image_at Circular X' sp pre (read_pos stride dil left (roll_pos os u y) x) = image_at Circular X sp pre (read_pos stride dil left y x).
Proof.
  intros Ls Lo Lu Hr Hst Hy E.
  assert (forall j, j < length sp -> 0 < nth j sp 0) as Hsp.
  { intros j Hj. rewrite <- (Hr j Hj). pose proof (Hst j ltac:(lia)). pose proof (valid_nth_lt os y j Hy ltac:(lia)). nia. }
  rewrite !image_circular by exact Hsp. rewrite <- E by (apply wrap_valid; exact Hsp). do 2 f_equal.
  apply wrap_roll; [exact Hsp|]. intros j Hj.
  destruct (read_rolled sp os stride dil left u y x j) as (k & [K|K]); try assumption; try lia; [apply Hsp; exact Hj|]. exists k. exact K.
Qed.

(** Rolled tensors with known shapes. *)
Lemma rolled_inv d u X X' lead s : rolled d u X X' -> has_shape X (lead ++ s) -> length s = d ->
  has_shape X' (lead ++ s) /\ forall pre y, valid lead pre -> valid s y -> at_ X' (pre ++ roll_pos s u y) = at_ X (pre ++ y).
Proof.
  intros (lead1 & s1 & L1 & S1 & S1' & V) S L. pose proof (proj1 S) as Q. rewrite (proj1 S1) in Q. destruct (app_inv_len _ _ _ _ Q) as [-> ->]; [congruence|]. auto.
Qed.

Section Layer.
Context {G P : Type} {D : Dflt P}.
Lemma lifting_rolled d (L : gconv G P) cin cout ks k groups stride padding dil bias weight W (H : list G) (X X' out : tensor R) N sp os u :
  constructed d L cin cout ks k groups stride padding dil Circular bias ->
  H <> [] -> lifting_kernel_forward k weight H = Ok W -> has_shape W (cout :: length H :: cin / groups :: ks) ->
  has_shape X (N :: cin :: sp) -> length sp = d -> length u = d -> rolled d (times u stride) X X' ->
  lifting_forward L weight X H = Ok (out, H) -> has_shape out (N :: cout :: length H :: os) -> goes_round sp os stride ->
  exists out', lifting_forward L weight X' H = Ok (out', H) /\ rolled d u out out'.
Proof using.
  intros Hc HH HK HW HX Lsp Lu HR E So Hr.
  destruct (constructed_spec _ _ _ _ _ _ _ _ _ _ _ _ Hc) as (HL & _ & _ & _ & _ & Eks & _ & Es & _ & _ & _ & _ & Hlen & _).
  assert (length stride = d) as Ls by (pose proof (lo_stride L HL) as A; rewrite Es, Eks, Hlen in A; exact A).
  assert (forall j, j < length stride -> 0 < nth j stride 0) as Hst by (intros j Hj; rewrite <- Es; apply (lo_pos L HL); rewrite Eks; lia).
  destruct (rolled_inv d _ X X' [N; cin] sp HR HX Lsp) as [HX' V].
  destruct (C45_lifting_convolution _ _ D _ _ _ _ _ _ _ _ _ _ _ _ _ _ _ _ _ _ Hc HH HK HW HX Lsp) as [A B].
  destruct (C45_lifting_convolution _ _ D _ _ _ _ _ _ _ _ _ _ _ _ _ _ _ _ _ _ Hc HH HK HW HX' Lsp) as [A' _].
  set (left := lefts (stored_padding d padding) ks dil) in *. set (right := rights (stored_padding d padding) ks dil) in *.
  destruct (fits_em Circular sp ks stride dil left right) as [F|F]; [|rewrite (B F) in E; discriminate].
  destruct (A F) as (x & Ex & Sx & Vx). destruct (A' F) as (x' & Ex' & Sx' & Vx').
  rewrite Ex in E. injection E as <-. 
  assert (length os = d) as Lo.
  { assert (os = conv_size sp ks stride dil left right) as -> by (pose proof (proj1 Sx) as Sx1; rewrite (proj1 So) in Sx1; injection Sx1; auto).
    unfold conv_size. rewrite axes_length. lia. }
  pose proof (proj1 Sx) as Q. rewrite (proj1 So) in Q. injection Q as Q. rewrite <- Q in *. clear Q.
  exists x'. split; [exact Ex'|]. exists [N; cout; length H], os. split; [exact Lo|]. split; [exact So|]. split; [exact Sx'|].
  intros pre y Hpre Hy. destruct (valid_inv_cons _ _ _ Hpre) as (n & p1 & -> & Hn & H1). destruct (valid_inv_cons _ _ _ H1) as (o & p2 & -> & Ho & H2).
  destruct (valid_inv_cons _ _ _ H2) as (h & p3 & -> & Hh & H3). apply valid_inv_nil in H3. subst p3. cbn [app].
  rewrite (Vx n o h y), (Vx' n o h _) by (try assumption; apply roll_pos_valid; assumption). f_equal.
  apply sumR_ext. intros c Hcc. apply in_seq in Hcc. apply sumR_ext. intros x0 Hx0. f_equal.
  apply (image_rolled X X' sp os); try assumption; try lia. intros z Hz. apply V; [|exact Hz].
  repeat apply valid_cons; [exact Hn| |apply valid_nil]. apply (channel_read _ _ _ _ _ _ _ _ _ _ _ _ _ _ Hc); lia.
Qed.

Lemma group_rolled d (L : gconv G P) cin cout ks k groups stride padding dil bias weight W (in_H out_H : list G) (X X' out : tensor R) N sp os u :
  constructed d L cin cout ks k groups stride padding dil Circular bias ->
  out_H <> [] -> full_kernel_forward k weight in_H out_H = Ok W -> has_shape W (cout :: length out_H :: cin / groups :: length in_H :: ks) ->
  has_shape X (N :: cin :: length in_H :: sp) -> length sp = d -> length u = d -> rolled d (times u stride) X X' ->
  full_forward L weight X in_H out_H = Ok (out, out_H) -> has_shape out (N :: cout :: length out_H :: os) -> goes_round sp os stride ->
  exists out', full_forward L weight X' in_H out_H = Ok (out', out_H) /\ rolled d u out out'.
Proof using.
  intros Hc HH HK HW HX Lsp Lu HR E So Hr.
  destruct (constructed_spec _ _ _ _ _ _ _ _ _ _ _ _ Hc) as (HL & _ & _ & _ & _ & Eks & _ & Es & _ & _ & _ & _ & Hlen & _).
  assert (length stride = d) as Ls by (pose proof (lo_stride L HL) as A; rewrite Es, Eks, Hlen in A; exact A).
  assert (forall j, j < length stride -> 0 < nth j stride 0) as Hst by (intros j Hj; rewrite <- Es; apply (lo_pos L HL); rewrite Eks; lia).
  destruct (rolled_inv d _ X X' [N; cin; length in_H] sp HR HX Lsp) as [HX' V].
  destruct (C46_group_convolution _ _ D _ _ _ _ _ _ _ _ _ _ _ _ _ _ _ _ _ _ _ Hc HH HK HW HX Lsp) as [A B].
  destruct (C46_group_convolution _ _ D _ _ _ _ _ _ _ _ _ _ _ _ _ _ _ _ _ _ _ Hc HH HK HW HX' Lsp) as [A' _].
  set (left := lefts (stored_padding d padding) ks dil) in *. set (right := rights (stored_padding d padding) ks dil) in *.
  destruct (fits_em Circular sp ks stride dil left right) as [F|F]; [|rewrite (B F) in E; discriminate].
  destruct (A F) as (x & Ex & Sx & Vx). destruct (A' F) as (x' & Ex' & Sx' & Vx').
  rewrite Ex in E. injection E as <-.
  assert (length os = d) as Lo.
  { assert (os = conv_size sp ks stride dil left right) as -> by (pose proof (proj1 Sx) as Sx1; rewrite (proj1 So) in Sx1; injection Sx1; auto).
    unfold conv_size. rewrite axes_length. lia. }
  pose proof (proj1 Sx) as Q. rewrite (proj1 So) in Q. injection Q as Q. rewrite <- Q in *. clear Q.
  exists x'. split; [exact Ex'|]. exists [N; cout; length out_H], os. split; [exact Lo|]. split; [exact So|]. split; [exact Sx'|].
  intros pre y Hpre Hy. destruct (valid_inv_cons _ _ _ Hpre) as (n & p1 & -> & Hn & H1). destruct (valid_inv_cons _ _ _ H1) as (o & p2 & -> & Ho & H2).
  destruct (valid_inv_cons _ _ _ H2) as (h & p3 & -> & Hh & H3). apply valid_inv_nil in H3. subst p3. cbn [app].
  rewrite (Vx n o h y), (Vx' n o h _) by (try assumption; apply roll_pos_valid; assumption). f_equal.
  apply sumR_ext. intros c Hcc. apply in_seq in Hcc. apply sumR_ext. intros e He. apply in_seq in He. apply sumR_ext. intros x0 Hx0. f_equal.
  apply (image_rolled X X' sp os); try assumption; try lia. intros z Hz. apply V; [|exact Hz].
  repeat apply valid_cons; [exact Hn| |lia|apply valid_nil]. apply (channel_read _ _ _ _ _ _ _ _ _ _ _ _ _ _ Hc); lia.
Qed.
End Layer.

(** Sums of indicators count. *)
Lemma sum_indicator {A} (f : A -> bool) l : sumR (map (fun x => if f x then 1%R else 0%R) l) = INR (length (filter f l)).
Proof.
  induction l as [|a l IH]; [reflexivity|]. cbn [map filter]. unfold sumR in *. cbn [fold_right]. rewrite IH. destruct (f a); cbn [length]; [rewrite S_INR; ring|ring].
Qed.
