(** Proofs: networks of convolutions with circular padding commute with rolling the image. *)
From Coq Require Import String ZArith Permutation.
From Verif Require Import Prelude RMath Mat Repulse RepulseFacts Tensor TensorFacts Kernel KernelFacts Conv ConvSpec ConvFacts GConvFacts ConvInit ConvShift SepProduct EquiKernel
  Layers LayersSpec NormFacts Public PublicFacts Network NetworkCond Prop_Conv Prop_Layers NetFacts CyclicSpec CyclicFacts.
Open Scope nat_scope.

(** ** Rolling is a rearrangement *)
Lemma roll_pos_bijective s u : bijective (roll_pos s u) s s.
Proof.
  assert (forall y j, valid s y -> j < length s -> nth j (roll_pos s u y) 0 = (nth j y 0 + nth j u 0) mod nth j s 0) as N0.
  { intros y j _ Hj. unfold roll_pos. rewrite nth_axes by exact Hj. reflexivity. }
  split; [intros y Hy; apply roll_pos_valid; exact Hy|]. split.
  - intros y z Hy Hz E. apply nth_ext with (d := 0) (d' := 0); [rewrite (valid_length _ _ Hy), (valid_length _ _ Hz); reflexivity|].
    intros j Hj. rewrite (valid_length _ _ Hy) in Hj. pose proof (f_equal (fun l => nth j l 0) E) as Ej. cbv beta in Ej. rewrite !N0 in Ej by assumption.
    pose proof (valid_nth_lt s y j Hy Hj) as By. pose proof (valid_nth_lt s z j Hz Hj) as Bz.
    set (n := nth j s 0) in *. set (a := nth j y 0) in *. set (b := nth j z 0) in *. set (v := nth j u 0) in *. assert (n <> 0) as Hn by lia.
    pose proof (Nat.div_mod (a + v) n Hn) as D1. pose proof (Nat.div_mod (b + v) n Hn) as D2. rewrite Ej in D1.
    set (q1 := (a + v) / n) in *. set (q2 := (b + v) / n) in *. set (r := (b + v) mod n) in *.
    destruct (Nat.lt_trichotomy q1 q2) as [Q|[Q|Q]]; [exfalso|rewrite Q in D1; lia|exfalso]; nia.
  - intros y' Hy'. exists (roll_pos s (axes (length s) (fun j => nth j s 0 - nth j u 0 mod nth j s 0)) y').
    split; [apply roll_pos_valid; exact Hy'|]. apply nth_ext with (d := 0) (d' := 0).
    { unfold roll_pos at 1. rewrite axes_length, (valid_length _ _ Hy'). reflexivity. }
    intros j Hj. unfold roll_pos at 1 in Hj. rewrite axes_length in Hj. rewrite N0 by (try assumption; apply roll_pos_valid; exact Hy').
    unfold roll_pos. rewrite nth_axes by exact Hj. rewrite nth_axes by exact Hj. pose proof (valid_nth_lt s y' j Hy' Hj) as B.
    set (n := nth j s 0) in *. set (a := nth j y' 0) in *. set (v := nth j u 0) in *. assert (n <> 0) as Hn by lia.
    rewrite Nat.add_mod_idemp_l by exact Hn. pose proof (Nat.mod_upper_bound v n Hn) as Bv. pose proof (Nat.div_mod v n Hn) as Dv.
    set (q := v / n) in *. set (r := v mod n) in *. replace (a + (n - r) + v) with (a + (q + 1) * n) by nia. rewrite Nat.mod_add by exact Hn. apply Nat.mod_small. exact B.
Qed.

Definition roll_tail (s u : list nat) (y : list nat) : list nat := nth 0 y 0 :: roll_pos s u (skipn 1 y).
Lemma roll_tail_bijective n s u : bijective (roll_tail s u) (n :: s) (n :: s).
Proof.
  destruct (roll_pos_bijective s u) as (B1 & B2 & B3). split; [|split].
  - intros y Hy. apply valid_inv_cons in Hy. destruct Hy as (e & i & -> & He & Hi). apply valid_cons; [exact He|apply B1; exact Hi].
  - intros y z Hy Hz E. apply valid_inv_cons in Hy, Hz. destruct Hy as (e & i & -> & He & Hi), Hz as (e' & i' & -> & He' & Hi').
    unfold roll_tail in E. cbn [nth skipn] in E. injection E as -> E. f_equal. apply B2; assumption.
  - intros y' Hy'. apply valid_inv_cons in Hy'. destruct Hy' as (e & i & -> & He & Hi). destruct (B3 i Hi) as (i0 & Hi0 & E0). exists (e :: i0).
    split; [apply valid_cons; assumption|]. unfold roll_tail. cbn [nth skipn]. rewrite E0. reflexivity.
Qed.

(** Rolled feature maps (N, C, n, *s). *)
Lemma rolled_rearranged d u X X' N C n s : rolled d u X X' -> has_shape X (N :: C :: n :: s) -> length s = d -> rearranged (roll_tail s u) (n :: s) (n :: s) X X'.
Proof.
  intros HR HX L. destruct (rolled_inv d u X X' [N; C; n] s HR HX L) as [HX' V]. split; [apply roll_tail_bijective|]. exists N, C. split; [exact HX|]. split; [exact HX'|].
  intros a c y Ha Hc Hy. apply valid_inv_cons in Hy. destruct Hy as (e & i & -> & He & Hi). unfold roll_tail. cbn [nth skipn].
  apply (V [a; c; e] i); [repeat apply valid_cons; auto using valid_nil|exact Hi].
Qed.
Lemma rearranged_rolled d u X X' n s : rearranged (roll_tail s u) (n :: s) (n :: s) X X' -> length s = d ->
  rolled d u X X' /\ exists N C, has_shape X (N :: C :: n :: s).
Proof.
  intros (_ & N & C & HX & HX' & V) L. split; [|exists N, C; exact HX]. exists [N; C; n], s. split; [exact L|]. split; [exact HX|]. split; [exact HX'|].
  intros pre y Hpre Hy. destruct (valid_inv_cons _ _ _ Hpre) as (a & p1 & -> & Ha & H1). destruct (valid_inv_cons _ _ _ H1) as (c & p2 & -> & Hc & H2).
  destruct (valid_inv_cons _ _ _ H2) as (e & p3 & -> & He & H3). apply valid_inv_nil in H3. subst p3. cbn [app].
  specialize (V a c (e :: y) Ha Hc (valid_cons _ _ _ _ He Hy)). unfold roll_tail in V. cbn [nth skipn] in V. exact V.
Qed.
Lemma rolled_ewise d u X X' phi : rolled d u X X' -> rolled d u (ewise phi X) (ewise phi X').
Proof.
  intros (lead & s & L & HX & HX' & V). exists lead, s. split; [exact L|]. split; [apply ewise_shape; exact HX|]. split; [apply ewise_shape; exact HX'|].
  intros pre y Hp Hy. rewrite (at_ewise phi X' (lead ++ s)) by (first [assumption|apply valid_app; [exact Hp|apply roll_pos_valid; exact Hy]]).
  rewrite (at_ewise phi X (lead ++ s)) by (first [assumption|apply valid_app; assumption]). rewrite V by assumption. reflexivity.
Qed.
Lemma times_assoc u v w : times u (times v w) = times (times u v) w.
Proof. unfold times. revert v w. induction u as [|a u IH]; intros [|b v] [|c w]; cbn [map2]; try reflexivity. rewrite IH, Nat.mul_assoc. reflexivity. Qed.
Lemma times_ones u d : length u = d -> times u (repeat 1 d) = u.
Proof. intros <-. unfold times. induction u as [|a u IH]; cbn [length repeat map2]; [reflexivity|]. rewrite IH, Nat.mul_1_r. reflexivity. Qed.

Section Net.
  Context {G P : Type} {D : Dflt P} (fam : family) (d : nat) (mul : G -> G -> G) (Hd : 0 < d).

  (** A feature map (N, C, n, *s) with d spatial axes. *)
  Definition feature (X : tensor R) : Prop := exists N C n s, has_shape X (N :: C :: n :: s) /\ length s = d.

  Lemma conv_torus (M : gmodule G P) w X X' H o u Y : on_torus_conv d M w X H o -> length u = d -> rolled d (times u (l_stride (gm_layer M))) X X' ->
    full_forward (gm_layer M) w X H o = Ok (Y, o) -> exists Y', full_forward (gm_layer M) w X' H o = Ok (Y', o) /\ rolled d u Y Y' /\ feature Y.
  Proof using.
    intros (cin & cout & ks & k & groups & stride & padding & dil & bias & W & N & sp & Hc & Ho & HK & HW & HX & Lsp & Hr) Lu HR E.
    destruct (constructed_spec _ _ _ _ _ _ _ _ _ _ _ _ Hc) as (HL & _ & _ & _ & _ & Eks & _ & Es & _ & _ & _ & _ & Hlen & _). rewrite Es in HR.
    destruct (C46_group_convolution _ _ D _ _ _ _ _ _ _ _ _ _ _ _ _ _ _ _ _ _ _ Hc Ho HK HW HX Lsp) as [A B].
    set (left := lefts (stored_padding d padding) ks dil) in *. set (right := rights (stored_padding d padding) ks dil) in *.
    destruct (fits_em Circular sp ks stride dil left right) as [F|F]; [|rewrite (B F) in E; discriminate].
    destruct (A F) as (x & Ex & Sx & _). rewrite Ex in E. injection E as <-.
    destruct (group_rolled d (gm_layer M) cin cout ks k groups stride padding dil bias w W H o X X' x N sp _ u Hc Ho HK HW HX Lsp Lu HR Ex Sx Hr) as (Y' & E' & R').
    exists Y'. split; [exact E'|]. split; [exact R'|]. exists N, cout, (length o), (conv_size sp ks stride dil left right). split; [exact Sx|].
    unfold conv_size. rewrite axes_length. exact Hlen.
  Qed.
  Lemma lifting_torus (M : gmodule G P) w X X' o u Y : on_torus_lifting d M w X o -> length u = d -> rolled d (times u (l_stride (gm_layer M))) X X' ->
    lifting_forward (gm_layer M) w X o = Ok (Y, o) -> exists Y', lifting_forward (gm_layer M) w X' o = Ok (Y', o) /\ rolled d u Y Y' /\ feature Y.
  Proof using.
    intros (cin & cout & ks & k & groups & stride & padding & dil & bias & W & N & sp & Hc & Ho & HK & HW & HX & Lsp & Hr) Lu HR E.
    destruct (constructed_spec _ _ _ _ _ _ _ _ _ _ _ _ Hc) as (HL & _ & _ & _ & _ & Eks & _ & Es & _ & _ & _ & _ & Hlen & _). rewrite Es in HR.
    destruct (C45_lifting_convolution _ _ D _ _ _ _ _ _ _ _ _ _ _ _ _ _ _ _ _ _ Hc Ho HK HW HX Lsp) as [A B].
    set (left := lefts (stored_padding d padding) ks dil) in *. set (right := rights (stored_padding d padding) ks dil) in *.
    destruct (fits_em Circular sp ks stride dil left right) as [F|F]; [|rewrite (B F) in E; discriminate].
    destruct (A F) as (x & Ex & Sx & _). rewrite Ex in E. injection E as <-.
    destruct (lifting_rolled d (gm_layer M) cin cout ks k groups stride padding dil bias w W o X X' x N sp _ u Hc Ho HK HW HX Lsp Lu HR Ex Sx Hr) as (Y' & E' & R').
    exists Y'. split; [exact E'|]. split; [exact R'|]. exists N, cout, (length o), (conv_size sp ks stride dil left right). split; [exact Sx|].
    unfold conv_size. rewrite axes_length. exact Hlen.
  Qed.

  (** The roll of the input of one module that rolls its output by u. *)
  Definition before (b : block G P) (u : list nat) : list nat := match b with BConv M _ _ => times u (l_stride (gm_layer M)) | _ => u end.

  Lemma step_torus b rs X X' H u Y H1 b1 : on_torus fam d mul b rs X H -> feature X -> length u = d -> rolled d (before b u) X X' ->
    step fam d mul b rs X H = Ok (Y, H1, b1) -> exists Y', step fam d mul b rs X' H = Ok (Y', H1, b1) /\ rolled d u Y Y' /\ feature Y.
  Proof using Hd.
    intros HT (N & C & n & s & HX & Ls) Lu HR E.
    assert (forall phi, rolled d u X X' -> exists Y', Ok (ewise phi X', H, b) = Ok (Y', H, b) /\ rolled d u (ewise phi X) Y' /\ feature (ewise phi X)) as KAct.
    { intros phi HR'. exists (ewise phi X'). split; [reflexivity|]. split; [apply rolled_ewise; exact HR'|]. exists N, C, n, s. split; [apply ewise_shape; exact HX|exact Ls]. }
    destruct b as [M w out|M wH w out|st|st| |slope|erf a]; cbn [on_torus before] in *.
    - rewrite step_conv in *. destruct (full_forward (gm_layer M) w X H (out_grid fam mul M out rs H)) as [[Y0 o0]|] eqn:EF; [|discriminate]. cbn [bind fst snd] in E.
      pose proof (full_forward_grid _ _ _ _ _ _ _ EF) as Eo. rewrite Eo in *. injection E as <- <- <-.
      destruct (conv_torus M w X X' H _ u Y0 HT Lu HR EF) as (Y' & E' & R'). exists Y'. rewrite E'. auto.
    - contradiction.
    - cbn [step] in *. destruct (g_batch_norm d st X H) as [[[Y0 o0] s1]|] eqn:EF; [|discriminate]. cbn [bind fst snd] in E. injection E as <- <- <-.
      assert (o0 = H) as Eo.
      { unfold g_batch_norm, g_norm in EF. destruct (shape X) as [|? [|? [|? [|? ?]]]]; try discriminate. destruct (view _ X); [|discriminate]. cbn [bind] in EF.
        destruct (batch_norm _ _ _); [|discriminate]. cbn [bind] in EF. destruct (view _ _); [|discriminate]. cbn [bind] in EF. injection EF as _ <- _. reflexivity. }
      rewrite Eo in *.
      destruct (batch_norm_rearranged d st _ _ s _ s X X' H H Y0 s1 (rolled_rearranged d u X X' N C n s HR HX Ls) Ls Ls Hd EF) as (Y' & E' & RY). rewrite E'. cbn [bind fst snd].
      exists Y'. split; [reflexivity|]. destruct (rearranged_rolled d u _ _ n s RY Ls) as (R1 & N1 & C1 & S1). split; [exact R1|]. exists N1, C1, n, s. auto.
    - cbn [step] in *. destruct (g_instance_norm d st X H) as [[[Y0 o0] s1]|] eqn:EF; [|discriminate]. cbn [bind fst snd] in E. injection E as <- <- <-.
      assert (o0 = H) as Eo.
      { unfold g_instance_norm, g_norm in EF. destruct (shape X) as [|? [|? [|? [|? ?]]]]; try discriminate. destruct (view _ X); [|discriminate]. cbn [bind] in EF.
        destruct (instance_norm _ _ _); [|discriminate]. cbn [bind] in EF. destruct (view _ _); [|discriminate]. cbn [bind] in EF. injection EF as _ <- _. reflexivity. }
      rewrite Eo in *.
      destruct (instance_norm_rearranged d st _ _ s _ s X X' H H Y0 s1 (rolled_rearranged d u X X' N C n s HR HX Ls) Ls Ls Hd EF) as (Y' & E' & RY). rewrite E'. cbn [bind fst snd].
      exists Y'. split; [reflexivity|]. destruct (rearranged_rolled d u _ _ n s RY Ls) as (R1 & N1 & C1 & S1). split; [exact R1|]. exists N1, C1, n, s. auto.
    - cbn [step g_relu bind fst snd] in *. injection E as <- <- <-. apply KAct. exact HR.
    - cbn [step g_leaky_relu bind fst snd] in *. injection E as <- <- <-. apply KAct. exact HR.
    - cbn [step] in *. unfold g_gelu in *. destruct (gelu erf a) as [phi|]; [|discriminate]. cbn [bind fst snd] in *. injection E as <- <- <-. apply KAct. exact HR.
  Qed.

  Lemma total_stride_length prog : forall X H, throughout fam d mul (on_torus fam d mul) prog X H -> forall r, run fam d mul prog X H = Ok r -> length (total_stride d prog) = d.
  Proof using.
    induction prog as [|[b rs] rest IH]; intros X H HT r E; cbn [total_stride]; [apply repeat_length|].
    cbn [throughout] in HT. destruct HT as [HT HN]. cbn [run] in E. destruct (step fam d mul b rs X H) as [[[Y0 H0] b0]|] eqn:ES; [|discriminate]. cbn [bind fst snd] in E.
    destruct (run fam d mul rest Y0 H0) as [q|] eqn:ER; [|discriminate]. pose proof (IH Y0 H0 (HN Y0 H0 b0 eq_refl) q ER) as L.
    destruct b as [M w out|M wH w out|st|st| |slope|erf a]; try exact L. rewrite times_length; [exact L|].
    destruct HT as (cin & cout & ks & k & groups & stride & padding & dil & bias & W & N & sp & Hc & _).
    destruct (constructed_spec _ _ _ _ _ _ _ _ _ _ _ _ Hc) as (HL & _ & _ & _ & _ & Eks & _ & Es & _ & _ & _ & _ & Hlen & _). rewrite (lo_stride _ HL), Eks, Hlen, L. reflexivity.
  Qed.

  Lemma run_torus prog : forall X X' H u Y H1 bs, throughout fam d mul (on_torus fam d mul) prog X H -> feature X -> length u = d ->
    rolled d (times u (total_stride d prog)) X X' -> run fam d mul prog X H = Ok (Y, H1, bs) ->
    exists Y', run fam d mul prog X' H = Ok (Y', H1, bs) /\ rolled d u Y Y' /\ feature Y.
  Proof using Hd.
    induction prog as [|[b rs] rest IH]; intros X X' H u Y H1 bs HT HF Lu HR E.
    - cbn [total_stride run] in *. rewrite times_ones in HR by exact Lu. injection E as <- <- <-. exists X'. auto.
    - pose proof HT as HT0. cbn [throughout] in HT. destruct HT as [HT HN]. cbn [run] in *.
      destruct (step fam d mul b rs X H) as [[[Y0 H0] b0]|] eqn:ES; [|discriminate]. cbn [bind fst snd] in E.
      destruct (run fam d mul rest Y0 H0) as [[[Y1 H2] bs1]|] eqn:ER; [|discriminate]. cbn [bind fst snd] in E. injection E as <- <- <-.
      assert (length (times u (total_stride d rest)) = d) as Lt.
      { rewrite times_length; [exact Lu|]. rewrite (total_stride_length rest Y0 H0 (HN Y0 H0 b0 eq_refl) _ ER). congruence. }
      assert (rolled d (before b (times u (total_stride d rest))) X X') as HR1.
      { destruct b as [M w out|M wH w out|st|st| |slope|erf a]; cbn [before total_stride] in *; try exact HR. rewrite <- times_assoc. exact HR. }
      destruct (step_torus b rs X X' H _ Y0 H0 b0 HT HF Lt HR1 ES) as (Y0' & E0' & R0 & F0). rewrite E0'. cbn [bind fst snd].
      destruct (IH Y0 Y0' H0 u Y1 H2 bs1 (HN Y0 H0 b0 eq_refl) F0 Lu R0 ER) as (Y' & E' & R' & F'). rewrite E'. cbn [bind fst snd]. exists Y'. auto.
  Qed.
End Net.
