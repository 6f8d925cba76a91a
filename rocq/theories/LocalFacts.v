(** Proofs: networks read only the receptive field, sample by sample. *)
From Coq Require Import String ZArith Permutation.
From Verif Require Import Prelude RMath Mat Repulse RepulseFacts Tensor TensorFacts Kernel KernelFacts Conv ConvSpec ConvFacts GConvFacts ConvInit ConvShift SepProduct SepConvFacts SepStages EquiKernel Regrid
  Layers LayersSpec LayersFacts NormFacts Public PublicFacts Network NetworkCond Prop_Conv Prop_Layers NetFacts LocalSpec.
Open Scope nat_scope.

(** Agreement with explicit shapes. *)
Definition agree (N N' : nat) (lead sp : list nat) (X X' : tensor R) (n n' : nat) (S : region) : Prop :=
  n < N /\ n' < N' /\ has_shape X (N :: lead ++ sp) /\ has_shape X' (N' :: lead ++ sp) /\
    forall pre y, valid lead pre -> valid sp y -> S y -> at_ X' (n' :: pre ++ y) = at_ X (n :: pre ++ y).

Lemma agree_same_there d N N' lead sp X X' n n' S : length sp = d -> agree N N' lead sp X X' n n' S -> same_there d X X' n n' S.
Proof. intros L (A & B & C & D & E). exists N, N', lead, sp. repeat (split; [assumption|]). assumption. Qed.
Lemma same_there_agree d N lead sp X X' n n' S : has_shape X (N :: lead ++ sp) -> length sp = d -> same_there d X X' n n' S -> exists N', agree N N' lead sp X X' n n' S.
Proof.
  intros HX L (N0 & N' & lead0 & sp0 & L0 & A & B & HX0 & HX' & V). pose proof (has_shape_inj _ _ _ HX HX0) as E. injection E as E1 E2.
  assert (lead = lead0 /\ sp = sp0) as [-> ->].
  { pose proof (f_equal (@length nat) E2) as E3. rewrite !app_length in E3. split.
    - rewrite <- (firstn_all lead), <- (firstn_all lead0). pose proof (f_equal (firstn (length lead)) E2) as Q. rewrite firstn_app, Nat.sub_diag, firstn_O, app_nil_r in Q.
      rewrite Q. replace (length lead) with (length lead0) by lia. rewrite firstn_app, Nat.sub_diag, firstn_O, app_nil_r. reflexivity.
    - pose proof (f_equal (skipn (length lead)) E2) as Q. rewrite skipn_app, skipn_all, Nat.sub_diag in Q. rewrite skipn_O in Q. cbn [app] in Q.
      rewrite Q. replace (length lead) with (length lead0) by lia. rewrite skipn_app, skipn_all, Nat.sub_diag, skipn_O. reflexivity. }
  subst N0. exists N'. split; [exact A|]. split; [exact B|]. split; [exact HX|]. split; [exact HX'|]. exact V.
Qed.

(** An output pixel reads only the pixels [reads] lists. *)
Lemma image_at_reads m sp ks stride dil left right (t t' : tensor R) pre pre' y x :
  fits m sp ks stride dil left right -> length stride = length ks -> length sp = length ks ->
  valid (conv_size sp ks stride dil left right) y -> valid ks x ->
  (forall i, valid sp i -> reads m ks stride dil left sp y i -> at_ t' (pre' ++ i) = at_ t (pre ++ i)) ->
  image_at m t' sp pre' (read_pos stride dil left y x) = image_at m t sp pre (read_pos stride dil left y x).
Proof.
  intros F Ls Lsp Hy Hx E. unfold image_at. destruct (sequence _) as [i|] eqn:Es; [|reflexivity]. apply E.
  - destruct (sequence_axes _ _ _ 0 Es) as [L V]. apply valid_nth. split; [exact L|]. intros j Hj. specialize (V j Hj).
    rewrite Lsp in Hj. unfold read_pos in V. rewrite nth_axes in V by (rewrite Ls; exact Hj).
    exact (shown_lt _ _ _ _ _ _ (fits_pad_ok _ _ _ _ _ _ _ _ F Hj) (read_inside _ _ _ _ _ _ _ _ _ _ F Ls Hy Hx Hj) V).
  - exists x. split; [exact Hx|exact Es].
Qed.

Section Calls.
  Context {G P : Type} {D : Dflt P} (d : nat).

  Lemma lifting_local (M : gmodule G P) w X X' o N N' C sp n n' l S Y : plain_lifting d M w X o -> length sp = d ->
    agree N N' [C] sp X X' n n' (field (layer_stage (gm_layer M) :: l) sp S) -> lifting_forward (gm_layer M) w X o = Ok (Y, o) ->
    exists Y' C' sp', lifting_forward (gm_layer M) w X' o = Ok (Y', o) /\ length sp' = d /\ agree N N' [C'; length o] sp' Y Y' n n' (field l sp' S).
  Proof using.
    intros (cin & cout & ks & k & groups & stride & padding & dil & m & bias & W & N0 & sp0 & Hc & Ho & HK & HW & HX & Lsp) Ls0 HA E.
    destruct HA as (A1 & A2 & A3 & A4 & A5). pose proof (has_shape_inj _ _ _ A3 HX) as Q. cbn [app] in Q. injection Q as -> -> ->.
    destruct (constructed_spec _ _ _ _ _ _ _ _ _ _ _ _ Hc) as (HL & _ & _ & _ & _ & Eks & _ & Es & Ep & Ed & Em & _ & Hlen & _).
    destruct (con_lengths d (gm_layer M) cin cout ks k groups stride padding dil m bias Hc) as (Lst & _ & Hch).
    cbn [field layer_stage] in A5. unfold layer_stage in A5. cbn [field] in A5. rewrite Em, Eks, Es, Ed, Ep in A5.
    pose proof (C45_lifting_convolution _ _ D _ _ _ _ _ _ _ _ _ _ _ _ _ _ _ _ _ _ Hc Ho HK HW HX Lsp) as [A B].
    pose proof (C45_lifting_convolution _ _ D _ _ _ _ _ _ _ _ _ _ _ _ _ _ _ _ _ _ Hc Ho HK HW A4 Lsp) as [A' _]. cbv zeta in A, B, A'.
    set (left := lefts (stored_padding d padding) ks dil) in *. set (right := rights (stored_padding d padding) ks dil) in *.
    destruct (fits_em m sp0 ks stride dil left right) as [F|F]; [|rewrite (B F) in E; discriminate].
    destruct (A F) as (x & Ex & Sx & Vx). rewrite Ex in E. injection E as <-. destruct (A' F) as (x' & Ex' & Sx' & Vx').
    exists x', cout, (conv_size sp0 ks stride dil left right). split; [exact Ex'|]. split; [unfold conv_size; rewrite axes_length; exact Hlen|].
    split; [exact A1|]. split; [exact A2|]. split; [exact Sx|]. split; [exact Sx'|].
    intros pre y Hp Hy HS. destruct (valid_inv_cons _ _ _ Hp) as (c & p1 & -> & Hcc & H1). destruct (valid_inv_cons _ _ _ H1) as (g & p2 & -> & Hg & H2). apply valid_inv_nil in H2. subst p2.
    cbn [app]. rewrite Vx, Vx' by assumption. f_equal. f_equal. apply map_ext_in. intros c0 Hc0. apply in_seq in Hc0. f_equal. apply map_ext_in. intros x0 Hx0. apply in_indices in Hx0. f_equal.
    apply (image_at_reads m sp0 ks stride dil left right); try assumption; try congruence. intros i Hi Hr.
    apply (A5 [_] i); [apply valid_cons; [apply Hch; [exact Hcc|lia]|apply valid_nil]|exact Hi|]. exists y. auto.
  Qed.

  Lemma conv_local (M : gmodule G P) w X X' H o N N' C h sp n n' l S Y : plain_conv d M w X H o -> length sp = d ->
    agree N N' [C; h] sp X X' n n' (field (layer_stage (gm_layer M) :: l) sp S) -> full_forward (gm_layer M) w X H o = Ok (Y, o) ->
    exists Y' C' sp', full_forward (gm_layer M) w X' H o = Ok (Y', o) /\ length sp' = d /\ agree N N' [C'; length o] sp' Y Y' n n' (field l sp' S).
  Proof using.
    intros (cin & cout & ks & k & groups & stride & padding & dil & m & bias & W & N0 & sp0 & Hc & Ho & HK & HW & HX & Lsp) Ls0 HA E.
    destruct HA as (A1 & A2 & A3 & A4 & A5). pose proof (has_shape_inj _ _ _ A3 HX) as Q. cbn [app] in Q. injection Q as -> -> -> ->.
    destruct (constructed_spec _ _ _ _ _ _ _ _ _ _ _ _ Hc) as (HL & _ & _ & _ & _ & Eks & _ & Es & Ep & Ed & Em & _ & Hlen & _).
    destruct (con_lengths d (gm_layer M) cin cout ks k groups stride padding dil m bias Hc) as (Lst & _ & Hch).
    unfold layer_stage in A5. cbn [field] in A5. rewrite Em, Eks, Es, Ed, Ep in A5.
    pose proof (C46_group_convolution _ _ D _ _ _ _ _ _ _ _ _ _ _ _ _ _ _ _ _ _ _ Hc Ho HK HW HX Lsp) as [A B].
    pose proof (C46_group_convolution _ _ D _ _ _ _ _ _ _ _ _ _ _ _ _ _ _ _ _ _ _ Hc Ho HK HW A4 Lsp) as [A' _]. cbv zeta in A, B, A'.
    set (left := lefts (stored_padding d padding) ks dil) in *. set (right := rights (stored_padding d padding) ks dil) in *.
    destruct (fits_em m sp0 ks stride dil left right) as [F|F]; [|rewrite (B F) in E; discriminate].
    destruct (A F) as (x & Ex & Sx & Vx). rewrite Ex in E. injection E as <-. destruct (A' F) as (x' & Ex' & Sx' & Vx').
    exists x', cout, (conv_size sp0 ks stride dil left right). split; [exact Ex'|]. split; [unfold conv_size; rewrite axes_length; exact Hlen|].
    split; [exact A1|]. split; [exact A2|]. split; [exact Sx|]. split; [exact Sx'|].
    intros pre y Hp Hy HS. destruct (valid_inv_cons _ _ _ Hp) as (c & p1 & -> & Hcc & H1). destruct (valid_inv_cons _ _ _ H1) as (g & p2 & -> & Hg & H2). apply valid_inv_nil in H2. subst p2.
    cbn [app]. rewrite Vx, Vx' by assumption. f_equal. f_equal. apply map_ext_in. intros c0 Hc0. apply in_seq in Hc0. f_equal. apply map_ext_in. intros e Hee. apply in_seq in Hee.
    f_equal. apply map_ext_in. intros x0 Hx0. apply in_indices in Hx0. f_equal.
    apply (image_at_reads m sp0 ks stride dil left right); try assumption; try congruence. intros i Hi Hr.
    apply (A5 [_; e] i); [apply valid_cons; [apply Hch; [exact Hcc|lia]|apply valid_cons; [lia|apply valid_nil]]|exact Hi|]. exists y. auto.
  Qed.

  Lemma separable_local (M : gmodule G P) wH w X X' H o N N' C h sp n n' l S Y : plain_separable d M wH w X H o -> length sp = d ->
    agree N N' [C; h] sp X X' n n' (field (point_stage d (gm_layer M) :: layer_stage (gm_layer M) :: l) sp S) -> separable_forward (gm_layer M) wH w X H o = Ok (Y, o) ->
    exists Y' C' sp', separable_forward (gm_layer M) wH w X' H o = Ok (Y', o) /\ length sp' = d /\ agree N N' [C'; length o] sp' Y Y' n n' (field l sp' S).
  Proof using.
    intros (cin & cout & ks & k & groups & stride & padding & dil & m & bias & WH & WS & N0 & sp0 & Hc & Ho & HK & HW1 & HW2 & HX & Lsp) Ls0 HA E.
    destruct HA as (A1 & A2 & A3 & A4 & A5). pose proof (has_shape_inj _ _ _ A3 HX) as Q. cbn [app] in Q. injection Q as -> -> -> ->.
    destruct (constructed_spec _ _ _ _ _ _ _ _ _ _ _ _ Hc) as (HL & _ & _ & _ & _ & Eks & _ & Es & Ep & Ed & Em & _ & Hlen & _).
    destruct (con_lengths d (gm_layer M) cin cout ks k groups stride padding dil m bias Hc) as (Lst & _ & Hch).
    unfold layer_stage, point_stage in A5. cbn [field] in A5. rewrite Em, Eks, Es, Ed, Ep in A5.
    pose proof (separable_two_stage _ _ D _ _ _ _ _ _ _ _ _ _ _ _ _ _ _ _ _ _ _ _ _ Hc Ho HK HW1 HW2 HX Lsp) as [A B].
    pose proof (separable_two_stage _ _ D _ _ _ _ _ _ _ _ _ _ _ _ _ _ _ _ _ _ _ _ _ Hc Ho HK HW1 HW2 A4 Lsp) as [A' _]. cbv zeta in A, B, A'.
    set (ks1 := match m with Zeros => repeat 1 d | _ => ks end) in *.
    set (left1 := lefts (stored_padding d padding) ks1 dil) in *. set (right1 := rights (stored_padding d padding) ks1 dil) in *.
    set (left := lefts (stored_padding d padding) ks dil) in *. set (right := rights (stored_padding d padding) ks dil) in *.
    set (size1 := conv_size sp0 (repeat 1 d) stride dil left1 right1) in *.
    destruct (fits_em m sp0 (repeat 1 d) stride dil left1 right1) as [F1|F1]; [|rewrite B in E by tauto; discriminate].
    destruct (fits_em m size1 ks stride dil left right) as [F2|F2]; [|rewrite B in E by tauto; discriminate].
    destruct (A F1 F2) as (mid & x & Ex & Smid & Sx & Vm & Vx). rewrite Ex in E. injection E as <-. destruct (A' F1 F2) as (mid' & x' & Ex' & Smid' & Sx' & Vm' & Vx').
    pose proof (repeat_length 1 d) as L1.
    assert (length size1 = d) as Lsz by (unfold size1, conv_size; rewrite axes_length; exact L1).
    exists x', cout, (conv_size size1 ks stride dil left right). split; [exact Ex'|]. split; [unfold conv_size; rewrite axes_length; exact Hlen|].
    split; [exact A1|]. split; [exact A2|]. split; [exact Sx|]. split; [exact Sx'|].
    assert (valid (repeat 1 d) (repeat 0 d)) as Hv0.
    { clear. induction d as [|e IH]; cbn [repeat]; [apply valid_nil|apply valid_cons; [lia|exact IH]]. }
    intros pre y Hp Hy HS. destruct (valid_inv_cons _ _ _ Hp) as (c & p1 & -> & Hcc & H1). destruct (valid_inv_cons _ _ _ H1) as (g & p2 & -> & Hg & H2). apply valid_inv_nil in H2. subst p2.
    cbn [app]. rewrite Vx, Vx' by assumption. f_equal. f_equal. apply map_ext_in. intros x0 Hx0. apply in_indices in Hx0. f_equal.
    apply (image_at_reads m size1 ks stride dil left right); try assumption; try congruence. intros i Hi Hr.
    cbn [app]. rewrite Vm, Vm' by assumption. f_equal. apply map_ext_in. intros c0 Hc0. apply in_seq in Hc0. f_equal. apply map_ext_in. intros e Hee. apply in_seq in Hee. f_equal.
    apply (image_at_reads m sp0 (repeat 1 d) stride dil left1 right1); try assumption; try congruence. intros i0 Hi0 Hr0.
    apply (A5 [_; e] i0); [apply valid_cons; [apply Hch; [exact Hcc|lia]|apply valid_cons; [lia|apply valid_nil]]|exact Hi0|].
    exists i. split; [exact Hi|]. split; [|exact Hr0]. exists y. auto.
  Qed.
End Calls.

Section Net.
  Context {G P : Type} {D : Dflt P} (fam : family) (d : nat) (mul : G -> G -> G) (Hd : 0 < d).

  Lemma uses_running_bn s : bn_batch s = negb (uses_running s).
  Proof using. unfold bn_batch, bn_tracked, uses_running. destruct (nm_mean s), (nm_training s); reflexivity. Qed.

  Lemma agree_ewise N N' lead sp X X' n n' S phi : agree N N' lead sp X X' n n' S -> agree N N' lead sp (ewise phi X) (ewise phi X') n n' S.
  Proof using.
    intros (A1 & A2 & A3 & A4 & A5). split; [exact A1|]. split; [exact A2|]. split; [apply ewise_shape; exact A3|]. split; [apply ewise_shape; exact A4|].
    intros pre y Hp Hy HS. rewrite (at_ewise phi X' (N' :: lead ++ sp)) by (first [assumption|apply valid_cons; [assumption|apply valid_app; assumption]]).
    rewrite (at_ewise phi X (N :: lead ++ sp)) by (first [assumption|apply valid_cons; [assumption|apply valid_app; assumption]]). f_equal. apply A5; assumption.
  Qed.

  Lemma step_local b rs X X' H N N' C h sp n n' l S Y H1 b1 : plain fam d mul b rs X H -> length sp = d ->
    agree N N' [C; h] sp X X' n n' (field (block_stages d b ++ l) sp S) -> step fam d mul b rs X H = Ok (Y, H1, b1) ->
    exists Y' b1' C' h' sp', step fam d mul b rs X' H = Ok (Y', H1, b1') /\ length sp' = d /\ agree N N' [C'; h'] sp' Y Y' n n' (field l sp' S).
  Proof using Hd.
    intros HP Ls HA E.
    assert (forall phi, agree N N' [C; h] sp X X' n n' (field l sp S) -> exists Y' b1' C' h' sp', Ok (ewise phi X', H, b) = Ok (Y', H, b1') /\ length sp' = d /\
      agree N N' [C'; h'] sp' (ewise phi X) Y' n n' (field l sp' S)) as KAct.
    { intros phi HA'. exists (ewise phi X'), b, C, h, sp. split; [reflexivity|]. split; [exact Ls|]. apply agree_ewise. exact HA'. }
    destruct b as [M w out|M wH w out|st|st| |slope|erf a]; cbn [plain block_stages app] in *.
    - rewrite step_conv in *. destruct (full_forward (gm_layer M) w X H (out_grid fam mul M out rs H)) as [[Y0 o0]|] eqn:EF; [|discriminate]. cbn [bind fst snd] in E.
      pose proof (full_forward_grid _ _ _ _ _ _ _ EF) as Eo. rewrite Eo in *. injection E as <- <- <-.
      destruct (conv_local d M w X X' H _ N N' C h sp n n' l S Y0 HP Ls HA EF) as (Y' & C' & sp' & E' & L' & A'). rewrite E'. cbn [bind fst snd].
      eexists Y', _, C', _, sp'. split; [reflexivity|]. split; [exact L'|exact A'].
    - rewrite step_separable in *. destruct (separable_forward (gm_layer M) wH w X H (out_grid fam mul M out rs H)) as [[Y0 o0]|] eqn:EF; [|discriminate]. cbn [bind fst snd] in E.
      pose proof (separable_forward_grid _ _ _ _ _ _ _ _ EF) as Eo. rewrite Eo in *. injection E as <- <- <-.
      destruct (separable_local d M wH w X X' H _ N N' C h sp n n' l S Y0 HP Ls HA EF) as (Y' & C' & sp' & E' & L' & A'). rewrite E'. cbn [bind fst snd].
      eexists Y', _, C', _, sp'. split; [reflexivity|]. split; [exact L'|exact A'].
    - cbn [step] in *. destruct HA as (A1 & A2 & A3 & A4 & A5). pose proof (uses_running_bn st) as Eb. rewrite HP in Eb. cbn [negb] in Eb.
      destruct (g_batch_norm_spec H d st X N C h sp A3 Ls Hd) as (_ & B2 & B3). destruct (g_batch_norm_spec H d st X' N' C h sp A4 Ls Hd) as (_ & _ & B3').
      assert (forall K, ~ (bn_batch st = true /\ K = 1)) as NK by (intros K [Q _]; congruence).
      destruct (check_channels st C) eqn:Ech; [|rewrite (B2 (NK _) eq_refl) in E; discriminate].
      destruct (B3 (NK _) eq_refl) as (y1 & E1 & S1 & V1). destruct (B3' (NK _) eq_refl) as (y2 & E2 & S2 & V2). rewrite E1 in E. rewrite E2. cbn [bind fst snd] in *. injection E as <- <- <-.
      eexists y2, _, C, h, sp. split; [reflexivity|]. split; [exact Ls|]. split; [exact A1|]. split; [exact A2|]. split; [exact S1|]. split; [exact S2|].
      intros pre y Hp Hy HS. pose proof (A5 pre y Hp Hy HS) as AA.
      destruct (valid_inv_cons _ _ _ Hp) as (c & p1 & -> & Hc & H2). destruct (valid_inv_cons _ _ _ H2) as (g & p2 & -> & Hg & H3). apply valid_inv_nil in H3. subst p2.
      cbn [app] in *. rewrite V1, V2 by (first [assumption|apply valid_cons; assumption]). unfold bn_mean, bn_var. rewrite Eb, AA. reflexivity.
    - cbn [step] in *. pose proof (uses_running_bn st) as Eb.
      assert (agree N N' [C; h] sp X X' n n' (field l sp S) /\ (uses_running st = false -> forall y, valid sp y -> field l sp S y -> forall pre i, valid [C; h] pre -> valid sp i -> at_ X' (n' :: pre ++ i) = at_ X (n :: pre ++ i))) as [HA1 HA2].
      { destruct (uses_running st) eqn:Eu; cbn [app field] in HA; [split; [exact HA|discriminate]|]. destruct HA as (A1 & A2 & A3 & A4 & A5). split.
        - split; [exact A1|]. split; [exact A2|]. split; [exact A3|]. split; [exact A4|]. intros pre y Hp Hy HS. apply A5; try assumption. exists y. auto.
        - intros _ y Hy HS pre i Hp Hi. apply A5; try assumption. exists y. auto. }
      destruct HA1 as (A1 & A2 & A3 & A4 & A5).
      destruct (g_instance_norm_spec H d st X N C h sp A3 Ls Hd) as (B1 & B2 & B3). destruct (g_instance_norm_spec H d st X' N' C h sp A4 Ls Hd) as (_ & _ & B3').
      assert (in_rejected st C (h * prodn sp) \/ ~ in_rejected st C (h * prodn sp)) as [R|R].
      { unfold in_rejected. destruct (Nat.eq_dec C (nm_features st)), (nm_weight st), (bn_batch st), (Nat.eq_dec (h * prodn sp) 1); intuition congruence. }
      { rewrite (B1 R) in E. discriminate. }
      destruct (check_channels st C) eqn:Ech; [|rewrite (B2 R eq_refl) in E; discriminate].
      destruct (B3 R eq_refl) as (y1 & E1 & S1 & V1). destruct (B3' R eq_refl) as (y2 & E2 & S2 & V2). rewrite E1 in E. rewrite E2. cbn [bind fst snd] in *. injection E as <- <- <-.
      eexists y2, _, C, h, sp. split; [reflexivity|]. split; [exact Ls|]. split; [exact A1|]. split; [exact A2|]. split; [exact S1|]. split; [exact S2|].
      intros pre y Hp Hy HS. pose proof (A5 pre y Hp Hy HS) as AA.
      destruct (valid_inv_cons _ _ _ Hp) as (c & p1 & -> & Hc & H2). destruct (valid_inv_cons _ _ _ H2) as (g & p2 & -> & Hg & H3). apply valid_inv_nil in H3. subst p2.
      cbn [app] in *. rewrite V1, V2 by (first [assumption|apply valid_cons; assumption]). unfold bn_mean, bn_var. rewrite AA, Eb. destruct (uses_running st); cbn [negb]; [reflexivity|].
      assert (sample_values (h :: sp) X' n' c = sample_values (h :: sp) X n c) as Ev.
      { unfold sample_values. apply map_ext_in. intros z Hz. apply in_indices in Hz. destruct (valid_inv_cons _ _ _ Hz) as (e & i & -> & He & Hi).
        apply (HA2 eq_refl y Hy HS [c; e] i); [repeat apply valid_cons; auto using valid_nil|exact Hi]. }
      rewrite Ev. reflexivity.
    - cbn [step g_relu bind fst snd] in *. injection E as <- <- <-. apply KAct. exact HA.
    - cbn [step g_leaky_relu bind fst snd] in *. injection E as <- <- <-. apply KAct. exact HA.
    - cbn [step] in *. unfold g_gelu in *. destruct (gelu erf a) as [phi|]; [|discriminate]. cbn [bind fst snd] in *. injection E as <- <- <-. apply KAct. exact HA.
  Qed.

  Lemma run_local prog : forall X X' H N N' C h sp n n' S Y H1 bs, throughout fam d mul (plain fam d mul) prog X H -> length sp = d ->
    agree N N' [C; h] sp X X' n n' (field (stages d prog) sp S) -> run fam d mul prog X H = Ok (Y, H1, bs) ->
    exists Y' bs' C' h' sp', run fam d mul prog X' H = Ok (Y', H1, bs') /\ length sp' = d /\ agree N N' [C'; h'] sp' Y Y' n n' S.
  Proof using Hd.
    induction prog as [|[b rs] rest IH]; intros X X' H N N' C h sp n n' S Y H1 bs HT Ls HA E.
    - cbn [run] in *. injection E as <- <- <-. exists X', [], C, h, sp. auto.
    - cbn [throughout] in HT. destruct HT as [HT HN]. cbn [run] in *.
      destruct (step fam d mul b rs X H) as [[[Y0 H0] b0]|] eqn:ES; [|discriminate]. cbn [bind fst snd] in E.
      destruct (run fam d mul rest Y0 H0) as [[[Y1 H2] bs1]|] eqn:ER; [|discriminate]. cbn [bind fst snd] in E. injection E as <- <- <-.
      unfold stages in HA. cbn [flat_map fst] in HA. fold (stages d rest) in HA.
      destruct (step_local b rs X X' H N N' C h sp n n' (stages d rest) S Y0 H0 b0 HT Ls HA ES) as (Y0' & b0' & C0 & h0 & sp0 & E0' & L0 & A0). rewrite E0'. cbn [bind fst snd].
      destruct (IH Y0 Y0' H0 N N' C0 h0 sp0 n n' S Y1 H2 bs1 (HN Y0 H0 b0 eq_refl) L0 A0 ER) as (Y' & bs' & C' & h' & sp' & E' & L' & A'). rewrite E'. cbn [bind fst snd].
      exists Y', (b0' :: bs'), C', h', sp'. auto.
  Qed.
End Net.

(** ** Extent of the receptive field with zero padding *)
Open Scope Z_scope.
Lemma field_span l : forall sp (S : region) i j, zero_padded l -> (j < length sp)%nat ->
  Forall (fun s => match s with Window _ ks stride _ _ _ => length ks = length sp /\ length stride = length sp | Whole => True end) l ->
  field l sp S i -> exists y, S y /\ let '(s, a, r) := span j l in
    Z.of_nat (nth j y 0%nat) * Z.of_nat s - Z.of_nat a <= Z.of_nat (nth j i 0%nat) <= Z.of_nat (nth j y 0%nat) * Z.of_nat s - Z.of_nat a + Z.of_nat r.
Proof.
  induction l as [|st l IH]; intros sp S i j HZ Hj HL HF.
  - exists i. split; [exact HF|]. cbn [span]. lia.
  - inversion HZ as [|? ? Hm HZ']; subst. inversion HL as [|? ? Hl HL']; subst. destruct st as [m ks stride dil lp rp|]; [|contradiction]. subst m. destruct Hl as [Lk Lst].
    cbn [field] in HF. destruct HF as (y & Hy & HFy & x & Hx & Es). set (sz := conv_size sp ks stride dil lp rp) in *.
    assert (length sz = length sp) as Lsz by (unfold sz, conv_size; rewrite axes_length; exact Lk).
    destruct (IH sz S y j HZ') as (y0 & Hy0 & B); [lia| |exact HFy|].
    { rewrite Lsz. exact HL'. }
    exists y0. split; [exact Hy0|]. cbn [span]. destruct (span j l) as [[s a] r]. 
    destruct (sequence_axes _ _ _ 0%nat Es) as [Li V]. specialize (V j Hj). unfold read_pos in V. rewrite nth_axes in V by lia.
    unfold shown in V. destruct (Z.leb_spec 0 (Z.of_nat (nth j y 0%nat * nth j stride 0%nat + nth j x 0%nat * nth j dil 0%nat) - Z.of_nat (nth j lp 0%nat))) as [Q1|Q1]; cbn [andb] in V; [|discriminate].
    destruct (Z.ltb _ _); [|discriminate]. injection V as V. rewrite <- V, Z2Nat.id by exact Q1. clear V Q1.
    pose proof (valid_nth_lt ks x j Hx ltac:(lia)) as Bx.
    set (yy := nth j y 0%nat) in *. set (xx := nth j x 0%nat) in *. set (q := nth j stride 0%nat) in *. set (t := nth j dil 0%nat) in *. set (kk := nth j ks 0%nat) in *.
    assert (xx * t <= t * (kk - 1))%nat as Bt by (rewrite (Nat.mul_comm t); apply Nat.mul_le_mono_r; lia).
    rewrite !Nat2Z.inj_add, !Nat2Z.inj_mul. rewrite Nat2Z.inj_sub in * by lia.
    set (A := Z.of_nat (nth j y0 0%nat) * Z.of_nat s) in *. set (LL := Z.of_nat (nth j lp 0%nat)).
    replace (Z.of_nat (nth j y0 0%nat) * (Z.of_nat s * Z.of_nat q)) with (A * Z.of_nat q) by (unfold A; ring).
    assert (Z.of_nat (xx * t) <= Z.of_nat (t * (kk - 1))) as Bz by lia. rewrite !Nat2Z.inj_mul in Bz. rewrite Nat2Z.inj_sub in Bz by lia.
    pose proof (Nat2Z.is_nonneg q) as Hq. pose proof (Z.mul_le_mono_nonneg_r _ _ _ Hq (proj1 B)) as B1. pose proof (Z.mul_le_mono_nonneg_r _ _ _ Hq (proj2 B)) as B2.
    pose proof (Z.mul_nonneg_nonneg (Z.of_nat xx) (Z.of_nat t) ltac:(lia) ltac:(lia)) as B3.
    rewrite Z.mul_sub_distr_r in B1. rewrite Z.mul_add_distr_r, Z.mul_sub_distr_r in B2. lia.
Qed.

Open Scope nat_scope.
Section Lengths.
  Context {G P : Type} {D : Dflt P} (fam : family) (d : nat) (mul : G -> G -> G).
  Definition stage_lengths (s : stage) : Prop := match s with Window _ ks stride _ _ _ => length ks = d /\ length stride = d | Whole => True end.
  Lemma layer_stage_lengths (L : gconv G P) cin cout ks k groups stride padding dil m bias : constructed d L cin cout ks k groups stride padding dil m bias ->
    stage_lengths (layer_stage L) /\ stage_lengths (point_stage d L).
  Proof using.
    intros Hc. destruct (constructed_spec _ _ _ _ _ _ _ _ _ _ _ _ Hc) as (_ & _ & _ & _ & _ & Eks & _ & Es & _).
    destruct (con_lengths d L cin cout ks k groups stride padding dil m bias Hc) as (Lst & Lks & _). cbn [stage_lengths layer_stage point_stage]. rewrite Eks, Es, repeat_length. auto.
  Qed.
  Lemma run_lengths prog : forall X H r, throughout fam d mul (plain fam d mul) prog X H -> run fam d mul prog X H = Ok r -> Forall stage_lengths (stages d prog).
  Proof using.
    induction prog as [|[b rs] rest IH]; intros X H r HT E; [constructor|]. cbn [throughout] in HT. destruct HT as [HT HN]. cbn [run] in E.
    destruct (step fam d mul b rs X H) as [[[Y0 H0] b0]|] eqn:ES; [|discriminate]. cbn [bind fst snd] in E.
    destruct (run fam d mul rest Y0 H0) as [q|] eqn:ER; [|discriminate]. pose proof (IH Y0 H0 q (HN Y0 H0 b0 eq_refl) ER) as F.
    unfold stages. cbn [flat_map fst]. apply Forall_app. split; [|exact F].
    destruct b as [M w out|M wH w out|st|st| |slope|erf a]; cbn [block_stages plain] in *; try constructor.
    - destruct HT as (cin & cout & ks & k & groups & stride & padding & dil & m & bias & W & N & sp & Hc & _). apply (layer_stage_lengths _ _ _ _ _ _ _ _ _ _ _ Hc).
    - constructor.
    - destruct HT as (cin & cout & ks & k & groups & stride & padding & dil & m & bias & WH & WS & N & sp & Hc & _). apply (layer_stage_lengths _ _ _ _ _ _ _ _ _ _ _ Hc).
    - destruct HT as (cin & cout & ks & k & groups & stride & padding & dil & m & bias & WH & WS & N & sp & Hc & _). constructor; [|constructor]. apply (layer_stage_lengths _ _ _ _ _ _ _ _ _ _ _ Hc).
    - destruct (uses_running st); repeat constructor.
  Qed.
End Lengths.
