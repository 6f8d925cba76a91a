(** Proofs: changes of the input are enlarged at most by the gain. *)
From Coq Require Import String ZArith Lra.
From Verif Require Import Prelude RMath Mat Repulse RepulseFacts Tensor TensorFacts Kernel KernelFacts Conv ConvSpec ConvFacts GConvFacts ConvInit ConvShift SepProduct SepConvFacts SepStages EquiKernel Regrid
  Layers LayersSpec LayersFacts NormFacts Public PublicFacts Network NetworkCond Prop_Conv Prop_Layers NetFacts LocalSpec LocalFacts StableSpec GeluFacts.
Open Scope R_scope.

Lemma sum_close {A} (w u v : A -> R) (l : list A) e : 0 <= e -> (forall a, In a l -> Rabs (v a - u a) <= e) ->
  Rabs (sumR (map (fun a => w a * v a) l) - sumR (map (fun a => w a * u a) l)) <= sumR (map (fun a => Rabs (w a)) l) * e.
Proof.
  intros He. induction l as [|a l IH]; intros H; cbn [map sumR].
  - rewrite Rminus_0_r, Rabs_R0. lra.
  - specialize (IH (fun b Hb => H b (or_intror Hb))). pose proof (H a (or_introl eq_refl)) as Ha.
    set (s := sumR _) in *. set (t := sumR (map (fun a => w a * u a) l)) in *. set (q := sumR (map (fun a => Rabs (w a)) l)) in *.
    replace (w a * v a + s - (w a * u a + t)) with (w a * (v a - u a) + (s - t)) by ring. eapply Rle_trans; [apply Rabs_triang|]. rewrite Rabs_mult, Rmult_plus_distr_r.
    apply Rplus_le_compat; [|exact IH]. apply Rmult_le_compat_l; [apply Rabs_pos|exact Ha].
Qed.
Lemma sums_close {A} (f g q : A -> R) (l : list A) e : (forall a, In a l -> Rabs (g a - f a) <= q a * e) ->
  Rabs (sumR (map g l) - sumR (map f l)) <= sumR (map q l) * e.
Proof.
  induction l as [|a l IH]; intros H; cbn [map sumR].
  - rewrite Rminus_0_r, Rabs_R0. lra.
  - specialize (IH (fun b Hb => H b (or_intror Hb))). pose proof (H a (or_introl eq_refl)) as Ha.
    replace (g a + sumR (map g l) - (f a + sumR (map f l))) with (g a - f a + (sumR (map g l) - sumR (map f l))) by ring. eapply Rle_trans; [apply Rabs_triang|]. rewrite Rmult_plus_distr_r. lra.
Qed.

Lemma image_at_close m sp ks stride dil left right (t t' : tensor R) pre y x e :
  fits m sp ks stride dil left right -> length stride = length ks -> length sp = length ks ->
  valid (conv_size sp ks stride dil left right) y -> valid ks x -> 0 <= e ->
  (forall i, valid sp i -> Rabs (at_ t' (pre ++ i) - at_ t (pre ++ i)) <= e) ->
  Rabs (image_at m t' sp pre (read_pos stride dil left y x) - image_at m t sp pre (read_pos stride dil left y x)) <= e.
Proof.
  intros F Ls Lsp Hy Hx He E. unfold image_at. destruct (sequence _) as [i|] eqn:Es; [|rewrite Rminus_0_r, Rabs_R0; exact He]. apply E.
  destruct (sequence_axes _ _ _ 0%nat Es) as [L V]. apply valid_nth. split; [exact L|]. intros j Hj. specialize (V j Hj).
  rewrite Lsp in Hj. unfold read_pos in V. rewrite nth_axes in V by (rewrite Ls; exact Hj).
  exact (shown_lt _ _ _ _ _ _ (fits_pad_ok _ _ _ _ _ _ _ _ F Hj) (read_inside _ _ _ _ _ _ _ _ _ _ F Ls Hy Hx Hj) V).
Qed.

Lemma close_at e X X' s : close e X X' -> has_shape X s -> has_shape X' s /\ forall i, valid s i -> Rabs (at_ X' i - at_ X i) <= e.
Proof. intros (s0 & A & B & C) H. rewrite (has_shape_inj _ _ _ H A). auto. Qed.

Section Calls.
  Context {G P : Type} {D : Dflt P} (d : nat).

  Lemma lifting_stable (M : gmodule G P) w X X' o c e Y : lifting_gain d M w X o c -> 0 <= e -> close e X X' ->
    lifting_forward (gm_layer M) w X o = Ok (Y, o) ->
    exists Y', lifting_forward (gm_layer M) w X' o = Ok (Y', o) /\ close (c * e) Y Y' /\ exists N C sp, length sp = d /\ has_shape Y (N :: C :: length o :: sp).
  Proof using.
    intros (cin & cout & ks & k & groups & stride & padding & dil & m & bias & W & N & sp & Hc & Ho & HK & HW & HX & Lsp & Hgain) He HA E.
    destruct (close_at _ _ _ _ HA HX) as [HX' HV].
    destruct (constructed_spec _ _ _ _ _ _ _ _ _ _ _ _ Hc) as (HL & _ & _ & _ & _ & Eks & _ & Es & Ep & Ed & Em & _ & Hlen & _).
    destruct (con_lengths d (gm_layer M) cin cout ks k groups stride padding dil m bias Hc) as (Lst & _ & Hch).
    pose proof (C45_lifting_convolution _ _ D _ _ _ _ _ _ _ _ _ _ _ _ _ _ _ _ _ _ Hc Ho HK HW HX Lsp) as [A B].
    pose proof (C45_lifting_convolution _ _ D _ _ _ _ _ _ _ _ _ _ _ _ _ _ _ _ _ _ Hc Ho HK HW HX' Lsp) as [A' _]. cbv zeta in A, B, A'.
    set (left := lefts (stored_padding d padding) ks dil) in *. set (right := rights (stored_padding d padding) ks dil) in *.
    destruct (fits_em m sp ks stride dil left right) as [F|F]; [|rewrite (B F) in E; discriminate].
    destruct (A F) as (x & Ex & Sx & Vx). rewrite Ex in E. injection E as <-. destruct (A' F) as (x' & Ex' & Sx' & Vx').
    exists x'. split; [exact Ex'|]. split; [|exists N, cout, (conv_size sp ks stride dil left right); split; [unfold conv_size; rewrite axes_length; exact Hlen|exact Sx]].
    eexists. split; [exact Sx|]. split; [exact Sx'|]. intros i Hi.
    destruct (valid_inv_cons _ _ _ Hi) as (n & p0 & -> & Hn & H0). destruct (valid_inv_cons _ _ _ H0) as (q & p1 & -> & Hq & H1). destruct (valid_inv_cons _ _ _ H1) as (g & y & -> & Hg & Hy).
    rewrite Vx, Vx' by assumption. replace (_ + bias_value d bias q - (_ + bias_value d bias q)) with
      (sumR (map (fun c0 => sumR (map (fun x0 => at_ W (q :: g :: c0 :: x0) * image_at m X' sp [n; (q / (cout / groups) * (cin / groups) + c0)%nat] (read_pos stride dil left y x0)) (indices ks))) (seq 0 (cin / groups))) -
       sumR (map (fun c0 => sumR (map (fun x0 => at_ W (q :: g :: c0 :: x0) * image_at m X sp [n; (q / (cout / groups) * (cin / groups) + c0)%nat] (read_pos stride dil left y x0)) (indices ks))) (seq 0 (cin / groups)))) by ring.
    eapply Rle_trans; [|apply Rmult_le_compat_r; [exact He|exact (Hgain q g Hq Hg)]]. unfold lifting_row. change total with sumR.
    apply sums_close. intros c0 Hc0. apply in_seq in Hc0. apply sum_close; [exact He|]. intros x0 Hx0. apply in_indices in Hx0.
    apply (image_at_close m sp ks stride dil left right); try assumption; try congruence. intros i Hi0.
    apply HV. cbn [app]. apply valid_cons; [exact Hn|]. apply valid_cons; [apply Hch; [exact Hq|lia]|exact Hi0].
  Qed.

  Lemma conv_stable (M : gmodule G P) w X X' H o c e Y : conv_gain d M w X H o c -> 0 <= e -> close e X X' ->
    full_forward (gm_layer M) w X H o = Ok (Y, o) ->
    exists Y', full_forward (gm_layer M) w X' H o = Ok (Y', o) /\ close (c * e) Y Y' /\ exists N C sp, length sp = d /\ has_shape Y (N :: C :: length o :: sp).
  Proof using.
    intros (cin & cout & ks & k & groups & stride & padding & dil & m & bias & W & N & sp & Hc & Ho & HK & HW & HX & Lsp & Hgain) He HA E.
    destruct (close_at _ _ _ _ HA HX) as [HX' HV].
    destruct (constructed_spec _ _ _ _ _ _ _ _ _ _ _ _ Hc) as (HL & _ & _ & _ & _ & Eks & _ & Es & Ep & Ed & Em & _ & Hlen & _).
    destruct (con_lengths d (gm_layer M) cin cout ks k groups stride padding dil m bias Hc) as (Lst & _ & Hch).
    pose proof (C46_group_convolution _ _ D _ _ _ _ _ _ _ _ _ _ _ _ _ _ _ _ _ _ _ Hc Ho HK HW HX Lsp) as [A B].
    pose proof (C46_group_convolution _ _ D _ _ _ _ _ _ _ _ _ _ _ _ _ _ _ _ _ _ _ Hc Ho HK HW HX' Lsp) as [A' _]. cbv zeta in A, B, A'.
    set (left := lefts (stored_padding d padding) ks dil) in *. set (right := rights (stored_padding d padding) ks dil) in *.
    destruct (fits_em m sp ks stride dil left right) as [F|F]; [|rewrite (B F) in E; discriminate].
    destruct (A F) as (x & Ex & Sx & Vx). rewrite Ex in E. injection E as <-. destruct (A' F) as (x' & Ex' & Sx' & Vx').
    exists x'. split; [exact Ex'|]. split; [|exists N, cout, (conv_size sp ks stride dil left right); split; [unfold conv_size; rewrite axes_length; exact Hlen|exact Sx]].
    eexists. split; [exact Sx|]. split; [exact Sx'|]. intros i Hi.
    destruct (valid_inv_cons _ _ _ Hi) as (n & p0 & -> & Hn & H0). destruct (valid_inv_cons _ _ _ H0) as (q & p1 & -> & Hq & H1). destruct (valid_inv_cons _ _ _ H1) as (g & y & -> & Hg & Hy).
    rewrite Vx, Vx' by assumption.
    match goal with |- Rabs (?a + ?b - (?c + ?b)) <= _ => replace (a + b - (c + b)) with (a - c) by ring end.
    eapply Rle_trans; [|apply Rmult_le_compat_r; [exact He|exact (Hgain q g Hq Hg)]]. unfold group_row. change total with sumR.
    apply sums_close. intros c0 Hc0. apply in_seq in Hc0. apply sums_close. intros h Hh. apply in_seq in Hh. apply sum_close; [exact He|]. intros x0 Hx0. apply in_indices in Hx0.
    apply (image_at_close m sp ks stride dil left right); try assumption; try congruence. intros i Hi0.
    apply HV. cbn [app]. apply valid_cons; [exact Hn|]. apply valid_cons; [apply Hch; [exact Hq|lia]|]. apply valid_cons; [lia|exact Hi0].
  Qed.

  Lemma separable_stable (M : gmodule G P) wH w X X' H o c e Y : separable_gain d M wH w X H o c -> 0 <= e -> close e X X' ->
    separable_forward (gm_layer M) wH w X H o = Ok (Y, o) ->
    exists Y', separable_forward (gm_layer M) wH w X' H o = Ok (Y', o) /\ close (c * e) Y Y' /\ exists N C sp, length sp = d /\ has_shape Y (N :: C :: length o :: sp).
  Proof using.
    intros (cin & cout & ks & k & groups & stride & padding & dil & m & bias & WH & WS & N & sp & c1 & c2 & Hc & Ho & HK & HW1 & HW2 & HX & Lsp & Hc1 & -> & Hgain) He HA E.
    destruct (close_at _ _ _ _ HA HX) as [HX' HV].
    destruct (constructed_spec _ _ _ _ _ _ _ _ _ _ _ _ Hc) as (HL & _ & _ & _ & _ & Eks & _ & Es & Ep & Ed & Em & _ & Hlen & _).
    destruct (con_lengths d (gm_layer M) cin cout ks k groups stride padding dil m bias Hc) as (Lst & _ & Hch).
    pose proof (separable_two_stage _ _ D _ _ _ _ _ _ _ _ _ _ _ _ _ _ _ _ _ _ _ _ _ Hc Ho HK HW1 HW2 HX Lsp) as [A B].
    pose proof (separable_two_stage _ _ D _ _ _ _ _ _ _ _ _ _ _ _ _ _ _ _ _ _ _ _ _ Hc Ho HK HW1 HW2 HX' Lsp) as [A' _]. cbv zeta in A, B, A'.
    set (ks1 := match m with Zeros => repeat 1%nat d | _ => ks end) in *.
    set (left1 := lefts (stored_padding d padding) ks1 dil) in *. set (right1 := rights (stored_padding d padding) ks1 dil) in *.
    set (left := lefts (stored_padding d padding) ks dil) in *. set (right := rights (stored_padding d padding) ks dil) in *.
    set (size1 := conv_size sp (repeat 1%nat d) stride dil left1 right1) in *.
    destruct (fits_em m sp (repeat 1%nat d) stride dil left1 right1) as [F1|F1]; [|rewrite B in E by tauto; discriminate].
    destruct (fits_em m size1 ks stride dil left right) as [F2|F2]; [|rewrite B in E by tauto; discriminate].
    destruct (A F1 F2) as (mid & x & Ex & Smid & Sx & Vm & Vx). rewrite Ex in E. injection E as <-. destruct (A' F1 F2) as (mid' & x' & Ex' & Smid' & Sx' & Vm' & Vx').
    pose proof (repeat_length 1%nat d) as L1.
    assert (length size1 = d) as Lsz by (unfold size1, conv_size; rewrite axes_length; exact L1).
    exists x'. split; [exact Ex'|]. split; [|exists N, cout, (conv_size size1 ks stride dil left right); split; [unfold conv_size; rewrite axes_length; exact Hlen|exact Sx]].
    eexists. split; [exact Sx|]. split; [exact Sx'|].
    assert (valid (repeat 1%nat d) (repeat 0%nat d)) as Hv0.
    { clear. induction d as [|n IH]; cbn [repeat]; [apply valid_nil|apply valid_cons; [lia|exact IH]]. }
    intros i Hi. destruct (valid_inv_cons _ _ _ Hi) as (n & p0 & -> & Hn & H0). destruct (valid_inv_cons _ _ _ H0) as (q & p1 & -> & Hq & H1). destruct (valid_inv_cons _ _ _ H1) as (g & y & -> & Hg & Hy).
    rewrite Vx, Vx' by assumption. destruct (Hgain q g Hq Hg) as [G1 G2].
    match goal with |- Rabs (?a + ?b - (?c + ?b)) <= _ => replace (a + b - (c + b)) with (a - c) by ring end.
    rewrite (Rmult_comm c1), Rmult_assoc. assert (0 <= c1 * e) as He1 by (apply Rmult_le_pos; assumption).
    eapply Rle_trans; [|apply Rmult_le_compat_r; [exact He1|exact G2]]. unfold spatial_row. change total with sumR.
    apply sum_close; [exact He1|]. intros x0 Hx0. apply in_indices in Hx0.
    apply (image_at_close m size1 ks stride dil left right); try assumption; try congruence. intros i Hi0.
    cbn [app]. rewrite Vm, Vm' by assumption.
    eapply Rle_trans; [|apply Rmult_le_compat_r; [exact He|exact G1]]. unfold point_row. change total with sumR.
    apply sums_close. intros c0 Hc0. apply in_seq in Hc0. apply sum_close; [exact He|]. intros h Hh. apply in_seq in Hh.
    apply (image_at_close m sp (repeat 1%nat d) stride dil left1 right1); try assumption; try congruence. intros i0 Hi1.
    apply HV. cbn [app]. apply valid_cons; [exact Hn|]. apply valid_cons; [apply Hch; [exact Hq|lia]|]. apply valid_cons; [lia|exact Hi1].
  Qed.
End Calls.

Lemma close_ewise phi c e X X' s : (forall x y, Rabs (phi x - phi y) <= c * Rabs (x - y)) -> 0 <= c -> has_shape X s -> close e X X' -> close (c * e) (ewise phi X) (ewise phi X').
Proof.
  intros Hp Hc HX HA. destruct (close_at _ _ _ _ HA HX) as [HX' HV]. exists s. split; [apply ewise_shape; exact HX|]. split; [apply ewise_shape; exact HX'|].
  intros i Hi. rewrite (at_ewise phi X' s), (at_ewise phi X s) by assumption. eapply Rle_trans; [apply Hp|]. apply Rmult_le_compat_l; [exact Hc|apply HV; exact Hi].
Qed.
Lemma relu_lipschitz c x y : 1 <= c -> Rabs (relu x - relu y) <= c * Rabs (x - y).
Proof.
  intros Hc. apply Rle_trans with (1 * Rabs (x - y)); [rewrite Rmult_1_l|apply Rmult_le_compat_r; [apply Rabs_pos|exact Hc]].
  unfold relu, Rmax. destruct (Rle_dec x 0), (Rle_dec y 0); unfold Rabs; repeat destruct Rcase_abs; lra.
Qed.
Lemma leaky_lipschitz slope c x y : 1 <= c -> Rabs slope <= c -> Rabs (leaky_relu slope x - leaky_relu slope y) <= c * Rabs (x - y).
Proof.
  intros Hc Hs. unfold leaky_relu.
  assert (forall a b, 0 < a -> b <= 0 -> Rabs (a - slope * b) <= c * Rabs (a - b)) as K.
  { intros a b Ha Hb. rewrite (Rabs_right (a - b)) by lra. eapply Rle_trans; [apply Rabs_triang|]. rewrite Rabs_Ropp, Rabs_mult, (Rabs_right a) by lra. rewrite (Rabs_left1 b) by lra.
    rewrite Rmult_minus_distr_l. assert (1 * a <= c * a) by (apply Rmult_le_compat_r; lra). assert (Rabs slope * - b <= c * - b) by (apply Rmult_le_compat_r; lra). lra. }
  destruct (Rlt_dec 0 x) as [Hx|Hx], (Rlt_dec 0 y) as [Hy|Hy].
  - rewrite <- (Rmult_1_l (Rabs (x - y))) at 1. apply Rmult_le_compat_r; [apply Rabs_pos|exact Hc].
  - apply K; lra.
  - rewrite Rabs_minus_sym, (Rabs_minus_sym x y). apply K; lra.
  - rewrite <- Rmult_minus_distr_l, Rabs_mult. apply Rmult_le_compat_r; [apply Rabs_pos|exact Hs].
Qed.
Lemma gelu_lipschitz erf a phi x y : (a = "none"%string -> error_function erf) -> gelu erf a = Ok phi -> Rabs (phi x - phi y) <= 2 * Rabs (x - y).
Proof.
  intros He E. unfold gelu in E. destruct (String.eqb_spec a "none") as [Ea|_]; [injection E as <-; apply gelu_exact_lipschitz; exact (He Ea)|].
  destruct (String.eqb a "tanh"); [injection E as <-; apply gelu_tanh_lipschitz|discriminate].
Qed.
Lemma norm_close s c x y mu : uses_running s = true ->
  Rabs (affine1 (nm_weight s) (nm_bias s) c (normalized x mu (nth c (olist (nm_var s)) 0) (nm_eps s)) - affine1 (nm_weight s) (nm_bias s) c (normalized y mu (nth c (olist (nm_var s)) 0) (nm_eps s)))
  = Rabs (norm_factor s c) * Rabs (x - y).
Proof.
  intros Hr. rewrite <- Rabs_mult. unfold norm_factor, affine1, normalized, olist.
  assert (match nm_var s with Some v => nth c v 0 | None => 0 end = nth c (match nm_var s with Some l => l | None => [] end) 0) as -> by (destruct (nm_var s); [reflexivity|destruct c; reflexivity]).
  set (q := sqrt _). destruct (nm_weight s), (nm_bias s); f_equal; unfold Rdiv; ring.
Qed.

Lemma in_rejected_em s C n : in_rejected s C n \/ ~ in_rejected s C n.
Proof. unfold in_rejected. destruct (Nat.eq_dec C (nm_features s)), (nm_weight s), (bn_batch s), (Nat.eq_dec n 1); intuition congruence. Qed.

Section Net.
  Context {G P : Type} {D : Dflt P} (fam : family) (d : nat) (mul : G -> G -> G) (Hd : (0 < d)%nat).

  (** A feature map with d spatial axes. *)
  Definition feature (X : tensor R) : Prop := exists N C h sp, length sp = d /\ has_shape X (N :: C :: h :: sp).

  Lemma step_stable b rs X X' H c e Y H1 b1 : gain fam d mul b rs X H c -> feature X -> 0 <= e -> close e X X' -> step fam d mul b rs X H = Ok (Y, H1, b1) ->
    exists Y' b1', step fam d mul b rs X' H = Ok (Y', H1, b1') /\ close (c * e) Y Y' /\ feature Y.
  Proof using Hd.
    intros [Hc HP] (N & C & h & sp & Ls & HX) He HA E. destruct (close_at _ _ _ _ HA HX) as [HX' HV].
    assert (forall phi, (forall x y, Rabs (phi x - phi y) <= c * Rabs (x - y)) -> exists Y' b1', Ok (ewise phi X', H, b) = Ok (Y', H, b1') /\ close (c * e) (ewise phi X) Y' /\ feature (ewise phi X)) as KAct.
    { intros phi Hphi. exists (ewise phi X'), b. split; [reflexivity|]. split; [exact (close_ewise phi c e X X' _ Hphi Hc HX HA)|]. exists N, C, h, sp. split; [exact Ls|]. apply ewise_shape. exact HX. }
    destruct b as [M w out|M wH w out|st|st| |slope|erf a].
    - rewrite step_conv in *. destruct (full_forward (gm_layer M) w X H (out_grid fam mul M out rs H)) as [[Y0 o0]|] eqn:EF; [|discriminate]. cbn [bind fst snd] in E.
      pose proof (full_forward_grid _ _ _ _ _ _ _ EF) as Eo. rewrite Eo in *. injection E as <- <- <-.
      destruct (conv_stable d M w X X' H _ c e Y0 HP He HA EF) as (Y' & E' & A' & N1 & C1 & sp1 & L1 & S1). rewrite E'. cbn [bind fst snd].
      eexists Y', _. split; [reflexivity|]. split; [exact A'|]. eexists N1, C1, _, sp1. split; [exact L1|exact S1].
    - rewrite step_separable in *. destruct (separable_forward (gm_layer M) wH w X H (out_grid fam mul M out rs H)) as [[Y0 o0]|] eqn:EF; [|discriminate]. cbn [bind fst snd] in E.
      pose proof (separable_forward_grid _ _ _ _ _ _ _ _ EF) as Eo. rewrite Eo in *. injection E as <- <- <-.
      destruct (separable_stable d M wH w X X' H _ c e Y0 HP He HA EF) as (Y' & E' & A' & N1 & C1 & sp1 & L1 & S1). rewrite E'. cbn [bind fst snd].
      eexists Y', _. split; [reflexivity|]. split; [exact A'|]. eexists N1, C1, _, sp1. split; [exact L1|exact S1].
    - destruct HP as [Hr Hf]. rewrite (proj1 HX) in Hf. cbn [nth] in Hf. cbn [step] in *. pose proof (uses_running_bn st) as Eb. rewrite Hr in Eb. cbn [negb] in Eb.
      destruct (g_batch_norm_spec H d st X N C h sp HX Ls Hd) as (_ & B2 & B3). destruct (g_batch_norm_spec H d st X' N C h sp HX' Ls Hd) as (_ & _ & B3').
      assert (forall K, ~ (bn_batch st = true /\ K = 1%nat)) as NK by (intros K [Q _]; congruence).
      destruct (check_channels st C) eqn:Ech; [|rewrite (B2 (NK _) eq_refl) in E; discriminate].
      destruct (B3 (NK _) eq_refl) as (y1 & E1 & S1 & V1). destruct (B3' (NK _) eq_refl) as (y2 & E2 & S2 & V2). rewrite E1 in E. rewrite E2. cbn [bind fst snd] in *. injection E as <- <- <-.
      eexists y2, _. split; [reflexivity|]. split; [|exists N, C, h, sp; split; [exact Ls|exact S1]]. eexists. split; [exact S1|]. split; [exact S2|].
      intros i Hi. pose proof (HV i Hi) as HVi. destruct (valid_inv_cons _ _ _ Hi) as (n & p0 & -> & Hn & H0). destruct (valid_inv_cons _ _ _ H0) as (q & p1 & -> & Hq & Hp1).
      rewrite V1, V2 by assumption. unfold bn_mean, bn_var. rewrite Eb. rewrite (norm_close st q _ _ _ Hr).
      apply Rmult_le_compat; [apply Rabs_pos|apply Rabs_pos|apply Hf; exact Hq|exact HVi].
    - destruct HP as [Hr Hf]. rewrite (proj1 HX) in Hf. cbn [nth] in Hf. cbn [step] in *. pose proof (uses_running_bn st) as Eb. rewrite Hr in Eb. cbn [negb] in Eb.
      destruct (g_instance_norm_spec H d st X N C h sp HX Ls Hd) as (B1 & B2 & B3). destruct (g_instance_norm_spec H d st X' N C h sp HX' Ls Hd) as (_ & _ & B3').
      assert (in_rejected st C (h * prodn sp) \/ ~ in_rejected st C (h * prodn sp)) as [R|R].
      { apply in_rejected_em. }
      { rewrite (B1 R) in E. discriminate. }
      destruct (check_channels st C) eqn:Ech; [|rewrite (B2 R eq_refl) in E; discriminate].
      destruct (B3 R eq_refl) as (y1 & E1 & S1 & V1). destruct (B3' R eq_refl) as (y2 & E2 & S2 & V2). rewrite E1 in E. rewrite E2. cbn [bind fst snd] in *. injection E as <- <- <-.
      eexists y2, _. split; [reflexivity|]. split; [|exists N, C, h, sp; split; [exact Ls|exact S1]]. eexists. split; [exact S1|]. split; [exact S2|].
      intros i Hi. pose proof (HV i Hi) as HVi. destruct (valid_inv_cons _ _ _ Hi) as (n & p0 & -> & Hn & H0). destruct (valid_inv_cons _ _ _ H0) as (q & p1 & -> & Hq & Hp1).
      rewrite V1, V2 by assumption. unfold bn_mean, bn_var. rewrite Eb. rewrite (norm_close st q _ _ _ Hr).
      apply Rmult_le_compat; [apply Rabs_pos|apply Rabs_pos|apply Hf; exact Hq|exact HVi].
    - cbn [step g_relu bind fst snd] in *. injection E as <- <- <-. apply KAct. intros x y. apply relu_lipschitz. exact HP.
    - cbn [step g_leaky_relu bind fst snd] in *. injection E as <- <- <-. apply KAct. intros x y. apply leaky_lipschitz; apply HP.
    - cbn [step] in *. unfold g_gelu in *. destruct (gelu erf a) as [phi|] eqn:Eg; [|discriminate]. cbn [bind fst snd] in *. injection E as <- <- <-. apply KAct. intros x y.
      eapply Rle_trans; [exact (gelu_lipschitz erf a phi x y (proj2 HP) Eg)|]. apply Rmult_le_compat_r; [apply Rabs_pos|exact (proj1 HP)].
  Qed.

  Lemma run_stable prog : forall X X' H c e Y H1 bs, total_gain fam d mul prog X H c -> feature X -> 0 <= e -> close e X X' -> run fam d mul prog X H = Ok (Y, H1, bs) ->
    exists Y' bs', run fam d mul prog X' H = Ok (Y', H1, bs') /\ close (c * e) Y Y' /\ feature Y.
  Proof using Hd.
    induction prog as [|[b rs] rest IH]; intros X X' H c e Y H1 bs HG HF He HA E; cbn [run total_gain] in *.
    - injection E as <- <- <-. exists X', []. split; [reflexivity|]. split; [|exact HF]. destruct HA as (s & A & B & V). exists s. split; [exact A|]. split; [exact B|]. intros i Hi.
      eapply Rle_trans; [exact (V i Hi)|]. rewrite <- (Rmult_1_l e) at 1. apply Rmult_le_compat_r; assumption.
    - destruct HG as (c1 & c2 & -> & HG & HN).
      destruct (step fam d mul b rs X H) as [[[Y0 H0] b0]|] eqn:ES; [|discriminate]. cbn [bind fst snd] in E.
      destruct (run fam d mul rest Y0 H0) as [[[Y1 H2] bs1]|] eqn:ER; [|discriminate]. cbn [bind fst snd] in E. injection E as <- <- <-.
      destruct (step_stable b rs X X' H c1 e Y0 H0 b0 HG HF He HA ES) as (Y0' & b0' & E0' & A0 & F0). rewrite E0'. cbn [bind fst snd].
      destruct (IH Y0 Y0' H0 c2 (c1 * e) Y1 H2 bs1 (HN Y0 H0 b0 eq_refl) F0 ltac:(apply Rmult_le_pos; [exact (proj1 HG)|exact He]) A0 ER) as (Y' & bs' & E' & A' & F'). rewrite E'. cbn [bind fst snd].
      exists Y', (b0' :: bs'). split; [reflexivity|]. split; [|exact F']. replace (c1 * c2 * e) with (c2 * (c1 * e)) by ring. exact A'.
  Qed.
End Net.
