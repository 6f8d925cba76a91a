(** Outputs of a lifting layer at two group elements whose kernels are close. *)
From Coq Require Import String ZArith Lra.
From Verif Require Import Prelude RMath Mat Repulse RepulseFacts Tensor TensorFacts Functional FunctionalFacts SampleRn SO2 O2 SO3 SO3Euler O3 Kernel KernelFacts GroupKernelFacts Conv ConvSpec ConvFacts GConvFacts ConvInit ConvShift Prop_Kernel Prop_Conv Regrid
  SepProduct SepConvFacts StableFacts Equi SignedPerm EquiSpec EquiSpecFacts EquiLayer EquiKernel EquiGroups NormFacts LocalFacts LipFacts.
Open Scope R_scope.

Lemma image_at_abs m sp ks stride dil left right (t : tensor R) pre y x B :
  fits m sp ks stride dil left right -> length stride = length ks -> length sp = length ks ->
  valid (conv_size sp ks stride dil left right) y -> valid ks x -> 0 <= B ->
  (forall i, valid sp i -> Rabs (at_ t (pre ++ i)) <= B) ->
  Rabs (image_at m t sp pre (read_pos stride dil left y x)) <= B.
Proof.
  intros F Ls Lsp Hy Hx He E. unfold image_at. destruct (sequence _) as [i|] eqn:Es; [|rewrite Rabs_R0; exact He]. apply E.
  destruct (sequence_axes _ _ _ 0%nat Es) as [L V]. apply valid_nth. split; [exact L|]. intros j Hj. specialize (V j Hj).
  rewrite Lsp in Hj. unfold read_pos in V. rewrite nth_axes in V by (rewrite Ls; exact Hj).
  exact (shown_lt _ _ _ _ _ _ (fits_pad_ok _ _ _ _ _ _ _ _ F Hj) (read_inside _ _ _ _ _ _ _ _ _ _ F Ls Hy Hx Hj) V).
Qed.

Lemma sum_diff {A} (f g : A -> R) (l : list A) e : (forall a, In a l -> Rabs (f a - g a) <= e) -> Rabs (sumR (map f l) - sumR (map g l)) <= INR (List.length l) * e.
Proof.
  induction l as [|a l IH]; intros H.
  - cbn [map sumR List.length INR]. rewrite Rminus_0_r, Rabs_R0. lra.
  - cbn [map sumR]. specialize (IH (fun b Hb => H b (or_intror Hb))). pose proof (H a (or_introl eq_refl)) as Ha. cbn [List.length]. rewrite S_INR.
    replace (f a + sumR (map f l) - (g a + sumR (map g l))) with ((f a - g a) + (sumR (map f l) - sumR (map g l))) by ring.
    eapply Rle_trans; [apply Rabs_triang|]. lra.
Qed.

Section Layer.
  Context {G P : Type} {D : Dflt P} (d : nat).
  Lemma lifting_layer_close (L : gconv G P) cin cout ks k groups stride padding dil m bias w W W' (X : tensor R) N sp (H H' : list G) Y Y' e e' E B :
    constructed d L cin cout ks k groups stride padding dil m bias ->
    lifting_kernel_forward k w H = Ok W -> has_shape W (cout :: length H :: cin / groups :: ks)%nat ->
    lifting_kernel_forward k w H' = Ok W' -> has_shape W' (cout :: length H' :: cin / groups :: ks)%nat ->
    has_shape X (N :: cin :: sp) -> length sp = d -> (e < length H)%nat -> (e' < length H')%nat ->
    0 <= E -> 0 <= B -> (forall i, valid (N :: cin :: sp) i -> Rabs (at_ X i) <= B) ->
    (forall o c x, (o < cout)%nat -> (c < cin / groups)%nat -> valid ks x -> Rabs (at_ W (o :: e :: c :: x) - at_ W' (o :: e' :: c :: x)) <= E) ->
    lifting_forward L w X H = Ok (Y, H) -> lifting_forward L w X H' = Ok (Y', H') ->
    exists size, has_shape Y (N :: cout :: length H :: size) /\ has_shape Y' (N :: cout :: length H' :: size) /\ length size = d /\
      forall n o y, (n < N)%nat -> (o < cout)%nat -> valid size y ->
        Rabs (at_ Y (n :: o :: e :: y) - at_ Y' (n :: o :: e' :: y)) <= INR (cin / groups) * (INR (prodn ks) * (E * B)).
  Proof using.
    intros Hc HK HW HK' HW' HX Lsp He He' HE HB HXB HWE EY EY'.
    destruct (constructed_spec _ _ _ _ _ _ _ _ _ _ _ _ Hc) as (HL & _ & _ & _ & _ & Eks & _ & Es & Ep & Ed & Em & _ & Hlen & _).
    destruct (con_lengths d L cin cout ks k groups stride padding dil m bias Hc) as (Lst & _ & Hch).
    assert (H <> []) as Hn by (destruct H; [cbn in He; lia|discriminate]). assert (H' <> []) as Hn' by (destruct H'; [cbn in He'; lia|discriminate]).
    pose proof (C45_lifting_convolution _ _ D _ _ _ _ _ _ _ _ _ _ _ _ _ _ _ _ _ _ Hc Hn HK HW HX Lsp) as [A Q].
    pose proof (C45_lifting_convolution _ _ D _ _ _ _ _ _ _ _ _ _ _ _ _ _ _ _ _ _ Hc Hn' HK' HW' HX Lsp) as [A' _]. cbv zeta in A, Q, A'.
    set (left := lefts (stored_padding d padding) ks dil) in *. set (right := rights (stored_padding d padding) ks dil) in *.
    destruct (fits_em m sp ks stride dil left right) as [F|F]; [|rewrite (Q F) in EY; discriminate].
    destruct (A F) as (x & Ex & Sx & Vx). rewrite Ex in EY. injection EY as <-. destruct (A' F) as (x' & Ex' & Sx' & Vx'). rewrite Ex' in EY'. injection EY' as <-.
    exists (conv_size sp ks stride dil left right). split; [exact Sx|]. split; [exact Sx'|]. split; [unfold conv_size; rewrite axes_length; exact Hlen|].
    intros n o y Hn0 Ho Hy. rewrite Vx, Vx' by assumption.
    replace (_ + bias_value d bias o - (_ + bias_value d bias o)) with
      (sumR (map (fun c => sumR (map (fun x0 => at_ W (o :: e :: c :: x0) * image_at m X sp [n; (o / (cout / groups) * (cin / groups) + c)%nat] (read_pos stride dil left y x0)) (indices ks))) (seq 0 (cin / groups)))
      - sumR (map (fun c => sumR (map (fun x0 => at_ W' (o :: e' :: c :: x0) * image_at m X sp [n; (o / (cout / groups) * (cin / groups) + c)%nat] (read_pos stride dil left y x0)) (indices ks))) (seq 0 (cin / groups)))) by ring.
    replace (INR (cin / groups)) with (INR (List.length (seq 0 (cin / groups)))) by (rewrite seq_length; reflexivity).
    replace (INR (prodn ks)) with (INR (List.length (indices ks))) by (rewrite indices_length; reflexivity). apply sum_diff. intros c0 Hc0. apply in_seq in Hc0.
    apply sum_diff. intros x0 Hx0. apply in_indices in Hx0. rewrite <- Rmult_minus_distr_r.
    apply Rabs_mult_le; [apply HWE; [exact Ho|lia|exact Hx0]|]. apply (image_at_abs m sp ks stride dil left right); try assumption; try congruence.
    intros i Hi. apply HXB. cbn [app]. apply valid_cons; [exact Hn0|]. apply valid_cons; [apply Hch; [exact Ho|lia]|exact Hi].
  Qed.
End Layer.

(** A rotated image has the values of the image. *)
Lemma moved3_bound g X X' N cin d h w B : signed3 g -> has_shape X (N :: cin :: [d; h; w]) -> moved3 g X X' ->
  (forall j, valid (N :: cin :: [d; h; w]) j -> Rabs (at_ X j) <= B) ->
  exists d' h' w', has_shape X' (N :: cin :: [d'; h'; w']) /\ forall j, valid (N :: cin :: [d'; h'; w']) j -> Rabs (at_ X' j) <= B.
Proof.
  intros Hg HX HM HB. destruct (symmetry3 g Hg) as (sp & Hok & _ & Hiff). apply Hiff in HM.
  destruct (carried_sp_inv _ _ _ _ _ [N; cin] [d; h; w] HM HX eq_refl) as (s' & HX' & Hsh & V).
  assert (List.length s' = 3%nat) as L. { destruct Hsh as [L _]. rewrite L. reflexivity. }
  destruct (len3 _ L) as (d' & h' & w' & ->). exists d', h', w'. split; [exact HX'|]. intros j Hj.
  destruct (valid_inv_cons _ _ _ Hj) as (n & p & -> & Hn & Hp). destruct (valid_inv_cons _ _ _ Hp) as (c & i & -> & Hc & Hi).
  specialize (V [n; c] i). cbn [app] in V. rewrite V; [|repeat apply valid_cons; try assumption; apply valid_nil|exact Hi].
  apply HB. apply valid_cons; [exact Hn|]. apply valid_cons; [exact Hc|]. apply (sp_idx_valid 3 sp Hok [d; h; w] [d'; h'; w'] eq_refl Hsh). exact Hi.
Qed.
