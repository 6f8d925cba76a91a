(** Property theorems C43-C48, C60: the convolution layers.
    Reading guide (definitions in ConvSpec.v and ConvInit.v).
    [constructed d L cin cout ks k groups stride padding dil m bias]: L is what the 2d (d = 2) or 3d (d = 3)
    constructor returns for these arguments (sizes, strides and dilations positive, one per axis).
    [image_at m t sp pre z]: value at the integer position z of the image t[pre] extended outside its size sp
    according to the padding mode m.  [read_pos stride dil left y x] = y*stride + x*dil - left, per axis.
    [lefts p ks dil], [rights p ks dil]: the padding amounts per axis.  [conv_size]: the usual output size.
    [fits]: the dilated kernel fits into the padded image and the padding mode admits the amounts. *)
From Coq Require Import String ZArith.
From Verif Require Import Prelude RMath Mat Repulse RepulseFacts Tensor TensorFacts SignedPerm Kernel KernelFacts KernelMore GroupKernelFacts
  Functional Conv ConvSpec ConvFacts GConvFacts SepConvFacts SepProduct ConvInit.
Open Scope nat_scope.

(** ** C43 *)
Theorem C43_constructor_validation : forall G P (k : gkernel G P) cin cout ks gks groups stride padding dil pm bias,
  ((exists L, gconv_init2 cin cout ks gks k groups stride padding dil pm bias = Ok L) <->
   valid_config gks cin cout groups padding (ntuple 2 stride) pm) /\
  (~ valid_config gks cin cout groups padding (ntuple 2 stride) pm ->
   gconv_init2 cin cout ks gks k groups stride padding dil pm bias = Err ValueError) /\
  ((exists L, gconv_init3 cin cout ks gks k groups stride padding dil pm bias = Ok L) <->
   valid_config gks cin cout groups padding (ntuple 3 stride) pm) /\
  (~ valid_config gks cin cout groups padding (ntuple 3 stride) pm ->
   gconv_init3 cin cout ks gks k groups stride padding dil pm bias = Err ValueError).
Proof.
  intros. unfold gconv_init2, gconv_init3, gconv_init.
  destruct (check_config_spec gks cin cout groups padding (ntuple 2 stride) pm) as [A1 A2].
  destruct (check_config_spec gks cin cout groups padding (ntuple 3 stride) pm) as [B1 B2].
  split; [split|split; [|split; [split|]]].
  - intros [L H]. apply A1. destruct (check_config _ _ _ _ _ (ntuple 2 stride) _) as [[]|]; [reflexivity|discriminate].
  - intros H. apply A1 in H. rewrite H. cbn. eauto.
  - intros H. rewrite (A2 H). reflexivity.
  - intros [L H]. apply B1. destruct (check_config _ _ _ _ _ (ntuple 3 stride) _) as [[]|]; [reflexivity|discriminate].
  - intros H. apply B1 in H. rewrite H. cbn. eauto.
  - intros H. rewrite (B2 H). reflexivity.
Qed.
Print Assumptions C43_constructor_validation.

(** Any other conv_mode is rejected as well. *)
Theorem C43_conv_mode : forall G P (k : gkernel G P) conv_mode cin cout ks gks groups stride padding dil pm bias,
  conv_mode <> "2d"%string -> conv_mode <> "3d"%string ->
  gconv_init conv_mode cin cout ks gks k groups stride padding dil pm bias = Err ValueError.
Proof.
  intros. unfold gconv_init. destruct (check_config_spec gks cin cout groups padding stride pm) as [A1 A2].
  destruct (check_config gks cin cout groups padding stride pm) as [[]|] eqn:E; cbn [bind].
  - apply String.eqb_neq in H, H0. rewrite H, H0. reflexivity.
  - f_equal. assert (~ valid_config gks cin cout groups padding stride pm) as Hn by (intros Hv; apply A1 in Hv; discriminate).
    specialize (A2 Hn). congruence.
Qed.
Print Assumptions C43_conv_mode.

(** A single invalid value suffices: for instance 'same' with a stride of 2, or groups that do not divide. *)
Example C43_nonvacuous : valid_config (GkTuple [4; 2]%Z) 4 6 2 (PStr "same") [1; 1] "reflect" /\
  ~ valid_config (GkTuple [4; 2]%Z) 4 6 2 (PStr "same") [1; 2] "reflect" /\
  ~ valid_config (GkTuple [0; 0]%Z) 4 6 2 (PStr "same") [1; 1] "reflect" /\
  ~ valid_config (GkInt 4) 4 6 4 (PInt 0) [1; 1] "reflect" /\
  valid_config (GkInt (-1)) 4 6 2 (PInt 1) [3; 3] "zeros".
Proof.
  unfold valid_config. split; [|split; [|split; [|split]]].
  - split; [split; [intros i [<-|[<-|[]]]; lia|reflexivity]|]. split; [lia|].
    split; [exists 2%Z; reflexivity|]. split; [exists 3%Z; reflexivity|].
    split; [|simpl; auto]. intros x Hx. inversion Hx. split; [auto|]. intros _ y [<-|[<-|[]]]; reflexivity.
  - intros (_ & _ & _ & _ & F & _). destruct (F "same"%string eq_refl) as [_ F']. specialize (F' eq_refl 2). simpl in F'. lia.
  - intros ((_ & F) & _). unfold sumZ in F. simpl in F. lia.
  - intros (_ & _ & _ & [q Hq] & _). lia.
  - split; [exact I|]. split; [lia|]. split; [exists 2%Z; reflexivity|]. split; [exists 3%Z; reflexivity|].
    split; [discriminate|simpl; auto].
Qed.

(** ** C44 *)

(** The amounts: 'same' splits dilation*(kernel-1) evenly, the extra cell to the right; 'valid' is 0; an int or a
    tuple pads its own axis by the same amount on both sides. *)
Theorem C44_padding_amounts : forall d ks dil padding j, length ks = d -> length dil = d -> j < d ->
  let l := nth j (lefts (stored_padding d padding) ks dil) 0 in
  let r := nth j (rights (stored_padding d padding) ks dil) 0 in
  (padding = PStr "same" -> l + r = nth j dil 0 * (nth j ks 0 - 1) /\ l <= r <= l + 1) /\
  (padding = PStr "valid" -> l = 0 /\ r = 0) /\
  (forall p, padding = PInt p -> l = p /\ r = p) /\
  (forall ps, padding = PTuple ps -> l = nth j ps 0 /\ r = nth j ps 0).
Proof.
  intros d ks dil padding j Hk Hd Hj l r. subst l r. unfold lefts, rights. rewrite Hk, !nth_axes by assumption.
  split; [|split; [|split]]; intros; subst padding; cbn [stored_padding left_pad right_pad String.eqb Ascii.eqb Bool.eqb]; auto.
  - set (t := nth j dil 0 * (nth j ks 0 - 1)). pose proof (Nat.div_mod_eq t 2). pose proof (Nat.mod_upper_bound t 2). lia.
  - rewrite (nth_indep _ 0 p) by (rewrite repeat_length; assumption). rewrite nth_repeat. auto.
Qed.
Print Assumptions C44_padding_amounts.

(** Every stage convolves the image extended by the padding mode, read at y*stride + x*dilation - left padding;
    whatever the mode, size and dilation, each axis uses its own amounts. *)
Theorem C44_padded_convolution : forall G P d (L : gconv G P) cin cout ks k groups stride padding dil m bias
    (input weight : tensor R) N C sp g co Cg,
  constructed d L cin cout ks k groups stride padding dil m bias ->
  has_shape input (N :: C :: sp) -> length sp = d ->
  has_shape weight (co * g :: Cg :: ks) -> 0 < g -> 0 < co -> C = Cg * g ->
  let left := lefts (stored_padding d padding) ks dil in
  let right := rights (stored_padding d padding) ks dil in
  (fits m sp ks stride dil left right ->
   exists x, conv_forward L input weight g = Ok x /\
     has_shape x (N :: co * g :: conv_size sp ks stride dil left right) /\
     forall n o y, n < N -> o < co * g -> valid (conv_size sp ks stride dil left right) y ->
       at_ x (n :: o :: y) = sumR (map (fun c => sumR (map (fun x0 =>
         (at_ weight (o :: c :: x0) * image_at m input sp [n; (o / co * Cg + c)%nat] (read_pos stride dil left y x0))%R)
         (indices ks))) (seq 0 Cg))) /\
  (~ fits m sp ks stride dil left right -> conv_forward L input weight g = Err RuntimeError).
Proof.
  intros G P d L cin cout ks k groups stride padding dil m bias input weight N C sp g co Cg Hc Hi Hsp Hw Hg Hco HC left right.
  destruct (constructed_spec _ _ _ _ _ _ _ _ _ _ _ _ Hc)
    as (HL & Hb & Ek & Ei & Eo & Eks & Eg & Es & Ep & Ed & Em & Eb & Hlen & _).
  assert (pad_ks L ks = ks) as Epk by (unfold pad_ks; rewrite <- Eks; destruct (l_mode L); reflexivity).
  split; intros Hf.
  - destruct (conv_forward_spec L HL input weight N C sp g co Cg ks) as (x & Ex & Hxs & Hxe); auto; try congruence.
    { intros j Hj. rewrite <- Eks in *. apply (lo_pos L HL j Hj). }
    { rewrite Epk, Es, Ed, Ep, Em. exact Hf. }
    rewrite Epk, Es, Ed, Ep in Hxs, Hxe. rewrite Em in Hxe. exists x. split; [assumption|]. split; [assumption|]. exact Hxe.
  - apply (conv_forward_bad L HL input weight N C sp g co Cg ks); auto; try congruence.
    rewrite Epk, Es, Ed, Ep, Em. exact Hf.
Qed.
Print Assumptions C44_padded_convolution.

(** padding='same' preserves every spatial size. *)
Theorem C44_same_preserves_size : forall G P d (L : gconv G P) cin cout ks k groups stride dil m bias
    (input weight : tensor R) N C sp g co Cg,
  constructed d L cin cout ks k groups stride (PStr "same") dil m bias ->
  has_shape input (N :: C :: sp) -> length sp = d ->
  has_shape weight (co * g :: Cg :: ks) -> 0 < g -> 0 < co -> C = Cg * g ->
  (match m with
   | Circular => forall j, j < d -> 1 <= nth j sp 0 /\ nth j dil 0 * (nth j ks 0 - 1) <= 2 * nth j sp 0
   | Reflect => forall j, j < d -> 1 <= nth j sp 0 /\ nth j dil 0 * (nth j ks 0 - 1) <= 2 * (nth j sp 0 - 1)
   | _ => forall j, j < d -> 1 <= nth j sp 0
   end) ->
  exists x, conv_forward L input weight g = Ok x /\ has_shape x (N :: co * g :: sp).
Proof.
  intros G P d L cin cout ks k groups stride dil m bias input weight N C sp g co Cg Hc Hi Hsp Hw Hg Hco HC Hsz.
  destruct (C44_padded_convolution _ _ _ _ _ _ _ _ _ _ _ _ _ _ _ _ _ _ _ _ _ _ Hc Hi Hsp Hw Hg Hco HC) as [A _].
  destruct Hc as (cm & gks & pm & Hm & H & Hpm & Hgood & _).
  destruct (gconv_init_fields _ _ _ _ _ _ _ _ _ _ _ _ _ _ Hm H) as ((_ & _ & _ & _ & Hs & _) & _).
  destruct Hgood as (Lk & Ls & Ld & _). destruct (Hs "same"%string eq_refl) as [_ Hs1]. specialize (Hs1 eq_refl).
  set (left := lefts (stored_padding d (PStr "same")) ks dil) in *. set (right := rights (stored_padding d (PStr "same")) ks dil) in *.
  assert (forall j, j < d -> nth j left 0 + nth j right 0 = nth j dil 0 * (nth j ks 0 - 1) /\ nth j left 0 <= nth j right 0 <= nth j left 0 + 1) as Ham.
  { intros j Hj. destruct (C44_padding_amounts d ks dil (PStr "same") j Lk Ld Hj) as (Hsame & _). apply Hsame. reflexivity. }
  destruct A as (x & Ex & Hxs & _).
  { intros j Hj. rewrite Lk in Hj. destruct (Ham j Hj) as (E & F).
    assert (1 <= nth j sp 0) by (destruct m; apply Hsz in Hj; lia).
    split; [lia|]. destruct m; [trivial|apply Hsz in Hj; lia|assumption|apply Hsz in Hj; lia]. }
  exists x. split; [assumption|]. replace sp with (conv_size sp ks stride dil left right); [assumption|].
  apply nth_ext with (d := 0) (d' := 0); unfold conv_size; rewrite axes_length; [congruence|].
  intros j Hj. rewrite nth_axes by assumption. rewrite Lk in Hj. destruct (Ham j Hj) as (E & _).
  rewrite (Hs1 (nth j stride 0)) by (apply nth_In; lia). rewrite Nat.div_1_r.
  assert (1 <= nth j sp 0) by (destruct m; apply Hsz in Hj; lia). lia.
Qed.
Print Assumptions C44_same_preserves_size.

(** ** C45 *)
Theorem C45_lifting_convolution : forall G P (D : Dflt P) d (L : gconv G P) cin cout ks k groups stride padding dil m bias
    weight W (H : list G) (input : tensor R) N sp,
  constructed d L cin cout ks k groups stride padding dil m bias ->
  H <> [] -> lifting_kernel_forward k weight H = Ok W -> has_shape W (cout :: length H :: cin / groups :: ks) ->
  has_shape input (N :: cin :: sp) -> length sp = d ->
  let left := lefts (stored_padding d padding) ks dil in
  let right := rights (stored_padding d padding) ks dil in
  let size := conv_size sp ks stride dil left right in
  (fits m sp ks stride dil left right ->
   exists out, lifting_forward L weight input H = Ok (out, H) /\
     has_shape out (N :: cout :: length H :: size) /\
     forall n o h y, n < N -> o < cout -> h < length H -> valid size y ->
       at_ out (n :: o :: h :: y) =
       (sumR (map (fun c => sumR (map (fun x =>
          at_ W (o :: h :: c :: x) *
          image_at m input sp [n; (o / (cout / groups) * (cin / groups) + c)%nat] (read_pos stride dil left y x))
          (indices ks))) (seq 0 (cin / groups))) + bias_value d bias o)%R) /\
  (~ fits m sp ks stride dil left right -> lifting_forward L weight input H = Err RuntimeError).
Proof.
  intros G P D d L cin cout ks k groups stride padding dil m bias weight W H input N sp Hc HH HK HW Hi Hsp left right size.
  destruct (constructed_spec _ _ _ _ _ _ _ _ _ _ _ _ Hc)
    as (HL & Hb & Ek & Ei & Eo & Eks & Eg & Es & Ep & Ed & Em & Eb & Hlen & Hbv & Hg & Hci & Hco & Din & Dout).
  split; intros Hf.
  - destruct (lifting_forward_spec L HL Hb groups (cin / groups) (cout / groups)) with (weight := weight) (W := W) (H := H) (input := input) (N := N) (sp := sp)
      as (x & Ex & Hxs & Hxe); rewrite ?Ek, ?Ei, ?Eo, ?Eks, ?Es, ?Ep, ?Ed, ?Em; auto; try congruence.
    rewrite ?Eo, ?Eks, ?Es, ?Ep, ?Ed, ?Em in Hxs. rewrite ?Eo, ?Eks, ?Es, ?Ep, ?Ed, ?Em in Hxe.
    exists x. split; [assumption|]. split; [assumption|]. intros. rewrite <- Hbv. apply Hxe; assumption.
  - apply (lifting_forward_bad L HL groups (cin / groups) (cout / groups)) with (W := W) (N := N) (sp := sp);
      rewrite ?Ek, ?Ei, ?Eo, ?Eks, ?Es, ?Ep, ?Ed, ?Em; auto; try congruence.
Qed.
Print Assumptions C45_lifting_convolution.

(** ** C46: full kernel (and subgroup kernel, for 1x..x1 layers) *)
Theorem C46_group_convolution : forall G P (D : Dflt P) d (L : gconv G P) cin cout ks k groups stride padding dil m bias
    weight W (in_H out_H : list G) (input : tensor R) N sp,
  constructed d L cin cout ks k groups stride padding dil m bias ->
  out_H <> [] -> full_kernel_forward k weight in_H out_H = Ok W ->
  has_shape W (cout :: length out_H :: cin / groups :: length in_H :: ks) ->
  has_shape input (N :: cin :: length in_H :: sp) -> length sp = d ->
  let left := lefts (stored_padding d padding) ks dil in
  let right := rights (stored_padding d padding) ks dil in
  let size := conv_size sp ks stride dil left right in
  (fits m sp ks stride dil left right ->
   exists out, full_forward L weight input in_H out_H = Ok (out, out_H) /\
     has_shape out (N :: cout :: length out_H :: size) /\
     forall n o g y, n < N -> o < cout -> g < length out_H -> valid size y ->
       at_ out (n :: o :: g :: y) =
       (sumR (map (fun c => sumR (map (fun h => sumR (map (fun x =>
          at_ W (o :: g :: c :: h :: x) *
          image_at m input sp [n; (o / (cout / groups) * (cin / groups) + c)%nat; h] (read_pos stride dil left y x))
          (indices ks))) (seq 0 (length in_H)))) (seq 0 (cin / groups))) + bias_value d bias o)%R) /\
  (~ fits m sp ks stride dil left right -> full_forward L weight input in_H out_H = Err RuntimeError).
Proof.
  intros G P D d L cin cout ks k groups stride padding dil m bias weight W in_H out_H input N sp Hc HH HK HW Hi Hsp left right size.
  destruct (constructed_spec _ _ _ _ _ _ _ _ _ _ _ _ Hc)
    as (HL & Hb & Ek & Ei & Eo & Eks & Eg & Es & Ep & Ed & Em & Eb & Hlen & Hbv & Hg & Hci & Hco & Din & Dout).
  unfold full_forward. split; intros Hf.
  - destruct (group_forward_spec L HL Hb groups (cin / groups) (cout / groups)) with (kf := full_kernel_forward (l_kernel L) weight) (W := W)
      (in_H := in_H) (out_H := out_H) (input := input) (N := N) (sp := sp)
      as (x & Ex & Hxs & Hxe); rewrite ?Ek, ?Ei, ?Eo, ?Eks, ?Es, ?Ep, ?Ed, ?Em; auto; try congruence.
    rewrite ?Eo, ?Eks, ?Es, ?Ep, ?Ed, ?Em in Hxs. rewrite ?Eo, ?Eks, ?Es, ?Ep, ?Ed, ?Em in Hxe. rewrite Ek in Ex.
    exists x. split; [assumption|]. split; [assumption|]. intros. rewrite <- Hbv. apply Hxe; assumption.
  - apply (group_forward_bad L HL groups (cin / groups) (cout / groups)) with (W := W) (N := N) (sp := sp);
      rewrite ?Ek, ?Ei, ?Eo, ?Eks, ?Es, ?Ep, ?Ed, ?Em; auto; try congruence.
Qed.
Print Assumptions C46_group_convolution.

(** ** C47 *)

(** Unit stride and a first stage that pads nothing: exactly the full group convolution (bias, errors and returned
    grid included) with the product kernel  WH[o,g,c,h] * WS[o,g,x]. *)
Theorem C47_separable_is_product_convolution : forall G P (D : Dflt P) d (L : gconv G P) cin cout ks k groups padding dil m bias
    weight_H weight WH WS (in_H out_H : list G) (input : tensor R) N sp,
  constructed d L cin cout ks k groups (repeat 1 d) padding dil m bias ->
  (padding = PInt 0 \/ padding = PTuple (repeat 0 d) \/ padding = PStr "valid" \/ (padding = PStr "same" /\ m = Zeros)) ->
  out_H <> [] -> length in_H = length out_H ->
  separable_kernel_forward k weight_H weight in_H out_H = Ok (WH, WS) ->
  has_shape WH (cout :: length in_H :: cin / groups :: length out_H :: repeat 1 d) ->
  has_shape WS (cout :: length out_H :: 1 :: ks) ->
  has_shape input (N :: cin :: length in_H :: sp) -> length sp = d ->
  separable_forward L weight_H weight input in_H out_H =
  group_forward_with L (fun _ _ => Ok (product_kernel WH WS cout (length out_H) (cin / groups) (length in_H) ks)) input in_H out_H.
Proof.
  intros G P D d L cin cout ks k groups padding dil m bias weight_H weight WH WS in_H out_H input N sp Hc Hp HH Hn HK H1 H2 Hi Hsp.
  destruct (constructed_spec _ _ _ _ _ _ _ _ _ _ _ _ Hc)
    as (HL & Hb & Ek & Ei & Eo & Eks & Eg & Es & Ep & Ed & Em & Eb & Hlen & Hbv & Hg & Hci & Hco & Din & Dout).
  rewrite <- Eks, <- Eo.
  apply (separable_is_full L HL Hb groups (cin / groups) (cout / groups)) with (N := N) (sp := sp);
    rewrite ?Ek, ?Ei, ?Eo, ?Eks, ?Es, ?Ep, ?Ed, ?Em, ?Hlen; auto; try congruence.
  unfold no_first_padding. rewrite Ep, Em, Eks, Hlen. destruct Hp as [->|[->|[->|[-> ->]]]]; simpl; auto. discriminate.
Qed.
Print Assumptions C47_separable_is_product_convolution.

(** [product_kernel] is the product. *)
Theorem C47_product_kernel_entries : forall WH WS out nO ci nI ks o g c h x,
  o < out -> g < nO -> c < ci -> h < nI -> valid ks x ->
  at_ (product_kernel WH WS out nO ci nI ks) (o :: g :: c :: h :: x) =
  (at_ WH (o :: g :: c :: h :: repeat 0%nat (length ks)) * at_ WS (o :: g :: 0%nat :: x))%R.
Proof. intros. unfold product_kernel. rewrite at_build by (repeat apply valid_cons; assumption). reflexivity. Qed.
Print Assumptions C47_product_kernel_entries.

(** Defect: the stride is applied twice. Without padding the layer is the full convolution with stride s*s and
    dilation t*s instead of s and t. *)
Theorem C47_defect_double_stride : forall G P (D : Dflt P) d (L : gconv G P) cin cout ks k groups stride padding dil m bias
    weight_H weight WH WS (in_H out_H : list G) (input : tensor R) N sp,
  constructed d L cin cout ks k groups stride padding dil m bias ->
  (padding = PInt 0 \/ padding = PTuple (repeat 0 d) \/ padding = PStr "valid") ->
  out_H <> [] -> length in_H = length out_H ->
  separable_kernel_forward k weight_H weight in_H out_H = Ok (WH, WS) ->
  has_shape WH (cout :: length in_H :: cin / groups :: length out_H :: repeat 1 d) ->
  has_shape WS (cout :: length out_H :: 1 :: ks) ->
  has_shape input (N :: cin :: length in_H :: sp) -> length sp = d ->
  separable_forward L weight_H weight input in_H out_H =
  group_forward_with
    (restride L (axes d (fun j => nth j stride 0 * nth j stride 0)) (axes d (fun j => nth j dil 0 * nth j stride 0)))
    (fun _ _ => Ok (product_kernel WH WS cout (length out_H) (cin / groups) (length in_H) ks)) input in_H out_H.
Proof.
  intros G P D d L cin cout ks k groups stride padding dil m bias weight_H weight WH WS in_H out_H input N sp Hc Hp HH Hn HK H1 H2 Hi Hsp.
  destruct (constructed_spec _ _ _ _ _ _ _ _ _ _ _ _ Hc)
    as (HL & Hb & Ek & Ei & Eo & Eks & Eg & Es & Ep & Ed & Em & Eb & Hlen & Hbv & Hg & Hci & Hco & Din & Dout).
  pose proof (separable_is_strided_full L HL Hb groups (cin / groups) (cout / groups)) as A.
  rewrite ?Ek, ?Ei, ?Eo, ?Eks, ?Es, ?Ep, ?Ed, ?Em, ?Hlen in A.
  eapply A; eauto; try congruence.
  - unfold no_first_padding. rewrite Ep, Eks, Hlen. destruct Hp as [->|[->| ->]]; simpl; auto. discriminate.
  - unfold no_padding. rewrite Ep, Eks, Hlen. destruct Hp as [->|[->| ->]]; simpl; auto. discriminate.
Qed.
Print Assumptions C47_defect_double_stride.

(** Sizes of the output in general: two stages, each padded and strided. *)
Theorem C47_output_size : forall G P (D : Dflt P) d (L : gconv G P) cin cout ks k groups stride padding dil m bias
    weight_H weight WH WS (in_H out_H : list G) (input : tensor R) N sp,
  constructed d L cin cout ks k groups stride padding dil m bias ->
  out_H <> [] ->
  separable_kernel_forward k weight_H weight in_H out_H = Ok (WH, WS) ->
  has_shape WH (cout :: length in_H :: cin / groups :: length out_H :: repeat 1 d) ->
  has_shape WS (cout :: length out_H :: 1 :: ks) ->
  has_shape input (N :: cin :: length in_H :: sp) -> length sp = d ->
  let p := stored_padding d padding in
  let ks1 := match m with Zeros => repeat 1 d | _ => ks end in
  let mid := conv_size sp (repeat 1 d) stride dil (lefts p ks1 dil) (rights p ks1 dil) in
  fits m sp (repeat 1 d) stride dil (lefts p ks1 dil) (rights p ks1 dil) ->
  fits m mid ks stride dil (lefts p ks dil) (rights p ks dil) ->
  exists out, separable_forward L weight_H weight input in_H out_H = Ok (out, out_H) /\
    has_shape out (N :: cout :: length out_H :: conv_size mid ks stride dil (lefts p ks dil) (rights p ks dil)).
Proof.
  intros G P D d L cin cout ks k groups stride padding dil m bias weight_H weight WH WS in_H out_H input N sp Hc HH HK H1 H2 Hi Hsp
    p ks1 mid F1 F2.
  destruct (constructed_spec _ _ _ _ _ _ _ _ _ _ _ _ Hc)
    as (HL & Hb & Ek & Ei & Eo & Eks & Eg & Es & Ep & Ed & Em & Eb & Hlen & Hbv & Hg & Hci & Hco & Din & Dout).
  assert (pad_ks L (repeat 1 d) = ks1) as Epk by (unfold pad_ks, ks1; rewrite Em, Eks; destruct m; reflexivity).
  pose proof (separable_forward_spec L HL Hb groups (cin / groups) (cout / groups)) as A.
  rewrite ?Ek, ?Ei, ?Eo, ?Eks, ?Es, ?Ep, ?Ed, ?Em, ?Hlen, ?Epk in A.
  destruct (A Hg Hci Hco Eg Din Dout weight_H weight WH WS in_H out_H HH HK H1 H2 input N sp Hi Hsp F1 F2)
    as (mid' & x & Ex & _ & _ & Hxs & _).
  exists x. split; [assumption|]. exact Hxs.
Qed.
Print Assumptions C47_output_size.

(** Defect: explicit padding is applied twice. With stride 1 and padding p every axis is 2p longer than
    the size + 2p - dilation*(kernel-1) of the one-stage convolution. *)
Theorem C47_defect_double_padding : forall G P (D : Dflt P) d (L : gconv G P) cin cout ks k groups p dil bias
    weight_H weight WH WS (in_H out_H : list G) (input : tensor R) N sp,
  constructed d L cin cout ks k groups (repeat 1 d) (PInt p) dil Zeros bias ->
  out_H <> [] ->
  separable_kernel_forward k weight_H weight in_H out_H = Ok (WH, WS) ->
  has_shape WH (cout :: length in_H :: cin / groups :: length out_H :: repeat 1 d) ->
  has_shape WS (cout :: length out_H :: 1 :: ks) ->
  has_shape input (N :: cin :: length in_H :: sp) -> length sp = d ->
  (forall j, j < d -> nth j dil 0 * (nth j ks 0 - 1) + 1 <= nth j sp 0 + 2 * p) ->
  exists out, separable_forward L weight_H weight input in_H out_H = Ok (out, out_H) /\
    has_shape out (N :: cout :: length out_H :: axes d (fun j => nth j sp 0 + 4 * p - nth j dil 0 * (nth j ks 0 - 1))).
Proof.
  intros G P D d L cin cout ks k groups p dil bias weight_H weight WH WS in_H out_H input N sp Hc HH HK H1 H2 Hi Hsp Hfit.
  destruct (constructed_spec _ _ _ _ _ _ _ _ _ _ _ _ Hc)
    as (HL & Hb & Ek & Ei & Eo & Eks & Eg & Es & Ep & Ed & Em & Eb & Hlen & Hbv & Hg & Hci & Hco & Din & Dout).
  assert (forall ks0 j, length ks0 = d -> j < d -> nth j (lefts (PadTuple (repeat p d)) ks0 dil) 0 = p /\ nth j (rights (PadTuple (repeat p d)) ks0 dil) 0 = p) as Hp.
  { intros ks0 j Hl Hj. unfold lefts, rights. rewrite Hl, !nth_axes by assumption. cbn [left_pad right_pad].
    rewrite (nth_indep _ 0 p) by (rewrite repeat_length; assumption). rewrite nth_repeat. auto. }
  pose proof (repeat_length 1 d) as L1.
  set (l1 := lefts (PadTuple (repeat p d)) (repeat 1 d) dil). set (r1 := rights (PadTuple (repeat p d)) (repeat 1 d) dil).
  assert (forall j, j < d -> 1 <= nth j sp 0 + 2 * p) as Hsp1.
  { intros j Hj. eapply Nat.le_trans; [|apply Hfit; assumption]. apply Nat.le_add_l. }
  assert (conv_size sp (repeat 1 d) (repeat 1 d) dil l1 r1 = axes d (fun j => nth j sp 0 + 2 * p)) as Emid.
  { unfold conv_size. rewrite L1. apply axes_ext. intros j Hj. destruct (Hp (repeat 1 d) j L1 Hj) as [A1 A2]. unfold l1, r1. rewrite A1, A2.
    rewrite !nth_ones by assumption. rewrite Nat.div_1_r, Nat.sub_diag, Nat.mul_0_r. pose proof (Hsp1 j Hj). lia. }
  destruct (C47_output_size _ _ _ _ _ _ _ _ _ _ _ _ _ _ _ _ _ _ _ _ _ _ N sp Hc HH HK H1 H2 Hi Hsp) as (x & Ex & Hxs).
  { intros j Hj. rewrite L1 in Hj. split; [|exact I]. cbn [stored_padding]. fold l1 r1.
    destruct (Hp (repeat 1 d) j L1 Hj) as [A1 A2]. unfold l1, r1. rewrite A1, A2. rewrite nth_ones by assumption.
    rewrite Nat.sub_diag, Nat.mul_0_r. pose proof (Hsp1 j Hj). lia. }
  { cbn [stored_padding]. fold l1 r1. rewrite Emid. intros j Hj. rewrite Hlen in Hj. split; [|exact I].
    destruct (Hp ks j Hlen Hj) as [A1 A2]. rewrite A1, A2, nth_axes by assumption. specialize (Hfit j Hj). lia. }
  cbn [stored_padding] in Hxs. fold l1 r1 in Hxs. rewrite Emid in Hxs.
  exists x. split; [assumption|].
  replace (axes d (fun j => nth j sp 0 + 4 * p - nth j dil 0 * (nth j ks 0 - 1)))
    with (conv_size (axes d (fun j => nth j sp 0 + 2 * p)) ks (repeat 1 d) dil (lefts (PadTuple (repeat p d)) ks dil) (rights (PadTuple (repeat p d)) ks dil));
    [assumption|].
  unfold conv_size. rewrite Hlen. apply axes_ext. intros j Hj. destruct (Hp ks j Hlen Hj) as [A1 A2]. rewrite A1, A2, nth_axes, nth_ones by assumption.
  rewrite Nat.div_1_r. specialize (Hfit j Hj). lia.
Qed.
Print Assumptions C47_defect_double_padding.

(** Defect: padding='same' with a non-zeros padding mode pads the 1x..x1 stage as well, so each axis grows by
    dilation*(kernel-1); with zeros it is preserved. *)
Theorem C47_defect_same_grows : forall G P (D : Dflt P) d (L : gconv G P) cin cout ks k groups dil bias
    weight_H weight WH WS (in_H out_H : list G) (input : tensor R) N sp,
  constructed d L cin cout ks k groups (repeat 1 d) (PStr "same") dil Replicate bias ->
  out_H <> [] ->
  separable_kernel_forward k weight_H weight in_H out_H = Ok (WH, WS) ->
  has_shape WH (cout :: length in_H :: cin / groups :: length out_H :: repeat 1 d) ->
  has_shape WS (cout :: length out_H :: 1 :: ks) ->
  has_shape input (N :: cin :: length in_H :: sp) -> length sp = d -> (forall j, j < d -> 1 <= nth j sp 0) ->
  exists out, separable_forward L weight_H weight input in_H out_H = Ok (out, out_H) /\
    has_shape out (N :: cout :: length out_H :: axes d (fun j => nth j sp 0 + nth j dil 0 * (nth j ks 0 - 1))).
Proof.
  intros G P D d L cin cout ks k groups dil bias weight_H weight WH WS in_H out_H input N sp Hc HH HK H1 H2 Hi Hsp Hsp1.
  destruct (constructed_spec _ _ _ _ _ _ _ _ _ _ _ _ Hc)
    as (HL & Hb & Ek & Ei & Eo & Eks & Eg & Es & Ep & Ed & Em & Eb & Hlen & Hbv & Hg & Hci & Hco & Din & Dout).
  assert (length dil = d) as Ldil by (pose proof (lo_dil L HL) as E; rewrite Ed, Eks, Hlen in E; exact E).
  assert (forall j, j < d -> nth j (lefts (PadStr "same") ks dil) 0 + nth j (rights (PadStr "same") ks dil) 0 = nth j dil 0 * (nth j ks 0 - 1)) as Ham.
  { intros j Hj. destruct (C44_padding_amounts d ks dil (PStr "same") j Hlen Ldil Hj) as (Hsame & _). apply Hsame. reflexivity. }
  pose proof (repeat_length 1 d) as L1.
  set (l1 := lefts (PadStr "same") ks dil) in *. set (r1 := rights (PadStr "same") ks dil) in *.
  assert (conv_size sp (repeat 1 d) (repeat 1 d) dil l1 r1 = axes d (fun j => nth j sp 0 + nth j dil 0 * (nth j ks 0 - 1))) as Emid.
  { unfold conv_size. rewrite L1. apply axes_ext. intros j Hj. pose proof (Ham j Hj).
    rewrite !nth_ones by assumption. rewrite Nat.div_1_r, Nat.sub_diag, Nat.mul_0_r. pose proof (Hsp1 j Hj). lia. }
  destruct (C47_output_size _ _ _ _ _ _ _ _ _ _ _ _ _ _ _ _ _ _ _ _ _ _ N sp Hc HH HK H1 H2 Hi Hsp) as (x & Ex & Hxs).
  { intros j Hj. rewrite L1 in Hj. cbn [stored_padding]. fold l1 r1. rewrite nth_ones by assumption.
    rewrite Nat.sub_diag, Nat.mul_0_r. pose proof (Hsp1 j Hj). lia. }
  { cbn [stored_padding]. fold l1 r1. rewrite Emid. intros j Hj. rewrite Hlen in Hj. rewrite nth_axes by assumption.
    pose proof (Ham j Hj). pose proof (Hsp1 j Hj). lia. }
  cbn [stored_padding] in Hxs. fold l1 r1 in Hxs. rewrite Emid in Hxs.
  exists x. split; [assumption|].
  replace (axes d (fun j => nth j sp 0 + nth j dil 0 * (nth j ks 0 - 1)))
    with (conv_size (axes d (fun j => nth j sp 0 + nth j dil 0 * (nth j ks 0 - 1))) ks (repeat 1 d) dil l1 r1);
    [assumption|].
  unfold conv_size. rewrite Hlen. apply axes_ext. intros j Hj. rewrite nth_axes, nth_ones by assumption.
  rewrite Nat.div_1_r. pose proof (Ham j Hj). pose proof (Hsp1 j Hj). lia.
Qed.
Print Assumptions C47_defect_same_grows.
