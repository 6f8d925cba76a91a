(** The separable convolution, stage by stage. *)
From Coq Require Import String ZArith.
From Verif Require Import Prelude RMath Mat Repulse RepulseFacts Tensor TensorFacts SignedPerm Kernel KernelFacts
  Conv ConvSpec ConvFacts GConvFacts SepConvFacts SepProduct ConvInit ConvShift.
Open Scope nat_scope.

(** The two stages of the separable convolution. *)
Lemma separable_two_stage : forall G P (D : Dflt P) d (L : gconv G P) cin cout ks k groups stride padding dil m bias
    weight_H weight WH WS (in_H out_H : list G) (input : tensor R) N sp,
  constructed d L cin cout ks k groups stride padding dil m bias ->
  out_H <> [] ->
  separable_kernel_forward k weight_H weight in_H out_H = Ok (WH, WS) ->
  has_shape WH (cout :: length in_H :: cin / groups :: length out_H :: repeat 1 d) ->
  has_shape WS (cout :: length out_H :: 1 :: ks) ->
  has_shape input (N :: cin :: length in_H :: sp) -> length sp = d ->
  let p := stored_padding d padding in
  let ks1 := match m with Zeros => repeat 1 d | _ => ks end in
  let left1 := lefts p ks1 dil in
  let right1 := rights p ks1 dil in
  let left2 := lefts p ks dil in
  let right2 := rights p ks dil in
  let size1 := conv_size sp (repeat 1 d) stride dil left1 right1 in
  let size2 := conv_size size1 ks stride dil left2 right2 in
  let WG := mkT (cout :: length out_H :: cin / groups :: length in_H :: repeat 1 d) (data WH) in
  (fits m sp (repeat 1 d) stride dil left1 right1 -> fits m size1 ks stride dil left2 right2 ->
   exists mid out, separable_forward L weight_H weight input in_H out_H = Ok (out, out_H) /\
    has_shape mid (N :: cout :: length out_H :: size1) /\ has_shape out (N :: cout :: length out_H :: size2) /\
    (forall n o g y, n < N -> o < cout -> g < length out_H -> valid size1 y ->
       at_ mid (n :: o :: g :: y) = sumR (map (fun c => sumR (map (fun h =>
         (at_ WG (o :: g :: c :: h :: repeat 0%nat d) *
          image_at m input sp [n; (o / (cout / groups) * (cin / groups) + c)%nat; h] (read_pos stride dil left1 y (repeat 0%nat d)))%R)
         (seq 0 (length in_H)))) (seq 0 (cin / groups)))) /\
    (forall n o g y, n < N -> o < cout -> g < length out_H -> valid size2 y ->
       at_ out (n :: o :: g :: y) = (sumR (map (fun x =>
         at_ WS (o :: g :: 0%nat :: x) * image_at m mid size1 [n; o; g] (read_pos stride dil left2 y x))
         (indices ks)) + bias_value d bias o)%R)) /\
  (~ (fits m sp (repeat 1 d) stride dil left1 right1 /\ fits m size1 ks stride dil left2 right2) ->
   separable_forward L weight_H weight input in_H out_H = Err RuntimeError).
Proof.
  intros G P D d L cin cout ks k groups stride padding dil m bias weight_H weight WH WS in_H out_H input N sp Hc HH HK H1 H2 Hi Hsp
    p ks1 left1 right1 left2 right2 size1 size2 WG.
  destruct (constructed_spec _ _ _ _ _ _ _ _ _ _ _ _ Hc)
    as (HL & Hb & Ek & Ei & Eo & Eks & Eg & Es & Ep & Ed & Em & Eb & Hlen & Hbv & Hg & Hci & Hco & Din & Dout).
  assert (pad_ks L (repeat 1 d) = ks1) as Epk by (unfold pad_ks, ks1; rewrite Em, Eks; destruct m; reflexivity).
  split.
  - intros F1 F2.
    pose proof (separable_forward_spec L HL Hb groups (cin / groups) (cout / groups)) as A.
    pose proof (stage1 L HL groups (cin / groups) (cout / groups)) as B.
    rewrite ?Ek, ?Ei, ?Eo, ?Eks, ?Es, ?Ep, ?Ed, ?Em, ?Hlen, ?Epk in A.
    rewrite ?Ek, ?Ei, ?Eo, ?Eks, ?Es, ?Ep, ?Ed, ?Em, ?Hlen, ?Epk in B.
    destruct (A Hg Hci Hco Eg Din Dout weight_H weight WH WS in_H out_H HH HK H1 H2 input N sp Hi Hsp F1 F2)
      as (mid & x & Ex & Emid & Hms & Hxs & Hxe).
    assert (exists mid0, conv_forward L (mkT (N :: cin * length in_H :: sp) (data input))
      (mkT (cout * length out_H :: cin / groups * length in_H :: repeat 1 d) (data WH)) (l_groups L) = Ok mid0 /\ has_shape mid0 (N :: cout * length out_H :: size1) /\
      forall n o y, n < N -> o < cout * length out_H -> valid size1 y ->
        at_ mid0 (n :: o :: y) = sumR (map (fun c => sumR (map (fun j =>
          (at_ (mkT ((cout * length out_H)%nat :: (cin / groups * length in_H)%nat :: repeat 1%nat d) (data WH)) (o :: (c * length in_H + j)%nat :: repeat 0%nat d) *
           image_at m input sp [n; (o / (cout / groups * length out_H) * (cin / groups) + c)%nat; j]
             (read_pos stride dil left1 y (repeat 0%nat d)))%R) (seq 0 (length in_H)))) (seq 0 (cin / groups)))) as (mid0 & E0 & S0 & V0).
    { eapply B; eauto. }
    rewrite Emid in E0. injection E0 as <-.
    set (midv := mkT (N :: cout :: length out_H :: size1) (data mid)).
    assert (view (N :: cout :: length out_H :: size1) mid = Ok midv /\ has_shape midv (N :: cout :: length out_H :: size1)) as [Ev Hv].
    { apply (has_shape_view _ _ _ Hms). rewrite !prodn_cons. fold p. fold left1 right1. fold size1. ring. }
    exists midv, x. split; [assumption|]. split; [assumption|]. split; [assumption|]. split.
    + intros n o g y Hn Ho Hgg Hy.
      assert (o * length out_H + g < cout * length out_H) as Hog by (apply lt_pair; assumption).
      transitivity (at_ mid (n :: o * length out_H + g :: y)).
      { apply (at_view mid _ _ _ _ Hms). cbn [ravel]. rewrite !prodn_cons. fold p; fold left1 right1; fold size1; nia. }
      rewrite V0 by assumption. apply sumR_ext. intros c Hcc. apply sumR_ext. intros j Hj. f_equal.
      * unfold WG. unfold at_; cbn [shape data]. f_equal. cbn [ravel]. rewrite !prodn_cons. nia.
      * rewrite channel_group by assumption. reflexivity.
    + intros n o g y Hn Ho Hgg Hy. rewrite Hxe by assumption. rewrite <- Hbv. f_equal.
      apply sumR_ext. intros x0 Hx0. f_equal. symmetry. unfold midv. unfold image_at. destruct (sequence _) as [i|]; [|reflexivity].
      apply (at_view mid _ _ _ _ Hms). cbn [app ravel]. rewrite !prodn_cons. fold p; fold left1 right1; fold size1; nia.
  - intros Hn.
    pose proof (separable_forward_bad1 L HL groups (cin / groups) (cout / groups)) as A.
    pose proof (separable_forward_bad2 L HL groups (cin / groups) (cout / groups)) as B.
    rewrite ?Ek, ?Ei, ?Eo, ?Eks, ?Es, ?Ep, ?Ed, ?Em, ?Hlen, ?Epk in A.
    rewrite ?Ek, ?Ei, ?Eo, ?Eks, ?Es, ?Ep, ?Ed, ?Em, ?Hlen, ?Epk in B.
    destruct (fits_em m sp (repeat 1 d) stride dil left1 right1) as [F1|F1].
    + apply (B Hg Hci Hco Eg Din Dout weight_H weight WH WS in_H out_H HH HK H1 H2 input N sp Hi Hsp F1). tauto.
    + apply (A Hg Hci Hco Eg Din Dout weight_H weight WH WS in_H out_H HH HK H1 H2 input N sp Hi Hsp F1).
Qed.
