(** Property theorems C81: inputs with one axis less than a layer expects.
    torch's convolutions, pools and instance normalizations take such an input as one item without batch axis.  The group layers read
    the axes by position, so they neither refuse it nor treat it as one item.  [unsqueeze0 X]: X with a batch axis of size one. *)
From Coq Require Import String ZArith Lra.
From Verif Require Import Prelude RMath Mat Interp SO2 Repulse RepulseFacts Tensor TensorFacts Kernel KernelFacts Conv ConvSpec ConvFacts GConvFacts ConvInit
  WeightSpec Layers LayersSpec LayersFacts NormFacts PoolFacts NoBatchFacts Prop_Kernel Prop_Conv Prop_Conv2 Functional.
Open Scope nat_scope.

(** GInstanceNormNd on features with one spatial axis less (a 3d layer in a 2d network): it normalizes every item as a whole, over its channels,
    its group elements and its positions at once, and scales and shifts with the parameters numbered by the item; with affine
    parameters it refuses batches that do not happen to have num_features items. *)
Theorem C81_instance_norm : forall G d s (x : tensor R) (H : list G) N C n Z dims,
  has_shape x (N :: C :: n :: Z :: dims) -> 2 + List.length dims = d -> check_channels s N = true ->
  let V a := map (fun y => at_ x (a :: y)) (indices (C :: n :: Z :: dims)) in
  (nm_weight s <> None -> N <> nm_features s -> g_instance_norm d s x H = Err ValueError) /\
  (nm_weight s = None \/ N = nm_features s -> bn_batch s = false \/ C * (n * (Z * prodn dims)) <> 1 -> exists y s',
    g_instance_norm d s x H = Ok (y, H, s') /\ has_shape y (N :: C :: n :: Z :: dims) /\
    forall a z, a < N -> valid (C :: n :: Z :: dims) z ->
      at_ y (a :: z) = affine1 (nm_weight s) (nm_bias s) a
        (if bn_batch s then (at_ x (a :: z) - average (V a)) / sqrt (variance (V a) + nm_eps s)
         else (at_ x (a :: z) - nth a (olist (nm_mean s)) 0) / sqrt (nth a (olist (nm_var s)) 0 + nm_eps s))%R).
Proof.
  intros G d s x H N C n Z dims Hx Hd Hch V. destruct (g_instance_unbatched H d s x N C n Z dims Hx Hd) as (A1 & _ & A3).
  split; [intros Q1 Q2; apply A1; left; auto|]. intros Hf Hok.
  destruct (A3 ltac:(intros [[Q1 Q2]|[Q1 Q2]]; [destruct Hf; contradiction|destruct Hok; [congruence|contradiction]]) Hch) as (y & E & S & Vy).
  exists y. eexists. split; [exact E|]. split; [exact S|].
  intros a z Ha Hz. rewrite Vy by assumption. f_equal. unfold bn_mean, bn_var, normalized. rewrite sample_unsqueezed. fold (V a).
  destruct (bn_batch s); [|reflexivity]. rewrite (average_meanR (V a)), (variance_varR (V a)). reflexivity.
Qed.
Print Assumptions C81_instance_norm.

(** The spatial pools on features with one spatial axis less: the channel and group axes, flattened, are pooled as the first of the d axes; the
    result is accepted when the output happens to have C * n cells, and entry (c, e) is cell number c * n + e. *)
Theorem C81_spatial_pools : forall G d spec (x : tensor R) (H : list G) N C n sp,
  has_shape x (N :: C :: n :: sp) -> S (List.length sp) = d -> N * (C * (n * prodn sp)) <> 0 ->
  match pool_axes d spec (C * n :: sp) with
  | None => g_spatial_pool d spec x H = Err RuntimeError
  | Some axs =>
    if returns_pair spec then g_spatial_pool d spec x H = Err AttributeError
    else (prodn (map px_out axs) <> C * n -> g_spatial_pool d spec x H = Err RuntimeError) /\
         (prodn (map px_out axs) = C * n -> exists v, g_spatial_pool d spec x H = Ok (v, H) /\ has_shape v [N; C; n] /\
           forall a c e, a < N -> c < C -> e < n ->
             let z := unravel (map px_out axs) (c * n + e) in
             at_ v [a; c; e] = pool_value spec (map (fun q => at_ x (a :: hd 0 q / n :: hd 0 q mod n :: tl q)) (cart (map2 px_win axs z))) (prodn (map2 px_full axs z)))
  end.
Proof. intros G d spec x H. exact (spatial_pool_unbatched H d spec x). Qed.
Print Assumptions C81_spatial_pools.

(** A lifting layer on one image X without batch axis, of shape (cin, h, *sp).  Y: what the same layer without bias gives for the batch
    holding X alone.  The call raises unless the first output size o1 of Y happens to equal cin; then it returns the memory of Y
    cut up as (cin, cout, |H|, *os): the batch axis of the result counts rows of the image.  A bias is added along that axis: it raises
    unless cin = cout or one of them is 1. *)
Theorem C81_lifting_layer : forall G P (D : Dflt P) d (L : gconv G P) cin cout ks k groups stride padding dil m bias
    weight W (H : list G) (X : tensor R) A sp,
  constructed d L cin cout ks k groups stride padding dil m bias ->
  H <> [] -> lifting_kernel_forward k weight H = Ok W -> has_shape W (cout :: List.length H :: cin / groups :: ks) ->
  has_shape X (A :: sp) -> List.length sp = d ->
  match lifting_forward (with_bias L None) weight (unsqueeze0 X) H with
  | Err _ => lifting_forward L weight X H = Err RuntimeError
  | Ok (Y, _) => A = cin /\ exists o1 os, has_shape Y (1 :: cout :: List.length H :: o1 :: os) /\ S (List.length os) = d /\
    (o1 <> cin \/ (bias <> None /\ cin <> cout /\ cin <> 1 /\ cout <> 1) -> lifting_forward L weight X H = Err RuntimeError) /\
    (o1 = cin -> bias = None \/ cin = cout \/ cin = 1 \/ cout = 1 -> exists out,
       lifting_forward L weight X H = Ok (out, H) /\
       let lead := match bias with None => cin | Some _ => Nat.max cin cout end in
       has_shape out (lead :: cout :: List.length H :: os) /\
       forall a o e y, a < lead -> o < cout -> e < List.length H -> valid os y ->
         let a' := if Nat.eqb cin 1 then 0 else a in
         let q := (a' * cout + o) * List.length H + e in
         at_ out (a :: o :: e :: y) =
           (at_ Y (0 :: q / cin / List.length H :: (q / cin) mod List.length H :: q mod cin :: y)%nat
            + bias_value d bias (if Nat.eqb cout 1 then 0 else a))%R)
  end.
Proof.
  intros G P D d L cin cout ks k groups stride padding dil m bias weight W H X A sp Hc HH HK HW Hi Hsp.
  destruct (constructed_spec _ _ _ _ _ _ _ _ _ _ _ _ Hc)
    as (HL & Hb & Ek & Ei & Eo & Eks & Eg & Es & Ep & Ed & Em & Eb & Hlen & Hbv & Hg & Hci & Hco & Din & Dout).
  assert (0 < d) as Hd by (destruct Hc as (cm & ? & ? & [[_ ->]|[_ ->]] & _); lia).
  assert (0 < List.length H) as HlH by (destruct H; [contradiction|cbn; lia]).
  pose proof (lifting_unbatched_core L HL Hb groups (cin / groups) (cout / groups) Hg Hci Hco Eg ltac:(congruence) ltac:(congruence) weight W H HH
    ltac:(rewrite Ek; exact HK) ltac:(rewrite Eo, Eks; exact HW) X A sp Hi ltac:(congruence) ltac:(rewrite Eks, Hlen; exact Hd)) as K.
  destruct (lifting_forward (with_bias L None) weight (unsqueeze0 X) H) as [[Y HY]|e]; [|exact K].
  rewrite Ei, Eo, Eks, Hlen in K. destruct K as (-> & o1 & os & SY & Lo & Po & E). split; [reflexivity|]. exists o1, os. split; [exact SY|]. split; [exact Lo|].
  rewrite E. clear E. set (V := mkT (cin :: cout :: List.length H :: os) (data Y)).
  assert (o1 = cin -> has_shape V (cin :: cout :: List.length H :: os)) as SV.
  { intros ->. apply (has_shape_mk Y _ _ SY). rewrite !prodn_cons. lia. }
  assert (forall a o e y, o1 = cin -> a < cin -> o < cout -> e < List.length H -> valid os y ->
    let q := (a * cout + o) * List.length H + e in
    at_ V (a :: o :: e :: y) = at_ Y (0 :: q / cin / List.length H :: (q / cin) mod List.length H :: q mod cin :: y)) as VV.
  { intros a o e y -> Ha Ho He Hy q. unfold V. destruct Y as [sy dy]. destruct SY as [Hs _]. cbn in Hs. subst sy. cbn [data]. apply at_reshape.
    cbn [ravel]. rewrite !prodn_cons.
    pose proof (Nat.div_mod q cin ltac:(lia)) as Q1. pose proof (Nat.div_mod (q / cin) (List.length H) ltac:(lia)) as Q2.
    assert (a * (cout * (List.length H * prodn os)) + (o * (List.length H * prodn os) + (e * prodn os + ravel os y)) = q * prodn os + ravel os y) as -> by (unfold q; nia).
    rewrite Q1 at 1. rewrite Q2 at 1. nia. }
  destruct bias as [b|].
  - assert (o1 = cin -> (cin <> l_out L -> cin <> 1 -> l_out L <> 1 -> add_bias L V = Err RuntimeError) /\
      (cin = l_out L \/ cin = 1 \/ l_out L = 1 -> 0 < cin -> 0 < l_out L -> exists y, add_bias L V = Ok y /\ has_shape y (Nat.max cin (l_out L) :: cout :: List.length H :: os) /\
       forall a z, a < Nat.max cin (l_out L) -> valid (cout :: List.length H :: os) z ->
         at_ y (a :: z) = (at_ V ((if Nat.eqb cin 1 then 0%nat else a) :: z) + biasf L (if Nat.eqb (l_out L) 1 then 0%nat else a))%R)) as KB.
    { intros Q. apply (bias_wrong_axis L b V cin (cout :: List.length H :: os) Eb Hb); [cbn [List.length]; rewrite Eks, Hlen; lia|apply SV; exact Q]. }
    rewrite Eo in KB. split.
    + intros Q. destruct (Nat.eqb_spec o1 cin) as [Q1|Q1]; [|reflexivity]. destruct Q as [Q|(_ & Q2 & Q3 & Q4)]; [contradiction|].
      destruct (KB Q1) as [B _]. rewrite (B Q2 Q3 Q4). reflexivity.
    + intros Q1 Q. destruct (Nat.eqb_spec o1 cin) as [_|?]; [|contradiction]. destruct (KB Q1) as [_ B]. destruct B as (y & Ey & Sy & Vy); [destruct Q as [Q|Q]; [discriminate|exact Q]|lia|lia|].
      rewrite Ey. cbn [bind]. exists y. split; [reflexivity|]. split; [exact Sy|]. intros a o e z Ha Ho He Hz. cbv zeta.
      rewrite Vy by (try assumption; do 2 (apply valid_cons; [assumption|]); assumption). rewrite Hbv. f_equal. apply VV; try assumption.
      destruct (Nat.eqb_spec cin 1) as [?|Hn]; [lia|]. destruct Q as [Q|[Q|[Q|Q]]]; [discriminate| | |]; lia.
  - assert (add_bias L V = Ok V) as EB by (unfold add_bias; rewrite Eb; reflexivity). rewrite EB. cbn [bind]. split.
    + intros [Q|[Q _]]; [|congruence]. destruct (Nat.eqb_spec o1 cin); [contradiction|reflexivity].
    + intros Q1 _. destruct (Nat.eqb_spec o1 cin) as [_|?]; [|contradiction]. exists V. split; [reflexivity|]. split; [apply SV; exact Q1|].
      intros a o e z Ha Ho He Hz. cbv zeta. unfold bias_value. rewrite Rplus_0_r.
      assert ((if Nat.eqb cin 1 then 0 else a) = a) as Ea by (destruct (Nat.eqb_spec cin 1); lia). rewrite Ea. apply VV; assumption.
Qed.
Print Assumptions C81_lifting_layer.

(** Group layers on one item without batch axis, of shape (cin, |H|, h, *sp): the call raises whenever the input grid has more than one
    element; with one, it gets past the first convolution only when the first image axis happens to have cin rows.  More
    generally an input (A, B, h, *sp) with one axis less is never accepted unless A = B h = cin |H|. *)
Theorem C81_group_layer : forall G P (D : Dflt P) d (L : gconv G P) cin cout ks k groups stride padding dil m bias
    weight W (in_H out_H : list G) (X Y : tensor R) H' A B h sp,
  constructed d L cin cout ks k groups stride padding dil m bias ->
  has_shape X (A :: B :: h :: sp) -> S (List.length sp) = d -> 0 < A * (B * (h * prodn sp)) ->
  (full_kernel_forward k weight in_H out_H = Ok W /\ full_forward L weight X in_H out_H = Ok (Y, H') \/
   subgroup_kernel_forward k weight in_H out_H = Ok W /\ subgroup_forward L weight X in_H out_H = Ok (Y, H')) ->
  (A = cin * List.length in_H /\ B * h = cin * List.length in_H) /\
  (A = cin -> B = List.length in_H -> List.length in_H = 1 /\ h = cin).
Proof.
  intros G P D d L cin cout ks k groups stride padding dil m bias weight W in_H out_H X Y H' A B h sp Hc Hi Hsp Hpos HF.
  destruct (constructed_spec _ _ _ _ _ _ _ _ _ _ _ _ Hc)
    as (HL & Hb & Ek & Ei & Eo & Eks & Eg & Es & Ep & Ed & Em & Eb & Hlen & Hbv & Hg & Hci & Hco & Din & Dout).
  assert (A = cin * List.length in_H /\ B * h = cin * List.length in_H) as [K1 K2].
  { rewrite <- Ei. unfold full_forward, subgroup_forward in HF. rewrite Ek in HF.
    destruct HF as [[HK E]|[HK E]];
      (eapply (group_unbatched L groups (cin / groups) Hg Hci Eg ltac:(congruence) in_H out_H X A B h sp Hi ltac:(congruence) Hpos); [|exact E]); exact HK. }
  split; [auto|]. intros -> ->. assert (0 < cin) by nia. assert (List.length in_H = 1) as Q by nia. rewrite Q in *. split; lia.
Qed.
Print Assumptions C81_group_layer.

Theorem C81_separable_layer : forall G P (D : Dflt P) d (L : gconv G P) cin cout ks k groups stride padding dil m bias
    weight_H weight WH WS (in_H out_H : list G) (X Y : tensor R) H' A B h sp,
  constructed d L cin cout ks k groups stride padding dil m bias ->
  has_shape X (A :: B :: h :: sp) -> S (List.length sp) = d -> 0 < A * (B * (h * prodn sp)) ->
  separable_kernel_forward k weight_H weight in_H out_H = Ok (WH, WS) ->
  has_shape WH (cout :: List.length in_H :: cin / groups :: List.length out_H :: repeat 1 d) ->
  separable_forward L weight_H weight X in_H out_H = Ok (Y, H') ->
  (A = cin * List.length in_H /\ B * h = cin * List.length in_H) /\
  (A = cin -> B = List.length in_H -> List.length in_H = 1 /\ h = cin).
Proof.
  intros G P D d L cin cout ks k groups stride padding dil m bias weight_H weight WH WS in_H out_H X Y H' A B h sp Hc Hi Hsp Hpos HK HW E.
  destruct (constructed_spec _ _ _ _ _ _ _ _ _ _ _ _ Hc)
    as (HL & Hb & Ek & Ei & Eo & Eks & Eg & Es & Ep & Ed & Em & Eb & Hlen & Hbv & Hg & Hci & Hco & Din & Dout).
  assert (A = cin * List.length in_H /\ B * h = cin * List.length in_H) as [K1 K2].
  { rewrite <- Ei. eapply (separable_unbatched L groups (cin / groups) Hg Hci Eg ltac:(congruence) in_H out_H X A B h sp Hi ltac:(congruence) Hpos); [rewrite Ek; exact HK| |exact E].
    rewrite (proj1 HW). cbn [skipn]. rewrite repeat_length. congruence. }
  split; [auto|]. intros -> ->. assert (0 < cin) by nia. assert (List.length in_H = 1) as Q by nia. rewrite Q in *. split; lia.
Qed.
Print Assumptions C81_separable_layer.

(** Hypotheses met, and the accident happens: a 3-channel 5x7 image under a 3x3 lifting layer without bias and padding is accepted without batch axis, and
    comes back with shape (3, 6, 2, 5) where the batch of one gives (1, 6, 2, 3, 5); a 6x7 image is refused. *)
Example C81_nonvacuous : forall T, exists L W (Y out : tensor R),
  let k := lifting_kernel_SE2 T 3 6 3 1 "bilinear" "border" true [0%R] in
  let w := build [6; 3; 3; 3] (fun idx => INR (nth 3 idx 0)) in
  let H := [0%R; (PI / 2)%R] in
  let X := build [3; 5; 7] (fun idx => INR (nth 1 idx 0)) in
  let X' := build [3; 6; 7] (fun idx => INR (nth 1 idx 0)) in
  constructed 2 L 3 6 [3; 3] k 1 [1; 1] (PInt 0) [1; 1] Zeros None /\
  lifting_kernel_forward k w H = Ok W /\ has_shape W [6; 2; 3; 3; 3] /\
  lifting_forward L w (unsqueeze0 X) H = Ok (Y, H) /\ has_shape Y [1; 6; 2; 3; 5] /\
  lifting_forward L w X H = Ok (out, H) /\ has_shape out [3; 6; 2; 5] /\
  lifting_forward L w X' H = Err RuntimeError.
Proof.
  intros T. pose (k := lifting_kernel_SE2 T 3 6 3 1 "bilinear" "border" true [0%R]).
  pose (w := build [6; 3; 3; 3] (fun idx => INR (nth 3 idx 0))). pose (H := [0%R; (PI / 2)%R]).
  pose (X := build [3; 5; 7] (fun idx => INR (nth 1 idx 0))). pose (X' := build [3; 6; 7] (fun idx => INR (nth 1 idx 0))).
  destruct (C36_SE2 T 3 6 3 1 "bilinear" "border" true [0%R] (gs2 true GsBorder) w H) as (W & E & HW & _).
  { lia. } { reflexivity. } { split; [reflexivity|apply wft_build]. }
  assert (exists L, constructed 2 L 3 6 [3; 3] k 1 [1; 1] (PInt 0) [1; 1] Zeros None) as [L HL].
  { eexists. exists "2d"%string, (GkInt 8), "zeros"%string. split; [left; auto|]. split; [reflexivity|]. split; [reflexivity|].
    split; [|split; [exact I|lia]].
    split; [reflexivity|]. split; [reflexivity|]. split; [reflexivity|]. split; [reflexivity|]. split; [exact I|].
    repeat split; intros x [<-|[<-|[]]]; lia. }
  assert (forall h, has_shape (unsqueeze0 (build [3; h; 7] (fun idx => INR (nth 1 idx 0)))) [1; 3; h; 7]) as HX.
  { intros h. split; [reflexivity|]. unfold wft. cbn [unsqueeze0 shape data build]. rewrite map_length, indices_length, (prodn_cons 1). lia. }
  assert (forall h, 3 <= h -> exists Y, lifting_forward L w (unsqueeze0 (build [3; h; 7] (fun idx => INR (nth 1 idx 0)))) H = Ok (Y, H) /\
    has_shape Y (1 :: 6 :: 2 :: conv_size [h; 7] [3; 3] [1; 1] [1; 1] (lefts (PadTuple [0; 0]) [3; 3] [1; 1]) (rights (PadTuple [0; 0]) [3; 3] [1; 1]))) as K.
  { intros h Hh. destruct (C45_lifting_convolution _ _ _ 2 L 3 6 [3; 3] k 1 [1; 1] (PInt 0) [1; 1] Zeros None w W H _ 1 [h; 7] HL ltac:(discriminate) E HW (HX h) eq_refl) as [A _].
    destruct A as (out & Eo & So & _); [|exists out; split; [exact Eo|exact So]].
    intros j Hj. cbn [List.length] in Hj. destruct j as [|[|j]]; [cbn; lia|vm_compute; lia|lia]. }
  destruct (K 5 ltac:(lia)) as (Y & EY & SY). destruct (K 6 ltac:(lia)) as (Y' & EY' & SY').
  assert (with_bias L None = L) as EL.
  { destruct (constructed_spec _ _ _ _ _ _ _ _ _ _ _ _ HL) as (_ & _ & _ & _ & _ & _ & _ & _ & _ & _ & _ & Eb & _). clear - Eb. destruct L. unfold with_bias. cbn in Eb |- *. rewrite Eb. reflexivity. }
  pose proof (C81_lifting_layer _ _ _ 2 L 3 6 [3; 3] k 1 [1; 1] (PInt 0) [1; 1] Zeros None w W H X 3 [5; 7] HL ltac:(discriminate) E HW ltac:(split; [reflexivity|apply wft_build]) eq_refl) as C.
  pose proof (C81_lifting_layer _ _ _ 2 L 3 6 [3; 3] k 1 [1; 1] (PInt 0) [1; 1] Zeros None w W H X' 3 [6; 7] HL ltac:(discriminate) E HW ltac:(split; [reflexivity|apply wft_build]) eq_refl) as C'.
  rewrite EL in C, C'. unfold X in C. unfold X' in C'. rewrite EY in C. rewrite EY' in C'. fold X in C. fold X' in C'.
  destruct C as (_ & o1 & os & S1 & _ & _ & C). destruct C' as (_ & o1' & os' & S1' & _ & C' & _).
  pose proof (has_shape_inj _ _ _ S1 SY) as Q. pose proof (has_shape_inj _ _ _ S1' SY') as Q'.
  change (conv_size [5; 7] [3; 3] [1; 1] [1; 1] (lefts (PadTuple [0; 0]) [3; 3] [1; 1]) (rights (PadTuple [0; 0]) [3; 3] [1; 1])) with [3; 5] in Q, SY.
  change (conv_size [6; 7] [3; 3] [1; 1] [1; 1] (lefts (PadTuple [0; 0]) [3; 3] [1; 1]) (rights (PadTuple [0; 0]) [3; 3] [1; 1])) with [4; 5] in Q'.
  injection Q as -> ->. injection Q' as -> ->.
  destruct (C eq_refl (or_introl eq_refl)) as (out & Eo & So & _).
  exists L, W, Y, out. cbv zeta. repeat (split; [assumption|]). apply C'. left. discriminate.
Qed.

(** GInstanceNorm3d on the features of a 2d network, two items of 16 channels. *)
Example C81_norm_nonvacuous : exists s (x y : tensor R) s',
  has_shape x [2; 16; 4; 5; 6] /\ nm_features s = 16 /\ check_channels s 2 = true /\ bn_batch s = true /\
  g_instance_norm 3 s x [0%R; 1%R; 2%R; 3%R] = Ok (y, [0%R; 1%R; 2%R; 3%R], s').
Proof.
  pose (s := {| nm_features := 16; nm_eps := 1/100000; nm_momentum := Some (1/10); nm_weight := None; nm_bias := None;
    nm_mean := None; nm_var := None; nm_count := 0; nm_training := true |}%R).
  pose (x := build [2; 16; 4; 5; 6] (fun idx => INR (nth 2 idx 0))).
  assert (has_shape x [2; 16; 4; 5; 6]) as Hx by (split; [reflexivity|apply wft_build]).
  destruct (C81_instance_norm R 3 s x [0%R; 1%R; 2%R; 3%R] 2 16 4 5 [6] Hx eq_refl eq_refl) as [_ A].
  destruct A as (y & s' & E & _); [left; reflexivity|right; vm_compute; discriminate|].
  exists s, x, y, s'. repeat (split; [first [assumption|reflexivity]|]). exact E.
Qed.

(** GAvgSpatialPool3d(kernel 2, stride 2) on the features (1, 2, 2, 8, 4) of a 2d network: 2 * 4 * 2 cells, refused; on (1, 2, 2, 4, 2): accepted. *)
Example C81_pool_nonvacuous : exists (x x' v : tensor R),
  let spec := AvgPool [2; 2; 2] [2; 2; 2] [0; 0; 0] false true None in
  has_shape x [1; 2; 2; 8; 4] /\ has_shape x' [1; 2; 2; 4; 2] /\
  g_spatial_pool 3 spec x [0%R; PI] = Err RuntimeError /\ g_spatial_pool 3 spec x' [0%R; PI] = Ok (v, [0%R; PI]) /\ has_shape v [1; 2; 2].
Proof.
  pose (spec := AvgPool [2; 2; 2] [2; 2; 2] [0; 0; 0] false true None).
  pose (x := build [1; 2; 2; 8; 4] (fun idx => INR (nth 3 idx 0))). pose (x' := build [1; 2; 2; 4; 2] (fun idx => INR (nth 3 idx 0))).
  assert (has_shape x [1; 2; 2; 8; 4]) as Hx by (split; [reflexivity|apply wft_build]).
  assert (has_shape x' [1; 2; 2; 4; 2]) as Hx' by (split; [reflexivity|apply wft_build]).
  pose proof (C81_spatial_pools R 3 spec x [0%R; PI] 1 2 2 [8; 4] Hx eq_refl ltac:(vm_compute; discriminate)) as A.
  pose proof (C81_spatial_pools R 3 spec x' [0%R; PI] 1 2 2 [4; 2] Hx' eq_refl ltac:(vm_compute; discriminate)) as B.
  destruct (pool_axes 3 spec (2 * 2 :: [8; 4])) as [axs|] eqn:Ea; [|vm_compute in Ea; discriminate].
  destruct (pool_axes 3 spec (2 * 2 :: [4; 2])) as [axs'|] eqn:Ea'; [|vm_compute in Ea'; discriminate].
  assert (map px_out axs = [2; 4; 2]) as P1 by (vm_compute in Ea; injection Ea as <-; reflexivity).
  assert (map px_out axs' = [2; 2; 1]) as P2 by (vm_compute in Ea'; injection Ea' as <-; reflexivity).
  cbn [returns_pair spec] in A, B. destruct A as [A _]. destruct B as [_ B]. rewrite P1 in A. rewrite P2 in B.
  destruct (B eq_refl) as (v & Ev & Sv & _). exists x, x', v. cbv zeta. repeat (split; [assumption|]). split; [apply A; vm_compute; discriminate|]. split; assumption.
Qed.
