(** Property theorems C82: images on a torus.
    Reading guide (CyclicSpec.v).  [rolled d u X X']: X' = torch.roll(X, u) over the last d axes.  [times u v]: axis by axis product.
    [goes_round sp os stride]: os[j] * stride[j] = sp[j], the output positions go around the torus exactly once.
    [on_torus ...]: what is required of a call of a module: for convolutions padding_mode='circular', an output that goes around exactly once,
    and parameters and input of the shapes the layer expects; not a separable convolution.  [total_stride]: the strides of all convolutions, multiplied. *)
From Coq Require Import String ZArith Permutation Lra.
From Verif Require Import Prelude RMath Mat Interp SO2 SO2Facts Repulse RepulseFacts Functional Tensor TensorFacts Kernel KernelFacts Conv ConvSpec ConvFacts GConvFacts ConvInit ConvShift SepProduct EquiKernel
  Layers LayersSpec NormFacts Public PublicFacts Network NetworkCond Prop_Kernel KernelMore GroupKernelFacts Prop_Kernel2 Prop_SampleRn Prop_Conv Prop_Conv2 Prop_Public Prop_Network Prop_Layers Prop_Equi2 NetFacts SepConvFacts CyclicSpec CyclicFacts CyclicNet.
Open Scope nat_scope.

(** ** Layers *)
Theorem C82_lifting : forall G P (D : Dflt P) d (L : gconv G P) cin cout ks k groups stride padding dil bias weight W (H : list G) (X X' Y : tensor R) N sp os u,
  constructed d L cin cout ks k groups stride padding dil Circular bias ->
  H <> [] -> lifting_kernel_forward k weight H = Ok W -> has_shape W (cout :: length H :: cin / groups :: ks) ->
  has_shape X (N :: cin :: sp) -> length sp = d -> length u = d ->
  lifting_forward L weight X H = Ok (Y, H) -> has_shape Y (N :: cout :: length H :: os) -> goes_round sp os stride ->
  rolled d (times u stride) X X' ->
  exists Y', lifting_forward L weight X' H = Ok (Y', H) /\ rolled d u Y Y'.
Proof.
  intros G P D d L cin cout ks k groups stride padding dil bias weight W H X X' Y N sp os u Hc HH HK HW HX Lsp Lu E SY Hr HR.
  exact (lifting_rolled d L cin cout ks k groups stride padding dil bias weight W H X X' Y N sp os u Hc HH HK HW HX Lsp Lu HR E SY Hr).
Qed.
Print Assumptions C82_lifting.

Theorem C82_group : forall G P (D : Dflt P) d (L : gconv G P) cin cout ks k groups stride padding dil bias weight W (in_H out_H : list G) (X X' Y : tensor R) N sp os u,
  constructed d L cin cout ks k groups stride padding dil Circular bias ->
  out_H <> [] -> full_kernel_forward k weight in_H out_H = Ok W -> has_shape W (cout :: length out_H :: cin / groups :: length in_H :: ks) ->
  has_shape X (N :: cin :: length in_H :: sp) -> length sp = d -> length u = d ->
  full_forward L weight X in_H out_H = Ok (Y, out_H) -> has_shape Y (N :: cout :: length out_H :: os) -> goes_round sp os stride ->
  rolled d (times u stride) X X' ->
  exists Y', full_forward L weight X' in_H out_H = Ok (Y', out_H) /\ rolled d u Y Y'.
Proof.
  intros G P D d L cin cout ks k groups stride padding dil bias weight W in_H out_H X X' Y N sp os u Hc HH HK HW HX Lsp Lu E SY Hr HR.
  exact (group_rolled d L cin cout ks k groups stride padding dil bias weight W in_H out_H X X' Y N sp os u Hc HH HK HW HX Lsp Lu HR E SY Hr).
Qed.
Print Assumptions C82_group.

(** Which configurations go around exactly once: padding='same' always; padding=p when 2p = dilation*(kernel-1) and the stride divides the size. *)
Theorem C82_which_go_round : forall G P d (L : gconv G P) cin cout ks k groups stride padding dil bias sp,
  constructed d L cin cout ks k groups stride padding dil Circular bias -> length sp = d -> (forall j, j < d -> 0 < nth j sp 0) ->
  let size := conv_size sp ks stride dil (lefts (stored_padding d padding) ks dil) (rights (stored_padding d padding) ks dil) in
  (padding = PStr "same" -> size = sp /\ goes_round sp size stride) /\
  (forall p, padding = PInt p -> (forall j, j < d -> 2 * p = nth j dil 0 * (nth j ks 0 - 1) /\ exists q, nth j sp 0 = q * nth j stride 0) -> goes_round sp size stride) /\
  (goes_round sp size stride -> forall j, j < d -> exists q, nth j sp 0 = q * nth j stride 0).
Proof.
  intros G P d L cin cout ks k groups stride padding dil bias sp Hc Lsp Hsp size.
  destruct (constructed_spec _ _ _ _ _ _ _ _ _ _ _ _ Hc) as (HL & _ & _ & _ & _ & Eks & _ & Es & _ & Ed & _ & _ & Hlen & _).
  assert (length dil = d) as Ldil by (pose proof (lo_dil L HL) as E; rewrite Ed, Eks, Hlen in E; exact E).
  assert (length stride = d) as Ls by (pose proof (lo_stride L HL) as E; rewrite Es, Eks, Hlen in E; exact E).
  assert (forall j, j < d -> 0 < nth j stride 0) as Hst by (intros j Hj; rewrite <- Es; apply (lo_pos L HL); rewrite Eks; lia).
  split; [|split].
  - intros ->. assert (forall s, In s stride -> s = 1) as Hs1.
    { destruct Hc as (cm & gks & pm & Hm & H & Hpm & Hgood & _). destruct (gconv_init_fields _ _ _ _ _ _ _ _ _ _ _ _ _ _ Hm H) as ((_ & _ & _ & _ & Hs & _) & _).
      destruct (Hs "same"%string eq_refl) as [_ Hs1]. exact (Hs1 eq_refl). }
    assert (size = sp) as E.
    { apply nth_ext with (d := 0) (d' := 0); unfold size, conv_size; rewrite axes_length; [congruence|]. intros j Hj. rewrite nth_axes by exact Hj. rewrite Hlen in Hj.
      destruct (C44_padding_amounts d ks dil (PStr "same") j Hlen Ldil Hj) as (Hsame & _). destruct (Hsame eq_refl) as [A _].
      rewrite (Hs1 (nth j stride 0)) by (apply nth_In; lia). rewrite Nat.div_1_r. pose proof (Hsp j Hj). lia. }
    split; [exact E|]. intros j Hj. rewrite E, (Hs1 (nth j stride 0)) by (apply nth_In; lia). lia.
  - intros p -> HP j Hj. rewrite Lsp in Hj. unfold size, conv_size. rewrite nth_axes by lia. destruct (HP j Hj) as (A & q & Eq).
    destruct (C44_padding_amounts d ks dil (PInt p) j Hlen Ldil Hj) as (_ & _ & Hint & _). destruct (Hint p eq_refl) as [-> ->].
    pose proof (Hsp j Hj) as B. rewrite Eq in *. pose proof (Hst j Hj) as C. set (st := nth j stride 0) in *.
    rewrite <- A. destruct q as [|q]; [cbn in B; lia|]. replace (S q * st + p + p - 2 * p - 1) with ((st - 1) + q * st) by (cbn [Nat.mul]; lia).
    rewrite Nat.div_add by lia. rewrite Nat.div_small by lia. cbn [Nat.mul Nat.add]. lia.
  - intros Hr j Hj. exists (nth j size 0). symmetry. apply Hr. lia.
Qed.
Print Assumptions C82_which_go_round.

(** ** Networks: rolling the input image by u times the total stride rolls the feature map by u, with the same grid, the same new state of every
    module, and the same random draws. *)
Theorem C82_network : forall G P (D : Dflt P) fam d mul (M : gmodule G P) w rs K prog (X X' Y : tensor R) HY modules u, 0 < d -> length u = d ->
  on_torus_lifting d M w X (permuted M mul rs (or_else K (kernel_grid M))) ->
  (forall Z H, lifting_call M mul rs w X K = Ok (Z, H) -> throughout fam d mul (on_torus fam d mul) prog Z H) ->
  network fam d mul M w rs K prog X = Ok (Y, HY, modules) ->
  rolled d (times u (times (total_stride d prog) (l_stride (gm_layer M)))) X X' ->
  exists Y', network fam d mul M w rs K prog X' = Ok (Y', HY, modules) /\ rolled d u Y Y' /\
    g_avg_global_pool Y' = g_avg_global_pool Y /\
    (forall v i, g_max_global_pool Y = Ok (PPair v i) -> exists i', g_max_global_pool Y' = Ok (PPair v i')) /\
    (forall A, g_avg_group_pool Y = Ok (PTensor A) -> exists A', g_avg_group_pool Y' = Ok (PTensor A') /\ rolled d u A A') /\
    (forall v i, g_max_group_pool Y = Ok (PPair v i) -> exists v' i', g_max_group_pool Y' = Ok (PPair v' i') /\ rolled d u v v').
Proof.
  intros G P D fam d mul M w rs K prog X X' Y HY modules u Hd Lu HT HN E HR. unfold network in *.
  destruct (lifting_call M mul rs w X K) as [[Z H]|] eqn:EL; [|discriminate]. cbn [bind fst snd] in E. specialize (HN Z H eq_refl).
  pose proof (total_stride_length fam d mul prog Z H HN _ E) as Lt.
  assert (length (times u (total_stride d prog)) = d) as Lu' by (rewrite times_length; congruence).
  rewrite times_assoc in HR. pose proof EL as EL0. unfold lifting_call in EL. pose proof (lifting_forward_grid _ _ _ _ _ _ EL) as EH. rewrite <- EH in EL.
  rewrite <- EH in HT. destruct (lifting_torus d M w X X' H _ Z HT Lu' HR EL) as (Z' & EZ & RZ & FZ).
  assert (lifting_call M mul rs w X' K = Ok (Z', H)) as EZ' by (unfold lifting_call; rewrite <- EH; exact EZ). rewrite EZ'. cbn [bind fst snd].
  destruct (run_torus fam d mul Hd prog Z Z' H u Y HY modules HN FZ Lu RZ E) as (Y' & E' & R' & N & C & n & s & SY & Ls).
  exists Y'. split; [exact E'|]. split; [exact R'|]. pose proof (rolled_rearranged d u Y Y' N C n s R' SY Ls) as RR.
  destruct (C54_global_pool_invariance _ n s n s Y Y' RR) as [P1 P2]. split; [exact P1|]. split; [exact P2|].
  destruct (rolled_inv d u Y Y' [N; C; n] s R' SY Ls) as [SY' V].
  destruct (C54_group_pool_invariance (fun i => i) (roll_pos s u) n s s Y Y' N C (permutes_id n) (roll_pos_bijective s u) SY SY') as [Q1 Q2].
  { intros a b e z Ha Hb He Hz. apply (V [a; b; e] z); [repeat apply valid_cons; auto using valid_nil|exact Hz]. }
  assert (forall A A', rearranged (roll_pos s u) s s A A' -> rolled d u A A') as KK.
  { intros A A' (_ & N1 & C1 & S1 & S2 & V1). exists [N1; C1], s. split; [exact Ls|]. split; [exact S1|]. split; [exact S2|]. intros pre y Hp Hy.
    destruct (valid_inv_cons _ _ _ Hp) as (a & p1 & -> & Ha & H1). destruct (valid_inv_cons _ _ _ H1) as (c & p2 & -> & Hc & H2). apply valid_inv_nil in H2. subst p2.
    apply V1; assumption. }
  split.
  - intros A EA. destruct (Q1 A EA) as (A' & EA' & RA). exists A'. split; [exact EA'|apply KK; exact RA].
  - intros v i EA. destruct (Q2 v i EA) as (v' & i' & EA' & RA). exists v', i'. split; [exact EA'|apply KK; exact RA].
Qed.
Print Assumptions C82_network.

(** ** Separable layers pad twice: with padding='same' and padding_mode='circular' the output is larger than the torus. *)
Theorem C82_separable_same_grows : forall G P (D : Dflt P) d (L : gconv G P) cin cout ks k groups dil bias
    weight_H weight WH WS (in_H out_H : list G) (input : tensor R) N sp,
  constructed d L cin cout ks k groups (repeat 1 d) (PStr "same") dil Circular bias ->
  out_H <> [] -> separable_kernel_forward k weight_H weight in_H out_H = Ok (WH, WS) ->
  has_shape WH (cout :: length in_H :: cin / groups :: length out_H :: repeat 1 d) -> has_shape WS (cout :: length out_H :: 1 :: ks) ->
  has_shape input (N :: cin :: length in_H :: sp) -> length sp = d -> (forall j, j < d -> 1 <= nth j sp 0 /\ nth j dil 0 * (nth j ks 0 - 1) <= nth j sp 0) ->
  exists out, separable_forward L weight_H weight input in_H out_H = Ok (out, out_H) /\
    has_shape out (N :: cout :: length out_H :: axes d (fun j => nth j sp 0 + nth j dil 0 * (nth j ks 0 - 1))).
Proof.
  intros G P D d L cin cout ks k groups dil bias weight_H weight WH WS in_H out_H input N sp Hc HH HK H1 H2 Hi Hsp Hsp1.
  destruct (constructed_spec _ _ _ _ _ _ _ _ _ _ _ _ Hc)
    as (HL & Hb & Ek & Ei & Eo & Eks & Eg & Es & Ep & Ed & Em & Eb & Hlen & Hbv & Hg & Hci & Hco & Din & Dout).
  assert (length dil = d) as Ldil by (pose proof (lo_dil L HL) as E; rewrite Ed, Eks, Hlen in E; exact E).
  assert (forall j, j < d -> nth j (lefts (PadStr "same") ks dil) 0 + nth j (rights (PadStr "same") ks dil) 0 = nth j dil 0 * (nth j ks 0 - 1)) as Ham.
  { intros j Hj. destruct (C44_padding_amounts d ks dil (PStr "same") j Hlen Ldil Hj) as (Hsame & _). apply Hsame. reflexivity. }
  pose proof (repeat_length 1 d) as L1.
  set (l1 := lefts (PadStr "same") ks dil) in *. set (r1 := rights (PadStr "same") ks dil) in *.
  assert (conv_size sp (repeat 1 d) (repeat 1 d) dil l1 r1 = axes d (fun j => nth j sp 0 + nth j dil 0 * (nth j ks 0 - 1))) as Emid.
  { unfold conv_size. rewrite L1. apply axes_ext. intros j Hj. pose proof (Ham j Hj).
    rewrite !nth_ones by assumption. rewrite Nat.div_1_r, Nat.sub_diag, Nat.mul_0_r. pose proof (Hsp1 j Hj). lia. }
  destruct (C47_output_size _ _ _ _ _ _ _ _ _ _ _ _ _ _ _ _ _ _ _ _ _ _ N sp Hc HH HK H1 H2 Hi Hsp) as (x & Ex & Hxs).
  { intros j Hj. rewrite L1 in Hj. cbn [stored_padding]. fold l1 r1. rewrite nth_ones by assumption.
    rewrite Nat.sub_diag, Nat.mul_0_r. pose proof (Hsp1 j Hj). pose proof (Ham j Hj). lia. }
  { cbn [stored_padding]. fold l1 r1. rewrite Emid. intros j Hj. rewrite Hlen in Hj. rewrite nth_axes by assumption.
    pose proof (Ham j Hj). pose proof (Hsp1 j Hj). lia. }
  cbn [stored_padding] in Hxs. fold l1 r1 in Hxs. rewrite Emid in Hxs.
  exists x. split; [assumption|].
  replace (axes d (fun j => nth j sp 0 + nth j dil 0 * (nth j ks 0 - 1)))
    with (conv_size (axes d (fun j => nth j sp 0 + nth j dil 0 * (nth j ks 0 - 1))) ks (repeat 1 d) dil l1 r1);
    [assumption|].
  unfold conv_size. rewrite Hlen. apply axes_ext. intros j Hj. rewrite nth_axes, nth_ones by assumption.
  rewrite Nat.div_1_r. pose proof (Ham j Hj). pose proof (Hsp1 j Hj). lia.
Qed.
Print Assumptions C82_separable_same_grows.

(** And where the padding is chosen so that the size is kept, they wrap around with the wrong period: the 5x5 box filter with padding=1 on a
    5x5 torus, whatever the group and however the kernel was built. *)
Definition line (a : nat) : tensor R := build [1; 1; 1; 5; 5] (fun idx => if nth 4 idx 0 =? a then 1%R else 0%R).
Theorem C82_separable_wrong_period_refuted : forall G P (D : Dflt P) (L : gconv G P) k weight_H weight WH WS (h : G),
  constructed 2 L 1 1 [5; 5] k 1 [1; 1] (PInt 1) [1; 1] Circular None ->
  separable_kernel_forward k weight_H weight [h] [h] = Ok (WH, WS) -> has_shape WH [1; 1; 1; 1; 1; 1] -> has_shape WS [1; 1; 1; 5; 5] ->
  (forall i, valid [1; 1; 1; 1; 1; 1] i -> at_ WH i = 1%R) -> (forall i, valid [1; 1; 1; 5; 5] i -> at_ WS i = 1%R) ->
  rolled 2 [0; 1] (line 0) (line 1) /\
  exists Y Y', separable_forward L weight_H weight (line 0) [h] [h] = Ok (Y, [h]) /\ separable_forward L weight_H weight (line 1) [h] [h] = Ok (Y', [h]) /\
    has_shape Y [1; 1; 1; 5; 5] /\ has_shape Y' [1; 1; 1; 5; 5] /\ ~ rolled 2 [0; 1] Y Y'.
Proof.
  intros G P D L k weight_H weight WH WS h Hc HK H1 H2 O1 O2.
  assert (forall a, has_shape (line a) [1; 1; 1; 5; 5]) as SL by (intros a; split; [reflexivity|apply wft_build]).
  assert (forall a y, valid [5; 5] y -> at_ (line a) (0 :: 0 :: 0 :: y) = if nth 1 y 0 =? a then 1%R else 0%R) as VL.
  { intros a y Hy. unfold line. rewrite at_build by (do 3 (apply valid_cons; [lia|]); exact Hy). reflexivity. }
  split.
  { exists [1; 1; 1], [5; 5]. split; [reflexivity|]. split; [exact (SL 0)|]. split; [exact (SL 1)|]. intros pre y Hp Hy.
    destruct (valid_inv_cons _ _ _ Hp) as (a & p1 & -> & Ha & P1). destruct (valid_inv_cons _ _ _ P1) as (b & p2 & -> & Hb & P2).
    destruct (valid_inv_cons _ _ _ P2) as (c & p3 & -> & Hc3 & P3). apply valid_inv_nil in P3. subst p3. replace a with 0 by lia. replace b with 0 by lia. replace c with 0 by lia.
    cbn [app]. rewrite !VL by (try apply roll_pos_valid; exact Hy). unfold roll_pos. rewrite nth_axes by (cbn; lia).
    destruct (valid_inv_cons _ _ _ Hy) as (y0 & q1 & -> & Hy0 & Q1). destruct (valid_inv_cons _ _ _ Q1) as (y1 & q2 & -> & Hy1 & Q2). cbn [nth].
    destruct y1 as [|[|[|[|[|y1]]]]]; [reflexivity..|lia]. }
  set (WG := mkT (1 :: 1 :: 1 :: 1 :: repeat 1 2) (data WH)).
  assert (forall i, valid [1; 1; 1; 1; 1; 1] i -> at_ WG i = 1%R) as OG.
  { intros i Hi. rewrite <- (O1 i Hi). unfold at_, WG. rewrite (proj1 H1). reflexivity. }
  assert (forall a, exists Y, separable_forward L weight_H weight (line a) [h] [h] = Ok (Y, [h]) /\ has_shape Y [1; 1; 1; 5; 5] /\
    forall y, valid [5; 5] y -> at_ Y (0 :: 0 :: 0 :: y) =
      INR (length (filter (fun x => (nth 1 (wrap [5; 5] (read_pos [1; 1] [1; 1] [1; 1] (wrap [7; 7] (read_pos [1; 1] [1; 1] [1; 1] y x)) [0; 0])) 0) =? a) (indices [5; 5])))) as K.
  { intros a. destruct (C47_two_stages G P D 2 L 1 1 [5; 5] k 1 [1; 1] (PInt 1) [1; 1] Circular None weight_H weight WH WS [h] [h] (line a) 1 [5; 5] Hc ltac:(discriminate) HK H1 H2 (SL a) eq_refl) as [A _].
    change (lefts (stored_padding 2 (PInt 1)) [5; 5] [1; 1]) with [1; 1] in A. change (rights (stored_padding 2 (PInt 1)) [5; 5] [1; 1]) with [1; 1] in A.
    change (conv_size [5; 5] (repeat 1 2) [1; 1] [1; 1] [1; 1] [1; 1]) with [7; 7] in A. change (conv_size [7; 7] [5; 5] [1; 1] [1; 1] [1; 1] [1; 1]) with [5; 5] in A.
    destruct A as (mid & Y & E & Sm & SY & Vm & VY).
    { intros j Hj. cbn in Hj. destruct j as [|[|j]]; [vm_compute; lia|vm_compute; lia|lia]. }
    { intros j Hj. cbn in Hj. destruct j as [|[|j]]; [vm_compute; lia|vm_compute; lia|lia]. }
    exists Y. split; [exact E|]. split; [exact SY|]. intros y Hy.
    assert (forall z, valid [7; 7] z -> at_ mid (0 :: 0 :: 0 :: z) = if nth 1 (wrap [5; 5] (read_pos [1; 1] [1; 1] [1; 1] z [0; 0])) 0 =? a then 1%R else 0%R) as Vmid.
    { intros z Hz. rewrite Vm by (try exact Hz; cbn; lia). change (1 / 1) with 1. change (0 / 1 * 1) with 0. cbn [length seq map sumR fold_right Nat.add repeat].
      rewrite image_circular by (intros j Hj; cbn in Hj; destruct j as [|[|j]]; cbn; lia).
      cbn [app]. rewrite VL by (apply wrap_valid; intros j Hj; cbn in Hj; destruct j as [|[|j]]; cbn; lia).
      fold WG. rewrite OG by (repeat apply valid_cons; try lia; apply valid_nil). unfold sumR. cbn [fold_right].
      destruct (nth 1 (wrap [5; 5] (read_pos [1; 1] [1; 1] [1; 1] z [0; 0])) 0 =? a); ring. }
    rewrite VY by (try exact Hy; cbn; lia). change (bias_value 2 None 0) with 0%R. rewrite Rplus_0_r. rewrite <- sum_indicator. apply sumR_ext. intros x Hx. apply in_indices in Hx.
    rewrite O2 by (do 3 (apply valid_cons; [lia|]); exact Hx). rewrite Rmult_1_l.
    rewrite image_circular by (intros j Hj; cbn in Hj; destruct j as [|[|j]]; cbn; lia).
    cbn [app]. apply Vmid. apply wrap_valid. intros j Hj. cbn in Hj. destruct j as [|[|j]]; cbn; lia. }
  destruct (K 0) as (Y & EY & SY & VY). destruct (K 1) as (Y' & EY' & SY' & VY'). exists Y, Y'. split; [exact EY|]. split; [exact EY'|]. split; [exact SY|]. split; [exact SY'|].
  intros HR. destruct (rolled_inv 2 [0; 1] Y Y' [1; 1; 1] [5; 5] HR SY eq_refl) as [_ V].
  assert (valid [5; 5] [0; 0]) as V0 by (repeat apply valid_cons; try lia; apply valid_nil).
  specialize (V [0; 0; 0] [0; 0] ltac:(repeat apply valid_cons; try lia; apply valid_nil) V0). change (roll_pos [5; 5] [0; 1] [0; 0]) with [0; 1] in V. cbn [app] in V.
  rewrite VY in V by exact V0. rewrite VY' in V by (repeat apply valid_cons; try lia; apply valid_nil).
  apply INR_eq in V. vm_compute in V. discriminate.
Qed.
Print Assumptions C82_separable_wrong_period_refuted.

(** A network: lifting convolution with stride 2 and padding=1, batch norm, ReLU, group convolution with padding='same', all circular, on
    6x8 images: the input can be rolled by every (2 u0, 2 u1). *)
Example C82_nonvacuous : forall T, torch_ok T -> exists M M1 (Y : tensor R) HY modules,
  let w := build [2; 1; 3; 3] (fun idx => INR (nth 3 idx 0)) in
  let w1 := build [4; 3; 2; 3; 3] (fun idx => INR (nth 0 idx 0)) in
  let X := build [2; 1; 6; 8] (fun idx => INR (nth 2 idx 0)) in
  let s := {| nm_features := 2; nm_eps := 1/100000; nm_momentum := Some (1/10)%R; nm_weight := Some [1; 1]%R; nm_bias := Some [0; 0]%R;
    nm_mean := Some [0; 0]%R; nm_var := Some [1; 1]%R; nm_count := 0; nm_training := true |} in
  let net := [(BBatchNorm s, []); (BReLU, []); (BConv M1 w1 None, [])] : list (block R V2 * list R) in
  lifting_SE2 T 1 2 3 1 2 (PInt 1) 1 "circular" false None "bilinear" "border" true 4 None = Ok M /\
  group_SE2 T 2 3 3 1 1 (PStr "same") 1 "circular" false None "bilinear" "border" true 4 "nearest" 1 None = Ok M1 /\
  on_torus_lifting 2 M w X (permuted M so2_left_apply_angle [] (or_else None (kernel_grid M))) /\
  (forall Z H, lifting_call M so2_left_apply_angle [] w X None = Ok (Z, H) -> throughout SEn 2 so2_left_apply_angle (on_torus SEn 2 so2_left_apply_angle) net Z H) /\
  network SEn 2 so2_left_apply_angle M w [] None net X = Ok (Y, HY, modules) /\ has_shape Y [2; 3; 4; 3; 4] /\
  times (total_stride 2 net) (l_stride (gm_layer M)) = [2; 2].
Proof.
  intros T HT.
  pose (w := build [2; 1; 3; 3] (fun idx => INR (nth 3 idx 0))).
  pose (w1 := build [4; 3; 2; 3; 3] (fun idx => INR (nth 0 idx 0))).
  pose (X := build [2; 1; 6; 8] (fun idx => INR (nth 2 idx 0))).
  pose (s := {| nm_features := 2; nm_eps := 1/100000; nm_momentum := Some (1/10)%R; nm_weight := Some [1; 1]%R; nm_bias := Some [0; 0]%R;
    nm_mean := Some [0; 0]%R; nm_var := Some [1; 1]%R; nm_count := 0; nm_training := true |}).
  assert (has_shape w [2; 1; 3; 3]) as Hw by (split; [reflexivity|apply wft_build]).
  assert (has_shape w1 [4; 3; 2; 3; 3]) as Hw1 by (split; [reflexivity|apply wft_build]).
  assert (has_shape X [2; 1; 6; 8]) as HX by (split; [reflexivity|apply wft_build]).
  destruct (C69_lifting_SE2 T 1 2 3 1 2 (PInt 1) 1 "circular" false None "bilinear" "border" true 4 None) as (A & _ & Eg & _).
  destruct A as (L & EM & EL & HC0).
  { split; [exact I|]. split; [lia|]. split; [exists 1%Z; reflexivity|]. split; [exists 2%Z; reflexivity|]. split; [discriminate|simpl; auto]. }
  destruct HC0 as (m0 & Em0 & HC0). { repeat split; lia. } injection Em0 as <-.
  set (M := mkModule L false) in *.
  destruct (C69_group_SE2 T 2 3 3 1 1 (PStr "same") 1 "circular" false None "bilinear" "border" true 4 "nearest" 1 None) as (A1 & _).
  destruct A1 as (k & Ek & (L1 & EM1 & EL1 & HC1) & Egk & _).
  { left. lra. }
  { split; [exact I|]. split; [lia|]. split; [exists 2%Z; reflexivity|]. split; [exists 3%Z; reflexivity|].
    split; [|simpl; auto 6]. intros x Hx. injection Hx as <-. split; [auto|]. intros _ y [<-|[<-|[]]]; reflexivity. }
  set (M1 := mkModule L1 false) in *.
  destruct HC1 as (m1 & Em1 & HC1). { repeat split; lia. } injection Em1 as <-.
  assert (kernel_grid M = so2_uniform_grid 4) as EK. { unfold kernel_grid, M. cbn [gm_layer]. rewrite EL. exact Eg. }
  assert (so2_uniform_grid 4 <> []) as Hne. { intros Q. apply (f_equal (@List.length R)) in Q. rewrite so2_uniform_grid_length in Q. discriminate. }
  destruct (C36_SE2 T 1 2 3 1 "bilinear" "border" true (so2_uniform_grid 4) (gs2 true GsBorder) w (so2_uniform_grid 4)) as (W0 & EW0 & SW0 & _); [lia|reflexivity|exact Hw|].
  destruct (C45_lifting_convolution _ _ _ 2 L 1 2 [3; 3] _ 1 [2; 2] (PInt 1) [1; 1] Circular None w W0 (so2_uniform_grid 4) X 2 [6; 8] HC0 Hne EW0 SW0 HX eq_refl) as [F _].
  destruct F as (Y1 & EY1 & SY1 & _).
  { intros j Hj. cbn in Hj. destruct j as [|[|j]]; [vm_compute; lia|vm_compute; lia|lia]. }
  assert (lifting_call M so2_left_apply_angle [] w X None = Ok (Y1, so2_uniform_grid 4)) as EY by (unfold lifting_call, permuted; cbn [gm_permute M or_else]; fold M; rewrite EK; exact EY1).
  rewrite so2_uniform_grid_length in SY1. change (has_shape Y1 [2; 2; 4; 3; 4]) in SY1.
  destruct (C56_batch_norm R 2 s Y1 (so2_uniform_grid 4) 2 2 4 [3; 4] SY1 eq_refl ltac:(lia) eq_refl) as [_ B].
  destruct B as (Y2 & s' & EY2 & SY2 & _). { right. vm_compute. discriminate. }
  pose (Y3 := ewise relu Y2). assert (has_shape Y3 [2; 2; 4; 3; 4]) as SY3 by (apply ewise_shape; exact SY2).
  destruct (nearest_full_SE2 T HT 2 3 3 1 1 true (so2_uniform_grid 4) k w1 (so2_uniform_grid 4) (so2_uniform_grid 4)) as (W & EW & HW);
    [lia|lra|exact Hne|exact Ek|rewrite so2_uniform_grid_length; exact Hw1|].
  destruct (C46_group_convolution R V2 _ 2 L1 2 3 [3; 3] k 1 [1; 1] (PStr "same") [1; 1] Circular None w1 W (so2_uniform_grid 4) (so2_uniform_grid 4) Y3 2 [3; 4])
    as [C _]; [exact HC1|exact Hne|exact EW|exact HW|rewrite so2_uniform_grid_length; exact SY3|reflexivity|].
  destruct C as (Y4 & EY4 & SY4 & _).
  { intros j Hj. cbn in Hj. destruct j as [|[|j]]; [vm_compute; lia|vm_compute; lia|lia]. }
  rewrite so2_uniform_grid_length in SY4. change (has_shape Y4 [2; 3; 4; 3; 4]) in SY4.
  destruct (constructed_spec _ _ _ _ _ _ _ _ _ _ _ _ HC0) as (_ & _ & _ & _ & _ & _ & _ & Es0 & _).
  destruct (constructed_spec _ _ _ _ _ _ _ _ _ _ _ _ HC1) as (_ & _ & _ & _ & _ & _ & _ & Es1 & _).
  exists M, M1, Y4, (so2_uniform_grid 4), [BBatchNorm s'; BReLU; BConv M1 w1 None]. cbv zeta. fold w w1 X s.
  split; [exact EM|]. split; [exact EM1|]. split.
  { unfold permuted. cbn [gm_permute M or_else]. fold M. rewrite EK.
    exists 1, 2, [3; 3], (lifting_kernel_SE2 T 1 2 3 1 "bilinear" "border" true (so2_uniform_grid 4)), 1, [2; 2], (PInt 1), [1; 1], None, W0, 2, [6; 8].
    split; [exact HC0|]. split; [exact Hne|]. split; [exact EW0|]. split; [exact SW0|]. split; [exact HX|]. split; [reflexivity|].
    intros j Hj. cbn in Hj. destruct j as [|[|j]]; [reflexivity|reflexivity|lia]. }
  split.
  { intros Y0 H0 E0. rewrite EY in E0. injection E0 as <- <-. cbn [throughout on_torus]. split; [exact I|].
    intros Y0 H0 b0 E0. cbn [step] in E0. rewrite EY2 in E0. cbn [bind fst snd] in E0. injection E0 as <- <- <-. split; [exact I|].
    intros Y0 H0 b0 E0. cbn [step g_relu bind fst snd] in E0. injection E0 as <- <- <-. split; [|intros; exact I].
    exists 2, 3, [3; 3], k, 1, [1; 1], (PStr "same"), [1; 1], None, W, 2, [3; 4]. change (out_grid SEn so2_left_apply_angle M1 None [] (so2_uniform_grid 4)) with (so2_uniform_grid 4).
    split; [exact HC1|]. split; [exact Hne|]. split; [exact EW|]. split; [exact HW|]. split; [rewrite so2_uniform_grid_length; exact SY3|]. split; [reflexivity|].
    intros j Hj. cbn in Hj. destruct j as [|[|j]]; [reflexivity|reflexivity|lia]. }
  split.
  { unfold network. rewrite EY. cbn [bind fst snd run step]. rewrite EY2. cbn [bind fst snd run step g_relu]. fold Y3.
    unfold full_call_SEn. cbn [or_else permuted M1 gm_permute gm_layer]. unfold permuted. cbn [gm_permute]. rewrite EY4. cbn [bind fst snd]. reflexivity. }
  split; [exact SY4|]. cbn [total_stride M M1 gm_layer]. rewrite Es0, Es1. reflexivity.
Qed.

(** Such a layer: the trivial group, a constant window sampled with "bilinear" and "border". *)
Example C82_wrong_period_nonvacuous : exists (L : gconv unit V2) k WH WS,
  let one s := build s (fun _ => 1%R) in
  constructed 2 L 1 1 [5; 5] k 1 [1; 1] (PInt 1) [1; 1] Circular None /\
  separable_kernel_forward k (one [1; 1; 1]) (one [1; 1; 5; 5]) [tt] [tt] = Ok (WH, WS) /\ has_shape WH [1; 1; 1; 1; 1; 1] /\ has_shape WS [1; 1; 1; 5; 5] /\
  (forall i, valid [1; 1; 1; 1; 1; 1] i -> at_ WH i = 1%R) /\ (forall i, valid [1; 1; 1; 5; 5] i -> at_ WS i = 1%R).
Proof.
  pose (ops := {| op_inverse := fun H : list unit => map (fun x => x) H; op_left_apply_to_H := fun A B => map (fun a => map (fun b => b) B) A;
    op_left_apply_to_Rn := fun A (v : list V2) => map (fun a : unit => map (fun x => x) v) A; op_det := None;
    op_sample_H := fun _ H rows _ => Ok (map (fun _ => nth 0 rows []) H); op_sample_Rn := Ok (gs2 true GsBorder) |}).
  pose (k := {| k_in := 1; k_out := 1; k_groups := 1; k_size := [5; 5]; k_gsize := [1]; k_grid_H := [tt]; k_grid_Rn := create_grid_R2 5; k_mask := None; k_ops := ops |}).
  pose (wH := build [1; 1; 1] (fun _ => 1%R)). pose (w := build [1; 1; 5; 5] (fun _ => 1%R)).
  assert (gops_ok (k_ops k) (fun x => x) (fun a b => b) (fun a x => x) None) as Hops by (constructor; [reflexivity|reflexivity|reflexivity|reflexivity]).
  assert (sampled k (fun x => x) (fun a b => b) [k_out k; k_cin k] wH [tt] [tt] (fun _ => [1%R])) as Hsam by (split; [intros q _; reflexivity|reflexivity]).
  destruct (separable_formula k _ _ _ _ Hops (grid_R2_shape 5) I ltac:(discriminate) ltac:(discriminate) (gs2 true GsBorder) wH w [tt] [tt] (fun _ => [1%R]) eq_refl)
    as (WH & WS & E & S1 & S2 & V1 & V2); [split; [reflexivity|apply wft_build]|split; [reflexivity|apply wft_build]|exact Hsam|].
  assert (exists L, constructed 2 L 1 1 [5; 5] k 1 [1; 1] (PInt 1) [1; 1] Circular None) as [L HL].
  { eexists. exists "2d"%string, (GkInt 8), "circular"%string. split; [left; auto|]. split; [reflexivity|]. split; [reflexivity|].
    split; [|split; [exact I|lia]].
    split; [reflexivity|]. split; [reflexivity|]. split; [reflexivity|]. split; [reflexivity|]. split; [exact I|].
    repeat split; intros x [<-|[<-|[]]]; lia. }
  exists L, k, WH, WS. cbv zeta. fold wH w. split; [exact HL|]. split; [exact E|]. split; [exact S1|]. split; [exact S2|]. split.
  - intros i Hi. destruct (valid_inv_cons _ _ _ Hi) as (a & i1 & -> & Ha & H1). destruct (valid_inv_cons _ _ _ H1) as (b & i2 & -> & Hb & H2).
    destruct (valid_inv_cons _ _ _ H2) as (c & i3 & -> & Hc & H3). destruct (valid_inv_cons _ _ _ H3) as (d & i4 & -> & Hd & H4).
    destruct (valid_inv_cons _ _ _ H4) as (e & i5 & -> & He & H5). destruct (valid_inv_cons _ _ _ H5) as (f & i6 & -> & Hf & H6). apply valid_inv_nil in H6. subst i6.
    replace a with 0 by lia. replace b with 0 by lia. replace c with 0 by lia. replace d with 0 by lia. replace e with 0 by lia. replace f with 0 by lia.
    exact (V1 0 0 0 0 0 0 tt tt ltac:(cbn; lia) ltac:(cbn; lia) ltac:(cbn; lia) ltac:(cbn; lia) eq_refl eq_refl eq_refl).
  - intros i Hi. destruct (valid_inv_cons _ _ _ Hi) as (a & i1 & -> & Ha & H1). destruct (valid_inv_cons _ _ _ H1) as (b & i2 & -> & Hb & H2).
    destruct (valid_inv_cons _ _ _ H2) as (c & i3 & -> & Hc & H3). replace a with 0 by lia. replace b with 0 by lia. replace c with 0 by lia.
    rewrite (V2 0 0 tt i3 ltac:(cbn; lia) eq_refl H3). cbn [maskf k k_mask detf k_size]. rewrite Rmult_1_l. unfold Rdiv. rewrite Rinv_1, Rmult_1_r.
    apply (C76_constant_2d "bilinear" "border"); [reflexivity|discriminate|lia|lia|]. intros x y Hx Hy.
    rewrite slice_at by (repeat apply valid_cons; try assumption; apply valid_nil). unfold w. rewrite at_build by (repeat apply valid_cons; try lia; apply valid_nil). reflexivity.
Qed.
