(** Property theorems C75: a convolution layer is an affine map of its input, sample by sample and channel group by channel group.
    Reading guide.  [affine_layer forward H cin cout groups s bias] (LinSpec.v): with every batch of items of shape (cin, *s) the layer
    returns (Y, H), and every number of an output item is a fixed linear combination of the numbers of the same input item in the channel
    group of the output channel, plus the bias of that channel.  [constructed] (ConvInit.v): the layer came out of the constructor, any
    stride, padding, dilation, padding mode, groups.  The three C75 layer theorems say: if a layer accepts one batch of images of some size,
    it accepts all batches of images of that size and is affine on them. *)
From Coq Require Import String ZArith Permutation.
From Verif Require Import Prelude RMath Mat Interp InterpExample SO2 SO2Facts O2 O2Facts SO3 SO3Facts O3 O3Facts Repulse RepulseFacts Tensor TensorFacts SignedPerm Functional
  FunctionalFacts Kernel KernelFacts GroupKernelFacts KernelMore Conv ConvSpec ConvFacts ConvInit SepProduct LayersSpec LinSpec LinFacts Prop_Conv Prop_Conv2 Prop_Equi2 Prop_Regrid.
Open Scope R_scope.

(** The operations of the kernel work element by element (gops_ok, KernelFacts.v) and its spatial grid and mask have the shape of its
    window. *)
Definition regular_kernel {G P} (k : gkernel G P) (cin out : nat) (ks : list nat) (groups : nat) : Prop :=
  (exists inv mul act det, gops_ok (k_ops k) inv mul act det) /\ has_shape (k_grid_Rn k) ks /\ mask_ok (k_mask k) ks /\
  k_size k = ks /\ k_out k = out /\ k_cin k = (cin / groups)%nat.

(** All kernels of the library are regular. *)
Theorem C75_library_kernels : forall T cin out s groups n m gmode given given' mode pm mask,
  (forall grid, regular_kernel (lifting_kernel_SE2 T cin out s groups mode pm mask grid) cin out [s; s] groups) /\
  (forall grid, regular_kernel (lifting_kernel_SE3 T cin out s groups mode pm mask grid) cin out [s; s; s] groups) /\
  (forall grid, regular_kernel (lifting_kernel_E2 T cin out s groups n m mode pm mask grid) cin out [s; s] groups) /\
  (forall grid, regular_kernel (lifting_kernel_E3 T cin out s groups n m mode pm mask grid) cin out [s; s; s] groups) /\
  (forall grid k, kernel_SE2 T cin out s groups gmode given mode pm mask grid = Ok k -> regular_kernel k cin out [s; s] groups) /\
  (forall grid k, kernel_SE3 T cin out s groups gmode given mode pm mask grid = Ok k -> regular_kernel k cin out [s; s; s] groups) /\
  (forall grid k, kernel_E2 T cin out s groups n m gmode given given' mode pm mask grid = Ok k -> regular_kernel k cin out [s; s] groups) /\
  (forall grid k, kernel_E3 T cin out s groups n m gmode given given' mode pm mask grid = Ok k -> regular_kernel k cin out [s; s; s] groups).
Proof.
  intros T cin out s groups n m gmode given given' mode pm mask.
  split; [|split; [|split; [|split; [|split; [|split; [|split]]]]]].
  - intros grid. split; [do 4 eexists; apply gops_ok_SE2|]. repeat split; [apply wft_build|exact (proj2 (opt_mask_R2 true s))].
  - intros grid. split; [do 4 eexists; apply gops_ok_SE3|]. repeat split; [apply wft_build|exact (opt_mask_R3 mask s)].
  - intros grid. split; [do 4 eexists; apply gops_ok_E2|]. repeat split; [apply wft_build|exact (opt_mask_R2 mask s)].
  - intros grid. split; [do 4 eexists; apply gops_ok_E3|]. repeat split; [apply wft_build|exact (opt_mask_R3 mask s)].
  - intros grid k Hk. unfold kernel_SE2 in Hk. destruct (width_SE2 given grid); [|discriminate]. injection Hk as <-.
    split; [do 4 eexists; apply gops_ok_SE2|]. repeat split; [apply wft_build|exact (proj2 (opt_mask_R2 true s))].
  - intros grid k Hk. unfold kernel_SE3 in Hk. destruct (width_SE3 given grid); [|discriminate]. injection Hk as <-.
    split; [do 4 eexists; apply gops_ok_SE3|]. repeat split; [apply wft_build|exact (opt_mask_R3 mask s)].
  - intros grid k Hk. unfold kernel_E2 in Hk. destruct (width_E2_rot given n grid); [|discriminate]. destruct (width_E2_ref given' n grid); [|discriminate]. injection Hk as <-.
    split; [do 4 eexists; apply gops_ok_E2|]. repeat split; [apply wft_build|exact (opt_mask_R2 mask s)].
  - intros grid k Hk. unfold kernel_E3 in Hk. destruct (width_E3_rot given n grid); [|discriminate]. destruct (width_E3_ref given' n grid); [|discriminate]. injection Hk as <-.
    split; [do 4 eexists; apply gops_ok_E3|]. repeat split; [apply wft_build|exact (opt_mask_R3 mask s)].
Qed.
Print Assumptions C75_library_kernels.

Theorem C75_lifting_layer_is_affine : forall {G P} {D : Dflt P} d (L : gconv G P) cin cout ks k groups stride padding dil m bias weight (X0 Y0 : tensor R) N0 s (H : list G),
  constructed d L cin cout ks k groups stride padding dil m bias -> regular_kernel k cin cout ks groups ->
  has_shape weight (cout :: cin / groups :: ks)%nat -> H <> [] ->
  has_shape X0 (N0 :: cin :: s) -> List.length s = d -> lifting_forward L weight X0 H = Ok (Y0, H) ->
  affine_layer (fun X => lifting_forward L weight X H) H cin cout groups s (bias_value d bias).
Proof.
  intros G P D d L cin cout ks k groups stride padding dil m bias weight X0 Y0 N0 s H Hc ((inv & mul & act & det & Hops) & Hg & Hm & Hk & Ho & Hi) Hw HH HX Hs E.
  apply (lifting_affine d L cin cout ks k groups stride padding dil m bias Hc inv mul act det Hops) with (X0 := X0) (N0 := N0) (out := Y0); try assumption; rewrite ?Hk; try assumption.
  unfold lifting_weight_shape. rewrite Hk, Ho, Hi. exact Hw.
Qed.
Print Assumptions C75_lifting_layer_is_affine.

Theorem C75_full_layer_is_affine : forall {G P} {D : Dflt P} d (L : gconv G P) cin cout ks k groups stride padding dil m bias weight (X0 Y0 : tensor R) N0 s (in_H out_H : list G),
  constructed d L cin cout ks k groups stride padding dil m bias -> regular_kernel k cin cout ks groups ->
  has_shape weight (k_gdim k :: cout :: cin / groups :: ks)%nat -> out_H <> [] ->
  has_shape X0 (N0 :: cin :: List.length in_H :: s) -> List.length s = d -> full_forward L weight X0 in_H out_H = Ok (Y0, out_H) ->
  affine_layer (fun X => full_forward L weight X in_H out_H) out_H cin cout groups (List.length in_H :: s) (bias_value d bias).
Proof.
  intros G P D d L cin cout ks k groups stride padding dil m bias weight X0 Y0 N0 s in_H out_H Hc ((inv & mul & act & det & Hops) & Hg & Hm & Hk & Ho & Hi) Hw HH HX Hs E.
  apply (full_affine d L cin cout ks k groups stride padding dil m bias Hc inv mul act det Hops) with (X0 := X0) (N0 := N0) (out := Y0); try assumption; rewrite ?Hk; try assumption.
  unfold full_weight_shape. rewrite Hk, Ho, Hi. exact Hw.
Qed.
Print Assumptions C75_full_layer_is_affine.

Theorem C75_separable_layer_is_affine : forall {G P} {D : Dflt P} d (L : gconv G P) cin cout ks k groups stride padding dil m bias weight_H weight (X0 Y0 : tensor R) N0 s (in_H out_H : list G),
  constructed d L cin cout ks k groups stride padding dil m bias -> regular_kernel k cin cout ks groups ->
  has_shape weight (cout :: 1 :: ks)%nat -> out_H <> [] ->
  has_shape X0 (N0 :: cin :: List.length in_H :: s) -> List.length s = d -> separable_forward L weight_H weight X0 in_H out_H = Ok (Y0, out_H) ->
  affine_layer (fun X => separable_forward L weight_H weight X in_H out_H) out_H cin cout groups (List.length in_H :: s) (bias_value d bias).
Proof.
  intros G P D d L cin cout ks k groups stride padding dil m bias weight_H weight X0 Y0 N0 s in_H out_H Hc ((inv & mul & act & det & Hops) & Hg & Hm & Hk & Ho & Hi) Hw HH HX Hs E.
  apply (separable_affine d L cin cout ks k groups stride padding dil m bias Hc inv mul act det Hops) with (X0 := X0) (N0 := N0) (out := Y0); try assumption; rewrite ?Hk; try assumption.
  unfold separable_weight_shape. rewrite Hk, Ho. exact Hw.
Qed.
Print Assumptions C75_separable_layer_is_affine.

(** ** What this means *)
(** Superposition: the response to a combination of two batches is the combination of the responses (the biases combined accordingly). *)
Theorem C75_superposition : forall {G} (forward : tensor R -> result (tensor R * list G)) H cin cout groups s bias (X1 X2 X Y1 Y2 : tensor R) N a b,
  affine_layer forward H cin cout groups s bias -> (0 < groups)%nat -> (cin = groups * (cin / groups))%nat -> (cout = groups * (cout / groups))%nat ->
  has_shape X1 (N :: cin :: s) -> has_shape X2 (N :: cin :: s) -> has_shape X (N :: cin :: s) ->
  (forall i, valid (N :: cin :: s) i -> at_ X i = a * at_ X1 i + b * at_ X2 i) ->
  forward X1 = Ok (Y1, H) -> forward X2 = Ok (Y2, H) ->
  exists Y, forward X = Ok (Y, H) /\ shape Y = shape Y1 /\ shape Y = shape Y2 /\
    forall n o y, valid (shape Y) (n :: o :: y) ->
      at_ Y (n :: o :: y) - bias o = a * (at_ Y1 (n :: o :: y) - bias o) + b * (at_ Y2 (n :: o :: y) - bias o).
Proof.
  intros G forward H cin cout groups s bias X1 X2 X Y1 Y2 N a b (s' & A & B) Hg Di Do H1 H2 HX E E1 E2.
  destruct (A X N HX) as (Y & EY & SY). destruct (A X1 N H1) as (Y1' & EY1 & SY1). destruct (A X2 N H2) as (Y2' & EY2 & SY2).
  rewrite E1 in EY1. injection EY1 as <-. rewrite E2 in EY2. injection EY2 as <-.
  exists Y. split; [exact EY|]. rewrite (proj1 SY), (proj1 SY1), (proj1 SY2). split; [reflexivity|]. split; [reflexivity|].
  intros n o y V. apply valid_cons_inv in V. destruct V as [Hn V]. apply valid_cons_inv in V. destruct V as [Ho Hy].
  destruct (B o y Ho Hy) as [coef HB]. rewrite (HB X N Y n HX EY Hn), (HB X1 N Y1 n H1 E1 Hn), (HB X2 N Y2 n H2 E2 Hn).
  assert (forall u v w : R, u = a * v + b * w -> u + bias o - bias o = a * (v + bias o - bias o) + b * (w + bias o - bias o)) as K by (intros; subst; ring).
  apply K. change total with sumR. rewrite <- !sumR_scale, <- sumR_plus. apply sumR_ext. intros i Hi.
  unfold visible in Hi. apply in_flat_map in Hi. destruct Hi as (c & Hc & Hi). apply in_seq in Hc. apply in_map_iff in Hi. destruct Hi as (j & <- & Hj). apply in_indices in Hj.
  rewrite E; [ring|]. apply valid_cons; [exact Hn|]. apply valid_cons; [|exact Hj].
  assert (o / (cout / groups) < groups)%nat by (apply Nat.div_lt_upper_bound; [intros Z; rewrite Z in Do; lia|rewrite Nat.mul_comm, <- Do; exact Ho]).
  rewrite Di. nia.
Qed.
Print Assumptions C75_superposition.

(** Samples are processed independently: what happens to an item depends neither on its position in the batch nor on the other items. *)
Theorem C75_samples_are_independent : forall {G} (forward : tensor R -> result (tensor R * list G)) H cin cout groups s bias (X X' Y Y' : tensor R) N N' n n',
  affine_layer forward H cin cout groups s bias -> (0 < groups)%nat -> (cin = groups * (cin / groups))%nat -> (cout = groups * (cout / groups))%nat ->
  has_shape X (N :: cin :: s) -> has_shape X' (N' :: cin :: s) -> (n < N)%nat -> (n' < N')%nat ->
  (forall i, valid (cin :: s) i -> at_ X (n :: i) = at_ X' (n' :: i)) ->
  forward X = Ok (Y, H) -> forward X' = Ok (Y', H) ->
  tl (shape Y) = tl (shape Y') /\ forall y, valid (tl (shape Y)) y -> at_ Y (n :: y) = at_ Y' (n' :: y).
Proof.
  intros G forward H cin cout groups s bias X X' Y Y' N N' n n' (s' & A & B) Hg Di Do HX HX' Hn Hn' E EY EY'.
  destruct (A X N HX) as (Y1 & E1 & S1). rewrite EY in E1. injection E1 as <-. destruct (A X' N' HX') as (Y1 & E1 & S1'). rewrite EY' in E1. injection E1 as <-.
  rewrite (proj1 S1), (proj1 S1'). split; [reflexivity|]. cbn [tl]. intros y Hy. destruct y as [|o y]; [apply valid_length in Hy; discriminate|].
  apply valid_cons_inv in Hy. destruct Hy as [Ho Hy]. destruct (B o y Ho Hy) as [coef HB]. rewrite (HB X N Y n HX EY Hn), (HB X' N' Y' n' HX' EY' Hn').
  f_equal. change total with sumR. apply sumR_ext. intros i Hi.
  unfold visible in Hi. apply in_flat_map in Hi. destruct Hi as (c & Hc & Hi). apply in_seq in Hc. apply in_map_iff in Hi. destruct Hi as (j & <- & Hj). apply in_indices in Hj.
  rewrite E; [reflexivity|]. apply valid_cons; [|exact Hj].
  assert (o / (cout / groups) < groups)%nat by (apply Nat.div_lt_upper_bound; [intros Z; rewrite Z in Do; lia|rewrite Nat.mul_comm, <- Do; exact Ho]).
  rewrite Di. nia.
Qed.
Print Assumptions C75_samples_are_independent.

(** Channel groups are independent: an output channel only depends on the input channels of its group. *)
Theorem C75_channel_groups_are_independent : forall {G} (forward : tensor R -> result (tensor R * list G)) H cin cout groups s bias (X X' Y Y' : tensor R) N n o,
  affine_layer forward H cin cout groups s bias ->
  has_shape X (N :: cin :: s) -> has_shape X' (N :: cin :: s) -> (n < N)%nat -> (o < cout)%nat ->
  (forall c i, (o / (cout / groups) * (cin / groups) <= c < o / (cout / groups) * (cin / groups) + cin / groups)%nat -> valid s i -> at_ X (n :: c :: i) = at_ X' (n :: c :: i)) ->
  forward X = Ok (Y, H) -> forward X' = Ok (Y', H) ->
  forall y, valid (skipn 2 (shape Y)) y -> at_ Y (n :: o :: y) = at_ Y' (n :: o :: y).
Proof.
  intros G forward H cin cout groups s bias X X' Y Y' N n o (s' & A & B) HX HX' Hn Ho E EY EY' y Hy.
  destruct (A X N HX) as (Y1 & E1 & S1). rewrite EY in E1. injection E1 as <-. rewrite (proj1 S1) in Hy. cbn [skipn] in Hy.
  destruct (B o y Ho Hy) as [coef HB]. rewrite (HB X N Y n HX EY Hn), (HB X' N Y' n HX' EY' Hn).
  f_equal. change total with sumR. apply sumR_ext. intros i Hi.
  unfold visible in Hi. apply in_flat_map in Hi. destruct Hi as (c & Hc & Hi). apply in_seq in Hc. apply in_map_iff in Hi. destruct Hi as (j & <- & Hj). apply in_indices in Hj.
  rewrite E; [reflexivity|lia|exact Hj].
Qed.
Print Assumptions C75_channel_groups_are_independent.

(** A layer that meets the hypotheses. *)
Example C75_nonvacuous : exists (k : gkernel R V2) L,
  let w := build [2; 3; 2; 3; 3]%nat (fun idx => INR (nth 0 idx 0%nat)) in
  let wH := build [2; 3; 2]%nat (fun idx => INR (nth 0 idx 0%nat)) in
  let wS := build [3; 1; 3; 3]%nat (fun idx => INR (nth 2 idx 0%nat)) in
  constructed 2 L 2 3 [3; 3]%nat k 1 [1; 1]%nat (PStr "same") [1; 1]%nat Zeros None /\
  affine_layer (fun X => full_forward L w X [0; 1; 2] [0; PI / 2; 3]) [0; PI / 2; 3] 2 3 1 [3; 5; 5]%nat (fun _ => 0) /\
  affine_layer (fun X => separable_forward L wH wS X [0; 1; 2] [0; PI / 2; 3]) [0; PI / 2; 3] 2 3 1 [3; 5; 5]%nat (fun _ => 0).
Proof.
  destruct (C70_nonvacuous ex_env ex_env_ok) as (k & L & X & X' & Y & Z & Q). cbv zeta in Q.
  destruct Q as (Hk & HL & Hw & HwH & HwS & _ & _ & _ & HX & _ & _ & EY & EZ). exists k, L. cbv zeta. split; [exact HL|].
  pose proof (C75_library_kernels ex_env 2 3 3 1 0 0 "nearest" 1 1 "bilinear" "border" true) as (_ & _ & _ & _ & K & _). specialize (K _ _ Hk).
  assert (k_gdim k = 2)%nat as Hd. { unfold kernel_SE2 in Hk. destruct (width_SE2 _ _); [|discriminate]. injection Hk as <-. reflexivity. }
  split.
  - refine (C75_full_layer_is_affine _ _ _ _ _ _ _ _ _ _ _ _ _ X Y 4 [5; 5]%nat [0; 1; 2] _ HL K _ _ HX eq_refl EY); [rewrite Hd; exact Hw|discriminate].
  - refine (C75_separable_layer_is_affine _ _ _ _ _ _ _ _ _ _ _ _ _ _ X Z 4 [5; 5]%nat [0; 1; 2] _ HL K HwS _ HX eq_refl EZ). discriminate.
Qed.
