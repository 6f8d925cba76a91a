(** Specification: which input pixels an output pixel can depend on.  Independent of the model's convolutions. *)
From Coq Require Import String ZArith.
From Verif Require Import Prelude RMath Tensor KernelFacts Kernel Conv ConvSpec ConvInit Layers Public Network NetworkCond.
Open Scope nat_scope.

(** A set of pixel positions. *)
Definition region := list nat -> Prop.

(** Sample n of X and sample n' of X' (batches of possibly different size, otherwise of the same shape, with d spatial axes) have the same
    values at every pixel of S, in every channel and group element. *)
Definition same_there (d : nat) (X X' : tensor R) (n n' : nat) (S : region) : Prop :=
  exists N N' lead sp, length sp = d /\ n < N /\ n' < N' /\ has_shape X (N :: lead ++ sp) /\ has_shape X' (N' :: lead ++ sp) /\
    forall pre y, valid lead pre -> valid sp y -> S y -> at_ X' (n' :: pre ++ y) = at_ X (n :: pre ++ y).

(** A stage of a network: a sliding window (padding mode, kernel size, stride, dilation, padding on the left and on the right), or
    an operation that looks at the whole image. *)
Inductive stage := Window (m : padmode) (ks stride dil left right : list nat) | Whole.

(** Pixel i of an image of size sp is shown at an integer position that output pixel y reads. *)
Definition reads (m : padmode) (ks stride dil left sp y i : list nat) : Prop :=
  exists x, valid ks x /\ sequence (axes (length sp) (fun j => shown m (nth j sp 0) (nth j (read_pos stride dil left y x) 0%Z))) = Some i.
(** The receptive field: the input pixels, of an image of size sp, that the pixels of S can depend on through the stages. *)
Fixpoint field (l : list stage) (sp : list nat) (S : region) : region :=
  match l with
  | [] => S
  | Window m ks stride dil lp rp :: rest => fun i =>
      exists y, valid (conv_size sp ks stride dil lp rp) y /\ field rest (conv_size sp ks stride dil lp rp) S y /\ reads m ks stride dil lp sp y i
  | Whole :: rest => fun _ => exists y, valid sp y /\ field rest sp S y
  end.

(** The stages of a layer: one window for a lifting or full group convolution, two for a separable one (a window of one pixel, then the
    spatial kernel; both with the layer's stride, dilation and padding; with a padding mode other than zeros padding='same' pads the first
    stage as if it had the full kernel size). *)
Definition layer_stage {G P} (L : gconv G P) : stage :=
  Window (l_mode L) (l_ks L) (l_stride L) (l_dil L) (lefts (l_padding L) (l_ks L) (l_dil L)) (rights (l_padding L) (l_ks L) (l_dil L)).
Definition point_stage {G P} (d : nat) (L : gconv G P) : stage :=
  let ks1 := match l_mode L with Zeros => repeat 1 d | _ => l_ks L end in
  Window (l_mode L) (repeat 1 d) (l_stride L) (l_dil L) (lefts (l_padding L) ks1 (l_dil L)) (rights (l_padding L) ks1 (l_dil L)).
(** The stages of a module: pixelwise modules have none; instance normalization by the statistics of the image looks at the whole image. *)
Definition uses_running (s : norm_state) : bool := match nm_mean s with Some _ => negb (nm_training s) | None => false end.
Definition block_stages {G P} (d : nat) (b : block G P) : list stage :=
  match b with
  | BConv M _ _ => [layer_stage (gm_layer M)]
  | BSeparable M _ _ _ => [point_stage d (gm_layer M); layer_stage (gm_layer M)]
  | BInstanceNorm s => if uses_running s then [] else [Whole]
  | BBatchNorm _ | BReLU | BLeakyReLU _ | BGELU _ _ => []
  end.
Definition stages {G P} (d : nat) (prog : list (block G P * list G)) : list stage := flat_map (fun p => block_stages d (fst p)) prog.
Definition network_stages {G P} (d : nat) (M : gmodule G P) (prog : list (block G P * list G)) : list stage :=
  layer_stage (gm_layer M) :: stages d prog.

(** ** What is required of the calls: parameters and input of the shapes the layer expects; batch normalization in evaluation mode. *)
Definition plain_lifting {G P} {D : Dflt P} (d : nat) (M : gmodule G P) (weight X : tensor R) (o : list G) : Prop :=
  exists cin cout ks k groups stride padding dil m bias W N sp,
    constructed d (gm_layer M) cin cout ks k groups stride padding dil m bias /\ o <> [] /\
    lifting_kernel_forward k weight o = Ok W /\ has_shape W (cout :: length o :: cin / groups :: ks) /\
    has_shape X (N :: cin :: sp) /\ length sp = d.
Definition plain_conv {G P} {D : Dflt P} (d : nat) (M : gmodule G P) (weight X : tensor R) (H o : list G) : Prop :=
  exists cin cout ks k groups stride padding dil m bias W N sp,
    constructed d (gm_layer M) cin cout ks k groups stride padding dil m bias /\ o <> [] /\
    full_kernel_forward k weight H o = Ok W /\ has_shape W (cout :: length o :: cin / groups :: length H :: ks) /\
    has_shape X (N :: cin :: length H :: sp) /\ length sp = d.
Definition plain_separable {G P} {D : Dflt P} (d : nat) (M : gmodule G P) (weight_H weight X : tensor R) (H o : list G) : Prop :=
  exists cin cout ks k groups stride padding dil m bias WH WS N sp,
    constructed d (gm_layer M) cin cout ks k groups stride padding dil m bias /\ o <> [] /\
    separable_kernel_forward k weight_H weight H o = Ok (WH, WS) /\
    has_shape WH (cout :: length H :: cin / groups :: length o :: repeat 1 d) /\ has_shape WS (cout :: length o :: 1 :: ks) /\
    has_shape X (N :: cin :: length H :: sp) /\ length sp = d.
Definition plain {G P} {D : Dflt P} (fam : family) (d : nat) (mul : G -> G -> G) (b : block G P) (rs : list G) (X : tensor R) (H : list G) : Prop :=
  match b with
  | BConv M w out => plain_conv d M w X H (out_grid fam mul M out rs H)
  | BSeparable M wH w out => plain_separable d M wH w X H (out_grid fam mul M out rs H)
  | BBatchNorm s => uses_running s = true
  | _ => True
  end.

(** ** Size of the receptive field along axis j: it lies in  y * s - a .. y * s - a + r . *)
Fixpoint span (j : nat) (l : list stage) : nat * nat * nat :=
  match l with
  | Window _ ks stride dil lp _ :: rest =>
      let '(s, a, r) := span j rest in
      (s * nth j stride 0, a * nth j stride 0 + nth j lp 0, r * nth j stride 0 + nth j dil 0 * (nth j ks 0 - 1))
  | _ => (1, 0, 0)
  end.
Definition zero_padded (l : list stage) : Prop :=
  Forall (fun s => match s with Window m _ _ _ _ _ => m = Zeros | Whole => False end) l.
