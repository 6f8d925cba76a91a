(** Specification: images on a torus.  Independent of the model. *)
From Verif Require Import Prelude RMath Tensor KernelFacts Kernel Conv ConvSpec ConvInit Public Network NetworkCond.
Open Scope nat_scope.

(** Position y of an image of size s, moved cyclically by u: (y_j + u_j) mod s_j along every axis (torch.roll). *)
Definition roll_pos (s u y : list nat) : list nat := axes (length s) (fun j => (nth j y 0 + nth j u 0) mod nth j s 0).
(** X' is X with its last d axes rolled by u. *)
Definition rolled (d : nat) (u : list nat) (X X' : tensor R) : Prop :=
  exists lead s, length s = d /\ has_shape X (lead ++ s) /\ has_shape X' (lead ++ s) /\
    forall pre y, valid lead pre -> valid s y -> at_ X' (pre ++ roll_pos s u y) = at_ X (pre ++ y).
(** Axis by axis product. *)
Definition times (u v : list nat) : list nat := map2 Nat.mul u v.
(** The output positions, spaced by the stride, go around the torus exactly once. *)
Definition goes_round (sp os stride : list nat) : Prop := forall j, j < length sp -> nth j os 0 * nth j stride 0 = nth j sp 0.

(** ** Networks *)
(** What is required of a convolution called on X, H with output grid o: padding_mode='circular', an output that goes around the torus
    exactly once, and parameters and input of the shapes the layer expects. *)
Definition on_torus_lifting {G P} {D : Dflt P} (d : nat) (M : gmodule G P) (weight X : tensor R) (o : list G) : Prop :=
  exists cin cout ks k groups stride padding dil bias W N sp,
    constructed d (gm_layer M) cin cout ks k groups stride padding dil Circular bias /\ o <> [] /\
    lifting_kernel_forward k weight o = Ok W /\ has_shape W (cout :: length o :: cin / groups :: ks) /\
    has_shape X (N :: cin :: sp) /\ length sp = d /\
    goes_round sp (conv_size sp ks stride dil (lefts (stored_padding d padding) ks dil) (rights (stored_padding d padding) ks dil)) stride.
Definition on_torus_conv {G P} {D : Dflt P} (d : nat) (M : gmodule G P) (weight X : tensor R) (H o : list G) : Prop :=
  exists cin cout ks k groups stride padding dil bias W N sp,
    constructed d (gm_layer M) cin cout ks k groups stride padding dil Circular bias /\ o <> [] /\
    full_kernel_forward k weight H o = Ok W /\ has_shape W (cout :: length o :: cin / groups :: length H :: ks) /\
    has_shape X (N :: cin :: length H :: sp) /\ length sp = d /\
    goes_round sp (conv_size sp ks stride dil (lefts (stored_padding d padding) ks dil) (rights (stored_padding d padding) ks dil)) stride.
(** Of any module; separable convolutions are excluded. *)
Definition on_torus {G P} {D : Dflt P} (fam : family) (d : nat) (mul : G -> G -> G) (b : block G P) (rs : list G) (X : tensor R) (H : list G) : Prop :=
  match b with
  | BConv M w out => on_torus_conv d M w X H (out_grid fam mul M out rs H)
  | BSeparable _ _ _ _ => False
  | _ => True
  end.
(** The strides of all convolutions, multiplied. *)
Fixpoint total_stride {G P} (d : nat) (prog : list (block G P * list G)) : list nat :=
  match prog with
  | [] => repeat 1 d
  | (BConv M _ _, _) :: rest => times (total_stride d rest) (l_stride (gm_layer M))
  | _ :: rest => total_stride d rest
  end.
