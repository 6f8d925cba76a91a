(** Specification: group samplers that always answer, and the outcome of a call of a layer as a function of shapes (C90, C91). *)
From Coq Require Import String ZArith.
From Verif Require Import Prelude RMath Interp Tensor TensorFacts KernelFacts Kernel Conv ConvSpec ConvInit Public AcceptSpec.
Open Scope nat_scope.

(** The group sampler of the kernel gives a row per pair of elements for every signal of the right shape and all grids of proper elements. *)
Definition answers {G P} (proper : G -> Prop) (k : gkernel G P) : Prop :=
  forall S (in_H out_H : list G) (signal : mat), wfm (k_gdim k) S signal -> Forall proper in_H -> Forall proper out_H ->
    exists rows, op_sample_H (k_ops k) S (relative_elements k in_H out_H) signal (k_grid_H k) = Ok rows /\ wfm (length out_H * length in_H) S rows.

(** A call succeeds exactly if [ok], then with a grid of [n] elements and features of shape (N, cout, n, *size), and raises RuntimeError otherwise. *)
Definition outcome_is {G} (ok : Prop) (N cout n : nat) (size : list nat) (r : result (tensor R * list G)) : Prop :=
  (ok -> exists (Y : tensor R) H, r = Ok (Y, H) /\ length H = n /\ has_shape Y (N :: cout :: n :: size)) /\
  (~ ok -> r = Err RuntimeError).

(** One convolution: the condition on the input size and the output size (ConvSpec.v). *)
Definition fits1 (m : padmode) d padding (ks stride dil sp : list nat) : Prop :=
  fits m sp ks stride dil (lefts (stored_padding d padding) ks dil) (rights (stored_padding d padding) ks dil).
Definition size1 d padding (ks stride dil sp : list nat) : list nat :=
  conv_size sp ks stride dil (lefts (stored_padding d padding) ks dil) (rights (stored_padding d padding) ks dil).
(** The separable layers: a convolution of size 1, padded as if its size were 1 (zeros) or that of the spatial kernel (the other modes), then the
    spatial one. *)
Definition pad1 (m : padmode) d (ks : list nat) : list nat := match m with Zeros => repeat 1 d | _ => ks end.
Definition middle (m : padmode) d padding (ks stride dil sp : list nat) : list nat :=
  conv_size sp (repeat 1 d) stride dil (lefts (stored_padding d padding) (pad1 m d ks) dil) (rights (stored_padding d padding) (pad1 m d ks) dil).
Definition fits2 (m : padmode) d padding (ks stride dil sp : list nat) : Prop :=
  fits m sp (repeat 1 d) stride dil (lefts (stored_padding d padding) (pad1 m d ks) dil) (rights (stored_padding d padding) (pad1 m d ks) dil) /\
  fits1 m d padding ks stride dil (middle m d padding ks stride dil sp).
Definition size2 (m : padmode) d padding (ks stride dil sp : list nat) : list nat := size1 d padding ks stride dil (middle m d padding ks stride dil sp).

(** What a layer with these arguments, in d dimensions, promises for every call: shapes of the parameters and the input in, outcome out. [g0] is the
    grid used when none is given; [H0 in_H] the output grid used when none is given. *)
Section Contracts.
  Context {G : Type} (d cin cout s groups st : nat) (padding : padarg) (dl : nat) (m : padmode).
  Let ks := repeat s d. Let stride := repeat st d. Let dil := repeat dl d.
  Definition lifting_contract (g0 : list G) (call : tensor R -> tensor R -> option (list G) -> result (tensor R * list G)) : Prop :=
    forall weight X N sp H, has_shape weight (cout :: cin / groups :: ks) -> has_shape X (N :: cin :: sp) -> length sp = d -> or_else H g0 <> [] ->
      outcome_is (fits1 m d padding ks stride dil sp) N cout (length (or_else H g0)) (size1 d padding ks stride dil sp) (call weight X H).
  Context (proper : G -> Prop) (n : nat) (H0 : list G -> list G).
  Definition full_contract (call : tensor R -> tensor R -> list G -> option (list G) -> result (tensor R * list G)) : Prop :=
    forall weight X N sp in_H out_H, has_shape weight (n :: cout :: cin / groups :: ks) -> has_shape X (N :: cin :: length in_H :: sp) -> length sp = d ->
      or_else out_H (H0 in_H) <> [] -> Forall proper in_H -> Forall proper (or_else out_H (H0 in_H)) ->
      outcome_is (fits1 m d padding ks stride dil sp) N cout (length (or_else out_H (H0 in_H))) (size1 d padding ks stride dil sp) (call weight X in_H out_H).
  Definition separable_contract (call : tensor R -> tensor R -> tensor R -> list G -> option (list G) -> result (tensor R * list G)) : Prop :=
    forall weight_H weight X N sp in_H out_H, has_shape weight_H [n; cout; cin / groups] -> has_shape weight (cout :: 1 :: ks) ->
      has_shape X (N :: cin :: length in_H :: sp) -> length sp = d ->
      or_else out_H (H0 in_H) <> [] -> Forall proper in_H -> Forall proper (or_else out_H (H0 in_H)) ->
      outcome_is (fits2 m d padding ks stride dil sp) N cout (length (or_else out_H (H0 in_H))) (size2 m d padding ks stride dil sp) (call weight_H weight X in_H out_H).
End Contracts.
