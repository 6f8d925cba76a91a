(** Specification: layers that act on an image as an affine map. Independent of the model of the layers. *)
From Verif Require Import Prelude RMath Tensor KernelFacts LayersSpec.
Open Scope nat_scope.

(** The positions (channel, index) of an item of shape (cin, *s) that output channel o may read: those of its channel group. *)
Definition visible (cin cout groups : nat) (s : list nat) (o : nat) : list (list nat) :=
  flat_map (fun c => map (cons c) (indices s)) (seq (o / (cout / groups) * (cin / groups)) (cin / groups)).

(** The layer accepts every batch of items of shape (cin, *s), of any size N, and returns items of one shape (cout, *s'). Every number of
    an output item is a fixed linear combination of the visible numbers of the same input item, plus a bias. *)
Definition affine_layer {G} (forward : tensor R -> result (tensor R * list G)) (H : list G) (cin cout groups : nat) (s : list nat)
    (bias : nat -> R) : Prop :=
  exists s',
    (forall X N, has_shape X (N :: cin :: s) -> exists Y, forward X = Ok (Y, H) /\ has_shape Y (N :: cout :: s')) /\
    forall o y, o < cout -> valid s' y -> exists coef : list nat -> R, forall X N Y n, has_shape X (N :: cin :: s) ->
      forward X = Ok (Y, H) -> n < N ->
      at_ Y (n :: o :: y) = (total (map (fun i => coef i * at_ X (n :: i)) (visible cin cout groups s o)) + bias o)%R.
