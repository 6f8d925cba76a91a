(** Specification: features on a re-enumerated list of group elements. Independent of the model. *)
From Verif Require Import Prelude RMath Tensor KernelFacts.
Open Scope nat_scope.

(** H' lists elements of H: its j-th element is the (f j)-th element of H. *)
Definition regrid {G} (f : nat -> nat) (H H' : list G) : Prop :=
  forall j h, nth_error H' j = Some h -> nth_error H (f j) = Some h.

(** X' holds the feature maps of X in the same order: X has shape (N, C, n, *s) with d spatial axes, X' has shape (N, C, n', *s), and the
    j-th feature map of X' is the (f j)-th one of X. *)
Definition regrouped (d : nat) (f : nat -> nat) (n n' : nat) (X X' : tensor R) : Prop :=
  exists N C s, length s = d /\ has_shape X (N :: C :: n :: s) /\ has_shape X' (N :: C :: n' :: s) /\
    forall a c e z, a < N -> c < C -> e < n' -> valid s z -> f e < n /\ at_ X' (a :: c :: e :: z) = at_ X (a :: c :: f e :: z).
