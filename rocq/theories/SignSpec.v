(** Specification side of C102: elements of O(2) as turns of the plane, windows turned by half a turn (inverted), signed features. *)
From Verif Require Import Prelude RMath Mat SO2 O2 SO3 O3 Tensor TensorFacts KernelFacts.
Open Scope R_scope.

(** The turn of the plane by which an element acts (C08): by its angle, and by half a turn more if its coefficient is not 1. *)
Definition turn_of (h : O2) : R := if Req_EM_T (o2c h) 1 then o2a h else o2a h + PI.

(** torch.flip over all axes of the window: the cell x of the one is the opposite cell of the other. *)
Definition opposite (s x : list nat) : list nat := map2 (fun n i => (n - 1 - i)%nat) s x.
Definition inverted (pre ks : list nat) (w w' : tensor R) : Prop :=
  has_shape w (pre ++ ks) /\ has_shape w' (pre ++ ks) /\
  forall p x, valid pre p -> valid ks x -> at_ w' (p ++ x) = at_ w (p ++ opposite ks x).

(** The two calls fail alike, or both answer, on the grids H and H', with features of one shape, of which entry by entry [rel] holds:
    rel o h y y' for output channel o, the group element h, and the features y and y' of the two. *)
Definition answers_related {G G'} (H : list G) (H' : list G') (rel : nat -> G -> R -> R -> Prop)
    (a : result (tensor R * list G)) (b : result (tensor R * list G')) : Prop :=
  (exists e, a = Err e /\ b = Err e) \/
  exists (Y Y' : tensor R) N C size, a = Ok (Y, H) /\ b = Ok (Y', H') /\ has_shape Y (N :: C :: List.length H :: size) /\ has_shape Y' (N :: C :: List.length H :: size) /\
    forall n o i h x, (n < N)%nat -> (o < C)%nat -> nth_error H i = Some h -> valid size x -> rel o h (at_ Y (n :: o :: i :: x)) (at_ Y' (n :: o :: i :: x)).

(** Two weights with the same odd part: in every window the differences of opposite entries agree. *)
Definition same_odd_part (pre ks : list nat) (w w' : tensor R) : Prop :=
  has_shape w (pre ++ ks) /\ has_shape w' (pre ++ ks) /\
  forall p x, valid pre p -> valid ks x -> at_ w (p ++ x) - at_ w (p ++ opposite ks x) = at_ w' (p ++ x) - at_ w' (p ++ opposite ks x).
