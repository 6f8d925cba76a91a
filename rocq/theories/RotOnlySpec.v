(** Specification side of C101: rotations as elements of O(2) and O(3), and the rotation half of a group weight. *)
From Verif Require Import Prelude RMath Mat SO2 O2 SO3 O3 Tensor TensorFacts KernelFacts.
Open Scope R_scope.

(** A rotation, as an element with coefficient 1. *)
Definition as_o2 (a : R) : O2 := mkO2 1 a.
Definition as_o3 (r : M3) : O3 := mkO3 1 r.

(** w' consists of the first n slices of w, whose slices have the shape [rest]. *)
Definition first_slices (n : nat) (rest : list nat) (w w' : tensor R) : Prop :=
  has_shape w' (n :: rest) /\ forall j x, (j < n)%nat -> valid rest x -> at_ w' (j :: x) = at_ w (j :: x).

(** The answer of a layer with its grid renamed. *)
Definition renamed {G G'} (f : G' -> G) (r : result (tensor R * list G')) : result (tensor R * list G) :=
  match r with Ok (Y, H) => Ok (Y, map f H) | Err e => Err e end.
