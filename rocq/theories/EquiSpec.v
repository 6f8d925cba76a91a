(** Specification: one image is another one moved by a linear map about the centre. Independent of the model.
    Positions are measured from the centre of the image in half-pixel units, in the coordinate order of the kernel grids
    (2d: first coordinate = first spatial axis; 3d: first coordinate = last spatial axis). *)
From Verif Require Import Prelude RMath Mat Tensor KernelFacts.
Open Scope R_scope.

Definition centred2 (h w i j : nat) : V2 := mkV2 (2 * INR i - (INR h - 1)) (2 * INR j - (INR w - 1)).
Definition centred3 (d h w i j k : nat) : V3 :=
  mkV3 (2 * INR k - (INR w - 1)) (2 * INR j - (INR h - 1)) (2 * INR i - (INR d - 1)).

(** X' shows at A p what X shows at p (the sizes are exchanged accordingly): the entries v of X at p and v' of X' at
    A p, below the same leading index pre, satisfy rel pre v v'. *)
Definition carried2 (rel : list nat -> R -> R -> Prop) (A : M2) (X X' : tensor R) : Prop :=
  exists lead h w h' w',
    has_shape X (lead ++ [h; w]) /\ has_shape X' (lead ++ [h'; w']) /\
    INR h' = Rabs (b00 A) * INR h + Rabs (b01 A) * INR w /\
    INR w' = Rabs (b10 A) * INR h + Rabs (b11 A) * INR w /\
    forall pre i j i' j', valid lead pre -> (i < h)%nat -> (j < w)%nat -> (i' < h')%nat -> (j' < w')%nat ->
      centred2 h' w' i' j' = app2 A (centred2 h w i j) ->
      rel pre (at_ X (pre ++ [i; j])) (at_ X' (pre ++ [i'; j'])).
Definition carried3 (rel : list nat -> R -> R -> Prop) (A : M3) (X X' : tensor R) : Prop :=
  exists lead d h w d' h' w',
    has_shape X (lead ++ [d; h; w]) /\ has_shape X' (lead ++ [d'; h'; w']) /\
    INR w' = Rabs (a00 A) * INR w + Rabs (a01 A) * INR h + Rabs (a02 A) * INR d /\
    INR h' = Rabs (a10 A) * INR w + Rabs (a11 A) * INR h + Rabs (a12 A) * INR d /\
    INR d' = Rabs (a20 A) * INR w + Rabs (a21 A) * INR h + Rabs (a22 A) * INR d /\
    forall pre i j k i' j' k', valid lead pre -> (i < d)%nat -> (j < h)%nat -> (k < w)%nat ->
      (i' < d')%nat -> (j' < h')%nat -> (k' < w')%nat ->
      centred3 d' h' w' i' j' k' = app3 A (centred3 d h w i j k) ->
      rel pre (at_ X (pre ++ [i; j; k])) (at_ X' (pre ++ [i'; j'; k'])).

(** X' is X moved by A. *)
Definition moved2 (A : M2) (X X' : tensor R) : Prop := carried2 (fun _ v v' => v' = v) A X X'.
Definition moved3 (A : M3) (X X' : tensor R) : Prop := carried3 (fun _ v v' => v' = v) A X X'.
