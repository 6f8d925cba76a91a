(** Specification of padded images and convolutions, in integer coordinates. Independent of the model's
    padded tensors: an image is extended to all integer positions according to the padding mode. *)
From Coq Require Import String ZArith.
From Verif Require Import Prelude RMath Mat Repulse Tensor Conv.
Open Scope Z_scope.

(** The entry of an axis of size n shown at integer position z: itself inside; outside a zero (None), the
    nearest entry, the entry mirrored at the border, or the entry repeated periodically. *)
Definition shown (m : padmode) (n : nat) (z : Z) : option nat :=
  if (0 <=? z) && (z <? Z.of_nat n) then Some (Z.to_nat z)
  else match m with
       | Zeros => None
       | Replicate => Some (if z <? 0 then 0%nat else (n - 1)%nat)
       | Reflect => Some (Z.to_nat (if z <? 0 then - z else 2 * (Z.of_nat n - 1) - z))
       | Circular => Some (Z.to_nat (z mod Z.of_nat n))
       end.
(** Value of the image below the leading index [pre] at the integer position z. *)
Definition image_at (m : padmode) (t : tensor R) (sp : list nat) (pre : list nat) (z : list Z) : R :=
  match sequence (axes (length sp) (fun j => shown m (nth j sp 0%nat) (nth j z 0))) with
  | Some i => at_ t (pre ++ i)
  | None => 0%R
  end.
(** Input position read by output position y and kernel offset x: y*stride + x*dilation - left padding. *)
Definition read_pos (stride dil left y x : list nat) : list Z :=
  axes (length stride) (fun j =>
    Z.of_nat (nth j y 0%nat * nth j stride 0%nat + nth j x 0%nat * nth j dil 0%nat) - Z.of_nat (nth j left 0%nat)).

(** Left and right padding of an axis with kernel size k and dilation t. *)
Definition left_pad (p : padset) (j k t : nat) : nat :=
  match p with
  | PadTuple l => nth j l 0%nat
  | PadStr s => if String.eqb s "same" then (t * (k - 1) / 2)%nat else 0%nat
  end.
Definition right_pad (p : padset) (j k t : nat) : nat :=
  match p with
  | PadTuple l => nth j l 0%nat
  | PadStr s => if String.eqb s "same" then (t * (k - 1) - t * (k - 1) / 2)%nat else 0%nat
  end.
Definition lefts (p : padset) (ks dil : list nat) : list nat :=
  axes (length ks) (fun j => left_pad p j (nth j ks 0%nat) (nth j dil 0%nat)).
Definition rights (p : padset) (ks dil : list nat) : list nat :=
  axes (length ks) (fun j => right_pad p j (nth j ks 0%nat) (nth j dil 0%nat)).

(** A convolution of an image of spatial size sp is possible: the dilated kernel fits into the padded image and
    the padding mode admits the amounts. *)
Definition fits (m : padmode) (sp ks stride dil left right : list nat) : Prop :=
  forall j, (j < length ks)%nat ->
    (nth j dil 0 * (nth j ks 0 - 1) + 1 <= nth j sp 0 + nth j left 0 + nth j right 0)%nat /\
    match m with
    | Zeros => True
    | Replicate => (0 < nth j sp 0)%nat
    | Reflect => (nth j left 0 < nth j sp 0 /\ nth j right 0 < nth j sp 0)%nat
    | Circular => (nth j left 0 <= nth j sp 0 /\ nth j right 0 <= nth j sp 0)%nat
    end.
(** floor((size + left + right - dilation*(kernel-1) - 1) / stride) + 1. *)
Definition conv_size (sp ks stride dil left right : list nat) : list nat :=
  axes (length ks) (fun j =>
    ((nth j sp 0 + nth j left 0 + nth j right 0 - nth j dil 0 * (nth j ks 0 - 1) - 1) / nth j stride 0 + 1)%nat).
