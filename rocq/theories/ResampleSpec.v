(** Specification notions for the resampling of images. Independent of the model. *)
From Coq Require Import String.
From Verif Require Import Prelude RMath Mat Tensor.

(** Image b of a batch. *)
Definition image_of (b : nat) (X : tensor R) : tensor R := build (tl (shape X)) (fun idx => at_ X (b :: idx)).

(** The feature maps (out, *spatial) that a batch of responses Y (batch, out, group, *spatial) holds for image b and group position e. *)
Definition response (b e : nat) (Y : tensor R) : tensor R :=
  match shape Y with
  | _ :: C :: _ :: s => build (C :: s) (fun idx => at_ Y (b :: hd 0 idx :: e :: tl idx))
  | _ => Y
  end.

(** Nearest sampling reads every cell of an n-cell axis: the padding mode clips or reflects, or the size is odd. *)
Definition sharp (pm : string) (n : nat) : Prop :=
  pm = "border"%string \/ pm = "reflection"%string \/ (pm = "zeros"%string /\ Nat.odd n = true).
