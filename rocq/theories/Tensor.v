(** Contiguous (row-major) tensors: a shape and the flat list of its entries, with the torch
    operations the package uses on them. Strides, devices and dtypes are not modelled: [view] and
    [reshape] are the same operation here. *)
From Verif Require Import Prelude RMath Mat.
Open Scope nat_scope.

(** The value read outside of a tensor; never reached through a valid index. *)
(** Models torch.Tensor, as used throughout kernel.py and gconv.py. *)
Class Dflt (E : Type) := dflt : E.
#[global] Instance Dflt_R : Dflt R := 0%R.
#[global] Instance Dflt_V2 : Dflt V2 := mkV2 0 0.
#[global] Instance Dflt_V3 : Dflt V3 := mkV3 0 0 0.

(** Models torch.Tensor, as used throughout kernel.py and gconv.py. *)
Record tensor (E : Type) := mkT { shape : list nat; data : list E }.
Arguments mkT {E}. Arguments shape {E}. Arguments data {E}.

(** Models torch.Tensor, as used throughout kernel.py and gconv.py. *)
Definition prodn (s : list nat) : nat := fold_right Nat.mul 1 s.

(** A tensor has as many entries as its shape says. *)
(** Models torch.Tensor, as used throughout kernel.py and gconv.py. *)
Definition wft {E} (t : tensor E) : Prop := length (data t) = prodn (shape t).

(** [valid s idx]: idx is a multi-index into shape s. *)
(** Models torch.Tensor, as used throughout kernel.py and gconv.py. *)
Definition valid (s idx : list nat) : Prop := Forall2 (fun i d => i < d) idx s.

(** Row-major position of a multi-index, and back. *)
(** Models torch.Tensor, as used throughout kernel.py and gconv.py. *)
Fixpoint ravel (s idx : list nat) : nat :=
  match s, idx with
  | _ :: s', i :: idx' => i * prodn s' + ravel s' idx'
  | _, _ => 0
  end.
Fixpoint unravel (s : list nat) (k : nat) : list nat :=
  match s with
  | [] => []
  | _ :: s' => k / prodn s' :: unravel s' (k mod prodn s')
  end.

(** Indexing with a multi-index. *)
(** Models torch.Tensor, as used throughout kernel.py and gconv.py. *)
Definition at_ {E} {D : Dflt E} (t : tensor E) (idx : list nat) : E :=
  nth (ravel (shape t) idx) (data t) dflt.

(** All multi-indices of a shape in row-major order. *)
(** Models torch.Tensor, as used throughout kernel.py and gconv.py. *)
Definition indices (s : list nat) : list (list nat) := map (unravel s) (seq 0 (prodn s)).

(** The tensor of shape s with entry [f idx] at idx. *)
(** Models torch.Tensor, as used throughout kernel.py and gconv.py. *)
Definition build {E} (s : list nat) (f : list nat -> E) : tensor E := mkT s (map f (indices s)).

(** torch.Tensor.view / reshape without -1. *)
Definition view {E} (s : list nat) (t : tensor E) : result (tensor E) :=
  if Nat.eqb (prodn s) (prodn (shape t)) then Ok (mkT s (data t)) else Err RuntimeError.

(** view(-1, *s): the missing size is inferred; torch raises when s has no entries (ambiguous)
    or does not divide. *)
Definition view_lead {E} (s : list nat) (t : tensor E) : result (tensor E) :=
  if Nat.eqb (prodn s) 0 then Err RuntimeError
  else view (prodn (shape t) / prodn s :: s) t.
(** reshape(d, -1). *)
Definition view_trail {E} (d : nat) (t : tensor E) : result (tensor E) :=
  if Nat.eqb d 0 then Err RuntimeError
  else view [d; prodn (shape t) / d] t.

(** x.repeat(k, 1, ..., 1). *)
(** Models kernel.py:174-195, 257-305, 439-484: repeat and repeat_interleave. *)
Definition repeat0 {E} {D : Dflt E} (k : nat) (t : tensor E) : tensor E :=
  match shape t with
  | [] => t
  | d :: s => build (k * d :: s) (fun idx => at_ t (hd 0 idx mod d :: tl idx))
  end.
(** x.repeat_interleave(k, dim=0). *)
Definition repeat_interleave0 {E} {D : Dflt E} (k : nat) (t : tensor E) : tensor E :=
  match shape t with
  | [] => t
  | d :: s => build (d * k :: s) (fun idx => at_ t (hd 0 idx / k :: tl idx))
  end.

(** x.transpose(a, b), followed by making the result contiguous. *)
(** Models kernel.py:283-284, 373-374, 474-475: transpose. *)
Definition swap_nth (a b : nat) (l : list nat) : list nat :=
  map (fun i => nth (if Nat.eqb i a then b else if Nat.eqb i b then a else i) l 0)
      (seq 0 (length l)).
Definition transpose {E} {D : Dflt E} (a b : nat) (t : tensor E) : tensor E :=
  build (swap_nth a b (shape t)) (fun idx => at_ t (swap_nth a b idx)).

(** Broadcasting: shapes are aligned at the right, axes of size one are stretched. *)
(** Models torch broadcasting, as used at kernel.py:174-195, 257-305, 439-484, gconv.py:252-253. *)
Definition bdim (a b : nat) : option nat :=
  if Nat.eqb a b then Some a else if Nat.eqb a 1 then Some b else if Nat.eqb b 1 then Some a else None.
Fixpoint bshape_rev (a b : list nat) : option (list nat) :=
  match a, b with
  | [], _ => Some b
  | _, [] => Some a
  | x :: a', y :: b' =>
    match bdim x y, bshape_rev a' b' with Some d, Some s => Some (d :: s) | _, _ => None end
  end.
Definition bshape (a b : list nat) : option (list nat) :=
  match bshape_rev (rev a) (rev b) with Some s => Some (rev s) | None => None end.
Fixpoint map2 {A B C} (f : A -> B -> C) (l : list A) (r : list B) : list C :=
  match l, r with x :: l', y :: r' => f x y :: map2 f l' r' | _, _ => [] end.
Definition bidx (s idx : list nat) : list nat :=
  map2 (fun d i => if Nat.eqb d 1 then 0 else i) s (skipn (length idx - length s) idx).
(** Elementwise binary operation with broadcasting. *)
Definition bcast2 {A B C} {DA : Dflt A} {DB : Dflt B} (f : A -> B -> C) (x : tensor A) (y : tensor B)
  : result (tensor C) :=
  match bshape (shape x) (shape y) with
  | None => Err RuntimeError
  | Some s => Ok (build s (fun idx => f (at_ x (bidx (shape x) idx)) (at_ y (bidx (shape y) idx))))
  end.

(** The entries below a leading multi-index, as a flat row-major list. *)
(** Models torch.Tensor, as used throughout kernel.py and gconv.py. *)
Definition slice {E} {D : Dflt E} (t : tensor E) (s pre : list nat) : list E :=
  map (fun y => at_ t (pre ++ y)) (indices s).
