(** Specification for C99: which entries of a kernel window can be read.
    The window of a kernel of size s has s cells per axis; in the coordinates of the kernel's grid (-1 .. 1, align_corners=False) cell i is the interval of length 2/s around its
    [centre].  Linear interpolation reads a cell only from points closer than one cell length to its centre, on every axis; the spherical mask keeps the points of norm below 1.1. *)
From Coq Require Import ZArith.
From Verif Require Import Prelude RMath Mat Repulse Tensor TensorFacts Kernel KernelFacts Conv.
Open Scope R_scope.

Definition centre (s i : nat) : R := (2 * INR i + 1) / INR s - 1.
(** Distance from 0 of the interval centre - 2/s .. centre + 2/s. *)
Definition excess (s i : nat) : R := Rmax 0 (Rabs (centre s i) - 2 / INR s).
(** The box of side 4/s around the centre of the cell meets the ball of radius 1.1. *)
Definition seen (s : nat) (cell : list nat) : Prop := sumR (map (fun i => excess s i ^ 2) cell) < (11 / 10) ^ 2.
(** Two weights of shape pre ++ ks that agree on the cells P. *)
Definition agree_on (P : list nat -> Prop) (pre ks : list nat) (w w' : tensor R) : Prop :=
  has_shape w (pre ++ ks) /\ has_shape w' (pre ++ ks) /\
  forall i cell, valid pre i -> valid ks cell -> P cell -> at_ w (i ++ cell) = at_ w' (i ++ cell).
(** A cell on one of the axes through the middle of a 3 x 3 (x 3) window. *)
Definition on_an_axis (cell : list nat) : Prop := (List.length (filter (fun i => negb (i =? 1)) cell) <= 1)%nat.

(** Every layer built on kernel k answers every batch alike with the two weights, whatever its elements (meeting [ok]), stride, padding, dilation, padding mode and bias. *)
Definition same_lifting {G P} {D : Dflt P} (k : gkernel G P) (ok : G -> Prop) (w w' : tensor R) : Prop :=
  forall (L : gconv G P) X H, l_kernel L = k -> Forall ok H -> lifting_forward L w X H = lifting_forward L w' X H.
Definition same_full {G P} {D : Dflt P} (k : gkernel G P) (ok : G -> Prop) (w w' : tensor R) : Prop :=
  forall (L : gconv G P) X in_H out_H Y, l_kernel L = k -> Forall ok in_H -> Forall ok out_H ->
  full_forward L w X in_H out_H = Ok Y -> full_forward L w' X in_H out_H = Ok Y.
Definition same_separable {G P} {D : Dflt P} (k : gkernel G P) (ok : G -> Prop) (w w' : tensor R) : Prop :=
  forall (L : gconv G P) wH X in_H out_H, l_kernel L = k -> Forall ok in_H -> Forall ok out_H ->
  separable_forward L wH w X in_H out_H = separable_forward L wH w' X in_H out_H.
