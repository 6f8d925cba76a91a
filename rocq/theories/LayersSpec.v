(** Specification notions for the layers that are not convolutions. Independent of the model. *)
From Verif Require Import Prelude RMath Tensor KernelFacts.
Open Scope nat_scope.

(** f maps the multi-indices of shape s one-to-one onto those of shape s'. *)
Definition bijective (f : list nat -> list nat) (s s' : list nat) : Prop :=
  (forall y, valid s y -> valid s' (f y)) /\
  (forall y z, valid s y -> valid s z -> f y = f z -> y = z) /\
  (forall y', valid s' y' -> exists y, valid s y /\ f y = y').

(** X' is X, of shape (N, C, *s), with the axes after the channel axis rearranged by f into shape (N, C, *s'): the same
    rearrangement for every sample and channel. *)
Definition rearranged (f : list nat -> list nat) (s s' : list nat) (X X' : tensor R) : Prop :=
  bijective f s s' /\
  exists N C, has_shape X (N :: C :: s) /\ has_shape X' (N :: C :: s') /\
    forall n c y, n < N -> c < C -> valid s y -> at_ X' (n :: c :: f y) = at_ X (n :: c :: y).

(** v is the largest of the values F takes on the multi-indices of shape s. *)
Definition largest (s : list nat) (F : list nat -> R) (v : R) : Prop :=
  (exists y, valid s y /\ F y = v) /\ forall y, valid s y -> (F y <= v)%R.

(** A one-to-one map of 0..n-1 onto itself. *)
Definition permutes (n : nat) (p : nat -> nat) : Prop :=
  (forall i, i < n -> p i < n) /\ (forall i j, i < n -> j < n -> p i = p j -> i = j).

(** Mean, biased variance and unbiased variance of a list of values. *)
Open Scope R_scope.
Fixpoint total (l : list R) : R := match l with [] => 0 | x :: r => x + total r end.
Definition average (l : list R) : R := total l / INR (length l).
Definition squares (l : list R) : list R := map (fun x => (x - average l) * (x - average l)) l.
Definition variance (l : list R) : R := average (squares l).
Definition sample_variance (l : list R) : R := total (squares l) / INR (length l - 1).

(** All entries of channel c of X, of shape (N, C, *s); those of sample n only. *)
Definition channel_entries (N : nat) (s : list nat) (X : tensor R) (c : nat) : list R :=
  flat_map (fun n => map (fun y => at_ X (n :: c :: y)) (indices s)) (seq 0 N).
Definition sample_entries (s : list nat) (X : tensor R) (n c : nat) : list R :=
  map (fun y => at_ X (n :: c :: y)) (indices s).

(** Position q of an image is read by the first cell of a pooling window of sizes k, padding p and dilation t: along every axis,
    q + p is a multiple j * t with j < k. *)
Definition window_reads (k p t q : list nat) : bool :=
  forallb (fun i => existsb (fun j => Nat.eqb (nth i q 0 + nth i p 0) (j * nth i t 0)) (seq 0 (nth i k 0)))%nat (seq 0 (List.length q)).
(** A window of size k, stride s, padding p, dilation t (extent e = t (k - 1) + 1) fits exactly once on an axis of size a: rounding down,
    and rounding up (when a second window must not start inside the image or its left padding). *)
Definition one_window (a k s p t : nat) (ceil : bool) : Prop :=
  let e := (t * (k - 1) + 1)%nat in
  (0 < k /\ 0 < s /\ 0 < t /\ 2 * p <= k)%nat /\
  if ceil then (a + 2 * p <= e /\ e < a + 2 * p + s \/ e < a + 2 * p <= e + s /\ a + p <= s)%nat
  else (e <= a + 2 * p < e + s)%nat.
