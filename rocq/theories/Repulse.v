(** Model of gconv/geometry/repulsion.py.

    Simplifications: storages hold reals, shapes are (N, D) as lists of rows; autograd's gradient of
    the mean energy is a parameter [grad] (any function of the current grid), torch.randn draws are a
    parameter [noise]; the caller's tensor does not require gradients; tqdm output is not modelled. *)
From Verif Require Import Prelude RMath.
From Verif Require SO3.
Open Scope R_scope.

(** Models repulsion.py:30-97: tensors as rows and their arithmetic. *)
Definition rows := list (list R).

(** Models repulsion.py:30-97: tensors as rows and their arithmetic. *)
Definition zip2 {A B C} (f : A -> B -> C) (l1 : list A) (l2 : list B) : list C :=
  map (fun p => f (fst p) (snd p)) (combine l1 l2).

(** Elementwise operations on (N, D) tensors of equal shape. *)
(** Models repulsion.py:30-97: tensors as rows and their arithmetic. *)
Definition t_add (x y : rows) : rows := zip2 (zip2 Rplus) x y.
Definition t_sub (x y : rows) : rows := zip2 (zip2 Rminus) x y.
Definition t_scale (c : R) (x : rows) : rows := map (map (Rmult c)) x.

(** repulsion.py:16-27 [columb_energy], one entry. *)
Definition columb_energy (k : nat) (d : R) : R := / (d ^ k).

(** repulsion.py:75-82: the mean total energy of a grid of rows. [metric] acts on transformed rows;
    each row of the distance matrix is sorted and its first entry dropped. *)
Definition repulse_dists {P Q} (transform : P -> Q) (metric : Q -> Q -> R) (grid : list P) : list (list R) :=
  let g := map transform grid in
  map (fun a => tl (SO3.sortR (map (fun b => metric a b) g))) g.
Fixpoint sumR (l : list R) : R := match l with [] => 0 | x :: r => x + sumR r end.
Definition meanR (l : list R) : R := sumR l / INR (length l).
Definition repulse_mean_energy {P Q} (transform : P -> Q) (metric : Q -> Q -> R) (energy : R -> R)
    (norm_const : R) (grid : list P) : R :=
  meanR (map (fun d => energy (d / norm_const)) (concat (repulse_dists transform metric grid))).

(** repulsion.py:84-89: coefficient of the noise in epoch [e]. *)
Definition noise_coeff (steps : nat) (alpha : R) (e : nat) : R :=
  (INR steps - INR e) / INR steps * alpha.

(** repulsion.py:73-91: one epoch on the contents of the storage (plain SGD: x - lr * grad). *)
Definition repulse_epoch (steps : nat) (lr alpha : R) (grad : rows -> rows) (noise : nat -> rows)
    (e : nat) (x : rows) : rows :=
  t_sub x (t_scale lr (t_add (grad x) (t_scale (noise_coeff steps alpha e) (noise e)))).

(** A heap of tensor storages; a tensor value is an index into it. *)
(** Models repulsion.py:30-97: torch's storage, for the in-place updates. *)
Definition heap (V : Type) := list V.
Fixpoint upd {V} (h : heap V) (l : nat) (v : V) : heap V :=
  match h, l with
  | [], _ => []
  | _ :: r, O => v :: r
  | x :: r, S l => x :: upd r l v
  end.

(** repulsion.py:72-91: the loop over epochs writing into storage [l]. *)
Definition repulse_loop (steps : nat) (lr alpha : R) grad noise (h : heap rows) (l : nat) : heap rows :=
  fold_left (fun h e => upd h l (repulse_epoch steps lr alpha grad noise e (nth l h [])))
            (seq 0 steps) h.

(** repulsion.py:30-97 [repulse]: clone unless in_place, loop, return grid.detach() (same storage). *)
Definition repulse (steps : nat) (lr alpha : R) (grad : rows -> rows) (noise : nat -> rows)
    (in_place : bool) (h : heap rows) (l : nat) : heap rows * nat :=
  let '(h, l) := if in_place then (h, l) else (h ++ [nth l h []], length h) in
  (repulse_loop steps lr alpha grad noise h l, l).
