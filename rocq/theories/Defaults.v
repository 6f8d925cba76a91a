(** What repulse, interpolate_NN and interpolate_BCC do when an optional argument is left out: repulsion.py:33 (metric_fn), interpolation.py:63, 94 (dist_fn).

    repulse's default metric is a difference, so "distances" of a (N, D) grid have shape (N, N, D), the sort acts on the coordinates, and
    [:, 1:] drops the first grid element instead of the distance of an element to itself.  What is left is not finite, so numbers are
    reals, infinities and NaN.  Simplification: no rounding, no overflow, zeros have no sign (a difference -0 instead of 0 turns an
    infinity around, which is summed with another infinity to NaN all the same). *)
From Verif Require Import Prelude RMath Interp Bary.
Open Scope R_scope.

(** Models repulsion.py:75-91: IEEE numbers, apart from rounding. *)
Inductive ext := Fin (r : R) | PInf | MInf | NaN.
Definition xadd (a b : ext) : ext :=
  match a, b with
  | NaN, _ | _, NaN => NaN
  | PInf, MInf | MInf, PInf => NaN
  | PInf, _ | _, PInf => PInf
  | MInf, _ | _, MInf => MInf
  | Fin a, Fin b => Fin (a + b)
  end.
Definition xneg (a : ext) : ext := match a with Fin a => Fin (- a) | PInf => MInf | MInf => PInf | NaN => NaN end.
Definition xscale (r : R) (a : ext) : ext :=
  match a with
  | Fin a => Fin (r * a)
  | NaN => NaN
  | PInf => if Rlt_dec 0 r then PInf else if Rlt_dec r 0 then MInf else NaN
  | MInf => if Rlt_dec 0 r then MInf else if Rlt_dec r 0 then PInf else NaN
  end.
(** d ** (-k): repulsion.py:27, and k + 1 in its derivative. *)
Definition xinv_pow (k : nat) (a : ext) : ext :=
  match a with
  | Fin a => if Req_EM_T a 0 then PInf else Fin (/ a ^ k)
  | PInf | MInf => Fin 0
  | NaN => NaN
  end.
Definition xsum (l : list ext) : ext := fold_right xadd (Fin 0) l.

(** repulsion.py:77-79: grid[:, None] - grid, and the entries that [:, 1:] keeps: j >= 1. The sort only reorders the coordinates. *)
Definition default_diff (x : nat -> nat -> ext) (i j k : nat) : ext := xadd (x i k) (xneg (x j k)).
Definition kept (N : nat) : list nat := seq 1 (N - 1).
(** repulsion.py:80-82: the mean total energy; [c] is dist_normalization_constant. *)
Definition default_energy (N D : nat) (c : R) (x : nat -> nat -> ext) : ext :=
  xscale (/ (INR N * INR (N - 1) * INR D))
    (xsum (map (fun p => xinv_pow 2 (xscale (/ c) (default_diff x (fst (fst p)) (snd (fst p)) (snd p))))
               (list_prod (list_prod (seq 0 N) (kept N)) (seq 0 D)))).
(** repulsion.py:83: backward() of the mean, of d ** (-2) (torch: grad * (-2 * d ** (-3))), of the division. *)
Definition default_pair_grad (N D : nat) (c : R) (x : nat -> nat -> ext) (i j k : nat) : ext :=
  xscale (/ c) (xscale (/ (INR N * INR (N - 1) * INR D)) (xscale (-2) (xinv_pow 3 (xscale (/ c) (default_diff x i j k))))).
(** repulsion.py:83: the gradient of the grid, which occurs twice in grid[:, None] - grid; element 0 does not occur as second argument. *)
Definition default_grad (N D : nat) (c : R) (x : nat -> nat -> ext) (i k : nat) : ext :=
  xadd (xsum (map (fun j => default_pair_grad N D c x i j k) (kept N)))
       (if Nat.eqb i 0 then Fin 0 else xneg (xsum (map (fun i' => default_pair_grad N D c x i' i k) (seq 0 N)))).
(** repulsion.py:73-91: one epoch. *)
Definition default_epoch (N D steps : nat) (c lr alpha : R) (noise : nat -> nat -> nat -> R) (e : nat) (x : nat -> nat -> ext) : nat -> nat -> ext :=
  fun i k => xadd (x i k) (xneg (xscale lr (xadd (default_grad N D c x i k) (Fin ((INR steps - INR e) / INR steps * alpha * noise e i k))))).
(** repulsion.py:30-97 [repulse] without metric_fn: what a finite (N, D) grid has become before epoch [e]. *)
Fixpoint repulse_default (N D steps : nat) (c lr alpha : R) (noise : nat -> nat -> nat -> R) (grid : nat -> nat -> R) (e : nat) : nat -> nat -> ext :=
  match e with
  | O => fun i k => Fin (grid i k)
  | S e => default_epoch N D steps c lr alpha noise e (repulse_default N D steps c lr alpha noise grid e)
  end.

(** interpolation.py:58-86 [interpolate_NN] with dist_fn given or not: the default is the type Callable[[Tensor], Tensor], and calling it raises. *)
Definition interpolate_NN_call {G Row} (T : torch_env) (dist_fn : option (G -> G -> R)) (nodes grid : list G) (signal : list Row) : result (list Row) :=
  match dist_fn with Some d => interpolate_NN T d nodes grid signal | None => Err TypeError end.
(** interpolation.py:89-142 [interpolate_BCC] with dist_fn given or not. *)
Definition interpolate_BCC_call {G} (T : torch_env) (dist_fn : option (G -> G -> R)) (lstsq : G -> G -> G -> G -> R * R * R)
    (eps : R) (D S : nat) (nodes grid : list G) (signal : mat) : result (list (list (option R))) :=
  match dist_fn with Some d => interpolate_BCC_ieee T d lstsq eps D S nodes grid signal | None => Err TypeError end.
