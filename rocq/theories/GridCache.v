(** so3.uniform_grid, o3.uniform_grid and _grid_cache.py as a state machine over a heap of tensors.

    A tensor is a heap location, so that results which alias the cache can be written to by a caller.
    Simplifications: sizes are non-negative; the device argument is not modelled. *)
From Coq Require Import String.
From Verif Require Import Prelude RMath Mat Interp SO3 O3 Repulse S2 GridTables Tensor.
Open Scope R_scope.

(** Contents of a tensor, by shape: (0,), (n,4), (n,3,3), (n,3); and tensors that are not grids of group elements:
    parameters and masks, spatial grids (used by Checkpoint.v). *)
(** Models the tensors kept alive by _grid_cache.py:4-29 and so3.py:545-610. *)
Inductive tens :=
| TEmpty | TQuat (l : list Q4) | TMat (l : list M3) | TRows3 (l : list V3)
| TReal (t : tensor R) | TSpace (t : tensor V3).

(** The module-level dict _grid_cache["so3"] (two parameterizations) and the heap. *)
(** Models _grid_cache.py:4-29: the module-level dictionaries, as a heap. *)
Record gstate := mkG {
  gs_heap : heap tens;
  gs_quat : nat -> option nat;     (* _grid_cache["so3"]["quat"]   : size -> tensor *)
  gs_matrix : nat -> option nat    (* _grid_cache["so3"]["matrix"] : size -> tensor *)
}.

(** The rows of a (3,3) tensor. *)
(** Models so3.py:365-396: the rows of a matrix grid. *)
Definition rows3 (m : M3) : list V3 :=
  [mkV3 (a00 m) (a01 m) (a02 m); mkV3 (a10 m) (a11 m) (a12 m); mkV3 (a20 m) (a21 m) (a22 m)].

(** _grid_cache.py:29-2016: the initial contents. The "matrix" grid of size 1 is a (3,3) tensor. *)
Definition init_quat (n : nat) : tens := TQuat (table_quat n).
Definition init_matrix (n : nat) : tens :=
  if Nat.eqb n 1 then TRows3 (concat (map rows3 (table_matrix 1))) else TMat (table_matrix n).
Definition ginit : gstate :=
  mkG (map init_quat (seq 1 24) ++ map init_matrix (seq 1 24))
      (fun n => if (Nat.leb 1 n && Nat.leb n 24)%bool then Some (n - 1)%nat else None)
      (fun n => if (Nat.leb 1 n && Nat.leb n 24)%bool then Some (24 + (n - 1))%nat else None).

(** _grid_cache.py:25-26 [load_grid] for grid_type "so3". *)
Definition load_grid (s : gstate) (size : nat) (param : string) : result nat :=
  let p := lower param in
  if String.eqb p "quat" then of_option KeyError (gs_quat s size)
  else if String.eqb p "matrix" then of_option KeyError (gs_matrix s size)
  else Err KeyError.

(** Models _grid_cache.py:4-29: the module-level dictionaries, as a heap. *)
Definition set_at (f : nat -> option nat) (n l : nat) : nat -> option nat :=
  fun k => if Nat.eqb k n then Some l else f k.

(** _grid_cache.py:4-22 [save_grid] with overwrite=False; [n] is grid.shape[0]. *)
Definition save_grid (s : gstate) (loc n : nat) (param : string) : result gstate :=
  match load_grid s n param with
  | Ok _ => Ok s
  | Err _ =>
    let p := lower param in
    if String.eqb p "quat" then Ok (mkG (gs_heap s) (set_at (gs_quat s) n loc) (gs_matrix s))
    else if String.eqb p "matrix" then Ok (mkG (gs_heap s) (gs_quat s) (set_at (gs_matrix s) n loc))
    else Err KeyError
  end.

(** Everything a call consumes besides size and parameterization. *)
(** Models so3.py:545-610: the random start of the repulsion, random_quat. *)
Record oracle := mkO {
  or_steps : nat; or_lr : R; or_grad : rows -> rows; or_noise : nat -> rows; or_draws : list Q4
}.

(** Models repulsion.py:30-97: the points as rows. *)
Definition rows_of_v3 (l : list V3) : rows := map (fun g => [vx g; vy g; vz g]) l.
Definition v3_of_rows (x : rows) : list V3 := map (fun r => mkV3 (nth 0 r 0) (nth 1 r 0) (nth 2 r 0)) x.

(** so3.py:591-605: random Euler angles, then in-place repulsion with alpha = 0.001. *)
Definition so3_optimised (o : oracle) : list V3 :=
  let '(h, l) := repulse (or_steps o) (or_lr o) (/ 1000) (or_grad o) (or_noise o) true
                   [rows_of_v3 (map so3_random_euler (or_draws o))] 0%nat in
  v3_of_rows (nth l h []).

(** so3.py:581-589: the conversion chosen by the (lower-cased) parameterization. *)
Definition param_fn (p : string) (g : list V3) : result tens :=
  if String.eqb p "quat" then Ok (TQuat (map (fun x => so3_euler_to_quat x e2m_eps) g))
  else if String.eqb p "matrix" then Ok (TMat (map (fun x => so3_euler_to_matrix x e2m_eps) g))
  else if String.eqb p "euler" then
    Ok (TRows3 (map (fun x => so3_matrix_to_euler (so3_euler_to_matrix x e2m_eps) (/ 10 ^ 5)) g))
  else Err ValueError.

(** Models _grid_cache.py:4-29: the module-level dictionaries, as a heap. *)
Definition alloc (s : gstate) (t : tens) : gstate * nat :=
  (mkG (gs_heap s ++ [t]) (gs_quat s) (gs_matrix s), List.length (gs_heap s)).

(** so3.py:545-610 [uniform_grid]; the random draws are given for the requested size, so that
    grid.shape[0] = size. The state is kept when an exception is raised (nothing was cached then). *)
Definition so3_uniform_grid (s : gstate) (size : nat) (param : string) (cache : bool) (o : oracle)
    : gstate * result nat :=
  if Nat.eqb size 0 then let '(s', l) := alloc s TEmpty in (s', Ok l)
  else match load_grid s size param with
  | Ok l => (s, Ok l)
  | Err _ =>
    let p := lower param in
    match param_fn p [] with
    | Err e => (s, Err e)
    | Ok _ =>
      let grid := so3_optimised o in
      let '(s1, lg) := alloc s (TRows3 grid) in
      match (if cache then save_grid s1 lg size p else Ok s1) with
      | Err e => (s1, Err e)
      | Ok s2 =>
        match param_fn p grid with
        | Err e => (s2, Err e)
        | Ok t => let '(s3, l) := alloc s2 t in (s3, Ok l)
        end
      end
    end
  end.

(** Contents of a returned tensor. *)
(** A history of calls of so3.py:545-610 (uniform_grid) and of in-place writes by the user into what it returned. *)
Definition look (s : gstate) (l : nat) : option tens := nth_error (gs_heap s) l.

(** One user action: a call, or an in-place write into a tensor the user holds. *)
(** A history of calls of so3.py:545-610 (uniform_grid) and of in-place writes by the user into what it returned. *)
Inductive gop :=
| GCall (size : nat) (param : string) (cache : bool) (o : oracle)
| GWrite (loc : nat) (t : tens).
Definition gstep (s : gstate) (a : gop) : gstate :=
  match a with
  | GCall n p c o => fst (so3_uniform_grid s n p c o)
  | GWrite l t => mkG (upd (gs_heap s) l t) (gs_quat s) (gs_matrix s)
  end.
Definition grun (s : gstate) (ops : list gop) : gstate := fold_left gstep ops s.
Definition is_write (a : gop) : bool := match a with GWrite _ _ => true | _ => false end.

(** torch.cat along dim 0; a (0,) tensor is skipped. Only applied to grids of matrices. *)
Definition tcat (a b : tens) : result tens :=
  match a, b with
  | TEmpty, x => Ok x
  | x, TEmpty => Ok x
  | TQuat l, TQuat l' => Ok (TQuat (l ++ l'))
  | TMat l, TMat l' => Ok (TMat (l ++ l'))
  | TRows3 l, TRows3 l' => Ok (TRows3 (l ++ l'))
  | _, _ => Err RuntimeError
  end.

(** Models o3.py:8-43: what uniform_grid returns. *)
Inductive o3_out := O3Grid (l : list O3) | O3Matrices (t : tens).

(** o3.py:37-43: coefficients (n+m,1) concatenated with R.flatten(-2,-1) along the last axis.
    flatten(-2,-1) of a 1-D tensor raises IndexError; of a 2-D tensor it is 1-D, and cat of a 2-D
    and a 1-D tensor raises RuntimeError. *)
Definition o3_attach (n m : nat) (R : tens) : result o3_out :=
  match R with
  | TEmpty => Err IndexError
  | TMat l =>
    let coeffs := repeat 1 n ++ repeat (-1 * 1) m in
    if Nat.eqb (List.length l) (List.length coeffs) then
      Ok (O3Grid (map (fun p => mkO3 (fst p) (snd p)) (combine coeffs l)))
    else Err RuntimeError
  | TQuat _ | TRows3 _ | TReal _ | TSpace _ => Err RuntimeError
  end.

(** o3.py:8-43 [uniform_grid]. *)
Definition o3_uniform_grid (s : gstate) (n m : nat) (matrix_only : bool) (o1 o2 : oracle)
    : gstate * result o3_out :=
  let '(s1, r1) := so3_uniform_grid s n "matrix" false o1 in
  match r1 with
  | Err e => (s1, Err e)
  | Ok l1 =>
    let '(s2, r2) := so3_uniform_grid s1 m "matrix" false o2 in
    match r2 with
    | Err e => (s2, Err e)
    | Ok l2 =>
      (s2, R <- (t1 <- of_option IndexError (look s2 l1) ;;
                 t2 <- of_option IndexError (look s2 l2) ;; tcat t1 t2) ;;
           if matrix_only then Ok (O3Matrices R) else o3_attach n m R)
    end
  end.
