(** repulsion.py:30-97 with what C58's model (Repulse.v) leaves out: autograd's flags on the tensors, the gradient mode of the
    caller, what raises, and every point at which the call can be interrupted (Ctrl-C, or an exception of a metric).

    A tensor object has a storage, a dtype (floating point or not), is a leaf or the result of a recorded operation, may require
    a gradient, and may have a gradient.  Simplifications: storages hold the rows of a (N, D) tensor of reals; only one operation at
    a time (CPython delivers an interrupt between two); torch.inference_mode, NaN and mixed devices are not modelled; the
    callables given to repulse only read; autograd's gradient of the mean energy is a parameter, as in Repulse.v. *)
From Coq Require Import String.
From Verif Require Import Prelude RMath Mat Interp SO3 Repulse S2 Tensor GridCache.
Open Scope R_scope.

(** Models repulsion.py:66-68, 95-97: a torch.Tensor: storage, dtype.is_floating_point, is_leaf, requires_grad, grad. *)
Record ten := mkTen { x_store : nat; x_float : bool; x_leaf : bool; x_req : bool; x_grad : option rows }.
(** Models repulsion.py:66-68, 95-97: the storages, and the tensor objects that use them. *)
Record mem := mkMem { m_store : heap rows; m_obj : heap ten }.

(** repulsion.py:30-41: the arguments (energy, metric and transform are in [c_grad]); [c_on] is torch.is_grad_enabled(). *)
Record rcall := mkRcall {
  c_steps : nat; c_lr : R; c_alpha : R; c_grad : rows -> rows; c_noise : nat -> rows; c_in_place : bool; c_on : bool; c_arg : nat
}.

(** Models repulsion.py:66-97: how far the call has come; [g] is the object called grid, [e] the epoch. *)
Inductive point :=
| Begin                     (* line 67 *)
| HasGrid (g : nat)         (* line 68 *)
| Requires (g : nat)        (* line 70 *)
| Epoch (g e : nat)         (* line 72 *)
| Zeroed (g e : nat)        (* line 75 *)
| Backward (g e : nat)      (* line 84 *)
| Noised (g e : nat)        (* line 91 *)
| Cleared (g : nat)         (* line 97 *)
| Returned (r : result nat).

(** Models repulsion.py:67-97: writing an attribute of a tensor object. *)
Definition set_obj (s : mem) (g : nat) (t : ten) : mem := mkMem (m_store s) (upd (m_obj s) g t).

(** One operation of repulsion.py:66-97 [repulse].  torch: the clone of a tensor that requires a gradient is recorded, unless gradients are
    off; only a leaf of floating point may have requires_grad set; SGD refuses a negative learning rate; backward() raises when
    nothing was recorded. *)
Definition repulse_step (c : rcall) (s : mem) (p : point) : mem * point :=
  match p with
  | Begin =>
    if c_in_place c then (s, HasGrid (c_arg c))
    else match nth_error (m_obj s) (c_arg c) with
    | Some t =>
      let recorded := (c_on c && x_req t)%bool in
      (mkMem (m_store s ++ [nth (x_store t) (m_store s) []])
             (m_obj s ++ [mkTen (List.length (m_store s)) (x_float t) (negb recorded) recorded None]),
       HasGrid (List.length (m_obj s)))
    | None => (s, Returned (Err TypeError))
    end
  | HasGrid g =>
    match nth_error (m_obj s) g with
    | Some t =>
      if negb (x_leaf t) then (s, Returned (Err RuntimeError))
      else if negb (x_float t) then (s, Returned (Err RuntimeError))
      else (set_obj s g (mkTen (x_store t) (x_float t) (x_leaf t) true (x_grad t)), Requires g)
    | None => (s, Returned (Err TypeError))
    end
  | Requires g => if Rlt_dec (c_lr c) 0 then (s, Returned (Err ValueError)) else (s, Epoch g 0)
  | Epoch g e =>
    match nth_error (m_obj s) g with
    | Some t =>
      if Nat.ltb e (c_steps c) then (set_obj s g (mkTen (x_store t) (x_float t) (x_leaf t) (x_req t) None), Zeroed g e)
      else (set_obj s g (mkTen (x_store t) (x_float t) (x_leaf t) false (x_grad t)), Cleared g)
    | None => (s, Returned (Err TypeError))
    end
  | Zeroed g e =>
    match nth_error (m_obj s) g with
    | Some t =>
      if c_on c then
        (set_obj s g (mkTen (x_store t) (x_float t) (x_leaf t) (x_req t) (Some (c_grad c (nth (x_store t) (m_store s) [])))), Backward g e)
      else (s, Returned (Err RuntimeError))
    | None => (s, Returned (Err TypeError))
    end
  | Backward g e =>
    match nth_error (m_obj s) g with
    | Some t =>
      (set_obj s g (mkTen (x_store t) (x_float t) (x_leaf t) (x_req t)
         (option_map (fun G => t_add G (t_scale (noise_coeff (c_steps c) (c_alpha c) e) (c_noise c e))) (x_grad t))), Noised g e)
    | None => (s, Returned (Err TypeError))
    end
  | Noised g e =>
    match nth_error (m_obj s) g with
    | Some t =>
      match x_grad t with
      | Some G => (mkMem (upd (m_store s) (x_store t) (t_sub (nth (x_store t) (m_store s) []) (t_scale (c_lr c) G))) (m_obj s), Epoch g (S e))
      | None => (s, Epoch g (S e))
      end
    | None => (s, Returned (Err TypeError))
    end
  | Cleared g =>
    match nth_error (m_obj s) g with
    | Some t =>
      (mkMem (m_store s) (m_obj s ++ [mkTen (x_store t) (x_float t) true false None]), Returned (Ok (List.length (m_obj s))))
    | None => (s, Returned (Err TypeError))
    end
  | Returned _ => (s, p)
  end.

(** Models repulsion.py:66-97: the state after the first [k] operations of the call, when it is interrupted there. *)
Fixpoint repulse_after (c : rcall) (s : mem) (k : nat) : mem * point :=
  match k with O => (s, Begin) | S k => let '(s', p) := repulse_after c s k in repulse_step c s' p end.
(** Models repulsion.py:66-97: the number of operations of a call that nothing interrupts. *)
Definition whole_call (c : rcall) : nat := 5 + 4 * c_steps c.
(** repulsion.py:30-97 [repulse]: a call that nothing interrupts. *)
Definition repulse_call (c : rcall) (s : mem) : mem * result nat :=
  match repulse_after c s (whole_call c) with
  | (s', Returned r) => (s', r)
  | (s', _) => (s', Err RuntimeError)
  end.

(** so3.py:591-605, s2.py:127-139: the optimisation of a new grid, in gradient mode [on]: the tensor is of floating point and requires no gradient. *)
Definition optimise_new (on : bool) (steps : nat) (lr : R) (grad : rows -> rows) (noise : nat -> rows) (start : rows) : result rows :=
  match repulse_call (mkRcall steps lr (/ 1000) grad noise true on 0) (mkMem [start] [mkTen 0 true true false None]) with
  | (s, Ok _) => of_option RuntimeError (nth_error (m_store s) 0)
  | (_, Err e) => Err e
  end.

(** so3.py:545-610 [uniform_grid] in gradient mode [on] (as GridCache.v, which assumes gradients are on and steps are not negative). *)
Definition so3_uniform_grid_in (on : bool) (s : gstate) (size : nat) (param : string) (cache : bool) (o : oracle) : gstate * result nat :=
  if Nat.eqb size 0 then let '(s', l) := alloc s TEmpty in (s', Ok l)
  else match load_grid s size param with
  | Ok l => (s, Ok l)
  | Err _ =>
    let p := lower param in
    match param_fn p [] with
    | Err e => (s, Err e)
    | Ok _ =>
      match optimise_new on (or_steps o) (or_lr o) (or_grad o) (or_noise o) (rows_of_v3 (map so3_random_euler (or_draws o))) with
      | Err e => (s, Err e)
      | Ok x =>
        let grid := v3_of_rows x in
        let '(s1, lg) := alloc s (TRows3 grid) in
        match (if cache then save_grid s1 lg size p else Ok s1) with
        | Err e => (s1, Err e)
        | Ok s2 =>
          match param_fn p grid with
          | Err e => (s2, Err e)
          | Ok t => let '(s3, l) := alloc s2 t in (s3, Ok l)
          end
        end
      end
    end
  end.

(** s2.py:112-125, 141-145: the conversion of the optimised grid, as in S2.v. *)
Definition s2_convert (param : string) (set_alpha_as_neg_gamma : bool) (grid : list sph) : result s2_out :=
  let p := lower param in
  let add_alpha := (String.eqb p "euler" || String.eqb p "matrix" || String.eqb p "quat")%bool in
  if add_alpha then
    if set_alpha_as_neg_gamma then
      g <- s2_spherical_to_euler_neg_gamma grid ;;
      if String.eqb p "euler" then Ok (S2Spherical g) else Err IndexError
    else
      let g := s2_spherical_to_euler grid in
      if String.eqb p "euler" then Ok (S2Euler g)
      else if String.eqb p "matrix" then Ok (S2Matrix (map (fun x => so3_euler_to_matrix x e2m_eps) g))
      else Ok (S2Quat (map (fun x => so3_euler_to_quat x e2m_eps) g))
  else if String.eqb p "spherical" then Ok (S2Spherical grid)
  else if String.eqb p "euclidean" then Ok (S2Euclid (map s2_spherical_to_euclid grid))
  else Err UnboundLocalError.

(** s2.py:82-145 [uniform_grid_s2] in gradient mode [on]: the optimisation comes first, whatever the parameterization. *)
Definition s2_uniform_grid_in (on : bool) (param : string) (set_alpha_as_neg_gamma : bool) (steps : nat) (lr : R)
    (grad : rows -> rows) (noise : nat -> rows) (draws : list V3) : result s2_out :=
  x <- optimise_new on steps lr grad noise (rows_of_sph (map s2_random draws)) ;;
  s2_convert param set_alpha_as_neg_gamma (sph_of_rows x).
