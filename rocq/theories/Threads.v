(** so3.uniform_grid (and _grid_cache.py) called from several threads.

    A call is cut into the steps between which another thread can run and see or change shared state: the shared state is the cache
    (_grid_cache.py:29) and the tensors it holds; a lookup or a store in a dictionary is atomic (CPython), everything else works on tensors
    only this call has.  Simplifications: the outer dictionaries are never changed, so a chain of lookups is one step; the optimisation works in place on a
    tensor nobody else has yet, so it is one step; what it draws is the argument [c_oracle] of the call (arbitrary, whatever the threads do to the
    shared random generator); callers do not write into results (C27 is about that). *)
From Coq Require Import String.
From Verif Require Import Prelude RMath Mat Interp SO3 O3 Repulse S2 GridTables Tensor GridCache.

(** so3.py:545-553: the arguments of one call of uniform_grid, and what it draws. *)
Record call := mkCall { c_size : nat; c_param : string; c_cache : bool; c_oracle : oracle }.

(** How far a call has come.  Models the program points of so3.py:574-610 and _grid_cache.py:15-22. *)
Inductive phase :=
| AtEntry                     (* so3.py:574 *)
| Missed                      (* so3.py:581: the cache has no such grid *)
| Optimised (l : nat)         (* so3.py:607, _grid_cache.py:15: the grid is at l *)
| Unsaved (l : nat)           (* _grid_cache.py:22: still no such grid in the cache *)
| Converting (l : nat)        (* so3.py:610 *)
| Finished (r : result nat).  (* returned a tensor, or raised *)

(** One step of one call: so3.py:574-610 [uniform_grid], _grid_cache.py:4-26 [save_grid] (overwrite=False) and [load_grid]. *)
Definition thread_step (s : gstate) (c : call) (ph : phase) : gstate * phase :=
  match ph with
  | AtEntry =>
    if Nat.eqb (c_size c) 0 then let '(s', l) := alloc s TEmpty in (s', Finished (Ok l))
    else match load_grid s (c_size c) (c_param c) with Ok l => (s, Finished (Ok l)) | Err _ => (s, Missed) end
  | Missed =>
    match param_fn (lower (c_param c)) [] with
    | Err e => (s, Finished (Err e))
    | Ok _ => let '(s', l) := alloc s (TRows3 (so3_optimised (c_oracle c))) in (s', if c_cache c then Optimised l else Converting l)
    end
  | Optimised l => match load_grid s (c_size c) (lower (c_param c)) with Ok _ => (s, Converting l) | Err _ => (s, Unsaved l) end
  | Unsaved l =>
    let p := lower (lower (c_param c)) in
    if String.eqb p "quat" then (mkG (gs_heap s) (set_at (gs_quat s) (c_size c) l) (gs_matrix s), Converting l)
    else if String.eqb p "matrix" then (mkG (gs_heap s) (gs_quat s) (set_at (gs_matrix s) (c_size c) l), Converting l)
    else (s, Finished (Err KeyError))
  | Converting l =>
    match look s l with
    | Some (TRows3 g) => match param_fn (lower (c_param c)) g with Err e => (s, Finished (Err e)) | Ok t => let '(s', l') := alloc s t in (s', Finished (Ok l')) end
    | _ => (s, Finished (Err RuntimeError))
    end
  | Finished _ => (s, ph)
  end.

(** so3.py:545-610 in several threads: the shared state, and how far each call has come. *)
Record system := mkSys { y_state : gstate; y_phase : nat -> phase }.

(** so3.py:545-610: the scheduler lets call number i take one step. *)
Definition sys_step (calls : list call) (y : system) (i : nat) : system :=
  match nth_error calls i with
  | None => y
  | Some c => let '(s, ph) := thread_step (y_state y) c (y_phase y i) in mkSys s (fun k => if Nat.eqb k i then ph else y_phase y k)
  end.
(** so3.py:545-610: a schedule, from the state in which no call has begun. *)
Definition sys_run (calls : list call) (y : system) (sched : list nat) : system := fold_left (sys_step calls) sched y.
Definition sys_start (s : gstate) : system := mkSys s (fun _ => AtEntry).
