(** Specification: square linear systems as torch.linalg.solve sees them (interpolation.py:50). *)
From Verif Require Import Prelude RMath Interp.
Open Scope R_scope.

(** x is the only solution of m x = b, column by column. *)
Definition solution n s (m b x : mat) : Prop :=
  wfm n s x /\ matmul s m x = b /\ (forall y, wfm n s y -> matmul s m y = b -> y = x).
(** Every right-hand side has exactly one solution. *)
Definition nonsingular n (m : mat) : Prop :=
  wfm n n m /\ forall s b, wfm n s b -> exists x, solution n s m b x.
(** torch.linalg.solve raises for singular matrices only (interpolation.py:50); not part of [torch_ok], which also allows a solver that gives up. *)
Definition solver_complete (T : torch_env) : Prop :=
  forall n s m b, nonsingular n m -> wfm n s b -> exists x, te_solve T m b = Ok x.
