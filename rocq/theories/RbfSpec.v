(** Specification: when the group interpolation of a layer is well posed (C90). *)
From Coq Require Import String ZArith.
From Verif Require Import Prelude RMath Mat Interp SO2 SO3 SolveSpec.
Open Scope R_scope.

(** The distance of so3.py:355-387 between two rotation matrices. *)
Definition gdist (a b : M3) : R := so3_geodesic_distance (so3_matrix_to_quat a) (so3_matrix_to_quat b) so3_eps.
(** The matrix of the linear system interpolate_RBF solves (interpolation.py:44-50), for a grid and a width. *)
Definition rbf_matrix (w : R) (g : list M3) : mat := map (fun a => map (fun b => RBF_gauss (gdist a b) w) g) g.
Definition so2_rbf_matrix (w : R) (g : list R) : mat := map (fun a => map (fun b => RBF_gauss (so2_geodesic_distance a b so2_eps) w) g) g.

(** m x is small only if x is: solutions of m x = b are at most beta times as large as b, entry by entry. *)
Definition bounded_inverse (n : nat) (m : mat) (beta : R) : Prop :=
  forall x B, length x = n -> (forall row, In row m -> Rabs (dotl row x) <= B) -> forall v, In v x -> Rabs v <= beta * B.

(** group_sampling_mode "nearest" on a non-empty grid, or "rbf" with a system that has exactly one solution for every right-hand side. *)
Definition ready2 (gmode : string) (w : R) (g : list R) : Prop :=
  gmode = "nearest"%string /\ g <> [] \/ gmode = "rbf"%string /\ nonsingular (length g) (so2_rbf_matrix w g).
Definition ready3 (gmode : string) (w : R) (g : list M3) : Prop :=
  gmode = "nearest"%string /\ g <> [] \/ gmode = "rbf"%string /\ nonsingular (length g) (rbf_matrix w g).

(** Angles no two of which are closer than 1 - cos = 1e-9, about 4.5e-5 radians. *)
Definition separated (grid : list R) : Prop :=
  forall i j a b, i <> j -> nth_error grid i = Some a -> nth_error grid j = Some b -> cos (a - b) <= 1 - / 10 ^ 9.
