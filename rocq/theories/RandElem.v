(** Model of the batched random elements: gconv/geometry/groups/{so2,o2,so3,o3,s2}.py, one row per draw.
    so2.random_grid and o2.random_grid are [so2_random_grid] and [o2_random_grid] (SO2.v, O2.v). *)
From Coq Require Import String.
From Verif Require Import Prelude RMath Mat Interp SO2 O2 SO3 O3 Repulse S2.
Open Scope R_scope.

(** so3.py:498-514 [random_quat] of shape (n,): one normal draw per row.
    so3.py:517-528 [random_matrix], 531-542 [random_euler]: the same draws, converted. *)
Definition so3_random_quats (draws : list Q4) : list Q4 := map so3_random_quat draws.
Definition so3_random_matrices (draws : list Q4) : list M3 := map so3_quat_to_matrix (so3_random_quats draws).

(** o3.py:46-60 [random_grid]: first the rotations (57), then the coefficients (58), joined row by row (60). *)
Definition o3_random_grid (draws : list Q4) (us : list R) : list O3 :=
  map (fun cr => mkO3 ((if Rlt_dec (1 / 2) (fst cr) then 1 else 0) * 2 - 1) (snd cr)) (combine us (so3_random_matrices draws)).

(** s2.py:52-65 [random_s2] of shape (n,). *)
Definition s2_random_grid (draws : list V3) : list sph := map s2_random draws.
