(** Model of gconv/geometry/groups/so2.py.
    An angle tensor of shape (..., 1) is modelled by the real angles it holds. *)
From Coq Require Import String.
From Verif Require Import Prelude RMath Mat Interp.
Open Scope R_scope.

(** so2.py:9-29 [angle_to_matrix] (one element). *)
Definition so2_angle_to_matrix (r : R) : M2 := mkM2 (cos r) (- sin r) (sin r) (cos r).

(** so2.py:32-47 [angle_to_euclid]. *)
Definition so2_angle_to_euclid (r : R) : V2 := mkV2 (cos r) (sin r).

(** so2.py:50-61 [uniform_grid]: linspace(0, 2 pi, size + 1)[:-1]. *)
Definition so2_uniform_grid (size : nat) : list R := removelast (linspace 0 (2 * PI) (size + 1)).

(** so2.py:64-75 [random_grid]: [us] are the draws of torch.rand in [0,1). *)
Definition so2_random_grid (us : list R) : list R := map (fun u => 2 * PI * u) us.

(** so2.py:78-88 [inverse_matrix]. *)
Definition so2_inverse_matrix (r : M2) : M2 := tr2 r.

(** so2.py:91-101 [inverse_angle]. *)
Definition so2_inverse_angle (r : R) : R := - r.

(** so2.py:104-116 [left_apply_angle] (one broadcast pair). *)
Definition so2_left_apply_angle (r1 r2 : R) : R := Rmod (r1 + r2) (2 * PI).

(** so2.py:119-131 [left_apply_to_angle]: row n, column m. *)
Definition so2_left_apply_to_angle (R1 R2 : list R) : list (list R) :=
  map (fun r1 => map (fun r2 => Rmod (r1 + r2) (2 * PI)) R2) R1.

(** so2.py:149-161 [left_apply_matrix_to_R2]; the grid is a W-list of H-lists of vectors. *)
Definition so2_left_apply_matrix_to_R2 (Rs : list M2) (grid : list (list V2))
  : list (list (list V2)) :=
  map (fun r => map (map (app2 r)) grid) Rs.

(** so2.py:134-146 [left_apply_angle_to_R2]. *)
Definition so2_left_apply_angle_to_R2 (Rs : list R) (grid : list (list V2))
  : list (list (list V2)) :=
  so2_left_apply_matrix_to_R2 (map so2_angle_to_matrix Rs) grid.

(** so2.py:164-176 [geodesic_distance_euclid]. *)
Definition so2_geodesic_distance_euclid (r1 r2 : V2) (eps : R) : R :=
  acos (clamp (v2x r1 * v2x r2 + v2y r1 * v2y r2) (-1 + eps) (1 - eps)).

(** so2.py:179-191 [geodesic_distance]. *)
Definition so2_geodesic_distance (r1 r2 : R) (eps : R) : R :=
  so2_geodesic_distance_euclid (so2_angle_to_euclid r1) (so2_angle_to_euclid r2) eps.

(** The default [eps=1e-12] of so2.py:179. *)
Definition so2_eps : R := / 10 ^ 12.

(** torch [.min(-1)[0]] of one row; torch raises on an empty reduction axis. *)
Definition row_min (l : list R) : result R :=
  match l with [] => Err IndexError | x :: r => Ok (fold_left Rmin r x) end.

(** so2.py:233-240 [nearest_neighbour_distance]: row minimum of the full distance matrix.
    On an empty grid torch reduces a (0,0) matrix over an empty axis and raises. *)
Definition so2_nearest_neighbour_distance (grid : list R) : result (list R) :=
  match grid with
  | [] => Err IndexError
  | _ => mapM (fun a => row_min (map (fun b => so2_geodesic_distance a b so2_eps) grid)) grid
  end.

(** so2.py:194-230 [grid_sample]: modes "rbf" and "nearest" (case-sensitive), otherwise
    ValueError. [S] is the number of signal columns. *)
Definition so2_grid_sample (T : torch_env) (mode : string) (width : R) (S : nat)
    (grid : list R) (signal : mat) (signal_grid : list R) : result mat :=
  if String.eqb mode "rbf" then
    interpolate_RBF T (fun a b => so2_geodesic_distance a b so2_eps) RBF_gauss width S
      grid signal_grid signal
  else if String.eqb mode "nearest" then
    interpolate_NN T (fun a b => so2_geodesic_distance a b so2_eps) grid signal_grid signal
  else Err ValueError.
