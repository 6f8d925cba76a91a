(** Model of gconv/geometry/groups/s2.py (element level; grids are lists of elements). *)
From Coq Require Import String.
From Verif Require Import Prelude RMath Mat SO3 Repulse.
Open Scope R_scope.

(** Spherical coordinates (beta, gamma) as a 2-vector. *)
(** Models s2.py:12-145: a row (beta, gamma). *)
Definition sph := V2.

(** s2.py:12-31 [spherical_to_euclid]. *)
Definition s2_spherical_to_euclid (g : sph) : V3 :=
  let beta := v2x g in let gamma := v2y g in
  mkV3 (sin beta * cos gamma) (sin beta * sin gamma) (cos beta).

(** s2.py:34-49 [euclid_to_spherical]. *)
Definition s2_euclid_to_spherical (x : V3) : sph := mkV2 (acos (vz x)) (atan2 (vy x) (vx x)).

(** s2.py:52-65 [random_s2], one draw. *)
Definition s2_random (draw : V3) : sph :=
  s2_euclid_to_spherical (mkV3 (vx draw / norm3 draw) (vy draw / norm3 draw) (vz draw / norm3 draw)).

(** s2.py:68-69 [geodesic_distance_s2]. *)
Definition s2_geodesic_distance (r1 r2 : V3) (eps : R) : R :=
  acos (clamp (vx r1 * vx r2 + vy r1 * vy r2 + vz r1 * vz r2) (-1 + eps) (1 - eps)).

(** s2.py:72-74 [spherical_to_euler]: hstack of an (N,1) zero column and the (N,2) grid. *)
Definition s2_spherical_to_euler (g : list sph) : list V3 := map (fun x => mkV3 0 (v2x x) (v2y x)) g.

(** torch.hstack of a 1-D and a 2-D tensor with [n] columns: cat along dim 0, which raises unless the
    1-D tensor is empty (legacy empty tensors are skipped). *)
Definition hstack_1d_2d {A B} (l1 : list A) (l2 : list B) : result (list B) :=
  match l1 with [] => Ok l2 | _ => Err RuntimeError end.

(** s2.py:77-79 [spherical_to_euler_neg_gamma]: the result, if any, still has two columns. *)
Definition s2_spherical_to_euler_neg_gamma (g : list sph) : result (list sph) :=
  hstack_1d_2d (map v2y g) g.

(** The possible results of [uniform_grid_s2], by shape and meaning. *)
(** Models s2.py:82-145: what uniform_grid_s2 returns. *)
Inductive s2_out :=
| S2Spherical (l : list sph) | S2Euclid (l : list V3) | S2Euler (l : list V3)
| S2Matrix (l : list M3) | S2Quat (l : list Q4).

(** Models s2.py:12-145: a row (beta, gamma). *)
Definition rows_of_sph (l : list sph) : rows := map (fun g => [v2x g; v2y g]) l.
Definition sph_of_rows (x : rows) : list sph := map (fun r => mkV2 (nth 0 r 0) (nth 1 r 0)) x.

(** s2.py:120-139: random initial grid and the in-place repulsion (alpha = 0.001). *)
Definition s2_optimised (steps : nat) (lr : R) (grad : rows -> rows) (noise : nat -> rows)
    (draws : list V3) : list sph :=
  let '(h, l) := repulse steps lr (/ 1000) grad noise true [rows_of_sph (map s2_random draws)] 0%nat in
  sph_of_rows (nth l h []).

(** euler_to_matrix's default eps (so3.py:218). *)
Definition e2m_eps : R := / 10 ^ 6.

(** s2.py:82-145 [uniform_grid_s2]. An unmatched parameterization leaves [param_fn] unbound, which
    is only noticed when it is called at line 145 (after random draws and optimisation). For
    an empty (0,2) grid so3.euler_to_matrix / euler_to_quat index a missing third column. *)
Definition s2_uniform_grid (param : string) (set_alpha_as_neg_gamma : bool) (steps : nat) (lr : R)
    (grad : rows -> rows) (noise : nat -> rows) (draws : list V3) : result s2_out :=
  let p := lower param in
  let grid := s2_optimised steps lr grad noise draws in
  let add_alpha := String.eqb p "euler" || String.eqb p "matrix" || String.eqb p "quat" in
  if add_alpha then
    if set_alpha_as_neg_gamma then
      g <- s2_spherical_to_euler_neg_gamma grid ;;
      if String.eqb p "euler" then Ok (S2Spherical g) else Err IndexError
    else
      let g := s2_spherical_to_euler grid in
      if String.eqb p "euler" then Ok (S2Euler g)
      else if String.eqb p "matrix" then Ok (S2Matrix (map (fun x => so3_euler_to_matrix x e2m_eps) g))
      else Ok (S2Quat (map (fun x => so3_euler_to_quat x e2m_eps) g))
  else if String.eqb p "spherical" then Ok (S2Spherical grid)
  else if String.eqb p "euclidean" then Ok (S2Euclid (map s2_spherical_to_euclid grid))
  else Err UnboundLocalError.
