(** Model of gconv/geometry/groups/o3.py. A 10-vector is a coefficient and a 3x3 matrix. *)
From Coq Require Import String.
From Verif Require Import Prelude RMath Mat Interp SO3 OSplit.
Open Scope R_scope.

(** Models o3.py:8-43: a row (coefficient, nine matrix entries). *)
Record O3 := mkO3 { o3c : R; o3r : M3 }.

(** o3.py:46-60 [random_grid]: coefficient draw in [0,1), quaternion draw. *)
Definition o3_random (u : R) (draw : Q4) : O3 :=
  mkO3 ((if Rlt_dec (1 / 2) u then 1 else 0) * 2 - 1) (so3_random_matrix draw).

(** o3.py:63-84 [left_apply_O3]. *)
Definition o3_left_apply_O3 (h1 h2 : O3) : O3 := mkO3 (o3c h1 * o3c h2) (mul3 (o3r h1) (o3r h2)).

(** o3.py:87-108 [left_apply_to_O3]. *)
Definition o3_left_apply_to_O3 (H1 H2 : list O3) : list (list O3) :=
  map (fun h1 => map (fun h2 => mkO3 (o3c h1 * o3c h2) (mul3 (o3r h1) (o3r h2))) H2) H1.

(** o3.py:111-124 [left_apply_to_R3]. *)
Definition o3_left_apply_to_R3 (H : list O3) (grid : grid3) : list grid3 :=
  map (fun h => map (map (map (fun v => scalv3 (o3c h) (app3 (o3r h) v)))) grid) H.

(** o3.py:127-137 [det]. *)
Definition o3_det (h : O3) : R := o3c h.

(** o3.py:140-151 [inverse]. *)
Definition o3_inverse (h : O3) : O3 := mkO3 (o3c h) (tr3 (o3r h)).

(** o3.py:154-212 [grid_sample]. *)
Definition o3_grid_sample (T : torch_env) (mode : string) (rot_width ref_width : R) (S : nat)
    (grid : list O3) (signal : mat) (signal_grid : list O3) (n_rot n_ref : nat) : result mat :=
  split_sample o3c o3r
    (fun q s g => so3_grid_sample_matrix T mode rot_width S q s g)
    (fun q s g => so3_grid_sample_matrix T mode ref_width S q s g)
    grid signal signal_grid n_rot n_ref.
