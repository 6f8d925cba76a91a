(** Specification for C96, independent of how the gradient is computed: what it means for numbers to be the gradient of a function of a table of
    numbers, and the energy of points on the sphere. *)
From Verif Require Import Prelude RMath Mat SO3 Repulse S2.
Open Scope R_scope.

(** The number in row i and column c; tables of n rows of d numbers. *)
Definition number (x : rows) (i c : nat) : R := nth c (nth i x []) 0.
Definition table (n d : nat) (x : rows) : Prop := length x = n /\ forall i, (i < n)%nat -> length (nth i x []) = d.
(** x with t times the direction v added to it. *)
Definition moved (n d : nat) (x v : rows) (t : R) : rows :=
  map (fun i => map (fun c => number x i c + t * number v i c) (seq 0 d)) (seq 0 n).
(** The inner product of two tables. *)
Definition along (n d : nat) (g v : rows) : R := sumR (map (fun i => sumR (map (fun c => number g i c * number v i c) (seq 0 d))) (seq 0 n)).
(** g is the gradient of f at x: in every direction the derivative of f is the inner product of g with the direction. *)
Definition is_gradient (n d : nat) (f : rows -> R) (x g : rows) : Prop :=
  table n d g /\ forall v : rows, table n d v -> derivable_pt_lim (fun t => f (moved n d x v t)) 0 (along n d g v).

(** What repulse minimises in s2.uniform_grid_s2 (with the exponent k; the library's is 2). *)
Definition sphere_energy (k : nat) (x : rows) : R :=
  repulse_mean_energy s2_spherical_to_euclid (fun a b => s2_geodesic_distance a b (/ 10 ^ 7)) (columb_energy k) PI (sph_of_rows x).
(** The angle between points i and j of the table: the arc cosine of the inner product of the unit vectors. *)
Definition cos_angle (x : rows) (i j : nat) : R :=
  sin (number x i 0) * sin (number x j 0) * cos (number x i 1 - number x j 1) + cos (number x i 0) * cos (number x j 0).
(** No two points are exactly at the distance where the guard sets in. *)
Definition off_guard (n : nat) (x : rows) : Prop :=
  forall i j, (i < n)%nat -> (j < n)%nat -> i <> j -> Rabs (cos_angle x i j) <> 1 - / 10 ^ 7.

(** The same for so3.uniform_grid: rows are Euler angles (alpha, beta, gamma). *)
Definition euler_rows (x : rows) : list V3 := map (fun r => mkV3 (nth 0 r 0) (nth 1 r 0) (nth 2 r 0)) x.
Definition rotation_energy (k : nat) (x : rows) : R :=
  repulse_mean_energy (fun g => so3_euler_to_quat g (/ 10 ^ 6)) (fun a b => so3_geodesic_distance a b (/ 10 ^ 7)) (columb_energy k) (PI / 2) (euler_rows x).
(** The Euler angles in row i, their rotation matrix (with entries of size at most 1e-6 set to zero) and its quaternion. *)
Definition euler_of (x : rows) (i : nat) : V3 := mkV3 (number x i 0) (number x i 1) (number x i 2).
Definition rotation_of (x : rows) (i : nat) : M3 := so3_euler_to_matrix (euler_of x i) (/ 10 ^ 6).
Definition quat_of (x : rows) (i : nat) : Q4 := so3_euler_to_quat (euler_of x i) (/ 10 ^ 6).
(** Where the code branches: an entry of size exactly 1e-6; more than one largest number among the diagonal entries and the trace, by which the
    formula for the quaternion is chosen; perpendicular quaternions (absolute value); the guard. Elsewhere: *)
Definition general_position (n : nat) (x : rows) : Prop :=
  (forall i, (i < n)%nat ->
    (forall e, In e [a00; a01; a02; a10; a11; a12; a20; a21; a22] -> Rabs (e (so3_euler_entries (euler_of x i))) <> / 10 ^ 6) /\
    exists p, (p < 4)%nat /\ forall j, (j < 4)%nat -> j <> p ->
      let m := rotation_of x i in let choice := [a00 m; a11 m; a22 m; a00 m + a11 m + a22 m] in nth j choice 0 < nth p choice 0) /\
  (forall i j, (i < n)%nat -> (j < n)%nat -> i <> j -> qdot (quat_of x i) (quat_of x j) <> 0 /\ Rabs (qdot (quat_of x i) (quat_of x j)) <> 1 - / 10 ^ 7).
