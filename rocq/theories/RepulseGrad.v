(** Model of the backward pass of the repulsion on the sphere: what [mean_total_energy.backward()] (repulsion.py:83) leaves in grid.grad when
    s2.uniform_grid_s2 calls repulse (s2.py:131-141: metric geodesic_distance_s2 with eps = 1e-7, transform spherical_to_euclid,
    columb_energy, normalisation by pi).  torch's derivative rules, operation by operation, in reverse order.

    Simplification: of the sorted distances of a row the one that is dropped is the point's own.  It is a minimum of the row; another entry ties
    with it only if its inner product is at least 1 - eps, and then (unless it equals 1 - eps) both have gradient zero. *)
From Verif Require Import Prelude RMath Mat Repulse S2.
Open Scope R_scope.

(** Models torch's backward of torch.clamp (s2.py:69): the gradient passes where the value is within the bounds, these included. *)
Definition clamp_backward (x lo hi : R) : R := if Rle_dec lo x then (if Rle_dec x hi then 1 else 0) else 0.
(** Models torch's backward of torch.acos (s2.py:69). *)
Definition acos_backward (x : R) : R := - / sqrt (1 - x * x).
(** Models torch's backward of d ** (-k) (repulsion.py:27): -k * d ** (-k - 1). *)
Definition columb_backward (k : nat) (d : R) : R := - INR k * / (d ^ S k).

Section Backward.
  Context (k : nat) (x : rows).
  Let n := length x.
  Let point (i : nat) : V3 := s2_spherical_to_euclid (mkV2 (nth 0 (nth i x []) 0) (nth 1 (nth i x []) 0)).
  Let eps : R := / 10 ^ 7.

  (** Models s2.py:69: (r1 * r2).sum(-1). *)
  Definition s2_inner (i j : nat) : R := vx (point i) * vx (point j) + vy (point i) * vy (point j) + vz (point i) * vz (point j).
  (** Models repulsion.py:77-83 and s2.py:69, backwards: mean over n (n - 1) entries, columb_energy, division by pi, acos, clamp: the gradient
      with respect to the inner product of points i and j. *)
  Definition s2_inner_grad (i j : nat) : R :=
    let c := clamp (s2_inner i j) (-1 + eps) (1 - eps) in
    / INR (n * (n - 1)) * columb_backward k (acos c / PI) / PI * acos_backward c * clamp_backward (s2_inner i j) (-1 + eps) (1 - eps).
  (** Models s2.py:69 and repulsion.py:77, backwards: point i is a factor of row i (as r1) and of column i (as r2) of the matrix of inner
      products, whose diagonal is dropped. *)
  Definition s2_point_grad (i : nat) : V3 :=
    let js := filter (fun j => negb (Nat.eqb j i)) (seq 0 n) in
    let sum (coord : V3 -> R) := sumR (map (fun j => (s2_inner_grad i j + s2_inner_grad j i) * coord (point j)) js) in
    mkV3 (sum vx) (sum vy) (sum vz).
  (** Models s2.py:12-32 spherical_to_euclid, backwards: (sin b cos g, sin b sin g, cos b). *)
  Definition s2_row_grad (i : nat) : list R :=
    let b := nth 0 (nth i x []) 0 in let g := nth 1 (nth i x []) 0 in
    let d := s2_point_grad i in
    [vx d * (cos b * cos g) + vy d * (cos b * sin g) + vz d * - sin b;
     vx d * (sin b * - sin g) + vy d * (sin b * cos g)].
  (** Models repulsion.py:83, s2.py:131-141: grid.grad. *)
  Definition s2_backward : rows := map s2_row_grad (seq 0 n).
End Backward.
