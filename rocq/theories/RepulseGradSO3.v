(** Model of the backward pass of the repulsion on SO(3): what [mean_total_energy.backward()] (repulsion.py:83) leaves in grid.grad when
    so3.uniform_grid calls repulse (so3.py:595-605: Euler angles, transform euler_to_quat, metric geodesic_distance with eps = 1e-7, columb_energy,
    normalisation by pi / 2).  torch's derivative rules, operation by operation, in reverse order; of a row of sorted distances the element's own is
    dropped (see RepulseGrad.v). *)
From Verif Require Import Prelude RMath Mat SO3 Repulse RepulseGrad.
Open Scope R_scope.

(** Models torch's backward of torch.abs (so3.py:652): the sign. *)
Definition abs_backward (x : R) : R := if Rlt_dec 0 x then 1 else if Rlt_dec x 0 then -1 else 0.
(** Models torch's backward of r * ((r > eps) | (r < -eps)) (so3.py:249-251): the mask is a constant. *)
Definition thr_backward (eps x : R) : R := if Rlt_dec eps x then 1 else if Rlt_dec x (- eps) then 1 else 0.
(** Models torch's backward of q / torch.linalg.norm(q) (so3.py:289) for the incoming gradient g. *)
Definition normalize_backward (u g : Q4) : Q4 :=
  let m := qnorm u in let s := qdot g u in
  mkQ (qw g / m - s / (m * m) * (qw u / m)) (qx g / m - s / (m * m) * (qx u / m)) (qy g / m - s / (m * m) * (qy u / m)) (qz g / m - s / (m * m) * (qz u / m)).
(** Models torch's backward of the indexed writes of so3.py:279-287, for the pivot i. *)
Definition pivot_backward (i : nat) (g : Q4) : M3 :=
  match i with
  | 0%nat => mkM3 (qx g) (qy g) (qz g) (qy g) (- qx g) (- qw g) (qz g) (qw g) (- qx g)
  | 1%nat => mkM3 (- qy g) (qx g) (qw g) (qx g) (qy g) (qz g) (- qw g) (qz g) (- qy g)
  | 2%nat => mkM3 (- qz g) (- qw g) (qx g) (qw g) (- qz g) (qy g) (qx g) (qy g) (qz g)
  | _ => mkM3 (qw g) (- qz g) (qy g) (qz g) (qw g) (- qx g) (- qy g) (qx g) (qw g)
  end.
(** Models torch's backward of the products of sines and cosines of so3.py:229-247: the derivatives of the nine entries with respect to alpha, beta, gamma. *)
Definition euler_d_alpha (g : V3) : M3 :=
  let ca := cos (vx g) in let cb := cos (vy g) in let cg := cos (vz g) in let sa := sin (vx g) in let sb := sin (vy g) in let sg := sin (vz g) in
  mkM3 (- sa * cb * cg - ca * sg) (sa * sg - cg * cb * ca) 0  (cg * ca - cb * sa * sg) (- cg * sa - cb * ca * sg) 0  (sa * sb) (sb * ca) 0.
Definition euler_d_beta (g : V3) : M3 :=
  let ca := cos (vx g) in let cb := cos (vy g) in let cg := cos (vz g) in let sa := sin (vx g) in let sb := sin (vy g) in let sg := sin (vz g) in
  mkM3 (- ca * sb * cg) (cg * sb * sa) (cg * cb)  (- sb * ca * sg) (sb * sa * sg) (sg * cb)  (- ca * cb) (cb * sa) (- sb).
Definition euler_d_gamma (g : V3) : M3 :=
  let ca := cos (vx g) in let cb := cos (vy g) in let cg := cos (vz g) in let sa := sin (vx g) in let sb := sin (vy g) in let sg := sin (vz g) in
  mkM3 (- ca * cb * sg - sa * cg) (- ca * cg + sg * cb * sa) (- sg * sb)  (- sg * sa + cb * ca * cg) (- sg * ca - cb * sa * cg) (cg * sb)  0 0 0.
(** Sum of the products of the entries. *)
Definition dot9 (a b : M3) : R :=
  a00 a * a00 b + a01 a * a01 b + a02 a * a02 b + a10 a * a10 b + a11 a * a11 b + a12 a * a12 b + a20 a * a20 b + a21 a * a21 b + a22 a * a22 b.
Definition map3_2 (f : R -> R -> R) (a b : M3) : M3 :=
  mkM3 (f (a00 a) (a00 b)) (f (a01 a) (a01 b)) (f (a02 a) (a02 b)) (f (a10 a) (a10 b)) (f (a11 a) (a11 b)) (f (a12 a) (a12 b))
       (f (a20 a) (a20 b)) (f (a21 a) (a21 b)) (f (a22 a) (a22 b)).

(** Models so3.py:204-289 backwards: from the gradient at the quaternion of an element to the gradient at its Euler angles. *)
Definition so3_angles_backward (g : V3) (eps : R) (q : Q4) : list R :=
  let m := so3_euler_to_matrix g eps in
  let i := argmax4 (a00 m) (a11 m) (a22 m) (a00 m + a11 m + a22 m) in
  let dm := pivot_backward i (normalize_backward (so3_m2q_pivot i m) q) in
  let de := map3_2 (fun e d => thr_backward eps e * d) (so3_euler_entries g) dm in
  [dot9 de (euler_d_alpha g); dot9 de (euler_d_beta g); dot9 de (euler_d_gamma g)].

Section Backward.
  Context (k : nat) (x : rows).
  Let n := length x.
  Let angles (i : nat) : V3 := mkV3 (nth 0 (nth i x []) 0) (nth 1 (nth i x []) 0) (nth 2 (nth i x []) 0).
  Let quat (i : nat) : Q4 := so3_euler_to_quat (angles i) (/ 10 ^ 6).
  Let eps : R := / 10 ^ 7.

  (** Models so3.py:652: (q1 * q2).sum(-1). *)
  Definition so3_inner (i j : nat) : R := qdot (quat i) (quat j).
  (** Models repulsion.py:77-83 and so3.py:652, backwards: mean over n (n - 1) entries, columb_energy, division by pi / 2, acos, clamp, abs. *)
  Definition so3_inner_grad (i j : nat) : R :=
    let a := Rabs (so3_inner i j) in
    let c := clamp a (-1 + eps) (1 - eps) in
    / INR (n * (n - 1)) * columb_backward k (acos c / (PI / 2)) / (PI / 2) * acos_backward c * clamp_backward a (-1 + eps) (1 - eps) * abs_backward (so3_inner i j).
  (** Models so3.py:652 and repulsion.py:77, backwards: element i is a factor of row i and of column i. *)
  Definition so3_quat_grad (i : nat) : Q4 :=
    let js := filter (fun j => negb (Nat.eqb j i)) (seq 0 n) in
    let sum (coord : Q4 -> R) := sumR (map (fun j => (so3_inner_grad i j + so3_inner_grad j i) * coord (quat j)) js) in
    mkQ (sum qw) (sum qx) (sum qy) (sum qz).
  (** Models repulsion.py:83, so3.py:595-605: grid.grad. *)
  Definition so3_backward : rows := map (fun i => so3_angles_backward (angles i) (/ 10 ^ 6) (so3_quat_grad i)) (seq 0 n).
End Backward.
