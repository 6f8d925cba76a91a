(** Model of gconv/geometry/groups/so3.py (element level; grids are lists of elements). *)
From Coq Require Import String Ascii.
From Verif Require Import Prelude RMath Mat Interp.
Open Scope R_scope.

(** so3.py:58-86, 89-117, 120-148 [matrix_x], [matrix_y], [matrix_z]. *)
Definition so3_matrix_x (t : R) : M3 :=
  mkM3 1 0 0  0 (cos t) (- sin t)  0 (sin t) (cos t).
Definition so3_matrix_y (t : R) : M3 :=
  mkM3 (cos t) 0 (sin t)  0 1 0  (- sin t) 0 (cos t).
Definition so3_matrix_z (t : R) : M3 :=
  mkM3 (cos t) (- sin t) 0  (sin t) (cos t) 0  0 0 1.

(** so3.py:151-161 [quat_inverse]. *)
Definition so3_quat_inverse (q : Q4) : Q4 :=
  mkQ (qw q * 1) (qx q * -1) (qy q * -1) (qz q * -1).

(** so3.py:164-174 [matrix_inverse]. *)
Definition so3_matrix_inverse (r : M3) : M3 := tr3 r.

(** Right-hand side of a Python item assignment: a tensor, or a tuple of two tensors (what the
    stray commas of so3.py:197-199 build). torch raises TypeError for a tuple. *)
Inductive pyval := VTensor (x : R) | VTuple (x y : R).
Definition setitem (v : pyval) : result R :=
  match v with VTensor x => Ok x | VTuple _ _ => Err TypeError end.

(** so3.py:177-201 [left_apply_quat]; torch.cross of the vector parts. *)
Definition so3_left_apply_quat (q1 q2 : Q4) : result Q4 :=
  let cross0 := qy q1 * qz q2 - qz q1 * qy q2 in
  let cross1 := qz q1 * qx q2 - qx q1 * qz q2 in
  let cross2 := qx q1 * qy q2 - qy q1 * qx q2 in
  w <- setitem (VTensor (qw q1 * qw q2 - qx q1 * qx q2 - qy q1 * qy q2 - qz q1 * qz q2)) ;;
  x <- setitem (VTuple (qw q1 * qx q2 + qw q2) (qx q1 + cross0)) ;;
  y <- setitem (VTuple (qw q1 * qy q2 + qw q2) (qy q1 + cross1)) ;;
  z <- setitem (VTuple (qw q1 * qz q2 + qw q2) (qz q1 + cross2)) ;;
  Ok (mkQ w x y z).

(** so3.py:249-251: r * ((r > eps) | (r < -eps)). *)
Definition thr (eps x : R) : R :=
  x * (if Rlt_dec eps x then 1 else if Rlt_dec x (- eps) then 1 else 0).
Definition map3 (f : R -> R) (A : M3) : M3 :=
  mkM3 (f (a00 A)) (f (a01 A)) (f (a02 A)) (f (a10 A)) (f (a11 A)) (f (a12 A))
       (f (a20 A)) (f (a21 A)) (f (a22 A)).

(** so3.py:229-247, before thresholding; angles (alpha, beta, gamma) as a vector. *)
Definition so3_euler_entries (g : V3) : M3 :=
  let ca := cos (vx g) in let cb := cos (vy g) in let cg := cos (vz g) in
  let sa := sin (vx g) in let sb := sin (vy g) in let sg := sin (vz g) in
  mkM3 (ca * cb * cg - sa * sg) (- ca * sg - cg * cb * sa) (cg * sb)
       (cg * sa + cb * ca * sg) (cg * ca - cb * sa * sg) (sg * sb)
       (- ca * sb) (sb * sa) cb.

(** so3.py:218-251 [euler_to_matrix]. *)
Definition so3_euler_to_matrix (g : V3) (eps : R) : M3 := map3 (thr eps) (so3_euler_entries g).

(** torch.argmax over four values: index of the first maximum. *)
Definition argmax4 (d0 d1 d2 d3 : R) : nat :=
  if Rle_dec d1 d0 then
    if Rle_dec d2 d0 then if Rle_dec d3 d0 then 0 else 3
    else if Rle_dec d3 d2 then 2 else 3
  else
    if Rle_dec d2 d1 then if Rle_dec d3 d1 then 1 else 3
    else if Rle_dec d3 d2 then 2 else 3.

(** so3.py:264-287: the unnormalised quaternion for pivot i. *)
Definition so3_m2q_pivot (i : nat) (r : M3) : Q4 :=
  let t := a00 r + a11 r + a22 r in
  match i with
  | 0%nat => (* j = 1, k = 2 *)
    mkQ (a21 r - a12 r) (1 - t + 2 * a00 r) (a10 r + a01 r) (a20 r + a02 r)
  | 1%nat => (* j = 2, k = 0 *)
    mkQ (a02 r - a20 r) (a01 r + a10 r) (1 - t + 2 * a11 r) (a21 r + a12 r)
  | 2%nat => (* j = 0, k = 1 *)
    mkQ (a10 r - a01 r) (a02 r + a20 r) (a12 r + a21 r) (1 - t + 2 * a22 r)
  | _ => mkQ (1 + t) (a21 r - a12 r) (a02 r - a20 r) (a10 r - a01 r)
  end.

(** so3.py:289: division by the norm. *)
Definition qnormalize (q : Q4) : Q4 :=
  mkQ (qw q / qnorm q) (qx q / qnorm q) (qy q / qnorm q) (qz q / qnorm q).

(** so3.py:254-289 [matrix_to_quat]. *)
Definition so3_matrix_to_quat (r : M3) : Q4 :=
  qnormalize (so3_m2q_pivot (argmax4 (a00 r) (a11 r) (a22 r) (a00 r + a11 r + a22 r)) r).

(** so3.py:204-215 [euler_to_quat]. *)
Definition so3_euler_to_quat (g : V3) (eps : R) : Q4 := so3_matrix_to_quat (so3_euler_to_matrix g eps).

(** so3.py:352-353: wrap into [-pi, pi). *)
Definition wrap_pi (x : R) : R :=
  let x := if Rlt_dec x (- PI) then x + 2 * PI else x in
  if Rle_dec PI x then x - 2 * PI else x.

(** so3.py:312-326: mt = c r c^T with the (2,2) entry clamped, and the safety tests. *)
Definition so3_m2e_c : M3 := mkM3 0 1 0 (-1) 0 0 0 0 1.
Definition so3_m2e_mt (r : M3) : M3 :=
  let m := mul3 (mul3 so3_m2e_c r) (tr3 so3_m2e_c) in
  mkM3 (a00 m) (a01 m) (a02 m) (a10 m) (a11 m) (a12 m) (a20 m) (a21 m) (clamp (a22 m) (-1) 1).
Definition so3_m2e_safe1 (r : M3) (eps : R) : bool :=
  if Rle_dec eps (Rabs (acos (a22 (so3_m2e_mt r)))) then true else false.
Definition so3_m2e_safe2 (r : M3) (eps : R) : bool :=
  if Rle_dec eps (Rabs (acos (a22 (so3_m2e_mt r)) - PI)) then true else false.
Definition so3_m2e_safe (r : M3) (eps : R) : bool := so3_m2e_safe1 r eps && so3_m2e_safe2 r eps.

(** so3.py:292-362 [matrix_to_euler], one element. The uninitialised g[.., 0] of lines 309/332-343
    is always written: safe, or not safe1, or not safe2. *)
Definition so3_matrix_to_euler (r : M3) (eps : R) : V3 :=
  let mt := so3_m2e_mt r in
  let g1 := acos (a22 mt) in
  let safe1 := so3_m2e_safe1 r eps in
  let safe2 := so3_m2e_safe2 r eps in
  let safe := so3_m2e_safe r eps in
  let g2 := if safe then atan2 (a02 mt) (- a12 mt) else 0 in
  let g0 := if safe then atan2 (a20 mt) (a21 mt) else 0 in
  let g0 := if safe1 then g0 else atan2 (a10 mt - a01 mt) (a00 mt + a11 mt) in
  let g0 := if safe2 then g0 else - atan2 (a10 mt + a01 mt) (a00 mt - a11 mt) in
  let adjust := (if Rlt_dec g1 0 then true else if Rlt_dec PI g1 then true else false) && safe in
  let g0 := if adjust then g0 - PI else g0 in
  let g1 := if adjust then g1 * -1 else g1 in
  let g2 := if adjust then g2 + PI else g2 in
  mkV3 (wrap_pi g0) (wrap_pi g1) (wrap_pi g2).

(** so3.py:292-362 on a batch: the angles and whether the gimbal warning is issued. *)
Definition so3_matrix_to_euler_batch (rs : list M3) (eps : R) (no_warn : bool) : list V3 * bool :=
  (map (fun r => so3_matrix_to_euler r eps) rs,
   negb no_warn && negb (existsb (fun r => so3_m2e_safe r eps) rs)).

(** so3.py:365-396 [quat_to_matrix]. *)
Definition so3_quat_to_matrix (q : Q4) : M3 :=
  let '(mkQ w x y z) := q in
  let x2 := x * x in let y2 := y * y in let z2 := z * z in let w2 := w * w in
  mkM3 (x2 - y2 - z2 + w2) (2 * (x * y - z * w)) (2 * (x * z + y * w))
       (2 * (x * y + z * w)) (- x2 + y2 - z2 + w2) (2 * (y * z - x * w))
       (2 * (x * z - y * w)) (2 * (y * z + x * w)) (- x2 - y2 + z2 + w2).

(** so3.py:399-409 [quat_to_euler] (default eps 1e-5 of matrix_to_euler). *)
Definition so3_quat_to_euler (q : Q4) : V3 := so3_matrix_to_euler (so3_quat_to_matrix q) (/ 10 ^ 5).

(** so3.py:412-424 [left_apply_to_R3]. *)
Definition grid3 := list (list (list V3)).
Definition so3_left_apply_to_R3 (Rs : list M3) (grid : grid3) : list grid3 :=
  map (fun r => map (map (map (app3 r))) grid) Rs.

(** so3.py:427-438 [left_apply_matrix], 441-452 [left_apply_to_matrix]. *)
Definition so3_left_apply_matrix (r1 r2 : M3) : M3 := mul3 r1 r2.
Definition so3_left_apply_to_matrix (R1 R2 : list M3) : list (list M3) :=
  map (fun r1 => map (fun r2 => mul3 r1 r2) R2) R1.

(** so3.py:455-495 [so3_log]. *)
Definition so3_log (r : M3) (eps : R) : V3 :=
  let theta := acos (clamp (((a00 r + a11 r + a22 r) - 1) / 2) (-1 + eps) (1 - eps)) in
  let f := / 2 * theta / sin theta in
  let c1 := f * (a21 r - a12 r) in
  let c2 := f * (a02 r - a20 r) in
  let c3 := f * (a10 r - a01 r) in
  let m0 := if Req_EM_T theta 0 then true else false in
  let c1 := if m0 then / 2 * a21 r - a12 r else c1 in
  let c2 := if m0 then / 2 * a02 r - a20 r else c2 in
  let c3 := if m0 then / 2 * a10 r - a01 r else c3 in
  let mp := if Req_EM_T theta PI then true else false in
  mkV3 (if mp then PI else c1) (if mp then 0 else c2) (if mp then 0 else c3).

(** so3.py:498-514 [random_quat]: the draw divided by its norm. *)
Definition so3_random_quat (draw : Q4) : Q4 := qnormalize draw.
(** so3.py:517-528, 531-542. *)
Definition so3_random_matrix (draw : Q4) : M3 := so3_quat_to_matrix (so3_random_quat draw).
Definition so3_random_euler (draw : Q4) : V3 := so3_quat_to_euler (so3_random_quat draw).

(** so3.py:613-634 [quaternion_log]. 1/0 = inf is replaced by 0 (lines 628-629). *)
Definition so3_quaternion_log (q : Q4) : Q4 :=
  let vn := sqrt (qx q * qx q + qy q * qy q + qz q * qz q) in
  let inv := if Req_EM_T vn 0 then 0 else 1 / vn in
  let c := inv * acos (qw q / qnorm q) in
  mkQ (ln (qnorm q)) (c * qx q) (c * qy q) (c * qz q).

(** so3.py:637-652 [geodesic_distance]. *)
Definition so3_geodesic_distance (p q : Q4) (eps : R) : R :=
  acos (clamp (Rabs (qdot p q)) (-1 + eps) (1 - eps)).
Definition so3_eps : R := / 10 ^ 7.

(** torch.sort of one row of reals. *)
Fixpoint insertR (x : R) (l : list R) : list R :=
  match l with [] => [x] | y :: r => if Rle_dec x y then x :: l else y :: insertR x r end.
Definition sortR (l : list R) : list R := fold_right insertR [] l.

(** so3.py:655-670 [nearest_neighbour_distance] for quaternions (N,4): column 1 of the sorted
    distance matrix; indexing column 1 of an (N,N) matrix with N < 2 raises IndexError. *)
Definition so3_nearest_neighbour_distance (q : list Q4) : result (list R) :=
  if Nat.ltb (length q) 2 then Err IndexError
  else mapM (fun a => of_option IndexError
         (nth_error (sortR (map (fun b => so3_geodesic_distance a b so3_eps) q)) 1)) q.
(** The same for a (N,3,3) matrix grid (so3.py:667-668). *)
Definition so3_nearest_neighbour_distance_matrix (r : list M3) : result (list R) :=
  so3_nearest_neighbour_distance (map so3_matrix_to_quat r).

(** so3.py:673-716 [grid_sample] for quaternion inputs, and for matrix inputs. *)
Definition so3_grid_sample (T : torch_env) (mode : string) (width : R) (S : nat)
    (grid : list Q4) (signal : mat) (signal_grid : list Q4) : result mat :=
  if String.eqb mode "nearest" then
    interpolate_NN T (fun a b => so3_geodesic_distance a b so3_eps) grid signal_grid signal
  else if String.eqb mode "rbf" then
    interpolate_RBF T (fun a b => so3_geodesic_distance a b so3_eps) RBF_gauss width S
      grid signal_grid signal
  else Err ValueError.
Definition so3_grid_sample_matrix (T : torch_env) (mode : string) (width : R) (S : nat)
    (grid : list M3) (signal : mat) (signal_grid : list M3) : result mat :=
  so3_grid_sample T mode width S (map so3_matrix_to_quat grid) signal
    (map so3_matrix_to_quat signal_grid).

(** so3.py:905-944 [cyclic_x], [cyclic_y], [cyclic_z]. *)
Definition so3_cyclic_of (m : R -> M3) (n : nat) : list Q4 :=
  map (fun t => so3_matrix_to_quat (m t)) (removelast (linspace 0 (2 * PI) (n + 1))).
Definition so3_cyclic_x := so3_cyclic_of so3_matrix_x.
Definition so3_cyclic_y := so3_cyclic_of so3_matrix_y.
Definition so3_cyclic_z := so3_cyclic_of so3_matrix_z.

(** Python str.lower() on ASCII letters. *)
(** Models so3.py:947-966: axis.lower(). *)
Definition lower_ascii (c : ascii) : ascii :=
  let n := nat_of_ascii c in
  if (Nat.leb 65 n && Nat.leb n 90)%bool then ascii_of_nat (n + 32) else c.
Fixpoint lower (s : string) : string :=
  match s with EmptyString => EmptyString | String c r => String (lower_ascii c) (lower r) end.

(** so3.py:947-966 [cyclic]. *)
Definition so3_cyclic (n : nat) (axis : string) : result (list Q4) :=
  if String.eqb (lower axis) "x" then Ok (so3_cyclic_x n)
  else if String.eqb (lower axis) "y" then Ok (so3_cyclic_y n)
  else if String.eqb (lower axis) "z" then Ok (so3_cyclic_z n)
  else Err ValueError.
