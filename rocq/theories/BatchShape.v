(** Batches of rotations with other than one batch axis: shapes, and values for two batch axes.

    so3.py documents its conversions for tensors of shape (..., 3, 3), (..., 4), (..., 3), and
    random_euler for a tuple of sizes. SO3.v models one element and Prop_SO3.v one batch axis;
    here the indexing expressions of matrix_to_quat and matrix_to_euler are followed for
    any number of batch axes. [b] is the batch shape. *)
From Verif Require Import Prelude RMath Mat SO3.
Open Scope R_scope.
Open Scope nat_scope.

(** ** torch's indexing, on shapes *)

(** torch.diagonal(x, 0, dim1=1, dim2=2): axes 1 and 2 are removed, the diagonal comes last. *)
Definition diagonal12 (s : list nat) : result (list nat) :=
  match s with
  | m :: n :: k :: r => Ok (m :: r ++ [Nat.min n k])
  | _ => Err IndexError
  end.

(** x[:, i, i'] with two integers: bounds are checked. *)
(** Models so3.py:319-346: the indexing r[:, i, i'] of a batch of matrices. *)
Definition index12 (s : list nat) (i i' : nat) : result (list nat) :=
  match s with
  | m :: n :: k :: r => if (Nat.ltb i n && Nat.ltb i' k)%bool then Ok (m :: r) else Err IndexError
  | _ => Err IndexError
  end.
(** x[:, i]. *)
(** Models so3.py:321-346: the indexing g[:, i] of a batch. *)
Definition index1 (s : list nat) (i : nat) : result (list nat) :=
  match s with
  | m :: n :: r => if Nat.ltb i n then Ok (m :: r) else Err IndexError
  | _ => Err IndexError
  end.

(** Models torch.Size comparison, as used by the boolean-mask indexing of so3.py:332-353. *)
Fixpoint shape_eqb (a b : list nat) : bool :=
  match a, b with
  | [], [] => true
  | x :: a, y :: b => Nat.eqb x y && shape_eqb a b
  | _, _ => false
  end.

(** x[mask, j1, ..., jk] with a boolean tensor of shape [ms] and integer or index-tensor arguments whose
    largest value may be [bounds]: the mask must match the first axes, the others must exist and be
    large enough. What is left does not matter here (all axes are consumed). *)
(** Models so3.py:332-353: r[mask] with a boolean mask. *)
Definition mask_index (s ms : list nat) (bounds : list nat) : result unit :=
  if (Nat.leb (length ms + length bounds) (length s) &&
      shape_eqb (firstn (length ms) s) ms &&
      forallb (fun p => Nat.ltb (fst p) (snd p)) (combine bounds (skipn (length ms) s)))%bool
  then Ok tt else Err IndexError.

(** x[...] = y: y is broadcast to the shape of x (equal ranks; the only case that arises). *)
(** Models so3.py:332-353: the masked assignments g[mask, i] = value (torch broadcasting). *)
Fixpoint broadcasts (src dst : list nat) : bool :=
  match src, dst with
  | [], [] => true
  | a :: src, b :: dst => ((Nat.eqb a b || Nat.eqb a 1) && broadcasts src dst)%bool
  | _, _ => false
  end.
Definition assign (src dst : list nat) : result unit :=
  if broadcasts src dst then Ok tt else Err RuntimeError.

(** ** The functions, on shapes *)

(** so3.py:254-289 [matrix_to_quat] of a tensor of shape b ++ [3; 3]. *)
Definition matrix_to_quat_shape (b : list nat) : result (list nat) :=
  let r := b ++ [3; 3] in
  let q := b ++ [4] in
  d0 <- diagonal12 r ;;                                   (* line 266 *)
  let ms := removelast d0 in                              (* the shape of i, c_m, nc_m *)
  let k := last d0 0 in
  let decision := ms ++ [k + 1] in                        (* line 267 *)
  _ <- mask_index decision ms [3] ;;                      (* line 279, right-hand side *)
  _ <- mask_index r ms [2; 2] ;;
  _ <- mask_index q ms [3] ;;                             (* line 279, left-hand side *)
  _ <- mask_index q ms [0] ;;                             (* lines 282-287 *)
  Ok q.

(** so3.py:292-362 [matrix_to_euler] of a tensor of shape b ++ [3; 3]. *)
Definition matrix_to_euler_shape (b : list nat) : result (list nat) :=
  let r := b ++ [3; 3] in
  let g := b ++ [3] in
  mt22 <- index12 r 2 2 ;;                                (* line 319 *)
  g1 <- index1 g 1 ;;                                     (* line 321 *)
  _ <- assign mt22 g1 ;;
  let ms := g1 in                                         (* lines 324-326: safe *)
  _ <- mask_index r ms [0; 2] ;;                          (* line 332 *)
  _ <- mask_index g ms [2] ;;
  Ok g.

(** so3.py:204-215 [euler_to_quat]: euler_to_matrix takes any batch shape. *)
Definition euler_to_quat_shape (b : list nat) : result (list nat) := matrix_to_quat_shape b.
(** so3.py:399-409 [quat_to_euler]: quat_to_matrix takes any batch shape. *)
Definition quat_to_euler_shape (b : list nat) : result (list nat) := matrix_to_euler_shape b.

(** A size argument: an int or a tuple. *)
(** Models so3.py:498-514, o3.py:46-60: a size given as an int or a tuple. *)
Inductive size_arg := SInt (n : nat) | STuple (l : list nat).
Definition as_tuple (s : size_arg) : list nat := match s with SInt n => [n] | STuple l => l end.

(** so3.py:498-514 [random_quat], 517-528 [random_matrix], 531-542 [random_euler]. *)
Definition random_quat_shape (s : size_arg) : result (list nat) := Ok (as_tuple s ++ [4]).
Definition random_matrix_shape (s : size_arg) : result (list nat) := Ok (as_tuple s ++ [3; 3]).
Definition random_euler_shape (s : size_arg) : result (list nat) := quat_to_euler_shape (as_tuple s).

(** o3.py:46-60 [random_grid]: torch.rand(size, 1) raises TypeError for a tuple. *)
Definition o3_random_grid_shape (s : size_arg) : result (list nat) :=
  match s with SInt n => Ok [n; 10] | STuple _ => Err TypeError end.

(** so2.py:9-29 [angle_to_matrix] of a tensor of shape b ++ [1]: torch.Tensor.flatten(-2) needs two axes. *)
Definition angle_to_matrix_shape (b : list nat) : result (list nat) :=
  match b with [] => Err IndexError | _ => Ok (b ++ [2; 2]) end.

(** ** Values for a batch of shape (m, 3) *)
Open Scope R_scope.

(** Entry (i, j) of a 3x3 matrix. *)
(** Models so3.py:275-287: reading r[mask, i, j]. *)
Definition entry3 (A : M3) (i j : nat) : R :=
  match i, j with
  | 0, 0 => a00 A | 0, 1 => a01 A | 0, _ => a02 A
  | 1, 0 => a10 A | 1, 1 => a11 A | 1, _ => a12 A
  | _, 0 => a20 A | _, 1 => a21 A | _, _ => a22 A
  end%nat.

(** so3.py:277-287 with the "trace" read from the decision tensor. *)
Definition pivot_with (i : nat) (t : R) (r : M3) : Q4 :=
  match i with
  | 0%nat => mkQ (a21 r - a12 r) (1 - t + 2 * a00 r) (a10 r + a01 r) (a20 r + a02 r)
  | 1%nat => mkQ (a02 r - a20 r) (a01 r + a10 r) (1 - t + 2 * a11 r) (a21 r + a12 r)
  | 2%nat => mkQ (a10 r - a01 r) (a02 r + a20 r) (a12 r + a21 r) (1 - t + 2 * a22 r)
  | _ => mkQ (1 + t) (a21 r - a12 r) (a02 r - a20 r) (a10 r - a01 r)
  end.

(** so3.py:254-289 [matrix_to_quat] of a (m,3,3,3) tensor; [r i j] is matrix (i, j) of the batch.
    torch.diagonal takes axes 1 and 2: decision[i, c, k] = r[i, k, k, c]. *)
Definition matrix_to_quat_m3 (r : nat -> nat -> M3) (i j : nat) : Q4 :=
  let d k := entry3 (r i k) k j in
  let t := d 0%nat + d 1%nat + d 2%nat in
  qnormalize (pivot_with (argmax4 (d 0%nat) (d 1%nat) (d 2%nat) t) t (r i j)).

(** so3.py:292-362 [matrix_to_euler] of a (m,3,3,3) tensor. [mem i j c] is what the uninitialised
    tensor of line 309 holds. Line 319 clamps row 2 of the matrices (i, 2), line 321 writes the
    three angles of element (i, 1), and the masks of lines 324-326 are indexed by (i, c). *)
Definition matrix_to_euler_m3 (mem : nat -> nat -> nat -> R) (r : nat -> nat -> M3) (eps : R)
    (i j : nat) : V3 :=
  let mt a := mul3 (mul3 so3_m2e_c (r i a)) (tr3 so3_m2e_c) in
  let e a p q := let x := entry3 (mt a) p q in
                 if (Nat.eqb a 2 && Nat.eqb p 2)%bool then clamp x (-1) 1 else x in
  let beta c := acos (e 2%nat 2%nat c) in                             (* g[i, 1, c] after line 321 *)
  let safe1 c := if Rle_dec eps (Rabs (beta c)) then true else false in
  let safe2 c := if Rle_dec eps (Rabs (beta c - PI)) then true else false in
  let safe c := (safe1 c && safe2 c)%bool in
  let g0 a c := if Nat.eqb a 1 then beta c else mem i a c in          (* the tensor g, element (i, a) *)
  let alpha a := if safe a then atan2 (e a 2%nat 0%nat) (e a 2%nat 1%nat) else g0 a 0%nat in
  let alpha a := if safe1 a then alpha a else atan2 (e a 1%nat 0%nat - e a 0%nat 1%nat) (e a 0%nat 0%nat + e a 1%nat 1%nat) in
  let alpha a := if safe2 a then alpha a else - atan2 (e a 1%nat 0%nat + e a 0%nat 1%nat) (e a 0%nat 0%nat - e a 1%nat 1%nat) in
  let gamma a := if safe a then atan2 (e a 0%nat 2%nat) (- e a 1%nat 2%nat) else 0 in
  (* line 346 reads the three components of element (i, 1) *)
  let row1 c := match c with 0%nat => alpha 1%nat | 1%nat => g0 1%nat 1%nat | _ => gamma 1%nat end in
  let adjust c := ((if Rlt_dec (row1 c) 0 then true else if Rlt_dec PI (row1 c) then true else false) && safe c)%bool in
  mkV3 (wrap_pi (if adjust j then alpha j - PI else alpha j))
       (wrap_pi (if adjust j then g0 j 1%nat * -1 else g0 j 1%nat))
       (wrap_pi (if adjust j then gamma j + PI else gamma j)).
