(** Single precision: the guards and the default width of the SO(2) distances as torch evaluates them on float32 tensors.  Arithmetic is Flocq's
    binary32 (round to nearest even, one NaN); Python floats are binary64.  The elementary functions are those of the platform: a record of
    unknown functions, about which the theorems assume only their exact values and signs. *)
From Coq Require Import ZArith Bool List.
From Flocq Require Import Core IEEE754.BinarySingleNaN.
Import ListNotations.
Open Scope Z_scope.

Definition f32 := binary_float 24 128.
Definition f64 := binary_float 53 1024.
Lemma p32 : Prec_gt_0 24. Proof. reflexivity. Qed.
Lemma p64 : Prec_gt_0 53. Proof. reflexivity. Qed.
Lemma e32 : Prec_lt_emax 24 128. Proof. reflexivity. Qed.
Lemma e64 : Prec_lt_emax 53 1024. Proof. reflexivity. Qed.

Definition add32 : f32 -> f32 -> f32 := Bplus (prec_gt_0_ := p32) (prec_lt_emax_ := e32) mode_NE.
Definition mul32 : f32 -> f32 -> f32 := Bmult (prec_gt_0_ := p32) (prec_lt_emax_ := e32) mode_NE.
Definition div32 : f32 -> f32 -> f32 := Bdiv (prec_gt_0_ := p32) (prec_lt_emax_ := e32) mode_NE.
Definition opp32 : f32 -> f32 := Bopp.
Definition abs32 : f32 -> f32 := Babs.
Definition zero32 : f32 := B754_zero false.
Definition nan32 : f32 := B754_nan.
(** Integers as floats, and the conversion of a Python float to a float32 scalar. *)
Definition of_Z32 (z : Z) : f32 := binary_normalize 24 128 p32 e32 mode_NE z 0 false.
Definition of_Z64 (z : Z) : f64 := binary_normalize 53 1024 p64 e64 mode_NE z 0 false.
Definition to32 (x : f64) : f32 :=
  match x with
  | B754_zero s => B754_zero s
  | B754_infinity s => B754_infinity s
  | B754_nan => B754_nan
  | B754_finite s m e _ => binary_normalize 24 128 p32 e32 mode_NE (cond_Zopp s (Zpos m)) e s
  end.
Definition one32 : f32 := of_Z32 1.
(** The Python literal num / den (den exactly representable): the nearest binary64 number. *)
Definition literal (num den : Z) : f64 := Bdiv (prec_gt_0_ := p64) (prec_lt_emax_ := e64) mode_NE (of_Z64 num) (of_Z64 den).
(** so2.py:179: eps = 1e-12; so2.py:164, so3.py:639, s2.py:68: eps = 1e-7. *)
Definition eps12 : f64 := literal 1 1000000000000.
Definition eps7 : f64 := literal 1 10000000.

(** torch.clamp on float32 with Python scalars: bounds are converted to float32; NaN stays NaN. *)
Definition max32 (x y : f32) : f32 := if is_nan x || is_nan y then nan32 else if Bltb x y then y else x.
Definition min32 (x y : f32) : f32 := if is_nan x || is_nan y then nan32 else if Bltb y x then y else x.
Definition clamp32 (x : f32) (lo hi : f64) : f32 := min32 (max32 x (to32 lo)) (to32 hi).
(** so2.py:176, so3.py:652, s2.py:69: [torch.clamp(x, -1 + eps, 1 - eps)]; the bounds are computed in binary64. *)
Definition guarded (x : f32) (eps : f64) : f32 :=
  clamp32 x (Bplus (prec_gt_0_ := p64) (prec_lt_emax_ := e64) mode_NE (of_Z64 (-1)) eps) (Bminus (prec_gt_0_ := p64) (prec_lt_emax_ := e64) mode_NE (of_Z64 1) eps).

(** The platform's elementary functions on float32. *)
Record libm := mkLibm { cos32 : f32 -> f32; sin32 : f32 -> f32; acos32 : f32 -> f32; exp32 : f32 -> f32 }.

Section SO2.
  Context (L : libm).
  (** so2.py:32-47 angle_to_euclid, one angle. *)
  Definition euclid32 (a : f32) : f32 * f32 := (cos32 L a, sin32 L a).
  (** so2.py:164-176 geodesic_distance_euclid: the product summed over two coordinates. *)
  Definition dot32 (p q : f32 * f32) : f32 := add32 (mul32 (fst p) (fst q)) (mul32 (snd p) (snd q)).
  (** so2.py:179-191 geodesic_distance. *)
  Definition dist32 (a b : f32) : f32 := acos32 L (guarded (dot32 (euclid32 a) (euclid32 b)) eps12).
  (** so2.py:233-240 nearest_neighbour_distance: row minimum of the distance matrix (self included). *)
  Definition row_min32 (a : f32) (grid : list f32) : f32 :=
    match map (dist32 a) grid with [] => nan32 | d :: r => fold_left min32 r d end.
  Definition nearest32 (grid : list f32) : list f32 := map (fun a => row_min32 a grid) grid.
  (** kernel_se2.py:111-112, 184-185: 0.8 * nearest_neighbour_distance(grid_H).mean(); the sum is taken from the left (torch's order is
      unspecified; it makes no difference to sums of zeros). *)
  Definition mean32 (l : list f32) : f32 := div32 (fold_left add32 l zero32) (of_Z32 (Z.of_nat (length l))).
  Definition default_width32 (grid : list f32) : f32 := mul32 (to32 (literal 8 10)) (mean32 (nearest32 grid)).
  (** interpolation.py:6-19 RBF_gauss: exp(-(x^2 / (width^2 / 0.69314718))), width a float32 scalar tensor. *)
  Definition gauss32 (x w : f32) : f32 := exp32 L (opp32 (div32 (mul32 x x) (div32 (mul32 w w) (to32 (literal 69314718 100000000))))).
  (** interpolation.py:49: the matrix that is handed to torch.linalg.solve. *)
  Definition matrix32 (w : f32) (grid : list f32) : list (list f32) := map (fun a => map (fun b => gauss32 (dist32 a b) w) grid) grid.

  (** so3.py:638-652 geodesic_distance of quaternions: |sum of the products|, guarded with 1e-7. *)
  Definition dot4 (p q : f32 * f32 * (f32 * f32)) : f32 := add32 (dot32 (fst p) (fst q)) (dot32 (snd p) (snd q)).
  Definition so3_dist32 (p q : f32 * f32 * (f32 * f32)) : f32 := acos32 L (guarded (abs32 (dot4 p q)) eps7).
End SO2.
