(** Angles in single precision: the operations of so2.py (and of the angle part of o2.py) on float32 tensors, with Flocq's binary32. *)
From Coq Require Import ZArith Bool List.
From Flocq Require Import Core IEEE754.BinarySingleNaN.
From Verif Require Import Float32.
Import ListNotations.
Open Scope Z_scope.

(** C's fmodf, which torch.remainder uses: the remainder of the truncated quotient, computed on the integers x / 2^e and y / 2^e (e the smaller exponent).
    It has the sign of x; infinite x, zero y and NaN give NaN. *)
Definition fmod32 (x y : f32) : f32 :=
  match x, y with
  | B754_zero s, B754_finite _ _ _ _ => B754_zero s
  | B754_finite sx mx ex _, B754_finite sy my ey _ =>
      let e := Z.min ex ey in
      binary_normalize 24 128 p32 e32 mode_NE (Z.rem (cond_Zopp sx (Zpos mx) * 2 ^ (ex - e)) (cond_Zopp sy (Zpos my) * 2 ^ (ey - e))) e sx
  | B754_zero _, B754_infinity _ | B754_finite _ _ _ _, B754_infinity _ => x
  | _, _ => nan32
  end.
(** ATen's remainder on floating point tensors: mod = fmod(a, b); if (mod != 0 && (b < 0) != (mod < 0)) mod += b. *)
Definition remainder32 (x b : f32) : f32 :=
  let m := fmod32 x b in
  if negb (Beqb m zero32) && xorb (Bltb b zero32) (Bltb m zero32) then add32 m b else m.

(** The Python float 2 * math.pi = 884279719003555 / 2^47, and the float32 scalar it becomes in an operation with a float32 tensor. *)
Definition two_pi : f64 := binary_normalize 53 1024 p64 e64 mode_NE 884279719003555 (-47) false.
Definition tau32 : f32 := to32 two_pi.

(** so2.py:104-116, 119-131 [left_apply_angle], [left_apply_to_angle] (one pair). *)
Definition left_apply32 (r1 r2 : f32) : f32 := remainder32 (add32 r1 r2) tau32.
(** so2.py:91-101 [inverse_angle]. *)
Definition inverse32 (r : f32) : f32 := opp32 r.
(** so2.py:64-75 [random_grid] (one row): 2 * math.pi * torch.rand. *)
Definition random32 (u : f32) : f32 := mul32 tau32 u.

(** o2.py:91-105, 108-123 [left_apply_angle], [left_apply_to_angle] (one pair of rows (coefficient, angle)). *)
Definition o2_left_apply32 (r1 r2 : f32 * f32) : f32 * f32 := (mul32 (fst r1) (fst r2), left_apply32 (snd r1) (snd r2)).
(** o2.py:62-74 [inverse]: the angle of the copy is multiplied in place by -1. *)
Definition o2_inverse32 (r : f32 * f32) : f32 * f32 := (fst r, mul32 (snd r) (of_Z32 (-1))).
(** o2.py:40-59 [random_grid] (one row): (2 * (u > 0.5)) - 1, an integer tensor which torch.cat promotes to float32, and an angle of so2.random_grid. *)
Definition o2_random32 (u v : f32) : f32 * f32 := (of_Z32 (2 * (if Bltb (div32 one32 (of_Z32 2)) u then 1 else 0) - 1), random32 v).
