(** Specification side of property C100: what torch.linalg.lstsq promises, for three quaternions and
    a fourth, and how three signal rows are averaged with weights of which the negative ones are
    dropped. Nothing here mentions the interpolation model. *)
From Verif Require Import Prelude RMath Mat.
Open Scope R_scope.

(** [a x + b y + c z]. *)
Definition combination (t : R * R * R) (x y z : Q4) : Q4 :=
  let '(a, b, c) := t in
  mkQ (a * qw x + b * qw y + c * qw z) (a * qx x + b * qx y + c * qx z)
      (a * qy x + b * qy y + c * qy z) (a * qz x + b * qz y + c * qz z).

(** Squared length of the difference of two quaternions. *)
Definition gap (p q : Q4) : R :=
  (qw p - qw q) ^ 2 + (qx p - qx q) ^ 2 + (qy p - qy q) ^ 2 + (qz p - qz q) ^ 2.

Definition independent (x y z : Q4) : Prop :=
  forall a b c, combination (a, b, c) x y z = mkQ 0 0 0 0 -> a = 0 /\ b = 0 /\ c = 0.

(** torch.linalg.lstsq: for linearly independent columns it returns a triple of coefficients no
    other triple improves upon. *)
Definition least_squares (lstsq : Q4 -> Q4 -> Q4 -> Q4 -> R * R * R) : Prop :=
  forall x y z n, independent x y z ->
  forall t, gap n (combination (lstsq x y z n) x y z) <= gap n (combination t x y z).

(** Any three rotations of the grid are linearly independent quaternions. *)
Definition general_position (grid : list Q4) : Prop :=
  forall i j k x y z, i <> j -> i <> k -> j <> k ->
  nth_error grid i = Some x -> nth_error grid j = Some y -> nth_error grid k = Some z -> independent x y z.

(** Unit quaternions of rotations that can be told apart: |<p, q>| < 1 - 10^-7, an angle of more than
    0.06 degrees. *)
Definition told_apart (grid : list Q4) : Prop :=
  (forall g, In g grid -> unitq g) /\
  forall i j p q, i <> j -> nth_error grid i = Some p -> nth_error grid j = Some q -> Rabs (qdot p q) < 1 - / 10 ^ 7.

(** The rows [s1 s2 s3] (S entries each) averaged with weights a, b, c; NaN ([None]) throughout when
    the weights add up to zero. *)
Definition average (S : nat) (a b c : R) (s1 s2 s3 : list R) : list (option R) :=
  map (fun t => if Req_EM_T (a + b + c) 0 then None
                else Some ((a * nth t s1 0 + b * nth t s2 0 + c * nth t s3 0) / (a + b + c))) (seq 0 S).

(** The two quaternions of one rotation. *)
Definition same_rotation (p q : Q4) : Prop := q = p \/ q = qneg p.
