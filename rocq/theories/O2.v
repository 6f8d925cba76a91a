(** Model of gconv/geometry/groups/o2.py. An element of shape (2,) is a pair
    (coefficient, angle). *)
From Coq Require Import String.
From Verif Require Import Prelude RMath Mat Interp SO2 OSplit.
Open Scope R_scope.

(** Models o2.py:9-37: a row (coefficient, angle). *)
Record O2 := mkO2 { o2c : R; o2a : R }.

(** o2.py:9-37 [uniform_grid]. *)
Definition o2_uniform_grid (n m : nat) : list O2 :=
  map (fun ca => mkO2 (fst ca) (snd ca))
    (combine (repeat 1 n ++ repeat (- (1)) m) (so2_uniform_grid n ++ so2_uniform_grid m)).

(** o2.py:40-59 [random_grid]: [us] the angle draws, [cs] the coefficient draws. *)
Definition o2_random_grid (us cs : list R) : list O2 :=
  map (fun ca => mkO2 (2 * (if Rlt_dec (1 / 2) (fst ca) then 1 else 0) - 1) (snd ca))
    (combine cs (so2_random_grid us)).

(** o2.py:62-74 [inverse]. *)
Definition o2_inverse (r : O2) : O2 := mkO2 (o2c r) (o2a r * -1).

(** o2.py:77-88 [det]. *)
Definition o2_det (r : O2) : R := o2c r.

(** o2.py:91-105 [left_apply_angle]. *)
Definition o2_left_apply_angle (r1 r2 : O2) : O2 :=
  mkO2 (o2c r1 * o2c r2) (Rmod (o2a r1 + o2a r2) (2 * PI)).

(** o2.py:108-123 [left_apply_to_angle]. *)
Definition o2_left_apply_to_angle (R1 R2 : list O2) : list (list O2) :=
  map (fun r1 => map (fun r2 =>
    mkO2 (o2c r1 * o2c r2) (Rmod (o2a r1 + o2a r2) (2 * PI))) R2) R1.

(** o2.py:126-142 [left_apply_to_R2]: coefficient times the so2 action, for each element. *)
Definition o2_left_apply_to_R2 (Rs : list O2) (grid : list (list V2)) : list (list (list V2)) :=
  map (fun cg => map (map (scalv2 (fst cg))) (snd cg))
    (combine (map o2c Rs) (so2_left_apply_angle_to_R2 (map o2a Rs) grid)).

(** o2.py:145-203 [grid_sample]. *)
Definition o2_grid_sample (T : torch_env) (mode : string) (rot_width ref_width : R) (S : nat)
    (grid : list O2) (signal : mat) (signal_grid : list O2) (n_rot n_ref : nat) : result mat :=
  split_sample o2c o2a
    (fun q s g => so2_grid_sample T mode rot_width S q s g)
    (fun q s g => so2_grid_sample T mode ref_width S q s g)
    grid signal signal_grid n_rot n_ref.
