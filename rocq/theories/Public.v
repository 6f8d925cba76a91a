(** Model of the public layers: gconv/gnn/modules/gconv_sen/gconv_se2.py, gconv_se3.py, gconv_en/gconv_e2.py,
    gconv_e3.py (twelve classes).

    Simplifications: channel counts, kernel sizes, strides, dilations and group kernel sizes are natural numbers
    (groups is an integer); parameters (weights, the initial bias) and random draws are arguments; the separable and the
    full class of a group have the same constructor (they differ in their parameters and in forward). *)
From Coq Require Import String ZArith.
From Verif Require Import Prelude RMath Mat Interp SO2 O2 SO3 O3 Repulse GridTables GridCache Tensor Kernel Conv.
Open Scope R_scope.

(** A layer object: what GroupConvNd.__init__ stored, and self.permute_output_grid (gconv_se2.py:64, 157, 250; gconv_se3.py:64, 157, 252; gconv_e2.py, gconv_e3.py:69, 167, 265). *)
Record gmodule (G P : Type) := mkModule { gm_layer : gconv G P; gm_permute : bool }.
Arguments mkModule {G P}. Arguments gm_layer {G P}. Arguments gm_permute {G P}.

(** "if grid_H is None: grid_H = uniform_grid(...)" (kernel_se2.py:40-41 and the like). *)
Definition pick_grid {G} (given : option (list G)) (default : result (list G)) : result (list G) :=
  match given with Some g => Ok g | None => default end.

(** kernel.py:162-164, 241-246, 421-428: the parameter is created with an axis of size in_channels // groups, before
    GroupConvNd validates groups. A zero groups raises ZeroDivisionError, a negative size raises RuntimeError. *)
Definition kernel_weight_groups (cin : nat) (groups : Z) : result nat :=
  if Z.eqb groups 0 then Err ZeroDivisionError
  else if Z.ltb (Z.of_nat cin / groups) 0 then Err RuntimeError
  else Ok (Z.to_nat groups).

(** group_kernel_size of the E(n) classes: an int stands for the pair (n, n) (kernel_e2.py:46-47, kernel_e3.py:46-47);
    GroupConvNd gets the argument itself. *)
Inductive pair_arg := PairInt (n : nat) | PairTuple (n m : nat).
Definition pair_rot (a : pair_arg) : nat := match a with PairInt n => n | PairTuple n _ => n end.
Definition pair_ref (a : pair_arg) : nat := match a with PairInt n => n | PairTuple _ m => m end.
Definition pair_gks (a : pair_arg) : gk_arg :=
  match a with
  | PairInt n => GkInt (Z.of_nat n)
  | PairTuple n m => GkTuple [Z.of_nat n; Z.of_nat m]
  end.

(** so3.uniform_grid(group_kernel_size, "matrix") (kernel_se3.py:51, 117, 193) in the module state s, with the
    optimisation outcome o. Simplification: a default grid that is not a batch of matrices (size 0 and 1 and cached
    sizes, see C27) is an error here. *)
Definition default_SE3 (s : gstate) (n : nat) (o : oracle) : result (list M3) :=
  let '(s', r) := so3_uniform_grid s n "matrix" false o in
  l <- r ;;
  match look s' l with Some (TMat g) => Ok g | _ => Err TypeError end.
(** o3.uniform_grid(group_kernel_size) (kernel_e3.py:50, 122, 216). *)
Definition default_E3 (s : gstate) (n m : nat) (o1 o2 : oracle) : result (list O3) :=
  x <- snd (o3_uniform_grid s n m false o1 o2) ;;
  match x with O3Grid g => Ok g | O3Matrices _ => Err TypeError end.

Section Init.
  (** Arguments shared by all constructors. *)
  Context (T : torch_env) (cin cout size : nat) (groups : Z) (stride : nat) (padding : padarg) (dilation : nat)
    (padding_mode : string) (permute : bool) (bias : option (tensor R)) (mode pm : string) (mask : bool).

  (** super().__init__(...) of a 2d / 3d class. *)
  Definition make2 {G} (gks : gk_arg) (k : gkernel G V2) : result (gmodule G V2) :=
    L <- gconv_init2 cin cout (AInt size) gks k groups (AInt stride) padding (AInt dilation) padding_mode bias ;;
    Ok (mkModule L permute).
  Definition make3 {G} (gks : gk_arg) (k : gkernel G V3) : result (gmodule G V3) :=
    L <- gconv_init3 cin cout (AInt size) gks k groups (AInt stride) padding (AInt dilation) padding_mode bias ;;
    Ok (mkModule L permute).

  (** gconv_se2.py:10-78 [GLiftingConvSE2.__init__]. *)
  Definition lifting_SE2 (n : nat) (grid_H : option (list R)) : result (gmodule R V2) :=
    grid <- pick_grid grid_H (Ok (so2_uniform_grid n)) ;;
    g <- kernel_weight_groups cin groups ;;
    make2 (GkInt (Z.of_nat n)) (lifting_kernel_SE2 T cin cout size g mode pm mask grid).
  (** gconv_se2.py:92-171 [GSeparableConvSE2.__init__], 185-264 [GConvSE2.__init__]. *)
  Definition group_SE2 (n : nat) (gmode : string) (width : R) (grid_H : option (list R)) : result (gmodule R V2) :=
    grid <- pick_grid grid_H (Ok (so2_uniform_grid n)) ;;
    k <- kernel_SE2 T cin cout size (Z.to_nat groups) gmode width mode pm mask grid ;;
    _ <- kernel_weight_groups cin groups ;;
    make2 (GkInt (Z.of_nat n)) k.

  (** gconv_se3.py:10-78 [GLiftingConvSE3.__init__]; [default] is the default grid. *)
  Definition lifting_SE3 (n : nat) (grid_H : option (list M3)) (default : result (list M3)) : result (gmodule M3 V3) :=
    grid <- pick_grid grid_H default ;;
    g <- kernel_weight_groups cin groups ;;
    make3 (GkInt (Z.of_nat n)) (lifting_kernel_SE3 T cin cout size g mode pm mask grid).
  (** gconv_se3.py:92-171 [GSeparableConvSE3.__init__], 187-266 [GConvSE3.__init__]. *)
  Definition group_SE3 (n : nat) (gmode : string) (width : R) (grid_H : option (list M3)) (default : result (list M3))
    : result (gmodule M3 V3) :=
    grid <- pick_grid grid_H default ;;
    k <- kernel_SE3 T cin cout size (Z.to_nat groups) gmode width mode pm mask grid ;;
    _ <- kernel_weight_groups cin groups ;;
    make3 (GkInt (Z.of_nat n)) k.

  (** gconv_e2.py:10-83 [GLiftingConvE2.__init__]. *)
  Definition lifting_E2 (gks : pair_arg) (grid_H : option (list O2)) : result (gmodule O2 V2) :=
    grid <- pick_grid grid_H (Ok (o2_uniform_grid (pair_rot gks) (pair_ref gks))) ;;
    g <- kernel_weight_groups cin groups ;;
    make2 (pair_gks gks) (lifting_kernel_E2 T cin cout size g (pair_rot gks) (pair_ref gks) mode pm mask grid).
  (** gconv_e2.py:97-181 [GSeparableConvE2.__init__], 195-279 [GConvE2.__init__]. *)
  Definition group_E2 (gks : pair_arg) (gmode : string) (rot ref : R) (grid_H : option (list O2)) : result (gmodule O2 V2) :=
    grid <- pick_grid grid_H (Ok (o2_uniform_grid (pair_rot gks) (pair_ref gks))) ;;
    k <- kernel_E2 T cin cout size (Z.to_nat groups) (pair_rot gks) (pair_ref gks) gmode rot ref mode pm mask grid ;;
    _ <- kernel_weight_groups cin groups ;;
    make2 (pair_gks gks) k.

  (** gconv_e3.py:10-83 [GLiftingConvE3.__init__]. *)
  Definition lifting_E3 (gks : pair_arg) (grid_H : option (list O3)) (default : result (list O3)) : result (gmodule O3 V3) :=
    grid <- pick_grid grid_H default ;;
    g <- kernel_weight_groups cin groups ;;
    make3 (pair_gks gks) (lifting_kernel_E3 T cin cout size g (pair_rot gks) (pair_ref gks) mode pm mask grid).
  (** gconv_e3.py:97-181 [GSeparableConvE3.__init__], 195-279 [GConvE3.__init__]. *)
  Definition group_E3 (gks : pair_arg) (gmode : string) (rot ref : R) (grid_H : option (list O3)) (default : result (list O3))
    : result (gmodule O3 V3) :=
    grid <- pick_grid grid_H default ;;
    k <- kernel_E3 T cin cout size (Z.to_nat groups) (pair_rot gks) (pair_ref gks) gmode rot ref mode pm mask grid ;;
    _ <- kernel_weight_groups cin groups ;;
    make3 (pair_gks gks) k.
End Init.

(** ** forward *)

(** left_apply(random_grid(1), H): a grid of one element against a grid of |H| elements, by broadcasting. *)
(** Models gconv_se2.py:80-89, 173-182, 266-275 and the same forwards in gconv_se3.py, gconv_e2.py, gconv_e3.py. *)
Definition bcast_left {G} (mul : G -> G -> G) (rs H : list G) : list G := flat_map (fun r => map (mul r) H) rs.
(** "if self.permute_output_grid: H = left_apply(random_grid(1), H)". *)
Definition permuted {G P} (M : gmodule G P) (mul : G -> G -> G) (rs H : list G) : list G :=
  if gm_permute M then bcast_left mul rs H else H.
Definition or_else {A} (x : option A) (d : A) : A := match x with Some a => a | None => d end.
Definition kernel_grid {G P} (M : gmodule G P) : list G := k_grid_H (l_kernel (gm_layer M)).

Section Forwards.
  Context {G P : Type} {D : Dflt P} (M : gmodule G P) (mul : G -> G -> G) (rs : list G).
  (** gconv_se2.py:80-89 and the lifting classes of the other files: H defaults to kernel.grid_H. *)
  Definition lifting_call (weight : tensor R) (input : tensor R) (H : option (list G)) : result (tensor R * list G) :=
    lifting_forward (gm_layer M) weight input (permuted M mul rs (or_else H (kernel_grid M))).
  (** gconv_se2.py:266-275, gconv_se3.py:268-279: out_H defaults to in_H. *)
  Definition full_call_SEn (weight : tensor R) (input : tensor R) (in_H : list G) (out_H : option (list G)) :=
    full_forward (gm_layer M) weight input in_H (permuted M mul rs (or_else out_H in_H)).
  (** gconv_se2.py:173-182, gconv_se3.py:173-184. *)
  Definition separable_call_SEn (weight_H weight : tensor R) (input : tensor R) (in_H : list G) (out_H : option (list G)) :=
    separable_forward (gm_layer M) weight_H weight input in_H (permuted M mul rs (or_else out_H in_H)).
  (** gconv_e2.py:281-290, gconv_e3.py:281-290: H_out defaults to kernel.grid_H. *)
  Definition full_call_En (weight : tensor R) (input : tensor R) (H_in : list G) (H_out : option (list G)) :=
    full_forward (gm_layer M) weight input H_in (permuted M mul rs (or_else H_out (kernel_grid M))).
  (** gconv_e2.py:183-192, gconv_e3.py:183-192. *)
  Definition separable_call_En (weight_H weight : tensor R) (input : tensor R) (H_in : list G) (H_out : option (list G)) :=
    separable_forward (gm_layer M) weight_H weight input H_in (permuted M mul rs (or_else H_out (kernel_grid M))).
End Forwards.

(** The draws: gconv_se2.py:87, 180, 273 (one uniform draw u), gconv_se3.py:87, 180-182, 275-277 (a quaternion draw),
    gconv_e2.py:92, 190, 288 (angle and coefficient draws), gconv_e3.py:92, 190, 288. *)
Definition drawn_SE2 (u : R) : list R := so2_random_grid [u].
Definition drawn_SE3 (q : Q4) : list M3 := [so3_random_matrix q].
Definition drawn_E2 (u c : R) : list O2 := o2_random_grid [u] [c].
Definition drawn_E3 (c : R) (q : Q4) : list O3 := [o3_random c q].

(** gconv_se2.py [GLiftingConvSE2.forward], [GConvSE2.forward], [GSeparableConvSE2.forward]. *)
Definition lifting_SE2_call (M : gmodule R V2) (u : R) := lifting_call M so2_left_apply_angle (drawn_SE2 u).
Definition full_SE2_call (M : gmodule R V2) (u : R) := full_call_SEn M so2_left_apply_angle (drawn_SE2 u).
Definition separable_SE2_call (M : gmodule R V2) (u : R) := separable_call_SEn M so2_left_apply_angle (drawn_SE2 u).
(** gconv_se3.py. *)
Definition lifting_SE3_call (M : gmodule M3 V3) (q : Q4) := lifting_call M so3_left_apply_matrix (drawn_SE3 q).
Definition full_SE3_call (M : gmodule M3 V3) (q : Q4) := full_call_SEn M so3_left_apply_matrix (drawn_SE3 q).
Definition separable_SE3_call (M : gmodule M3 V3) (q : Q4) := separable_call_SEn M so3_left_apply_matrix (drawn_SE3 q).
(** gconv_e2.py. *)
Definition lifting_E2_call (M : gmodule O2 V2) (u c : R) := lifting_call M o2_left_apply_angle (drawn_E2 u c).
Definition full_E2_call (M : gmodule O2 V2) (u c : R) := full_call_En M o2_left_apply_angle (drawn_E2 u c).
Definition separable_E2_call (M : gmodule O2 V2) (u c : R) := separable_call_En M o2_left_apply_angle (drawn_E2 u c).
(** gconv_e3.py. *)
Definition lifting_E3_call (M : gmodule O3 V3) (c : R) (q : Q4) := lifting_call M o3_left_apply_O3 (drawn_E3 c q).
Definition full_E3_call (M : gmodule O3 V3) (c : R) (q : Q4) := full_call_En M o3_left_apply_O3 (drawn_E3 c q).
Definition separable_E3_call (M : gmodule O3 V3) (c : R) (q : Q4) := separable_call_En M o3_left_apply_O3 (drawn_E3 c q).
