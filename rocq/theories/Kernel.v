(** Model of gconv/gnn/kernels/kernel.py and of the group-specific constructors
    (kernel_sen/*.py, kernel_en/*.py).

    Simplifications: a group element (an angle, a matrix, a 10-vector) is one value of a type G and a
    spatial vector one value of a type P, so the trailing axes H_dims and the coordinate axis do not
    appear in shapes; parameters (nn.Parameter) are arguments; tensors are contiguous. *)
From Coq Require Import String.
From Verif Require Import Prelude RMath Mat Interp SO2 O2 SO3 O3 Repulse Tensor Functional.
Open Scope R_scope.

(** kernel.py:44-114: the callables a kernel is constructed with (keyword arguments already applied).
    [op_sample_H S] gets the number S of signal columns. *)
Record gops (G P : Type) := {
  op_inverse : list G -> list G;
  op_left_apply_to_H : list G -> list G -> list (list G);
  op_left_apply_to_Rn : list G -> list P -> list (list P);
  op_det : option (list G -> list R);
  op_sample_H : nat -> list G -> mat -> list G -> result mat;
  op_sample_Rn : result (sampler P);
}.
Arguments op_inverse {G P}. Arguments op_left_apply_to_H {G P}. Arguments op_left_apply_to_Rn {G P}.
Arguments op_det {G P}. Arguments op_sample_H {G P}. Arguments op_sample_Rn {G P}.

(** kernel.py:91-114 [GroupKernel.__init__]: the stored attributes. *)
Record gkernel (G P : Type) := {
  k_in : nat; k_out : nat; k_groups : nat;
  k_size : list nat;                 (* kernel_size *)
  k_gsize : list nat;                (* group_kernel_size *)
  k_grid_H : list G;
  k_grid_Rn : tensor P;
  k_mask : option (tensor R);
  k_ops : gops G P;
}.
Arguments k_in {G P}. Arguments k_out {G P}. Arguments k_groups {G P}. Arguments k_size {G P}.
Arguments k_gsize {G P}. Arguments k_grid_H {G P}. Arguments k_grid_Rn {G P}. Arguments k_mask {G P}.
Arguments k_ops {G P}.

(** kernel.py:96 _group_kernel_dim; in_channels // groups. *)
Definition k_gdim {G P} (k : gkernel G P) : nat := fold_right Nat.add 0%nat (k_gsize k).
Definition k_cin {G P} (k : gkernel G P) : nat := (k_in k / k_groups k)%nat.

(** Parameter shapes: kernel.py:162-164, 241-246, 340-342, 421-428. *)
Definition lifting_weight_shape {G P} (k : gkernel G P) : list nat := k_out k :: k_cin k :: k_size k.
Definition group_weight_shape {G P} (k : gkernel G P) : list nat := [k_gdim k; k_out k; k_cin k].
Definition separable_weight_shape {G P} (k : gkernel G P) : list nat := k_out k :: 1%nat :: k_size k.
Definition full_weight_shape {G P} (k : gkernel G P) : list nat := k_gdim k :: k_out k :: k_cin k :: k_size k.

(** "if self.mask is not None: weight = self.mask * weight". *)
(** Models kernel.py:189-190, 299-300, 478-479 (the mask is optional). *)
Definition apply_mask (m : option (tensor R)) (w : tensor R) : result (tensor R) :=
  match m with None => Ok w | Some m => bcast2 Rmult m w end.
(** "if self.det_H is not None: weight = weight / self.det_H(H).view(-1, 1, *weight_dims)" where
    weight_dims is a tuple of [wd] ones. *)
(** Models kernel.py:192-193, 302-303, 481-482: the division by det when det_H is given. *)
Definition apply_det {G} (det : option (list G -> list R)) (H : list G) (wd : nat) (w : tensor R)
  : result (tensor R) :=
  match det with
  | None => Ok w
  | Some d => let ds := d H in
    dv <- view_lead (1%nat :: repeat 1%nat wd) (mkT [List.length ds] ds) ;;
    bcast2 Rdiv w dv
  end.

Section Forward.
  Context {G P : Type} {D : Dflt P} (k : gkernel G P).
  Let ops := k_ops k.
  Let out := k_out k.
  Let cin := k_cin k.
  Let ks := k_size k.

  (** left_apply_to_Rn(inverse_H(H), grid_Rn), a tensor of shape (|H|, *grid shape). *)
  Definition product_Rn (H : list G) : tensor P :=
    mkT (List.length H :: shape (k_grid_Rn k))
        (concat (op_left_apply_to_Rn ops (op_inverse ops H) (data (k_grid_Rn k)))).

  (** The rows of a 2-d tensor. *)
  Definition to_rows (t : tensor R) : mat :=
    match shape t with
    | [r; c] => map (fun i => map (fun j => at_ t [i; j]) (seq 0 c)) (seq 0 r)
    | _ => []
    end.

  (** kernel.py:174-195 [GLiftingKernel.forward]. *)
  Definition lifting_kernel_forward (weight : tensor R) (H : list G) : result (tensor R) :=
    let num_H := List.length H in
    smp <- op_sample_Rn ops ;;
    w <- grid_sample smp (repeat_interleave0 num_H weight) (repeat0 out (product_Rn H)) ;;
    w <- view (out :: num_H :: cin :: ks) w ;;
    w <- apply_mask (k_mask k) w ;;
    apply_det (op_det ops) H (List.length (shape weight) - 2) w.

  (** sample_H(H_product_H.view(-1, *H_dims), weight.reshape(group_kernel_dim, -1), grid_H):
      kernel.py:270-275, 360-365, 449-454. The result is a (|out_H|*|in_H|, S) tensor. *)
  Definition sample_group (weight : tensor R) (in_H out_H : list G) : result (tensor R) :=
    w2 <- view_trail (k_gdim k) weight ;;
    let S := nth 1 (shape w2) 0%nat in
    rows <- op_sample_H ops S (concat (op_left_apply_to_H ops (op_inverse ops out_H) in_H))
              (to_rows w2) (k_grid_H k) ;;
    Ok (mkT [List.length rows; S] (concat rows)).

  (** kernel.py:257-305 [GSeparableKernel.forward]. *)
  Definition separable_kernel_forward (weight_H weight : tensor R) (in_H out_H : list G)
    : result (tensor R * tensor R) :=
    let num_in := List.length in_H in
    let num_out := List.length out_H in
    wh <- sample_group weight_H in_H out_H ;;
    wh <- view (num_in :: num_out :: cin :: out :: repeat 1%nat (List.length ks)) wh ;;
    let wh := transpose 1 3 (transpose 0 3 wh) in
    smp <- op_sample_Rn ops ;;
    w <- grid_sample smp (repeat_interleave0 num_out weight) (repeat0 out (product_Rn out_H)) ;;
    w <- view (out :: num_out :: 1%nat :: ks) w ;;
    w <- apply_mask (k_mask k) w ;;
    w <- apply_det (op_det ops) out_H (List.length ks) w ;;
    Ok (wh, w).

  (** kernel.py:350-377 [GSubgroupKernel.forward]. *)
  Definition subgroup_kernel_forward (weight : tensor R) (in_H out_H : list G) : result (tensor R) :=
    let num_in := List.length in_H in
    let num_out := List.length out_H in
    w <- sample_group weight in_H out_H ;;
    w <- view (num_in :: num_out :: cin :: out :: ks) w ;;
    Ok (transpose 1 3 (transpose 0 3 w)).

  (** kernel.py:439-484 [GKernel.forward]. *)
  Definition full_kernel_forward (weight : tensor R) (in_H out_H : list G) : result (tensor R) :=
    let num_in := List.length in_H in
    let num_out := List.length out_H in
    w <- sample_group weight in_H out_H ;;
    w <- view ((num_out * num_in)%nat :: (cin * out)%nat :: ks) w ;;
    smp <- op_sample_Rn ops ;;
    w <- grid_sample smp w (repeat_interleave0 num_in (product_Rn out_H)) ;;
    w <- view (num_out :: num_in :: cin :: out :: ks) w ;;
    let w := transpose 1 3 (transpose 0 3 w) in
    w <- apply_mask (k_mask k) w ;;
    apply_det (op_det ops) out_H (List.length (shape weight) - 2) w.
End Forward.

(** ** Group-specific constructors *)

(** gF.grid_sample with the given mode strings (resolved when the kernel is called). *)
(** Models kernel_se2.py:60-66, kernel_se3.py:70-76 and their siblings: grid_sample with the keywords of the constructor. *)
Definition sample_R2 (mode pm : string) : result (sampler V2) :=
  if String.eqb mode "bicubic" then p <- gs_pad pm ;; Ok (gs2_cubic p)
  else b <- gs_mode mode ;; p <- gs_pad pm ;; Ok (gs2 b p).
Definition sample_R3 (mode pm : string) : result (sampler V3) :=
  if String.eqb mode "bicubic" then p <- gs_pad pm ;; Err RuntimeError
  else b <- gs_mode mode ;; p <- gs_pad pm ;; Ok (gs3 b p).

(** The existing group functions act on the last axis of a coordinate grid; a flat grid is a
    one-row grid. *)
(** Models kernel_se2.py:9-210: left_apply_to_Rn, so2.py:134-146. *)
Definition act_SE2 (H : list R) (pts : list V2) : list (list V2) :=
  map (@concat V2) (so2_left_apply_angle_to_R2 H [pts]).
(** Models kernel_e2.py:13-270: left_apply_to_Rn, o2.py:126-142. *)
Definition act_E2 (H : list O2) (pts : list V2) : list (list V2) :=
  map (@concat V2) (o2_left_apply_to_R2 H [pts]).
(** Models kernel_se3.py:19-227: left_apply_to_Rn, so3.py:412-424. *)
Definition act_SE3 (H : list M3) (pts : list V3) : list (list V3) :=
  map (fun g => concat (concat g)) (so3_left_apply_to_R3 H [[pts]]).
(** Models kernel_e3.py:13-262: left_apply_to_Rn, o3.py:111-124. *)
Definition act_E3 (H : list O3) (pts : list V3) : list (list V3) :=
  map (fun g => concat (concat g)) (o3_left_apply_to_R3 H [[pts]]).

(** kernel_se2.py:47-65, 114-138, 187-211. *)
Definition ops_SE2 (T : torch_env) (gmode : string) (width : R) (mode pm : string) : gops R V2 := {|
  op_inverse := map so2_inverse_angle;
  op_left_apply_to_H := so2_left_apply_to_angle;
  op_left_apply_to_Rn := act_SE2;
  op_det := None;
  op_sample_H := fun S q w g => so2_grid_sample T gmode width S q w g;
  op_sample_Rn := sample_R2 mode pm |}.
(** kernel_se3.py:55-75, 124-151, 200-227. *)
Definition ops_SE3 (T : torch_env) (gmode : string) (width : R) (mode pm : string) : gops M3 V3 := {|
  op_inverse := map so3_matrix_inverse;
  op_left_apply_to_H := so3_left_apply_to_matrix;
  op_left_apply_to_Rn := act_SE3;
  op_det := None;
  op_sample_H := fun S q w g => so3_grid_sample_matrix T gmode width S q w g;
  op_sample_Rn := sample_R3 mode pm |}.
(** kernel_e2.py:52-74, 142-172, 240-270. *)
Definition ops_E2 (T : torch_env) (gmode : string) (rw fw : R) (n m : nat) (mode pm : string) : gops O2 V2 := {|
  op_inverse := map o2_inverse;
  op_left_apply_to_H := o2_left_apply_to_angle;
  op_left_apply_to_Rn := act_E2;
  op_det := Some (map o2_det);
  op_sample_H := fun S q w g => o2_grid_sample T gmode rw fw S q w g n m;
  op_sample_Rn := sample_R2 mode pm |}.
(** kernel_e3.py:52-74, 138-168, 232-262. *)
Definition ops_E3 (T : torch_env) (gmode : string) (rw fw : R) (n m : nat) (mode pm : string) : gops O3 V3 := {|
  op_inverse := map o3_inverse;
  op_left_apply_to_H := o3_left_apply_to_O3;
  op_left_apply_to_Rn := act_E3;
  op_det := Some (map o3_det);
  op_sample_H := fun S q w g => o3_grid_sample T gmode rw fw S q w g n m;
  op_sample_Rn := sample_R3 mode pm |}.

(** ".mean()" of a nearest-neighbour distance, times 0.8, used when the given width is 0. *)
(** Models kernel_se2.py:111-112, 184-185; kernel_se3.py:121-122, 197-198; kernel_so3.py:48-49; kernel_e2.py:126-141; kernel_e3.py:126-136: width = 0.8 * nearest_neighbour_distance(grid_H).mean() when the given width is 0. *)
Definition default_width (given : R) (nn : result (list R)) : result R :=
  if Req_EM_T given 0 then d <- nn ;; Ok (8 / 10 * meanR d) else Ok given.

(** kernel_se2.py:111-112, 184-185. *)
Definition width_SE2 (given : R) (grid_H : list R) : result R :=
  default_width given (so2_nearest_neighbour_distance grid_H).
(** kernel_se3.py:121-122, 197-198. *)
Definition width_SE3 (given : R) (grid_H : list M3) : result R :=
  default_width given (so3_nearest_neighbour_distance_matrix grid_H).
(** kernel_e2.py:126-140, 224-238: grid_H[:n, 1:] and grid_H[n:, 1:]. *)
Definition width_E2_rot (given : R) (n : nat) (grid_H : list O2) : result R :=
  default_width given (so2_nearest_neighbour_distance (map o2a (firstn n grid_H))).
Definition width_E2_ref (given : R) (n : nat) (grid_H : list O2) : result R :=
  default_width given (so2_nearest_neighbour_distance (map o2a (skipn n grid_H))).
(** kernel_e3.py:126-136, 220-230: so3.nearest_neighbour_distance is given the 10-vectors
    (coefficient, flattened matrix), whose elementwise product is summed over 10 entries. *)
Definition o3_flat (h : O3) : list R :=
  let r := o3r h in
  [o3c h; a00 r; a01 r; a02 r; a10 r; a11 r; a12 r; a20 r; a21 r; a22 r].
Definition flat_geodesic (x y : list R) (eps : R) : R :=
  acos (clamp (Rabs (dotl x y)) (-1 + eps) (1 - eps)).
Definition so3_nearest_neighbour_distance_flat (q : list (list R)) : result (list R) :=
  if Nat.ltb (List.length q) 2 then Err IndexError
  else mapM (fun a => of_option IndexError
         (nth_error (sortR (map (fun b => flat_geodesic a b so3_eps) q)) 1)) q.
Definition width_E3_rot (given : R) (n : nat) (grid_H : list O3) : result R :=
  default_width given (so3_nearest_neighbour_distance_flat (map o3_flat (firstn n grid_H))).
Definition width_E3_ref (given : R) (n : nat) (grid_H : list O3) : result R :=
  default_width given (so3_nearest_neighbour_distance_flat (map o3_flat (skipn n grid_H))).

(** Kernel objects. [grid_H] is the given grid (or the default one); the lifting kernels use the
    same record with an unused group sampler.
    kernel_se2.py:38-65, 103-138, 176-211: the mask argument is overwritten (lines 45, 120, 193). *)
Definition kernel_SE2 (T : torch_env) (cin cout size groups : nat) (gmode : string) (given : R)
    (mode pm : string) (mask : bool) (grid_H : list R) : result (gkernel R V2) :=
  w <- width_SE2 given grid_H ;;
  Ok {| k_in := cin; k_out := cout; k_groups := groups; k_size := [size; size];
        k_gsize := [List.length grid_H]; k_grid_H := grid_H; k_grid_Rn := create_grid_R2 size;
        k_mask := Some (create_spherical_mask_R2 size);
        k_ops := ops_SE2 T gmode w mode pm |}.
Definition lifting_kernel_SE2 (T : torch_env) (cin cout size groups : nat)
    (mode pm : string) (mask : bool) (grid_H : list R) : gkernel R V2 :=
  {| k_in := cin; k_out := cout; k_groups := groups; k_size := [size; size];
     k_gsize := [List.length grid_H]; k_grid_H := grid_H; k_grid_Rn := create_grid_R2 size;
     k_mask := Some (create_spherical_mask_R2 size);
     k_ops := ops_SE2 T "" 0 mode pm |}.
(** kernel_se3.py:50-75, 116-151, 192-227. *)
Definition kernel_SE3 (T : torch_env) (cin cout size groups : nat) (gmode : string) (given : R)
    (mode pm : string) (mask : bool) (grid_H : list M3) : result (gkernel M3 V3) :=
  w <- width_SE3 given grid_H ;;
  Ok {| k_in := cin; k_out := cout; k_groups := groups; k_size := [size; size; size];
        k_gsize := [List.length grid_H]; k_grid_H := grid_H; k_grid_Rn := create_grid_R3 size;
        k_mask := if mask then Some (create_spherical_mask_R3 size) else None;
        k_ops := ops_SE3 T gmode w mode pm |}.
Definition lifting_kernel_SE3 (T : torch_env) (cin cout size groups : nat)
    (mode pm : string) (mask : bool) (grid_H : list M3) : gkernel M3 V3 :=
  {| k_in := cin; k_out := cout; k_groups := groups; k_size := [size; size; size];
     k_gsize := [List.length grid_H]; k_grid_H := grid_H; k_grid_Rn := create_grid_R3 size;
     k_mask := if mask then Some (create_spherical_mask_R3 size) else None;
     k_ops := ops_SE3 T "" 0 mode pm |}.
(** kernel_e2.py:46-74, 118-172, 216-270; (n, m) is group_kernel_size as a pair. *)
Definition kernel_E2 (T : torch_env) (cin cout size groups n m : nat) (gmode : string) (rot ref : R)
    (mode pm : string) (mask : bool) (grid_H : list O2) : result (gkernel O2 V2) :=
  rw <- width_E2_rot rot n grid_H ;;
  fw <- width_E2_ref ref n grid_H ;;
  Ok {| k_in := cin; k_out := cout; k_groups := groups; k_size := [size; size];
        k_gsize := [n; m]; k_grid_H := grid_H; k_grid_Rn := create_grid_R2 size;
        k_mask := if mask then Some (create_spherical_mask_R2 size) else None;
        k_ops := ops_E2 T gmode rw fw n m mode pm |}.
Definition lifting_kernel_E2 (T : torch_env) (cin cout size groups n m : nat)
    (mode pm : string) (mask : bool) (grid_H : list O2) : gkernel O2 V2 :=
  {| k_in := cin; k_out := cout; k_groups := groups; k_size := [size; size];
     k_gsize := [n; m]; k_grid_H := grid_H; k_grid_Rn := create_grid_R2 size;
     k_mask := if mask then Some (create_spherical_mask_R2 size) else None;
     k_ops := ops_E2 T "" 0 0 n m mode pm |}.
(** kernel_e3.py:52-74, 138-168, 232-262. *)
Definition kernel_E3 (T : torch_env) (cin cout size groups n m : nat) (gmode : string) (rot ref : R)
    (mode pm : string) (mask : bool) (grid_H : list O3) : result (gkernel O3 V3) :=
  rw <- width_E3_rot rot n grid_H ;;
  fw <- width_E3_ref ref n grid_H ;;
  Ok {| k_in := cin; k_out := cout; k_groups := groups; k_size := [size; size; size];
        k_gsize := [n; m]; k_grid_H := grid_H; k_grid_Rn := create_grid_R3 size;
        k_mask := if mask then Some (create_spherical_mask_R3 size) else None;
        k_ops := ops_E3 T gmode rw fw n m mode pm |}.
Definition lifting_kernel_E3 (T : torch_env) (cin cout size groups n m : nat)
    (mode pm : string) (mask : bool) (grid_H : list O3) : gkernel O3 V3 :=
  {| k_in := cin; k_out := cout; k_groups := groups; k_size := [size; size; size];
     k_gsize := [n; m]; k_grid_H := grid_H; k_grid_Rn := create_grid_R3 size;
     k_mask := if mask then Some (create_spherical_mask_R3 size) else None;
     k_ops := ops_E3 T "" 0 0 n m mode pm |}.
(** kernel_so3.py:17-64 [GSubgroupKernelSO3]: the default grid_H is a quaternion grid, kept as it is by
    so3.grid_sample, while in_H and out_H are matrices; the grid is closed over here. *)
Definition kernel_SO3 (T : torch_env) (cin cout groups : nat) (gmode : string) (given : R)
    (grid_H : list Q4) : result (gkernel M3 V3) :=
  w <- default_width given (so3_nearest_neighbour_distance grid_H) ;;
  Ok {| k_in := cin; k_out := cout; k_groups := groups; k_size := [1; 1; 1]%nat;
        k_gsize := [List.length grid_H]; k_grid_H := []; k_grid_Rn := mkT [] [];
        k_mask := None;
        k_ops := {| op_inverse := map so3_matrix_inverse;
                    op_left_apply_to_H := so3_left_apply_to_matrix;
                    op_left_apply_to_Rn := act_SE3;
                    op_det := None;
                    op_sample_H := fun S q sig _ =>
                      so3_grid_sample T gmode w S (map so3_matrix_to_quat q) sig grid_H;
                    op_sample_Rn := Err TypeError |} |}.
