(** Model of gconv_tutorial.ipynb: the custom SE(2) convolution built there from the base classes. Cells are numbered from 0,
    lines within a cell from 1. *)
From Coq Require Import String ZArith.
From Verif Require Import Prelude RMath Mat Interp SO2 Tensor Functional Kernel Conv Public.
Open Scope R_scope.

(** cell 5:4-5 [uniform_grid_so2], 7-8 [random_grid_so2] (u the draws of torch.rand), 10-14 [create_grid_R2]. *)
Definition tut_uniform_grid (n : nat) : list R := removelast (linspace 0 (2 * PI) (n + 1)).
Definition tut_random_grid (u : list R) : list R := map (fun x => 2 * PI * x) u.
Definition tut_create_grid_R2 (n : nat) : tensor V2 :=
  let x := linspace (-1) 1 n in
  build [n; n] (fun idx => mkV2 (xat x (nth 0 idx 0%nat)) (xat x (nth 1 idx 0%nat))).

(** cell 7:1-2 [det_so2]. *)
(** Models the tutorial notebook (.ipynb), see the head of the file. *)
Definition tut_det (H : list R) : list R := map (fun _ => 1) H.
(** cell 9:1-2 [inverse_so2]. *)
Definition tut_inverse (H : list R) : list R := map (fun h => - h) H.
(** cell 11:1-3 [left_apply_to_so2]. *)
Definition tut_left_apply (H1 H2 : list R) : list (list R) := map (fun a => map (fun b => Rmod (a + b) (2 * PI)) H2) H1.
(** cell 13:1-13 [left_apply_to_R2], on the flat list of grid points. *)
Definition tut_matrix (h : R) : M2 := mkM2 (cos h) (- sin h) (sin h) (cos h).
Definition tut_left_apply_to_R2 (H : list R) (grid : list V2) : list (list V2) := map (fun h => map (app2 (tut_matrix h)) grid) H.

(** torch.topk(row, 2, largest=False): the indices of the two smallest entries; which ones among equal entries is torch's
    choice. *)
Definition top2_ok (top2 : list R -> nat * nat) : Prop := forall l, (2 <= List.length l)%nat ->
  exists i j a b, top2 l = (i, j) /\ i <> j /\ nth_error l i = Some a /\ nth_error l j = Some b /\ a <= b /\
    forall n z, nth_error l n = Some z -> n <> i -> b <= z.

(** cell 15:1-29 [grid_sample_so2]: "distances" are dot products of unit vectors; topk raises with fewer than two columns;
    signal[neighbours] raises when an index is out of range. *)
(** Models the tutorial notebook (.ipynb), see the head of the file. *)
Definition tut_dot (q s : R) : R := cos q * cos s + sin q * sin s.
Definition tut_grid_sample (top2 : list R -> nat * nat) (S : nat) (grid : list R) (signal : mat) (signal_grid : list R) : result mat :=
  if Nat.ltb (List.length signal_grid) 2 then Err RuntimeError
  else
    let unit := 2 * PI / INR (List.length signal_grid) in
    mapM (fun q =>
      let dist := map (tut_dot q) signal_grid in
      let '(i, j) := top2 dist in
      ri <- of_option IndexError (nth_error signal i) ;;
      rj <- of_option IndexError (nth_error signal j) ;;
      Ok (map2 (fun x y => nth i dist 0 / unit * x + nth j dist 0 / unit * y) ri rj)) grid.

(** cells 17, 19: the keyword arguments of GLiftingKernelSE2 and GSeparableKernelSE2; F.grid_sample, mode "bilinear",
    padding_mode "border". *)
(** Models the tutorial notebook (.ipynb), see the head of the file. *)
Definition tut_ops (top2 : list R -> nat * nat) : gops R V2 := {|
  op_inverse := tut_inverse;
  op_left_apply_to_H := tut_left_apply;
  op_left_apply_to_Rn := tut_left_apply_to_R2;
  op_det := Some tut_det;
  op_sample_H := tut_grid_sample top2;
  op_sample_Rn := sample_R2 "bilinear" "border" |}.

(** cell 17:4-45 [GLiftingKernelSE2.__init__], cell 19:3-44 [GSeparableKernelSE2.__init__]. *)
(** Models the tutorial notebook (.ipynb), see the head of the file. *)
Definition tut_kernel (top2 : list R -> nat * nat) (cin cout size n groups : nat) : gkernel R V2 := {|
  k_in := cin; k_out := cout; k_groups := groups; k_size := [size; size]; k_gsize := [n];
  k_grid_H := tut_uniform_grid n; k_grid_Rn := tut_create_grid_R2 size; k_mask := None; k_ops := tut_ops top2 |}.

(** cell 22:3-41 [GLiftingConvSE2.__init__], cell 24:3-41 [GSeparableConvSE2.__init__]: the kernel is made first (its weight has
    in_channels // groups channels), then the base class GLiftingConv2d / GSeparableConv2d is initialised. *)
(** Models the tutorial notebook (.ipynb), see the head of the file. *)
Definition tut_module (top2 : list R -> nat * nat) (cin cout size n : nat) (groups : Z) (stride : nat) (padding : padarg)
    (dilation : nat) (padding_mode : string) (bias : option (tensor R)) : result (gconv R V2) :=
  g <- kernel_weight_groups cin groups ;;
  gconv_init2 cin cout (AInt size) (GkInt (Z.of_nat n)) (tut_kernel top2 cin cout size n g) groups (AInt stride) padding
    (AInt dilation) padding_mode bias.
