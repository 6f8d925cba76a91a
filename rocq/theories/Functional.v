(** Model of gconv/gnn/functional/grid.py and mask.py, and of the torch function they re-export
    (torch.nn.functional.grid_sample with its default align_corners=False). *)
From Coq Require Import String.
From Verif Require Import Prelude RMath Mat Tensor.
Open Scope R_scope.

(** x[i] of a 1-d coordinate vector. *)
(** Models grid.py:19-21, 37-39: the coordinate vector before meshgrid. *)
Definition xat (x : list R) (i : nat) : R := nth i x 0.

(** grid.py:8-23 [create_grid_R3]: meshgrid(indexing="ij") then stack((Z, Y, X)). *)
Definition create_grid_R3 (size : nat) : tensor V3 :=
  let x := linspace (-1) 1 size in
  let X idx := xat x (nth 0 idx 0%nat) in
  let Y idx := xat x (nth 1 idx 0%nat) in
  let Z idx := xat x (nth 2 idx 0%nat) in
  build [size; size; size] (fun idx => mkV3 (Z idx) (Y idx) (X idx)).

(** grid.py:26-41 [create_grid_R2]: meshgrid(indexing="xy"), i.e. X[i,j] = x[j] and
    Y[i,j] = x[i], then stack((Y, X)). *)
Definition create_grid_R2 (size : nat) : tensor V2 :=
  let x := linspace (-1) 1 size in
  let X idx := xat x (nth 1 idx 0%nat) in
  let Y idx := xat x (nth 0 idx 0%nat) in
  build [size; size] (fun idx => mkV2 (Y idx) (X idx)).

(** mask.py:7-20 [create_spherical_mask_R3], mask.py:23-36 [create_spherical_mask_R2]. *)
Definition tmap {A B} (f : A -> B) (t : tensor A) : tensor B := mkT (shape t) (map f (data t)).
Definition lt_float (x y : R) : R := if Rlt_dec x y then 1 else 0.
Definition create_spherical_mask_R3 (size : nat) : tensor R :=
  tmap (fun v => lt_float (norm3 v) (11 / 10)) (create_grid_R3 size).
Definition create_spherical_mask_R2 (size : nat) : tensor R :=
  tmap (fun v => lt_float (norm2 v) (11 / 10)) (create_grid_R2 size).

(** ** torch.nn.functional.grid_sample (ATen GridSampler), align_corners = False *)

(** Unnormalisation of a coordinate along an axis of [n] cells. *)
(** Models gconv/gnn/functional/grid.py:5 (torch.nn.functional.grid_sample, called at kernel.py:181-185, 288-292, 462-466). *)
Definition gs_unnormalize (n : nat) (x : R) : R := ((x + 1) * INR n - 1) / 2.

(** Models gconv/gnn/functional/grid.py:5 (torch.nn.functional.grid_sample, called at kernel.py:181-185, 288-292, 462-466). *)
Inductive gs_padding := GsZeros | GsBorder | GsReflect.
(** ATen reflect_coordinates between -1/2 and n - 1/2. *)
Definition gs_reflect (n : nat) (u : R) : R :=
  let x := Rabs (u + 1 / 2) in
  let flips := Int_part (x / INR n) in
  let extra := x - INR n * IZR flips in
  if Z.even flips then extra - 1 / 2 else INR n - extra - 1 / 2.
(** ATen compute_coordinates: padding_mode "border" clips to [0, n-1], "reflection" reflects and clips; "zeros" leaves the
    coordinate. *)
Definition gs_place (pm : gs_padding) (n : nat) (u : R) : R :=
  match pm with
  | GsZeros => u
  | GsBorder => clamp u 0 (INR n - 1)
  | GsReflect => clamp (gs_reflect n u) 0 (INR n - 1)
  end.
Definition gs_coord (pm : gs_padding) (n : nat) (x : R) : R := gs_place pm n (gs_unnormalize n x).

(** nearbyint in the default rounding mode: half to even. *)
(** Models gconv/gnn/functional/grid.py:5 (torch.nn.functional.grid_sample, called at kernel.py:181-185, 288-292, 462-466). *)
Definition rne (x : R) : Z :=
  let f := Int_part x in
  if Rlt_dec (x - IZR f) (1 / 2) then f
  else if Rlt_dec (1 / 2) (x - IZR f) then (f + 1)%Z
  else if Z.even f then f else (f + 1)%Z.

(** Read an image (row-major data over shape s) at an integer cell, 0 outside. *)
(** Models gconv/gnn/functional/grid.py:5 (torch.nn.functional.grid_sample, called at kernel.py:181-185, 288-292, 462-466). *)
Definition in_range (n : nat) (z : Z) : bool := (Z.leb 0 z && Z.ltb z (Z.of_nat n))%bool.
Definition gs_read (s : list nat) (im : list R) (z : list Z) : R :=
  if forallb (fun nz => in_range (fst nz) (snd nz)) (combine s z)
  then at_ (mkT s im) (map Z.to_nat z) else 0.

(** mode = "nearest"; [u] are the coordinates in axis order (slowest axis first). *)
(** Models gconv/gnn/functional/grid.py:5 (torch.nn.functional.grid_sample, called at kernel.py:181-185, 288-292, 462-466). *)
Definition gs_nearest (pm : gs_padding) (s : list nat) (im : list R) (u : list R) : R :=
  gs_read s im (map2 (fun n x => rne (gs_coord pm n x)) s u).

(** mode = "bilinear" (trilinear in 3d): the weighted sum over the 2^rank surrounding cells. *)
(** Models gconv/gnn/functional/grid.py:5 (torch.nn.functional.grid_sample, called at kernel.py:181-185, 288-292, 462-466). *)
Fixpoint gs_corners (cs : list R) (w : R) (acc : list Z) (f : R -> list Z -> R) : R :=
  match cs with
  | [] => f w (rev acc)
  | c :: cs' =>
    let z := Int_part c in
    gs_corners cs' (w * (IZR (z + 1) - c)) (z :: acc) f +
    gs_corners cs' (w * (c - IZR z)) ((z + 1)%Z :: acc) f
  end.
Definition gs_linear (pm : gs_padding) (s : list nat) (im : list R) (u : list R) : R :=
  gs_corners (map2 (fun n x => gs_coord pm n x) s u) 1 [] (fun w z => w * gs_read s im z).

(** mode = "bicubic" (images only): cubic convolution with A = -3/4 over 4 x 4 cells; the padding mode moves the cells (their
    coordinates are not moved before). ATen get_cubic_upsample_coefficients, cubic_interp1d, get_value_bounded. *)
(** Models gconv/gnn/functional/grid.py:5 (torch.nn.functional.grid_sample, called at kernel.py:181-185, 288-292, 462-466). *)
Definition cubic1 (x : R) : R := ((5 / 4 * x - 9 / 4) * x) * x + 1.
Definition cubic2 (x : R) : R := ((- 3 / 4 * x + 15 / 4) * x - 6) * x + 3.
Definition cubic_coeffs (t : R) : list R := [cubic2 (t + 1); cubic1 t; cubic1 (1 - t); cubic2 (2 - t)].
Definition gs_cell (pm : gs_padding) (n : nat) (z : Z) : Z := Int_part (gs_place pm n (IZR z)).
Definition gs_cubic (pm : gs_padding) (s : list nat) (im : list R) (u : list R) : R :=
  let n0 := nth 0 s 0%nat in
  let n1 := nth 1 s 0%nat in
  let c0 := gs_unnormalize n0 (nth 0 u 0) in
  let c1 := gs_unnormalize n1 (nth 1 u 0) in
  let z0 := Int_part c0 in
  let z1 := Int_part c1 in
  let interp (f : Z -> R) (z : Z) (t : R) :=
    fold_right Rplus 0 (map2 (fun c i => c * f (z + i)%Z) (cubic_coeffs t) [-1; 0; 1; 2]%Z) in
  interp (fun a => interp (fun b => gs_read s im [gs_cell pm n0 a; gs_cell pm n1 b]) z1 (c1 - IZR z1)) z0 (c0 - IZR z0).

(** grid[..., 0] addresses the last axis, so the axis order is the reverse of the coordinates. *)
(** Models gconv/gnn/functional/grid.py:5 (torch.nn.functional.grid_sample, called at kernel.py:181-185, 288-292, 462-466). *)
Definition axis2 (v : V2) : list R := [v2y v; v2x v].
Definition axis3 (v : V3) : list R := [vz v; vy v; vx v].

(** A spatial sampler maps an image (shape and row-major data) and a point to a value. *)
(** Models gconv/gnn/functional/grid.py:5 (torch.nn.functional.grid_sample, called at kernel.py:181-185, 288-292, 462-466). *)
Definition sampler (P : Type) := list nat -> list R -> P -> R.
Definition gs2 (linear : bool) (pm : gs_padding) : sampler V2 := fun s im v =>
  if linear then gs_linear pm s im (axis2 v) else gs_nearest pm s im (axis2 v).
Definition gs3 (linear : bool) (pm : gs_padding) : sampler V3 := fun s im v =>
  if linear then gs_linear pm s im (axis3 v) else gs_nearest pm s im (axis3 v).

(** Models gconv/gnn/functional/grid.py:5 (torch.nn.functional.grid_sample, called at kernel.py:181-185, 288-292, 462-466). *)
Definition gs2_cubic (pm : gs_padding) : sampler V2 := fun s im v => gs_cubic pm s im (axis2 v).

(** The mode and padding_mode strings: anything but "bilinear", "nearest", "bicubic", respectively "zeros", "border",
    "reflection", raises ValueError. "bicubic" is dealt with in Kernel.v (it raises RuntimeError in 3d). *)
(** Models gconv/gnn/functional/grid.py:5 (torch.nn.functional.grid_sample, called at kernel.py:181-185, 288-292, 462-466). *)
Definition gs_mode (mode : string) : result bool :=
  if String.eqb mode "bilinear" then Ok true
  else if String.eqb mode "nearest" then Ok false
  else Err ValueError.
Definition gs_pad (pm : string) : result gs_padding :=
  if String.eqb pm "zeros" then Ok GsZeros
  else if String.eqb pm "border" then Ok GsBorder
  else if String.eqb pm "reflection" then Ok GsReflect
  else Err ValueError.

(** The batched call grid_sample(input, grid): input (B, C, *s), grid (B, *s', n). The batch sizes
    must agree and the image must not be empty. Entry (b, c, x) samples the image input[b, c] at the point grid[b, x]. *)
(** Models gconv/gnn/functional/grid.py:5 (torch.nn.functional.grid_sample, called at kernel.py:181-185, 288-292, 462-466). *)
Definition grid_sample {P} {D : Dflt P} (smp : sampler P) (input : tensor R) (grid : tensor P)
  : result (tensor R) :=
  match shape input, shape grid with
  | b :: c :: s, b' :: s' =>
    if (Nat.eqb b b' && negb (Nat.eqb (prodn s) 0))%bool then
      Ok (build (b :: c :: s') (fun idx =>
        smp s (slice input s [nth 0 idx 0%nat; nth 1 idx 0%nat])
              (at_ grid (nth 0 idx 0%nat :: skipn 2 idx))))
    else Err RuntimeError
  | _, _ => Err RuntimeError
  end.
