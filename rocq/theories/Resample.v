(** Moving images with the package's own functions, as its equivariance test does:
    gconv/tests/test_equivariance.py:50-62.  torch.nn.functional.grid_sample is re-exported by gconv/gnn/functional/grid.py:5. *)
From Coq Require Import String.
From Verif Require Import Prelude RMath Mat SO2 SO3 Tensor Functional Kernel.
Open Scope R_scope.

(** so3.py:412-424 / so2.py:[left_apply_angle_to_R2] applied to a coordinate grid tensor: shape (|H|, *grid shape). *)
Definition moved_grid {G P} (act : list G -> list P -> list (list P)) (H : list G) (grid : tensor P) : tensor P :=
  mkT (List.length H :: shape grid) (concat (act H (data grid))).

(** test_equivariance.py:52-62: grid = create_grid_R3(n); grid_sample(images, left_apply_to_R3(H, grid), mode, padding_mode).
    The batch entry b is sampled on the grid moved by H[b]. *)
Definition resample_R3 (mode pm : string) (images : tensor R) (H : list M3) (n : nat) : result (tensor R) :=
  smp <- sample_R3 mode pm ;;
  grid_sample smp images (moved_grid act_SE3 H (create_grid_R3 n)).

(** The same experiment in the plane (so2.left_apply_angle_to_R2, create_grid_R2). *)
(** Models tests/test_equivariance.py:27-90: rotating an image with grid_sample. *)
Definition resample_R2 (mode pm : string) (images : tensor R) (H : list R) (n : nat) : result (tensor R) :=
  smp <- sample_R2 mode pm ;;
  grid_sample smp images (moved_grid act_SE2 H (create_grid_R2 n)).
