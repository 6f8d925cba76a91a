(** Where tensors live: a model of the device and the element type (dtype) of every tensor that
    the geometry package, the kernels and the layers create or combine.

    This is a second, coarser reading of the same code as the value model (which has neither devices
    nor dtypes): a tensor is represented by its device and dtype only. Torch's rules used here:
    an operation on two tensors raises RuntimeError when they are on different devices, except
    that a zero-dimensional CPU tensor may be combined with a tensor on any device; elementwise
    operations and torch.cat promote dtypes; matmul, linalg.solve, grid_sample and the convolutions
    require equal dtypes. [dd] is torch's default dtype, fixed while the program runs; the
    default device is the CPU. Half precision is not modelled. *)
From Coq Require Import String.
From Verif Require Import Prelude SO3.

(** Models torch.device, torch.dtype and torch.result_type of the tensors created with device=... in so2.py, so3.py, o2.py, o3.py, grid.py, mask.py. *)
Inductive device := CPU | GPU (n : nat).
Inductive dtype := F32 | F64 | I64.
Record place := mkP { p_dev : device; p_dt : dtype }.

(** Models torch.device, torch.dtype and torch.result_type of the tensors created with device=... in so2.py, so3.py, o2.py, o3.py, grid.py, mask.py. *)
Definition dev_eqb (a b : device) : bool :=
  match a, b with CPU, CPU => true | GPU m, GPU n => Nat.eqb m n | _, _ => false end.
Definition dt_eqb (a b : dtype) : bool :=
  match a, b with F32, F32 => true | F64, F64 => true | I64, I64 => true | _, _ => false end.

(** Torch's type promotion of the three dtypes. *)
(** Models torch.device, torch.dtype and torch.result_type of the tensors created with device=... in so2.py, so3.py, o2.py, o3.py, grid.py, mask.py. *)
Definition promote (a b : dtype) : dtype :=
  match a, b with
  | F64, _ | _, F64 => F64
  | F32, _ | _, F32 => F32
  | I64, I64 => I64
  end.

(** +, *, /, comparison, torch.cat of two tensors. *)
Definition pointwise (a b : place) : result place :=
  if dev_eqb (p_dev a) (p_dev b) then Ok (mkP (p_dev a) (promote (p_dt a) (p_dt b)))
  else Err RuntimeError.
(** matmul, linalg.solve, grid_sample, conv: equal devices and dtypes. *)
Definition strict (a b : place) : result place :=
  if dev_eqb (p_dev a) (p_dev b) && dt_eqb (p_dt a) (p_dt b) then Ok a else Err RuntimeError.
(** A tensor combined with a zero-dimensional tensor on device [w]. *)
Definition with_scalar (a : place) (w : device) : result place :=
  if dev_eqb w (p_dev a) || dev_eqb w CPU then Ok a else Err RuntimeError.

(** [device=None] means the CPU. *)
(** Models torch.device, torch.dtype and torch.result_type of the tensors created with device=... in so2.py, so3.py, o2.py, o3.py, grid.py, mask.py. *)
Definition on (d : option device) : device := match d with Some d => d | None => CPU end.

(** torch.Tensor(data, device=d), the legacy constructor: CPU only. *)
Definition legacy_tensor (dd : dtype) (d : option device) : result place :=
  match on d with CPU => Ok (mkP CPU dd) | GPU _ => Err RuntimeError end.

(** torch.linspace / torch.rand / torch.randn / torch.ones (..., device=d). *)
Definition fresh (dd : dtype) (d : option device) : place := mkP (on d) dd.

(** * gconv/geometry/groups *)

(** so2.py:50-61 [uniform_grid], 64-75 [random_grid]. *)
Definition so2_uniform_grid_place (dd : dtype) (d : option device) : result place := Ok (fresh dd d).
Definition so2_random_grid_place (dd : dtype) (d : option device) : result place := Ok (fresh dd d).

(** o2.py:9-37 [uniform_grid]. *)
Definition o2_uniform_grid_place (dd : dtype) (d : option device) : result place :=
  a1 <- so2_uniform_grid_place dd d ;;
  a2 <- so2_uniform_grid_place dd d ;;
  angles <- pointwise a1 a2 ;;
  coeffs <- pointwise (fresh dd d) (fresh dd d) ;;
  pointwise coeffs angles.

(** o2.py:40-59 [random_grid]: the coefficients 2 * (torch.rand(size, 1) > 0.5) - 1 are integers
    and are created without the device argument. *)
Definition o2_random_grid_place (dd : dtype) (d : option device) : result place :=
  angles <- so2_random_grid_place dd d ;;
  pointwise (mkP CPU I64) angles.

(** so3.py:498-542 [random_quat], [random_matrix], [random_euler]. *)
Definition so3_random_place (dd : dtype) (d : option device) : result place := Ok (fresh dd d).

(** o3.py:46-60 [random_grid], for an int size: same defect as o2.random_grid. *)
Definition o3_random_grid_place (dd : dtype) (d : option device) : result place :=
  r <- so3_random_place dd d ;;
  pointwise (mkP CPU I64) r.

(** so3.py:719-902 [identity], [klein_group], [tetrahedral], [octahedral], [icosahedral]. *)
Definition so3_table_place (dd : dtype) (d : option device) : result place := legacy_tensor dd d.

(** so3.py:905-966 [cyclic_x], [cyclic_y], [cyclic_z], [cyclic]: the linspace is made without
    the device argument. *)
Definition so3_cyclic_place (dd : dtype) (d : option device) : result place := Ok (fresh dd None).

(** s2.py:52-65 [random_s2], and 82-145 [uniform_grid_s2] when it returns. *)
Definition s2_random_place (dd : dtype) (d : option device) : result place := Ok (fresh dd d).

(** The places of the cached grids: size -> place, for "quat" and for "matrix". *)
(** Models _grid_cache.py:4-29: what the cache holds. *)
Record pcache := mkPC { pc_quat : nat -> option place; pc_matrix : nat -> option place }.

(** _grid_cache.py:29-2016: torch.Tensor([...]) for the sizes 1 to 24. *)
Definition pinit (dd : dtype) : pcache :=
  let t n := if (Nat.leb 1 n && Nat.leb n 24)%bool then Some (mkP CPU dd) else None in
  mkPC t t.

(** Models so3.py:545-610: a missing cache entry. *)
Definition of_opt {A} (e : exn) (o : option A) : result A :=
  match o with Some a => Ok a | None => Err e end.

(** _grid_cache.py:25-26 [load_grid] of grid type "so3". *)
Definition load_place (c : pcache) (size : nat) (param : string) : result place :=
  let p := lower param in
  if String.eqb p "quat" then of_opt KeyError (pc_quat c size)
  else if String.eqb p "matrix" then of_opt KeyError (pc_matrix c size)
  else Err KeyError.

(** Models _grid_cache.py:4-29: what the cache holds. *)
Definition pset (f : nat -> option place) (n : nat) (x : place) : nat -> option place :=
  fun k => if Nat.eqb k n then Some x else f k.

(** _grid_cache.py:4-22 [save_grid], overwrite=False. *)
Definition save_place (c : pcache) (x : place) (n : nat) (param : string) : result pcache :=
  match load_place c n param with
  | Ok _ => Ok c
  | Err _ =>
    let p := lower param in
    if String.eqb p "quat" then Ok (mkPC (pset (pc_quat c) n x) (pc_matrix c))
    else if String.eqb p "matrix" then Ok (mkPC (pc_quat c) (pset (pc_matrix c) n x))
    else Err KeyError
  end.

(** so3.py:545-610 [uniform_grid]: line 572 for size 0, line 574 returns the cached tensor
    whatever the device argument. *)
Definition so3_uniform_grid_place (dd : dtype) (c : pcache) (size : nat) (param : string)
    (cache : bool) (d : option device) : pcache * result place :=
  if Nat.eqb size 0 then (c, legacy_tensor dd d)
  else match load_place c size param with
  | Ok x => (c, Ok x)
  | Err _ =>
    let p := lower param in
    if (String.eqb p "quat" || String.eqb p "matrix" || String.eqb p "euler")%bool then
      let grid := fresh dd d in
      match (if cache then save_place c grid size p else Ok c) with
      | Err e => (c, Err e)
      | Ok c' => (c', Ok grid)
      end
    else (c, Err ValueError)
  end.

(** o3.py:8-43 [uniform_grid] ("matrix" grids, never cached). Only where the tensors live is
    decided here; which sizes can be stacked at all is in GridCache.v [o3_uniform_grid]. *)
Definition o3_uniform_grid_place (dd : dtype) (c : pcache) (n m : nat) (matrix_only : bool)
    (d : option device) : result place :=
  r1 <- snd (so3_uniform_grid_place dd c n "matrix" false d) ;;
  r2 <- snd (so3_uniform_grid_place dd c m "matrix" false d) ;;
  r <- pointwise r1 r2 ;;
  if matrix_only then Ok r
  else
    coeffs <- pointwise (fresh dd d) (fresh dd d) ;;
    pointwise coeffs r.

(** One call of so3.uniform_grid, and a history of calls. *)
(** A history of calls of so3.py:545-610 (uniform_grid). *)
Record pcall := mkCall { c_size : nat; c_param : string; c_cache : bool; c_dev : option device }.
Definition pstep (dd : dtype) (c : pcache) (a : pcall) : pcache :=
  fst (so3_uniform_grid_place dd c (c_size a) (c_param a) (c_cache a) (c_dev a)).
Definition prun (dd : dtype) (c : pcache) (l : list pcall) : pcache := fold_left (pstep dd) l c.

(** * gconv/gnn/functional *)

(** grid.py:8-23, 26-41 [create_grid_R3], [create_grid_R2]. *)
Definition create_grid_place (dd : dtype) (d : option device) : place := fresh dd d.
(** mask.py:7-20, 23-36: the grid is created on the CPU and moved; .float() is float32. *)
Definition create_mask_place (dd : dtype) (d : option device) : place := mkP (on d) F32.

(** * Layers *)

(** Models gconv_sen/, gconv_en/ and gconv.py:207, 258, 330. *)
Inductive family := SE2 | SE3 | E2 | E3.
Inductive kind := Lifting | Separable | Full.

(** What a public layer holds: its options, and the places of its tensors. [m_width] is the
    device of the default sampling width, a zero-dimensional tensor kept in a plain dict
    (None when the user gave a number, and for lifting kernels, which have no width). *)
(** Models kernel.py:102-105, 162-164, 242-246, 422-429, gconv.py:140-143: the tensors of a layer. *)
Record pmodule := mkPM {
  m_fam : family; m_kind : kind; m_permute : bool; m_rbf : bool; m_width : option device;
  m_weight : place;               (* the parameters weight and weight_H *)
  m_grid_H : place; m_grid_Rn : place; m_mask : option place; m_bias : option place
}.

(** kernel_sen/*.py, kernel_en/*.py, kernel.py:102-105,162-172,241-255,422-437 and gconv.py:90-145: what the
    constructors create. [g] is the place of the grid_H argument; without it the grid is
    created on the CPU. The default width is 0.8 times a mean over grid_H, on its device. *)
Definition build (dd : dtype) (f : family) (k : kind) (permute rbf default_width mask bias : bool)
    (g : option place) : pmodule :=
  let gh := match g with Some x => x | None => mkP CPU dd end in
  mkPM f k permute rbf
    (match k with Lifting => None | _ => if default_width then Some (p_dev gh) else None end)
    (mkP CPU dd) gh (create_grid_place dd None)
    (if mask then Some (create_mask_place dd None) else None)
    (if bias then Some (mkP CPU dd) else None).

(** torch.nn.Module.to(device=..., dtype=...): parameters and buffers (kernel.py:102-105) are moved,
    attributes such as the width are not. *)
Record move := mkMove { mv_dev : option device; mv_dt : option dtype }.
Definition move_place (mv : move) (x : place) : place :=
  mkP (match mv_dev mv with Some d => d | None => p_dev x end)
      (match mv_dt mv with Some t => t | None => p_dt x end).
Definition module_to (m : pmodule) (mv : move) : pmodule :=
  mkPM (m_fam m) (m_kind m) (m_permute m) (m_rbf m) (m_width m)
    (move_place mv (m_weight m)) (move_place mv (m_grid_H m)) (move_place mv (m_grid_Rn m))
    (option_map (move_place mv) (m_mask m)) (option_map (move_place mv) (m_bias m)).

(** The random element applied to the output grid: gconv_se2.py:87, gconv_se3.py:87,
    gconv_e2.py:92, gconv_e3.py:92 (and the other two layers of each file). *)
Definition random_element (dd : dtype) (f : family) (d : device) : result place :=
  match f with
  | SE2 => so2_random_grid_place dd (Some d)
  | SE3 => so3_random_place dd (Some d)
  | E2 => o2_random_grid_place dd (Some d)
  | E3 => o3_random_grid_place dd (Some d)
  end.

(** so2.py:104-116, o2.py:91-105: elementwise; so3.py:427-438, o3.py:63-84: a matmul (and, for o3, a
    product and a cat). Also the pairwise versions so2.py:119-131, o2.py:108-123, so3.py:441-452,
    o3.py:87-108. *)
Definition product_place (f : family) (a b : place) : result place :=
  match f with
  | SE2 => pointwise a b
  | E2 => c <- pointwise a b ;; t <- pointwise a b ;; pointwise c t
  | SE3 => strict a b
  | E3 => r <- strict a b ;; c <- pointwise a b ;; pointwise c r
  end.

(** so2.py:134-161, so3.py:412-424: matmul; o2.py:126-142, o3.py:111-124: times the coefficients. *)
Definition apply_Rn_place (f : family) (h grid : place) : result place :=
  match f with
  | SE2 | SE3 => strict h grid
  | E2 | E3 => r <- strict h grid ;; pointwise h r
  end.

(** interpolation.py:22-55 [interpolate_RBF] and 58-86 [interpolate_NN], as called by the four
    grid_sample functions; the rbf divides the distances by the width. *)
Definition sample_H_place (rbf : bool) (w : option device) (nodes signal grid : place) : result place :=
  if rbf then
    dg <- pointwise grid grid ;;
    m <- match w with Some d => with_scalar dg d | None => Ok dg end ;;
    coeffs <- strict m signal ;;
    dn <- pointwise nodes grid ;;
    p <- match w with Some d => with_scalar dn d | None => Ok dn end ;;
    strict p coeffs
  else
    idx <- pointwise nodes grid ;;
    if dev_eqb (p_dev idx) (p_dev signal) then Ok signal else Err RuntimeError.

(** kernel.py:190-194, 299-303, 478-482: mask, then the determinant (E(n) kernels only). *)
Definition finish_place (m : pmodule) (w h : place) : result place :=
  w1 <- match m_mask m with Some k => pointwise k w | None => Ok w end ;;
  match m_fam m with E2 | E3 => pointwise w1 h | _ => Ok w1 end.

(** kernel.py:174-196 [GLiftingKernel.forward]; [h] is H (the inverse keeps the place). *)
Definition lifting_kernel_place (m : pmodule) (h : place) : result place :=
  g <- apply_Rn_place (m_fam m) h (m_grid_Rn m) ;;
  w <- strict (m_weight m) g ;;
  finish_place m w h.

(** kernel.py:257-305 [GSeparableKernel.forward]: the group weights and the spatial weights. *)
Definition separable_kernel_place (m : pmodule) (hin hout : place) : result (place * place) :=
  hh <- product_place (m_fam m) hout hin ;;
  g <- apply_Rn_place (m_fam m) hout (m_grid_Rn m) ;;
  wh <- sample_H_place (m_rbf m) (m_width m) hh (m_weight m) (m_grid_H m) ;;
  w <- strict (m_weight m) g ;;
  w' <- finish_place m w hout ;;
  Ok (wh, w').

(** kernel.py:439-484 [GKernel.forward]. *)
Definition full_kernel_place (m : pmodule) (hin hout : place) : result place :=
  hh <- product_place (m_fam m) hout hin ;;
  g <- apply_Rn_place (m_fam m) hout (m_grid_Rn m) ;;
  wh <- sample_H_place (m_rbf m) (m_width m) hh (m_weight m) (m_grid_H m) ;;
  w <- strict wh g ;;
  finish_place m w hout.

(** Models gconv.py:252-253, 324-325, 381-382. *)
Definition add_bias_place (m : pmodule) (x : place) : result place :=
  match m_bias m with Some b => pointwise x b | None => Ok x end.

(** gconv.py:238-256, 292-328, 361-384: the convolution(s) and the bias. *)
Definition conv_place (m : pmodule) (x hin hout : place) : result (place * place) :=
  match m_kind m with
  | Lifting =>
    w <- lifting_kernel_place m hout ;;
    y <- strict x w ;;
    z <- add_bias_place m y ;; Ok (z, hout)
  | Separable =>
    ww <- separable_kernel_place m hin hout ;;
    y <- strict x (fst ww) ;;
    y2 <- strict y (snd ww) ;;
    z <- add_bias_place m y2 ;; Ok (z, hout)
  | Full =>
    w <- full_kernel_place m hin hout ;;
    y <- strict x w ;;
    z <- add_bias_place m y ;; Ok (z, hout)
  end.

(** The public forwards, gconv_se2.py:80-89,172-183,265-276, gconv_se3.py:80-89,172-184,267-279,
    gconv_e2.py:85-94,183-193,281-291, gconv_e3.py:85-94,183-193,281-291: [hin] is the input grid (ignored by the
    lifting layers), [hout] the optional output grid. *)
Definition call_place (dd : dtype) (m : pmodule) (x hin : place) (hout : option place)
    : result (place * place) :=
  let h := match hout with
           | Some h => h
           | None => match m_kind m, m_fam m with
                     | Lifting, _ => m_grid_H m
                     | _, (SE2 | SE3) => hin
                     | _, (E2 | E3) => m_grid_H m
                     end
           end in
  h' <- (if m_permute m then
           q <- random_element dd (m_fam m) (p_dev x) ;;
           product_place (m_fam m) q h
         else Ok h) ;;
  conv_place m x hin h'.
