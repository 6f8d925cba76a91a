(** Memory layout. Everywhere else in this development a tensor is its row-major list of entries; here a tensor
    is what torch keeps: a memory, an offset into it, and one stride per axis. With it [Tensor.view] raises for the
    layouts on which no strides describe the new shape, while [Tensor.reshape] and [Tensor.flatten] copy. *)
From Verif Require Import Prelude RMath Mat Tensor Layers Kernel Conv.
Open Scope nat_scope.

(** torch.Tensor as a window on a storage (used at normalization.py:8-9, 14-15, 25-26, 31-32, pooling.py:13-112,
    gconv.py:250, 302, 322, 370, 379). Simplification: the storage is a total function, so that reading outside
    of it is not an error of the model; entries are reals. *)
Record strided := mkS { s_shape : list nat; s_strides : list nat; s_offset : nat; s_memory : nat -> R }.

(** The distance from the offset of the entry at a multi-index. *)
(** Models torch.Tensor indexing, as used by every operation of gconv.py and normalization.py. *)
Fixpoint dot (st idx : list nat) : nat :=
  match st, idx with s :: st', i :: idx' => s * i + dot st' idx' | _, _ => 0 end.

(** The entries of the tensor, in row-major order: what every other file of this development calls the tensor. *)
(** Models torch.Tensor, as read by every operation of gconv.py and normalization.py. *)
Definition dense (x : strided) : tensor R :=
  build (s_shape x) (fun idx => s_memory x (s_offset x + dot (s_strides x) idx)).

(** ATen/TensorUtils.cpp computeStride_impl, called by torch.Tensor.view (normalization.py:9, gconv.py:250, ...):
    walks the axes of the tensor from the last to the first (the lists are reversed), collecting them into chunks
    of consecutive memory ([base]: the stride of the chunk, [numel]: its number of entries); the axes of the new
    shape must fill every chunk exactly. *)
Fixpoint fill_chunk (numel base vn : nat) (rnew : list nat) : list nat * nat * list nat :=
  match rnew with
  | n :: r =>
    if Nat.ltb vn numel || Nat.eqb n 1
    then let '(st, v, rest) := fill_chunk numel base (vn * n) r in (vn * base :: st, v, rest)
    else ([], vn, rnew)
  | [] => ([], vn, [])
  end.
Fixpoint fill_chunks (base numel : nat) (rsh rst rnew : list nat) : option (list nat) :=
  match rsh, rst with
  | n :: rsh', s :: rst' =>
    if Nat.eqb n 1 || Nat.eqb s (numel * base) then fill_chunks base (numel * n) rsh' rst' rnew
    else
      let '(st, vn, rest) := fill_chunk numel base 1 rnew in
      if Nat.eqb vn numel
      then match fill_chunks s n rsh' rst' rest with Some more => Some (st ++ more) | None => None end
      else None
  | _, _ =>
    let '(st, vn, rest) := fill_chunk numel base 1 rnew in
    if Nat.eqb vn numel then match rest with [] => Some st | _ => None end else None
  end.
(** Strides of a contiguous tensor. *)
(** Models torch.Tensor.contiguous, and the layout of a fresh tensor (gconv.py, normalization.py). *)
Fixpoint packed (sh : list nat) : list nat :=
  match sh with [] => [] | _ :: r => prodn r :: packed r end.
(** The same with empty axes counted once: computeStride_impl of an empty tensor. *)
Definition view_strides (sh st new : list nat) : option (list nat) :=
  if Nat.eqb (prodn sh) 0 then
    if list_eq_dec Nat.eq_dec sh new then Some st else Some (packed (map (Nat.max 1) new))
  else
    match rev sh, rev st with
    | n :: rsh, s :: rst =>
      match fill_chunks s n rsh rst (rev new) with Some r => Some (rev r) | None => None end
    | _, _ => Some (map (fun _ => 1) new)
    end.
(** torch.Tensor.view without -1 (normalization.py:9, 15, 26, 32; gconv.py:250, 322, 379; pooling.py:13-112). *)
Definition sview (new : list nat) (x : strided) : result strided :=
  if Nat.eqb (prodn new) (prodn (s_shape x)) then
    match view_strides (s_shape x) (s_strides x) new with
    | Some st => Ok (mkS new st (s_offset x) (s_memory x))
    | None => Err RuntimeError
    end
  else Err RuntimeError.

(** ** The layers on tensors in memory

    The result of an operation of torch is a fresh tensor; which layout it is given depends on the backend, the
    memory format of the operands and the kind of operation. [place] is that choice: any function that gives each
    tensor of values some layout with those values. A module may of course be given a view of something else. *)

(** torch.Tensor.reshape and flatten: a copy when there is no view. Their values are those of [Tensor.view]
    whatever the layout, and so the layers below take them from [dense].
    gconv.py:302, 370; pooling.py:13-112. *)

(** normalization.py:6-15, 23-32 on a tensor in memory. *)
Definition s_norm {G} (place : tensor R -> strided) (base : norm_state -> tensor R -> result (tensor R * norm_state))
    (s : norm_state) (x : strided) (H : list G) : result (strided * list G * norm_state) :=
  match s_shape x with
  | N :: C :: n :: Z :: dims =>
    v <- sview (N :: C :: n * Z :: dims) x ;;
    r <- base s (dense v) ;;
    y <- sview (N :: C :: n :: Z :: dims) (place (fst r)) ;;
    Ok (y, H, snd r)
  | _ => Err ValueError
  end.
(** normalization.py:6-15 [GBatchNorm2d], [GBatchNorm3d] and normalization.py:23-32 [GInstanceNorm2d], [GInstanceNorm3d]. *)
Definition s_batch_norm {G} (place : tensor R -> strided) (d : nat)
  : norm_state -> strided -> list G -> result (strided * list G * norm_state) := s_norm place (batch_norm d).
Definition s_instance_norm {G} (place : tensor R -> strided) (d : nat)
  : norm_state -> strided -> list G -> result (strided * list G * norm_state) := s_norm place (instance_norm d).
(** normalization.py:18-20 [GLayerNorm]: no view. *)
Definition s_layer_norm {G} (place : tensor R -> strided) (ns : list nat) (eps : R) (w b : option (tensor R)) (x : strided) (H : list G)
  : result (strided * list G) :=
  y <- layer_norm ns eps w b (dense x) ;; Ok (place y, H).

(** pooling.py:7-22, 43-58, 79-112: flatten, the pool, and a view of its result. *)
Definition s_spatial_pool {G} (place : tensor R -> strided) (d : nat) (spec : poolspec) (x : strided) (H : list G)
  : result (strided * list G) :=
  f <- flatten12 (dense x) ;;
  y <- pool_forward d spec f ;;
  if returns_pair spec then Err AttributeError
  else v <- sview (firstn 3 (s_shape x)) (place y) ;; Ok (v, H).

Section Layer.
  Context {G P : Type} {D : Dflt P} (L : gconv G P) (place : tensor R -> strided).

  (** gconv.py:252-253, 324-325, 381-382: without bias the result stays the view of the convolution. *)
  Definition s_add_bias (x : strided) : result strided :=
    match l_bias L with None => Ok x | Some _ => y <- add_bias L (dense x) ;; Ok (place y) end.

  (** gconv.py:238-255 [GLiftingConvNd.forward] on a tensor in memory; the weight is read through reshape. *)
  Definition s_lifting_forward (weight : tensor R) (input : strided) (H : list G) : result (strided * list G) :=
    let N := nth 0 (s_shape input) 0 in
    w <- lifting_kernel_forward (l_kernel L) weight H ;;
    w <- view_lead ((l_in L / l_groups L) :: l_ks L) w ;;
    x <- conv_forward L (dense input) w (l_groups L) ;;
    x <- sview (N :: l_out L :: length H :: skipn 2 (shape x)) (place x) ;;
    x <- s_add_bias x ;;
    Ok (x, H).

  (** gconv.py:361-384 [GConvNd.forward] on a tensor in memory; the input is read through reshape. *)
  Definition s_group_forward_with (kernel_forward : list G -> list G -> result (tensor R))
      (input : strided) (in_H out_H : list G) : result (strided * list G) :=
    match s_shape input with
    | N :: _ :: _ :: dims =>
      let num_in := length in_H in
      let num_out := length out_H in
      w <- kernel_forward in_H out_H ;;
      i <- view (N :: l_in L * num_in :: dims) (dense input) ;;
      w <- view (l_out L * num_out :: (l_in L / l_groups L) * num_in :: l_ks L) w ;;
      x <- conv_forward L i w (l_groups L) ;;
      x <- sview (N :: l_out L :: num_out :: skipn 2 (shape x)) (place x) ;;
      x <- s_add_bias x ;;
      Ok (x, out_H)
    | _ => Err ValueError
    end.
  (** gconv.py:361-384 with a full kernel, and with a subgroup kernel. *)
  Definition s_full_forward (weight : tensor R) := s_group_forward_with (full_kernel_forward (l_kernel L) weight).
  Definition s_subgroup_forward (weight : tensor R) := s_group_forward_with (subgroup_kernel_forward (l_kernel L) weight).

  (** gconv.py:292-327 [GSeparableConvNd.forward] on a tensor in memory. *)
  Definition s_separable_forward (weight_H weight : tensor R) (input : strided) (in_H out_H : list G)
    : result (strided * list G) :=
    match s_shape input with
    | N :: _ :: _ :: dims =>
      let num_in := length in_H in
      let num_out := length out_H in
      ws <- separable_kernel_forward (l_kernel L) weight_H weight in_H out_H ;;
      i <- view (N :: l_in L * num_in :: dims) (dense input) ;;
      wh <- view (l_out L * num_out :: (l_in L / l_groups L) * num_in :: skipn 4 (shape (fst ws))) (fst ws) ;;
      x <- conv_forward L i wh (l_groups L) ;;
      w <- view (l_out L * num_out :: 1 :: l_ks L) (snd ws) ;;
      x <- conv_forward L x w (l_out L * num_out) ;;
      x <- sview (N :: l_out L :: num_out :: skipn 2 (shape x)) (place x) ;;
      x <- s_add_bias x ;;
      Ok (x, out_H)
    | _ => Err ValueError
    end.
End Layer.

(** Two memory formats of torch: contiguous and channels_last (torch.channels_last, torch.channels_last_3d: the
    strides of (N, C, *sp) with the channel axis fastest). *)
(** Models torch.contiguous_format / torch.channels_last, the layouts of the results of F.conv2d and F.conv3d (gconv.py:158-190). *)
Definition contiguous (t : tensor R) : strided := mkS (shape t) (packed (shape t)) 0 (fun k => nth k (data t) 0%R).
Definition channels_last_strides (sh : list nat) : list nat :=
  match sh with
  | N :: C :: sp => C * prodn sp :: 1 :: map (fun s => C * s) (packed sp)
  | _ => packed sh
  end.
Definition channels_last (t : tensor R) : strided :=
  mkS (shape t) (channels_last_strides (shape t)) 0
    (fun k => match shape t with
              | N :: C :: sp =>
                at_ t (k / (C * prodn sp) :: k mod C :: unravel sp ((k / C) mod prodn sp))
              | _ => nth k (data t) 0%R
              end).
