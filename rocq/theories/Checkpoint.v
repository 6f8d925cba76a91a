(** Layers as objects on a heap: buffers, parameters, state_dict and load_state_dict.

    kernel.py:102-105 registers grid_H, grid_Rn and mask as buffers, gconv.py:140-143 the bias as a parameter (or an
    absent buffer), kernel.py:162-164, 241-246, 421-428 the weights as parameters. A buffer is the tensor object that was
    passed in, not a copy of it; so3.uniform_grid(size) hands out the tensor of the module-level cache itself
    (so3.py:576-577). torch's [Module.load_state_dict] copies into the registered tensors in place.

    Modelled for the three SE(3) classes, which are the only ones whose default grid is a tensor of a cache
    (so2.uniform_grid, o2.uniform_grid and o3.uniform_grid build new tensors); a grid given by the user is shared in the
    same way for every class. Simplifications: devices and dtypes; a checkpoint holds exact reals. *)
From Coq Require Import String ZArith.
From Verif Require Import Prelude RMath Mat Interp SO3 Repulse GridTables GridCache Tensor Kernel Conv Public.
Open Scope R_scope.

(** tensor.shape. *)
(** Models torch.nn.Module.load_state_dict: the test before param.copy_ for the tensors registered at kernel.py:102-105, 162-164, 242-246, 422-429, gconv.py:140-143. *)
Definition tshape (t : tens) : list nat :=
  match t with
  | TEmpty => [0%nat]
  | TQuat l => [List.length l; 4%nat]
  | TMat l => [List.length l; 3%nat; 3%nat]
  | TRows3 l => [List.length l; 3%nat]
  | TReal t => shape t
  | TSpace t => shape t ++ [3%nat]
  end.
(** The two tensors hold the same kind of data (how this model reads the numbers; entries of the same name always do). *)
Definition same_kind (a b : tens) : bool :=
  match a, b with
  | TEmpty, TEmpty | TQuat _, TQuat _ | TMat _, TMat _ | TRows3 _, TRows3 _ | TReal _, TReal _ | TSpace _, TSpace _ => true
  | _, _ => false
  end.
Definition copyable (old new : tens) : bool :=
  (same_kind old new && if list_eq_dec Nat.eq_dec (tshape old) (tshape new) then true else false)%bool.

(** Models gconv.py:207, 258, 330: the three kinds of layer. *)
Inductive kind := KLifting | KSeparable | KFull.

(** Constructor arguments of GLiftingConvSE3, GSeparableConvSE3, GConvSE3 (gconv_se3.py:10-78, 92-171, 187-266), without
    grid_H. *)
Record args := mkArgs {
  a_env : torch_env;
  a_in : nat; a_out : nat; a_size : nat; a_gsize : nat; a_groups : Z; a_stride : nat; a_padding : padarg;
  a_dilation : nat; a_padding_mode : string; a_permute : bool; a_bias : bool;
  a_gmode : string; a_width : R; a_mode : string; a_pm : string; a_mask : bool
}.

(** What the constructor computes from a grid: the attributes of the layer (the tensors in it are the contents at
    construction time). *)
(** Models gconv.py:140-141. *)
Definition bias_tensor (A : args) (fb : list nat -> R) : tensor R := build [a_out A; 1; 1; 1; 1]%nat fb.
(** Models gconv_se3.py:11-78, 93-171, 188-266: the constructor called for each kind of layer. *)
Definition attributes (kd : kind) (A : args) (grid : list M3) (fb : list nat -> R) : result (gmodule M3 V3) :=
  let bias := if a_bias A then Some (bias_tensor A fb) else None in
  match kd with
  | KLifting => lifting_SE3 (a_env A) (a_in A) (a_out A) (a_size A) (a_groups A) (a_stride A) (a_padding A) (a_dilation A)
      (a_padding_mode A) (a_permute A) bias (a_mode A) (a_pm A) (a_mask A) (a_gsize A) (Some grid) (Err TypeError)
  | _ => group_SE3 (a_env A) (a_in A) (a_out A) (a_size A) (a_groups A) (a_stride A) (a_padding A) (a_dilation A)
      (a_padding_mode A) (a_permute A) bias (a_mode A) (a_pm A) (a_mask A) (a_gsize A) (a_gmode A) (a_width A) (Some grid)
      (Err TypeError)
  end.

(** A layer object: its attributes and the storage of its buffers and parameters. [y_args] only records how it was made. *)
(** Models kernel.py:102-105, 162-164, 242-246, 422-429, gconv.py:140-143: the parameters and buffers a layer registers, as heap locations. *)
Record layer := mkLayer {
  y_kind : kind; y_args : args; y_attr : gmodule M3 V3;
  y_grid_H : nat; y_grid_Rn : nat; y_mask : option nat;
  y_weight_H : option nat; y_weight : nat; y_bias : option nat
}.

(** Models torch.nn.Module.state_dict over the names of kernel.py:102-105, 162-164, 242-246, 422-429, gconv.py:140-143; a None buffer has no entry. *)
Definition entry (k : string) (l : option nat) : list (string * nat) := match l with Some l => [(k, l)] | None => [] end.
(** torch's Module.state_dict(): the layer's own parameters, then those of self.kernel, parameters before buffers; entries
    that are None are left out. *)
Definition state_dict (y : layer) : list (string * nat) :=
  entry "bias" (y_bias y) ++ entry "kernel.weight_H" (y_weight_H y) ++
  [("kernel.weight"%string, y_weight y); ("kernel.grid_H"%string, y_grid_H y); ("kernel.grid_Rn"%string, y_grid_Rn y)] ++
  entry "kernel.mask" (y_mask y).

(** A checkpoint: the contents of the entries of a state_dict (torch.save(layer.state_dict())). *)
Definition checkpoint := list (string * tens).
Definition get (s : gstate) (l : nat) : tens := nth l (gs_heap s) TEmpty.
Definition saved (s : gstate) (y : layer) : checkpoint := map (fun kl => (fst kl, get s (snd kl))) (state_dict y).

(** Models torch.nn.Module.load_state_dict (strict): copies in place, entry by entry, the tensors of kernel.py:102-105, 162-164, 242-246, 422-429, gconv.py:140-143. *)
Definition assign (s : gstate) (l : nat) (t : tens) : gstate := mkG (upd (gs_heap s) l t) (gs_quat s) (gs_matrix s).
Definition lookup (k : string) (ck : checkpoint) : option tens :=
  option_map snd (find (fun e => String.eqb (fst e) k) ck).

(** Module._load_from_state_dict: entry by entry, a missing key or a wrong shape is noted and skipped, anything else is
    copied in place. *)
(** Models torch.nn.Module.load_state_dict (strict): copies in place, entry by entry, the tensors of kernel.py:102-105, 162-164, 242-246, 422-429, gconv.py:140-143. *)
Fixpoint load_entries (es : list (string * nat)) (ck : checkpoint) (s : gstate) : gstate * bool :=
  match es with
  | [] => (s, true)
  | (k, l) :: r =>
    match lookup k ck with
    | None => (fst (load_entries r ck s), false)
    | Some t => if copyable (get s l) t then load_entries r ck (assign s l t)
                else (fst (load_entries r ck s), false)
    end
  end.
(** torch's Module.load_state_dict(ck), strict: unexpected keys are errors too; all errors are raised at the end. *)
Definition load_state_dict (s : gstate) (y : layer) (ck : checkpoint) : gstate * result unit :=
  let '(s', ok) := load_entries (state_dict y) ck s in
  (s', if (ok && forallb (fun e => existsb (fun kl => String.eqb (fst kl) (fst e)) (state_dict y)) ck)%bool
       then Ok tt else Err RuntimeError).

(** ** reading a layer *)
(** Models kernel.py:102-105, 162-164, 242-246, 422-429, gconv.py:140-143: the attributes read back from the registered tensors at a forward (kernel.py:174-195, 257-305, 439-484). *)
Definition as_grid (t : tens) : result (list M3) := match t with TMat g => Ok g | _ => Err TypeError end.
Definition as_space (t : tens) : result (tensor V3) := match t with TSpace p => Ok p | _ => Err TypeError end.
Definition as_real (t : tens) : result (tensor R) := match t with TReal p => Ok p | _ => Err TypeError end.
Definition as_opt (s : gstate) (l : option nat) : result (option (tensor R)) :=
  match l with None => Ok None | Some l => t <- as_real (get s l) ;; Ok (Some t) end.

(** Models kernel.py:102-105, 162-164, 242-246, 422-429, gconv.py:140-143: the attributes read back from the registered tensors at a forward (kernel.py:174-195, 257-305, 439-484). *)
Definition with_tensors (M : gmodule M3 V3) (grid : list M3) (space : tensor V3) (mask bias : option (tensor R))
  : gmodule M3 V3 :=
  let L := gm_layer M in let k := l_kernel L in
  mkModule
    {| l_kernel := {| k_in := k_in k; k_out := k_out k; k_groups := k_groups k; k_size := k_size k; k_gsize := k_gsize k;
                      k_grid_H := grid; k_grid_Rn := space; k_mask := mask; k_ops := k_ops k |};
       l_in := l_in L; l_out := l_out L; l_ks := l_ks L; l_gks := l_gks L; l_groups := l_groups L; l_stride := l_stride L;
       l_padding := l_padding L; l_dil := l_dil L; l_mode := l_mode L; l_rev := l_rev L; l_bias := bias |}
    (gm_permute M).
(** The layer with the present contents of its buffers and bias. *)
Definition module_at (s : gstate) (y : layer) : result (gmodule M3 V3) :=
  grid <- as_grid (get s (y_grid_H y)) ;;
  space <- as_space (get s (y_grid_Rn y)) ;;
  mask <- as_opt s (y_mask y) ;;
  bias <- as_opt s (y_bias y) ;;
  Ok (with_tensors (y_attr y) grid space mask bias).

(** Calling the layer in a state: layer(X, in_H, H) (a lifting layer has no in_H); q is the draw of random_matrix(1). *)
(** Models gconv_se3.py:80-89, 173-184, 268-279: the forward of each kind of layer. *)
Definition call (s : gstate) (y : layer) (q : Q4) (X : tensor R) (in_H : list M3) (H : option (list M3))
  : result (tensor R * list M3) :=
  M <- module_at s y ;;
  weight <- as_real (get s (y_weight y)) ;;
  match y_kind y, y_weight_H y with
  | KLifting, _ => lifting_SE3_call M q weight X H
  | KFull, _ => full_SE3_call M q weight X in_H H
  | KSeparable, Some l => weight_H <- as_real (get s l) ;; separable_SE3_call M q weight_H weight X in_H H
  | KSeparable, None => Err TypeError
  end.

(** ** making layers *)
(** Models kernel.py:102-105, gconv.py:143: register_buffer of a possibly-None tensor. *)
Definition alloc_opt (s : gstate) (t : option tens) : gstate * option nat :=
  match t with None => (s, None) | Some t => let '(s', l) := alloc s t in (s', Some l) end.
(** Models kernel.py:162-164, 242-246, 422-429. *)
Definition weight_shape (kd : kind) (k : gkernel M3 V3) : list nat :=
  match kd with KLifting => lifting_weight_shape k | KSeparable => separable_weight_shape k | KFull => full_weight_shape k end.

(** The constructor: [given] the tensor passed as grid_H, o the optimisation of a default grid, fH, f, fb the random
    initial values of weight_H, weight and bias. *)
(** Models gconv_se3.py:11-78, 93-171, 188-266: constructing a layer on the process-wide memory (grid cache so3.py:545-610). *)
Definition new_layer (s : gstate) (kd : kind) (A : args) (given : option nat) (o : oracle) (fH f fb : list nat -> R)
  : gstate * result layer :=
  let '(s0, rl) := match given with
                   | Some l => (s, Ok l)
                   | None => so3_uniform_grid s (a_gsize A) "matrix" false o
                   end in
  match (l <- rl ;; g <- as_grid (get s0 l) ;; M <- attributes kd A g fb ;; Ok (l, M)) with
  | Err e => (s0, Err e)
  | Ok (l, M) =>
    let k := l_kernel (gm_layer M) in
    let '(s1, lp) := alloc s0 (TSpace (k_grid_Rn k)) in
    let '(s2, lm) := alloc_opt s1 (option_map TReal (k_mask k)) in
    let '(s3, lh) := alloc_opt s2 (match kd with KSeparable => Some (TReal (build (group_weight_shape k) fH)) | _ => None end) in
    let '(s4, lw) := alloc s3 (TReal (build (weight_shape kd k) f)) in
    let '(s5, lb) := alloc_opt s4 (option_map TReal (l_bias (gm_layer M))) in
    (s5, Ok (mkLayer kd A M l lp lm lh lw lb))
  end.

(** ** histories *)
(** What a user does with the constructors of gconv_se3.py:10-279 and torch.nn.Module.state_dict / load_state_dict / an optimiser step on the parameters of kernel.py:162-164, 242-246, 422-429, gconv.py:141. *)
Record world := mkW { w_mem : gstate; w_layers : list layer }.
Definition start : world := mkW ginit [].

(** What a program does: make a layer; load a checkpoint into a layer; update the parameters of a layer in place (an
    optimizer step, reset_parameters); make a tensor; overwrite a tensor in place; call so3.uniform_grid. *)
(** What a user does with the constructors of gconv_se3.py:10-279 and torch.nn.Module.state_dict / load_state_dict / an optimiser step on the parameters of kernel.py:162-164, 242-246, 422-429, gconv.py:141. *)
Inductive op :=
| ONew (kd : kind) (A : args) (given : option nat) (o : oracle) (fH f fb : list nat -> R)
| OLoad (i : nat) (ck : checkpoint)
| OTrain (i : nat) (new : string -> tens)
| OTensor (t : tens)
| OWrite (l : nat) (t : tens)
| OGrid (n : nat) (param : string) (cache : bool) (o : oracle).

(** What a user does with the constructors of gconv_se3.py:10-279 and torch.nn.Module.state_dict / load_state_dict / an optimiser step on the parameters of kernel.py:162-164, 242-246, 422-429, gconv.py:141. *)
Definition is_param (k : string) : bool :=
  (String.eqb k "bias" || String.eqb k "kernel.weight_H" || String.eqb k "kernel.weight")%bool.
(** In-place update of the parameters by tensors of their shape. *)
Definition train (s : gstate) (y : layer) (new : string -> tens) : gstate :=
  fold_left (fun s kl => if copyable (get s (snd kl)) (new (fst kl)) then assign s (snd kl) (new (fst kl)) else s)
    (filter (fun kl => is_param (fst kl)) (state_dict y)) s.

(** What a user does with the constructors of gconv_se3.py:10-279 and torch.nn.Module.state_dict / load_state_dict / an optimiser step on the parameters of kernel.py:162-164, 242-246, 422-429, gconv.py:141. *)
Definition do (w : world) (a : op) : world :=
  let s := w_mem w in
  match a with
  | ONew kd A given o fH f fb =>
    let '(s', r) := new_layer s kd A given o fH f fb in
    mkW s' (match r with Ok y => w_layers w ++ [y] | Err _ => w_layers w end)
  | OLoad i ck => match nth_error (w_layers w) i with
                  | Some y => mkW (fst (load_state_dict s y ck)) (w_layers w)
                  | None => w
                  end
  | OTrain i new => match nth_error (w_layers w) i with
                    | Some y => mkW (train s y new) (w_layers w)
                    | None => w
                    end
  | OTensor t => mkW (fst (alloc s t)) (w_layers w)
  | OWrite l t => if copyable (get s l) t then mkW (assign s l t) (w_layers w) else w
  | OGrid n p c o => mkW (fst (so3_uniform_grid s n p c o)) (w_layers w)
  end.
Definition run (ops : list op) : world := fold_left do ops start.
