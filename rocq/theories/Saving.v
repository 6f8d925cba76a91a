(** The SE(2), E(2) and E(3) layers as objects on a heap: buffers, parameters, state_dict, load_state_dict.

    As in Checkpoint.v (SE(3)): kernel.py:102-105 registers grid_H, grid_Rn and mask as buffers, gconv.py:140-143 the bias as a parameter (or
    an absent buffer), kernel.py:162-164, 241-246, 421-428 the weights as parameters. A buffer is the tensor object that was passed in.
    so2.uniform_grid, o2.uniform_grid and o3.uniform_grid build new tensors, so a default grid is a new tensor, here with arbitrary
    contents. Simplifications: devices and dtypes; a checkpoint holds exact reals. *)
From Coq Require Import String ZArith.
From Verif Require Import Prelude RMath Mat Interp SO2 O2 O3 Tensor Kernel Conv Public Network.
From Verif Require Checkpoint.
Notation kind := Checkpoint.kind (only parsing).
Notation KLifting := Checkpoint.KLifting.
Notation KSeparable := Checkpoint.KSeparable.
Notation KFull := Checkpoint.KFull.
Open Scope R_scope.

(** Constructor arguments of the classes of gconv_se2.py, gconv_e2.py, gconv_e3.py, without grid_H. For SE(2), s_gks is the int n
    (PairInt n) and s_rot the one width. *)
Record sargs := mkSArgs {
  s_env : torch_env;
  s_in : nat; s_out : nat; s_size : nat; s_gks : pair_arg; s_groups : Z; s_stride : nat; s_padding : padarg;
  s_dilation : nat; s_padding_mode : string; s_permute : bool; s_bias : bool;
  s_gmode : string; s_rot : R; s_ref : R; s_mode : string; s_pm : string; s_mask : bool
}.

(** The constructors, with the grid and the bias tensor (gconv.py:140-141: (out, 1, 1, 1) in 2d, (out, 1, 1, 1, 1) in 3d). *)
Definition bias_dims (d : nat) (A : sargs) : list nat := s_out A :: repeat 1%nat (S d).
Definition new_bias (d : nat) (A : sargs) (fb : list nat -> R) : option (tensor R) := if s_bias A then Some (build (bias_dims d A) fb) else None.
(** gconv_se2.py:10-78, 92-171, 185-264. *)
Definition made_SE2 (kd : kind) (A : sargs) (grid : list R) (fb : list nat -> R) : result (gmodule R V2) :=
  match kd with
  | KLifting => lifting_SE2 (s_env A) (s_in A) (s_out A) (s_size A) (s_groups A) (s_stride A) (s_padding A) (s_dilation A) (s_padding_mode A)
      (s_permute A) (new_bias 2 A fb) (s_mode A) (s_pm A) (s_mask A) (pair_rot (s_gks A)) (Some grid)
  | _ => group_SE2 (s_env A) (s_in A) (s_out A) (s_size A) (s_groups A) (s_stride A) (s_padding A) (s_dilation A) (s_padding_mode A)
      (s_permute A) (new_bias 2 A fb) (s_mode A) (s_pm A) (s_mask A) (pair_rot (s_gks A)) (s_gmode A) (s_rot A) (Some grid)
  end.
(** gconv_e2.py:10-83, 97-181, 195-279. *)
Definition made_E2 (kd : kind) (A : sargs) (grid : list O2) (fb : list nat -> R) : result (gmodule O2 V2) :=
  match kd with
  | KLifting => lifting_E2 (s_env A) (s_in A) (s_out A) (s_size A) (s_groups A) (s_stride A) (s_padding A) (s_dilation A) (s_padding_mode A)
      (s_permute A) (new_bias 2 A fb) (s_mode A) (s_pm A) (s_mask A) (s_gks A) (Some grid)
  | _ => group_E2 (s_env A) (s_in A) (s_out A) (s_size A) (s_groups A) (s_stride A) (s_padding A) (s_dilation A) (s_padding_mode A)
      (s_permute A) (new_bias 2 A fb) (s_mode A) (s_pm A) (s_mask A) (s_gks A) (s_gmode A) (s_rot A) (s_ref A) (Some grid)
  end.
(** gconv_e3.py:10-83, 97-181, 195-279. *)
Definition made_E3 (kd : kind) (A : sargs) (grid : list O3) (fb : list nat -> R) : result (gmodule O3 V3) :=
  match kd with
  | KLifting => lifting_E3 (s_env A) (s_in A) (s_out A) (s_size A) (s_groups A) (s_stride A) (s_padding A) (s_dilation A) (s_padding_mode A)
      (s_permute A) (new_bias 3 A fb) (s_mode A) (s_pm A) (s_mask A) (s_gks A) (Some grid) (Err TypeError)
  | _ => group_E3 (s_env A) (s_in A) (s_out A) (s_size A) (s_groups A) (s_stride A) (s_padding A) (s_dilation A) (s_padding_mode A)
      (s_permute A) (new_bias 3 A fb) (s_mode A) (s_pm A) (s_mask A) (s_gks A) (s_gmode A) (s_rot A) (s_ref A) (Some grid) (Err TypeError)
  end.

(** A tensor in memory: a group grid, a grid of points, or numbers. *)
Inductive gtens (G P : Type) := GGrid (g : list G) | GSpace (t : tensor P) | GReal (t : tensor R).
Arguments GGrid {G P}. Arguments GSpace {G P}. Arguments GReal {G P}.

Section Objects.
  Context {G P : Type} {D : Dflt P}.
  (** edim: the trailing axes of a group grid ((1) for angles, (2) for O(2), (10) for O(3)); d: the dimension of space. *)
  Context (fam : family) (mul : G -> G -> G) (edim d : nat) (make : kind -> sargs -> list G -> (list nat -> R) -> result (gmodule G P)).
  Definition heap := list (gtens G P).

  (** tensor.shape. *)
  Definition gshape (t : gtens G P) : list nat :=
    match t with GGrid g => [List.length g; edim] | GSpace t => shape t ++ [d] | GReal t => shape t end.
  Definition same_sort (a b : gtens G P) : bool :=
    match a, b with GGrid _, GGrid _ | GSpace _, GSpace _ | GReal _, GReal _ => true | _, _ => false end.
  (** param.copy_(new) is possible: same shape (entries of one name always hold the same sort of numbers). *)
  Definition fits_into (old new : gtens G P) : bool := (same_sort old new && if list_eq_dec Nat.eq_dec (gshape old) (gshape new) then true else false)%bool.

  (** Models kernel.py:102-105, 162-164, 242-246, 422-429, gconv.py:140-143: what a layer registers, as heap locations. *)
  Record object := mkObject {
    o_kind : kind; o_args : sargs; o_attr : gmodule G P;
    o_grid_H : nat; o_grid_Rn : nat; o_mask : option nat; o_weight_H : option nat; o_weight : nat; o_bias : option nat
  }.
  Definition named (k : string) (l : option nat) : list (string * nat) := match l with Some l => [(k, l)] | None => [] end.
  (** torch's Module.state_dict(): own parameters first, then those of self.kernel, parameters before buffers, without the absent ones. *)
  Definition dict (y : object) : list (string * nat) :=
    named "bias" (o_bias y) ++ named "kernel.weight_H" (o_weight_H y) ++
    [("kernel.weight"%string, o_weight y); ("kernel.grid_H"%string, o_grid_H y); ("kernel.grid_Rn"%string, o_grid_Rn y)] ++
    named "kernel.mask" (o_mask y).
  (** torch.save(layer.state_dict()). *)
  Definition file := list (string * gtens G P).
  Definition stored (s : heap) (y : object) : file := map (fun kl => (fst kl, nth (snd kl) s (GGrid []))) (dict y).

  Definition put (s : heap) (l : nat) (t : gtens G P) : heap := firstn l s ++ match skipn l s with [] => [] | _ :: r => t :: r end.
  Definition find_key (k : string) (f : file) : option (gtens G P) := option_map snd (find (fun e => String.eqb (fst e) k) f).
  (** torch's Module.load_state_dict (strict): entry by entry, a missing key or a wrong shape is noted and skipped, anything else is copied in
      place; unexpected keys are errors too; all errors are raised at the end, after the copies. *)
  Fixpoint load_all (es : list (string * nat)) (f : file) (s : heap) : heap * bool :=
    match es with
    | [] => (s, true)
    | (k, l) :: r =>
      match find_key k f with
      | None => (fst (load_all r f s), false)
      | Some t => if fits_into (nth l s (GGrid [])) t then load_all r f (put s l t) else (fst (load_all r f s), false)
      end
    end.
  Definition load (s : heap) (y : object) (f : file) : heap * result unit :=
    let '(s', ok) := load_all (dict y) f s in
    (s', if (ok && forallb (fun e => existsb (fun kl => String.eqb (fst kl) (fst e)) (dict y)) f)%bool then Ok tt else Err RuntimeError).

  (** The layer with the present contents of its buffers and bias. *)
  Definition the_grid (t : gtens G P) : result (list G) := match t with GGrid g => Ok g | _ => Err TypeError end.
  Definition the_space (t : gtens G P) : result (tensor P) := match t with GSpace p => Ok p | _ => Err TypeError end.
  Definition the_real (t : gtens G P) : result (tensor R) := match t with GReal p => Ok p | _ => Err TypeError end.
  Definition the_opt (s : heap) (l : option nat) : result (option (tensor R)) :=
    match l with None => Ok None | Some l => t <- the_real (nth l s (GGrid [])) ;; Ok (Some t) end.
  Definition refilled (M : gmodule G P) (grid : list G) (space : tensor P) (mask bias : option (tensor R)) : gmodule G P :=
    let L := gm_layer M in let k := l_kernel L in
    mkModule
      {| l_kernel := {| k_in := k_in k; k_out := k_out k; k_groups := k_groups k; k_size := k_size k; k_gsize := k_gsize k;
                        k_grid_H := grid; k_grid_Rn := space; k_mask := mask; k_ops := k_ops k |};
         l_in := l_in L; l_out := l_out L; l_ks := l_ks L; l_gks := l_gks L; l_groups := l_groups L; l_stride := l_stride L;
         l_padding := l_padding L; l_dil := l_dil L; l_mode := l_mode L; l_rev := l_rev L; l_bias := bias |}
      (gm_permute M).
  Definition current (s : heap) (y : object) : result (gmodule G P) :=
    grid <- the_grid (nth (o_grid_H y) s (GGrid [])) ;;
    space <- the_space (nth (o_grid_Rn y) s (GGrid [])) ;;
    mask <- the_opt s (o_mask y) ;;
    bias <- the_opt s (o_bias y) ;;
    Ok (refilled (o_attr y) grid space mask bias).
  (** y(X, in_H, H): the forwards of gconv_se2.py:80-89, 173-182, 266-275, gconv_e2.py:85-94, 183-192, 281-290, gconv_e3.py (same lines); rs is
      what random_grid(1) returns; a lifting layer has no in_H. *)
  Definition answer (s : heap) (y : object) (rs : list G) (X : tensor R) (in_H : list G) (H : option (list G)) : result (tensor R * list G) :=
    M <- current s y ;;
    weight <- the_real (nth (o_weight y) s (GGrid [])) ;;
    match o_kind y, o_weight_H y with
    | KLifting, _ => lifting_call M mul rs weight X H
    | KFull, _ => match fam with SEn => full_call_SEn M mul rs weight X in_H H | En => full_call_En M mul rs weight X in_H H end
    | KSeparable, Some l => weight_H <- the_real (nth l s (GGrid [])) ;;
        match fam with SEn => separable_call_SEn M mul rs weight_H weight X in_H H | En => separable_call_En M mul rs weight_H weight X in_H H end
    | KSeparable, None => Err TypeError
    end.

  (** kernel.py:162-164, 242-246, 422-429. *)
  Definition weight_dims (kd : kind) (k : gkernel G P) : list nat :=
    match kd with KLifting => lifting_weight_shape k | KSeparable => separable_weight_shape k | KFull => full_weight_shape k end.
  (** The constructor. The grid is a given tensor (inl) or a new default grid (inr); fH, f, fb: initial values of weight_H, weight, bias. *)
  Definition construct (s : heap) (kd : kind) (A : sargs) (grid : nat + list G) (fH f fb : list nat -> R) : heap * result object :=
    let '(s0, l) := match grid with inl l => (s, l) | inr g => (s ++ [GGrid g], List.length s) end in
    match (g <- the_grid (nth l s0 (GSpace (mkT [] []))) ;; make kd A g fb) with
    | Err e => (s0, Err e)
    | Ok M =>
      let k := l_kernel (gm_layer M) in
      let opt o := match o with Some t => [GReal t] | None => [] end in
      let news := [GSpace (k_grid_Rn k)] ++ opt (k_mask k) ++ opt (match kd with KSeparable => Some (build (group_weight_shape k) fH) | _ => None end) ++
                  [GReal (build (weight_dims kd k) f)] ++ opt (l_bias (gm_layer M)) in
      let n0 := List.length s0 in
      let n1 := (n0 + 1 + match k_mask k with Some _ => 1 | None => 0 end)%nat in
      let n2 := (n1 + match kd with KSeparable => 1 | _ => 0 end)%nat in
      (s0 ++ news,
       Ok (mkObject kd A M l n0 (match k_mask k with Some _ => Some (S n0) | None => None end)
             (match kd with KSeparable => Some n1 | _ => None end) n2 (match l_bias (gm_layer M) with Some _ => Some (S n2) | None => None end)))
    end.

  (** ** histories *)
  Record process := mkProcess { p_heap : heap; p_layers : list object }.
  (** Make a layer; load a file into a layer; update the parameters of a layer in place (an optimizer step, reset_parameters); make a tensor;
      overwrite a tensor in place. *)
  Inductive action :=
  | ANew (kd : kind) (A : sargs) (grid : nat + list G) (fH f fb : list nat -> R)
  | ALoad (i : nat) (f : file)
  | ATrain (i : nat) (new : string -> gtens G P)
  | ATensor (t : gtens G P)
  | AWrite (l : nat) (t : gtens G P).
  Definition trainable (k : string) : bool := (String.eqb k "bias" || String.eqb k "kernel.weight_H" || String.eqb k "kernel.weight")%bool.
  Definition trained (s : heap) (y : object) (new : string -> gtens G P) : heap :=
    fold_left (fun s kl => if fits_into (nth (snd kl) s (GGrid [])) (new (fst kl)) then put s (snd kl) (new (fst kl)) else s)
      (filter (fun kl => trainable (fst kl)) (dict y)) s.
  Definition act (w : process) (a : action) : process :=
    let s := p_heap w in
    match a with
    | ANew kd A grid fH f fb =>
      let '(s', r) := construct s kd A grid fH f fb in
      mkProcess s' (match r with Ok y => p_layers w ++ [y] | Err _ => p_layers w end)
    | ALoad i f => match nth_error (p_layers w) i with Some y => mkProcess (fst (load s y f)) (p_layers w) | None => w end
    | ATrain i new => match nth_error (p_layers w) i with Some y => mkProcess (trained s y new) (p_layers w) | None => w end
    | ATensor t => mkProcess (s ++ [t]) (p_layers w)
    | AWrite l t => if (Nat.ltb l (List.length s) && fits_into (nth l s (GGrid [])) t)%bool then mkProcess (put s l t) (p_layers w) else w
    end.
  Definition execute (acts : list action) : process := fold_left act acts (mkProcess [] []).
End Objects.
