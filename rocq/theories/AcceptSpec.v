(** Specification: two objects of the same configuration and shapes, with other numbers in them. *)
From Coq Require Import String ZArith.
From Verif Require Import Prelude RMath Interp Tensor TensorFacts Kernel KernelFacts Conv ConvSpec ConvInit Layers Public Network Prop_Linear.
Open Scope nat_scope.

(** The group elements whose samples a group kernel takes: h^-1 k for h in out_H and k in in_H. *)
Definition relative_elements {G P} (k : gkernel G P) (in_H out_H : list G) : list G :=
  concat (op_left_apply_to_H (k_ops k) (op_inverse (k_ops k) out_H) in_H).

(** Whether the group sampler of the kernel answers does not depend on the sampled signal, nor on the grids, as long as the elements of
    the grids are proper: if it answers once, it answers for all signals of that shape and all proper grids, with a row per pair. *)
Definition settled {G P} (proper : G -> Prop) (k : gkernel G P) : Prop :=
  forall S (in_H out_H in_H' out_H' : list G) (signal signal' rows : mat),
    wfm (k_gdim k) S signal -> wfm (k_gdim k) S signal' -> Forall proper in_H' -> Forall proper out_H' ->
    op_sample_H (k_ops k) S (relative_elements k in_H out_H) signal (k_grid_H k) = Ok rows ->
    exists rows', op_sample_H (k_ops k) S (relative_elements k in_H' out_H') signal' (k_grid_H k) = Ok rows' /\
      wfm (length out_H' * length in_H') S rows'.

(** A sign that is 1, or -1 where reflections are allowed. *)
Definition sign (reflections : Prop) (c : R) : Prop := c = 1%R \/ c = (-1)%R /\ reflections.

(** Two layers with the same configuration; the biases may differ, one may have none. *)
Definition same_config {G P} (d : nat) (L L' : gconv G P) (cin cout : nat) (ks : list nat) (k : gkernel G P) (groups : nat) : Prop :=
  exists stride padding dil m bias bias', constructed d L cin cout ks k groups stride padding dil m bias /\ constructed d L' cin cout ks k groups stride padding dil m bias'.

(** Optional vectors of the same presence and length; normalization modules of the same configuration and mode. *)
Definition same_length {A} (o o' : option (list A)) : Prop :=
  match o, o' with Some l, Some l' => length l' = length l | None, None => True | _, _ => False end.
Definition same_norm (s s' : norm_state) : Prop :=
  nm_features s' = nm_features s /\ nm_training s' = nm_training s /\ same_length (nm_weight s) (nm_weight s') /\ same_length (nm_bias s) (nm_bias s') /\
  same_length (nm_mean s) (nm_mean s') /\ same_length (nm_var s) (nm_var s').

(** An optional grid argument: absent in both, or of the same length, the second non-empty and proper. *)
Definition same_grid_arg {G} (proper : G -> Prop) (o o' : option (list G)) : Prop :=
  same_length o o' /\ match o' with Some l => l <> [] /\ Forall proper l | None => True end.

(** Batch sizes: a call that got a batch of N samples says something about one of N' samples, except that a batch of one may be too small for
    a normalization layer that a larger batch satisfies. *)
Definition enough (N N' : nat) : Prop := 0 < N /\ 0 < N' /\ (N' = 1 -> N = 1).

Section Alike.
  Context {G P : Type} (d : nat) (proper : G -> Prop).
  (** Two convolution modules of the same configuration, whose kernel came from a library constructor (C75_library_kernels: regular) with a
      non-empty grid of proper elements, and parameters of the right shapes. *)
  Definition alike_conv (M M' : gmodule G P) (shapes : nat -> nat -> list nat -> gkernel G P -> Prop) : Prop :=
    gm_permute M' = gm_permute M /\
    exists cin cout ks k groups, same_config d (gm_layer M) (gm_layer M') cin cout ks k groups /\ regular_kernel k cin cout ks groups /\
      k_grid_H k <> [] /\ Forall proper (k_grid_H k) /\ shapes cout (cin / groups) ks k.
  Definition alike (b b' : block G P) : Prop :=
    match b, b' with
    | BConv M w out, BConv M' w' out' =>
        same_grid_arg proper out out' /\
        alike_conv M M' (fun cout c ks k => settled proper k /\ has_shape w (k_gdim k :: cout :: c :: ks) /\ has_shape w' (k_gdim k :: cout :: c :: ks))
    | BSeparable M wH w out, BSeparable M' wH' w' out' =>
        same_grid_arg proper out out' /\
        alike_conv M M' (fun cout c ks k => settled proper k /\ has_shape wH [k_gdim k; cout; c] /\ has_shape wH' [k_gdim k; cout; c] /\
          has_shape w (cout :: 1 :: ks) /\ has_shape w' (cout :: 1 :: ks))
    | BBatchNorm s, BBatchNorm s' | BInstanceNorm s, BInstanceNorm s' => same_norm s s'
    | BReLU, BReLU => True
    | BLeakyReLU _, BLeakyReLU _ => True
    | BGELU _ a, BGELU _ a' => a' = a
    | _, _ => False
    end.
  (** A lifting layer, its parameter and its optional grid. *)
  Definition alike_lifting (M M' : gmodule G P) (w w' : tensor R) (K K' : option (list G)) : Prop :=
    same_grid_arg proper K K' /\ alike_conv M M' (fun cout c ks k => has_shape w (cout :: c :: ks) /\ has_shape w' (cout :: c :: ks)).
  (** A call of a convolution with permute_output_grid draws one element; other calls draw none. *)
  Definition draws (b : block G P) : bool := match b with BConv M _ _ | BSeparable M _ _ _ => gm_permute M | _ => false end.
  Definition one_draw (drawing : bool) (rs rs' : list G) : Prop := drawing = true -> exists r r', rs = [r] /\ rs' = [r'] /\ proper r'.
  Definition alike_program (prog prog' : list (block G P * list G)) : Prop :=
    Forall2 (fun p p' => alike (fst p) (fst p') /\ one_draw (draws (fst p)) (snd p) (snd p')) prog prog'.
  (** The blocks of the next call against the blocks the previous call returned. *)
  Definition next_program (bs : list (block G P)) (prog : list (block G P * list G)) : Prop :=
    Forall2 (fun b p => alike b (fst p) /\ (draws b = true -> exists r, snd p = [r] /\ proper r)) bs prog.

  (** One call of a network in a history of calls, for example one training iteration: the lifting layer with its parameter, draw and optional
      grid, the blocks with their draws, the input. *)
  Record iteration := { it_layer : gmodule G P; it_weight : tensor R; it_draw : list G; it_grid : option (list G); it_prog : list (block G P * list G); it_input : tensor R }.
  Definition call (fam : family) (mul : G -> G -> G) {D : Dflt P} (it : iteration) : result (tensor R * list G * list (block G P)) :=
    network fam d mul (it_layer it) (it_weight it) (it_draw it) (it_grid it) (it_prog it) (it_input it).
  Definition single_draws (it : iteration) : Prop := (gm_permute (it_layer it) = true -> exists r, it_draw it = [r]) /\ Forall (fun p => draws (fst p) = true -> exists r, snd p = [r]) (it_prog it).
  (** A batch of N samples of spatial size sp. *)
  Definition samples (it : iteration) (N : nat) (sp : list nat) : Prop := has_shape (it_input it) (N :: l_in (gm_layer (it_layer it)) :: sp).
  (** it' comes after it, which returned the blocks bs: any update of the parameters (an optimizer step) of the same shapes, new draws. *)
  Definition follows (it : iteration) (bs : list (block G P)) (it' : iteration) : Prop :=
    alike_lifting (it_layer it) (it_layer it') (it_weight it) (it_weight it') (it_grid it) (it_grid it') /\ one_draw (gm_permute (it_layer it)) (it_draw it) (it_draw it') /\
    next_program bs (it_prog it').
  Fixpoint training (fam : family) (mul : G -> G -> G) {D : Dflt P} (sp : list nat) (N : nat) (it : iteration) (its : list iteration) : Prop :=
    match its with
    | [] => True
    | it' :: its' => exists N', samples it' N' sp /\ enough N N' /\ (forall Y H bs, call fam mul it = Ok (Y, H, bs) -> follows it bs it') /\ training fam mul sp N' it' its'
    end.
End Alike.
