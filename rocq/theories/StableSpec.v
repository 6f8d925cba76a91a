(** Specification: how much a network can enlarge a change of its input.  Independent of the model's convolutions. *)
From Coq Require Import String ZArith.
From Verif Require Import Prelude RMath Tensor KernelFacts Kernel Conv ConvSpec ConvInit Layers LayersSpec Public Network NetworkCond LocalSpec.
Open Scope R_scope.

(** X and X' have the same shape and no entry differs by more than e. *)
Definition close (e : R) (X X' : tensor R) : Prop :=
  exists s, has_shape X s /\ has_shape X' s /\ forall i, valid s i -> Rabs (at_ X' i - at_ X i) <= e.
Definition same_shape (X X' : tensor R) : Prop := exists s, has_shape X s /\ has_shape X' s.
(** No entry of X is larger than B in absolute value. *)
Definition at_most (B : R) (X : tensor R) : Prop := exists s, has_shape X s /\ forall i, valid s i -> Rabs (at_ X i) <= B.

(** Sum of the absolute values of the weights that produce output channel o and output group element g: of a sampled lifting kernel
    (out, |H|, cin, *ks), and of a sampled group kernel (out, |out_H|, cin, |in_H|, *ks). *)
Definition lifting_row (W : tensor R) (cin : nat) (ks : list nat) (o g : nat) : R :=
  total (map (fun c => total (map (fun x => Rabs (at_ W (o :: g :: c :: x))) (indices ks))) (seq 0 cin)).
Definition group_row (W : tensor R) (cin n_in : nat) (ks : list nat) (o g : nat) : R :=
  total (map (fun c => total (map (fun h => total (map (fun x => Rabs (at_ W (o :: g :: c :: h :: x))) (indices ks))) (seq 0 n_in))) (seq 0 cin)).
(** Of the two kernels of a separable layer: the group weights, read in storage order as (out, |out_H|, cin, |in_H|), and the spatial ones. *)
Definition point_row (WH : tensor R) (cout n_out cin n_in d : nat) (o g : nat) : R :=
  let W := mkT (cout :: n_out :: cin :: n_in :: repeat 1%nat d) (data WH) in
  total (map (fun c => total (map (fun h => Rabs (at_ W (o :: g :: c :: h :: repeat 0%nat d))) (seq 0 n_in))) (seq 0 cin)).
Definition spatial_row (WS : tensor R) (ks : list nat) (o g : nat) : R :=
  total (map (fun x => Rabs (at_ WS (o :: g :: 0%nat :: x))) (indices ks)).

(** What normalization by running statistics multiplies channel c with. *)
Definition norm_factor (s : norm_state) (c : nat) : R :=
  match nm_weight s with Some g => nth c g 0 | None => 1 end / sqrt (match nm_var s with Some v => nth c v 0 | None => 0 end + nm_eps s).

(** The error function, as a solution of its differential equation. *)
Definition error_function (erf : R -> R) : Prop := erf 0 = 0 /\ forall x, derivable_pt_lim erf x (2 / sqrt PI * exp (- (x * x))).

(** ** A bound c of the gain of a call, next to what [plain] requires (parameters and input of the shapes the layer expects). *)
Definition lifting_gain {G P} {D : Dflt P} (d : nat) (M : gmodule G P) (weight X : tensor R) (o : list G) (c : R) : Prop :=
  exists cin cout ks k groups stride padding dil m bias W N sp,
    constructed d (gm_layer M) cin cout ks k groups stride padding dil m bias /\ o <> [] /\
    lifting_kernel_forward k weight o = Ok W /\ has_shape W (cout :: length o :: (cin / groups)%nat :: ks) /\
    has_shape X (N :: cin :: sp) /\ length sp = d /\
    forall q g, (q < cout)%nat -> (g < length o)%nat -> lifting_row W (cin / groups) ks q g <= c.
Definition conv_gain {G P} {D : Dflt P} (d : nat) (M : gmodule G P) (weight X : tensor R) (H o : list G) (c : R) : Prop :=
  exists cin cout ks k groups stride padding dil m bias W N sp,
    constructed d (gm_layer M) cin cout ks k groups stride padding dil m bias /\ o <> [] /\
    full_kernel_forward k weight H o = Ok W /\ has_shape W (cout :: length o :: (cin / groups)%nat :: length H :: ks) /\
    has_shape X (N :: cin :: length H :: sp) /\ length sp = d /\
    forall q g, (q < cout)%nat -> (g < length o)%nat -> group_row W (cin / groups) (length H) ks q g <= c.
Definition separable_gain {G P} {D : Dflt P} (d : nat) (M : gmodule G P) (weight_H weight X : tensor R) (H o : list G) (c : R) : Prop :=
  exists cin cout ks k groups stride padding dil m bias WH WS N sp c1 c2,
    constructed d (gm_layer M) cin cout ks k groups stride padding dil m bias /\ o <> [] /\
    separable_kernel_forward k weight_H weight H o = Ok (WH, WS) /\
    has_shape WH (cout :: length H :: (cin / groups)%nat :: length o :: repeat 1%nat d) /\ has_shape WS (cout :: length o :: 1%nat :: ks) /\
    has_shape X (N :: cin :: length H :: sp) /\ length sp = d /\ 0 <= c1 /\ c = c1 * c2 /\
    forall q g, (q < cout)%nat -> (g < length o)%nat ->
      point_row WH cout (length o) (cin / groups) (length H) d q g <= c1 /\ spatial_row WS ks q g <= c2.
Definition gain {G P} {D : Dflt P} (fam : family) (d : nat) (mul : G -> G -> G) (b : block G P) (rs : list G) (X : tensor R) (H : list G) (c : R) : Prop :=
  0 <= c /\
  match b with
  | BConv M w out => conv_gain d M w X H (out_grid fam mul M out rs H) c
  | BSeparable M wH w out => separable_gain d M wH w X H (out_grid fam mul M out rs H) c
  | BBatchNorm s | BInstanceNorm s => uses_running s = true /\ forall q, (q < nth 1 (shape X) 0)%nat -> Rabs (norm_factor s q) <= c
  | BReLU => 1 <= c
  | BLeakyReLU slope => 1 <= c /\ Rabs slope <= c
  | BGELU erf approximate => 2 <= c /\ (approximate = "none"%string -> error_function erf)
  end.
(** The gains along a program multiply. *)
Fixpoint total_gain {G P} {D : Dflt P} (fam : family) (d : nat) (mul : G -> G -> G) (prog : list (block G P * list G)) (X : tensor R) (H : list G) (c : R) : Prop :=
  match prog with
  | [] => 1 <= c
  | (b, rs) :: rest => exists c1 c2, c = c1 * c2 /\ gain fam d mul b rs X H c1 /\
      forall Y H1 b1, step fam d mul b rs X H = Ok (Y, H1, b1) -> total_gain fam d mul rest Y H1 c2
  end.

(** Evaluation mode: normalizations use their running statistics; the erf of an exact GELU is the error function. *)
Definition evaluated {G P} (b : block G P) : Prop :=
  match b with
  | BBatchNorm s | BInstanceNorm s => uses_running s = true
  | BGELU erf approximate => approximate = "none"%string -> error_function erf
  | _ => True
  end.
