(** Model of networks composed of the library's modules, as in README.md "Getting Started" (lines 11-14 of the example):
    "x, H = layer(x, H)" module after module, and a pooling module at the end.

    Each module object is given with its parameters; running a normalization module changes its running statistics, so running a
    network returns the modules in their new state.  Not modelled: torch.nn.Sequential (it passes one argument). *)
From Coq Require Import String ZArith.
From Verif Require Import Prelude RMath Mat Tensor Kernel Conv Layers Public.
Open Scope R_scope.

(** Modules that take and return (x, H); [out] is the optional last argument out_H / H_out of the convolutions. *)
(** Models README.md (usage) and tests/test_gconv_se3.py:16-145: layers of gconv.py and the blocks of activations.py, normalization.py, pooling.py chained by a user. *)
Inductive block (G P : Type) :=
| BConv (M : gmodule G P) (weight : tensor R) (out : option (list G))
| BSeparable (M : gmodule G P) (weight_H weight : tensor R) (out : option (list G))
| BBatchNorm (s : norm_state)
| BInstanceNorm (s : norm_state)
| BReLU
| BLeakyReLU (slope : R)
| BGELU (erf : R -> R) (approximate : string).
Arguments BConv {G P}. Arguments BSeparable {G P}. Arguments BBatchNorm {G P}. Arguments BInstanceNorm {G P}. Arguments BReLU {G P}.
Arguments BLeakyReLU {G P}. Arguments BGELU {G P}.

(** Which family of classes: gconv_sen (out_H defaults to in_H) or gconv_en (H_out defaults to kernel.grid_H). *)
(** Models gconv_sen/ and gconv_en/: the two families of layers. *)
Inductive family := SEn | En.

Section Run.
  Context {G P : Type} {D : Dflt P} (fam : family) (d : nat) (mul : G -> G -> G).

  (** One call b(x, H); rs is what random_grid(1) returns during the call (gconv_se2.py:173-182, 266-275, gconv_se3.py:173-184, 268-279,
      gconv_e2.py:183-192, 281-290, gconv_e3.py:183-192, 281-290, normalization.py:6-32, activations.py:5-17). *)
  Definition step (b : block G P) (rs : list G) (x : tensor R) (H : list G) : result (tensor R * list G * block G P) :=
    match b with
    | BConv M w out =>
      r <- match fam with SEn => full_call_SEn M mul rs w x H out | En => full_call_En M mul rs w x H out end ;;
      Ok (fst r, snd r, b)
    | BSeparable M wH w out =>
      r <- match fam with SEn => separable_call_SEn M mul rs wH w x H out | En => separable_call_En M mul rs wH w x H out end ;;
      Ok (fst r, snd r, b)
    | BBatchNorm s => r <- g_batch_norm d s x H ;; Ok (fst (fst r), snd (fst r), BBatchNorm (snd r))
    | BInstanceNorm s => r <- g_instance_norm d s x H ;; Ok (fst (fst r), snd (fst r), BInstanceNorm (snd r))
    | BReLU => r <- g_relu x H ;; Ok (fst r, snd r, b)
    | BLeakyReLU slope => r <- g_leaky_relu slope x H ;; Ok (fst r, snd r, b)
    | BGELU erf approximate => r <- g_gelu erf approximate x H ;; Ok (fst r, snd r, b)
    end.

  (** The modules one after the other, each with the draw it makes. *)
  Fixpoint run (prog : list (block G P * list G)) (x : tensor R) (H : list G) : result (tensor R * list G * list (block G P)) :=
    match prog with
    | [] => Ok (x, H, [])
    | (b, rs) :: rest =>
      r <- step b rs x H ;;
      q <- run rest (fst (fst r)) (snd (fst r)) ;;
      Ok (fst (fst q), snd (fst q), snd r :: snd q)
    end.

  (** A whole network: the lifting convolution M with parameter weight, optional grid K and draw rs, then the modules of prog. *)
  Definition network (M : gmodule G P) (weight : tensor R) (rs : list G) (K : option (list G)) (prog : list (block G P * list G)) (x : tensor R) :
    result (tensor R * list G * list (block G P)) :=
    r <- lifting_call M mul rs weight x K ;; run prog (fst r) (snd r).
End Run.
