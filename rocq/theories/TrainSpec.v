(** Specification for C97: a training loop around a network of the library's modules, with any loss on the globally pooled features and any optimizer.
    The repository contains no training loop; this is how a user of README.md "Getting Started" trains a network. *)
From Coq Require Import String ZArith.
From Verif Require Import Prelude RMath Mat Tensor Kernel Conv Layers Public Network.
Open Scope R_scope.

Section Train.
  Context {G P : Type} {D : Dflt P} (fam : family) (d : nat) (mul : G -> G -> G).
  Context {Label : Type}.

  (** What training changes: the parameter of the lifting convolution, and the modules after it with their parameters and running statistics. *)
  Definition weights : Type := tensor R * list (block G P).
  (** A batch: images, labels, and what the convolutions draw during the forward pass. *)
  Record batch := mkBatch { images : tensor R; labels : Label; lifting_draw : list G; draws : list (list G) }.

  (** The forward pass. *)
  Definition forward_pass (M : gmodule G P) (K : option (list G)) (s : weights) (b : batch) : result (tensor R * list G * list (block G P)) :=
    network fam d mul M (fst s) (lifting_draw b) K (combine (snd s) (draws b)) (images b).
  (** The loss of a batch as a function of the weights: anything that is computed from the average and maximum pools and the labels. *)
  Definition objective (loss : tensor R -> tensor R -> Label -> R) (M : gmodule G P) (K : option (list G)) (b : batch) (s : weights) : result R :=
    r <- forward_pass M K s b ;;
    a <- g_avg_global_pool (fst (fst r)) ;;
    m <- g_max_global_pool (fst (fst r)) ;;
    match a, m with PTensor a, PPair m _ => Ok (loss a m (labels b)) | _, _ => Err TypeError end.
  (** An optimizer computes new weights from the weights, the modules left by the forward pass (with new running statistics), the optimizer's own state and the loss
      function, whose derivatives it may use; it also returns its next state. *)
  Definition optimizer (S : Type) : Type := S -> weights -> list (block G P) -> (weights -> result R) -> S * weights.
  Definition train_step {S} (opt : optimizer S) loss (M : gmodule G P) (K : option (list G)) (now : S * weights) (b : batch) : result (S * weights) :=
    r <- forward_pass M K (snd now) b ;; Ok (opt (fst now) (snd now) (snd r) (objective loss M K b)).
  Fixpoint train {S} (opt : optimizer S) loss (M : gmodule G P) (K : option (list G)) (now : S * weights) (data : list batch) : result (S * weights) :=
    match data with
    | [] => Ok now
    | b :: data => next <- train_step opt loss M K now b ;; train opt loss M K next data
    end.

  (** A set of weights the optimizer does not leave, and outside of which it does not look at the loss. *)
  Definition stays_within {S} (opt : optimizer S) (within : weights -> Prop) : Prop :=
    (forall t s ms f, within s -> within (snd (opt t s ms f))) /\
    (forall t s ms f f', within s -> (forall s', within s' -> f s' = f' s') -> opt t s ms f = opt t s ms f').
  (** On every batch the network answers, whatever the weights, and its output is not empty. *)
  Definition answers (M : gmodule G P) (K : option (list G)) (within : weights -> Prop) (data : list batch) : Prop :=
    forall s b, within s -> In b data -> exists Y H ms v i, forward_pass M K s b = Ok (Y, H, ms) /\ g_max_global_pool Y = Ok (PPair v i).
End Train.
Arguments batch : clear implicits.
Arguments mkBatch {G Label}. Arguments images {G Label}. Arguments labels {G Label}. Arguments lifting_draw {G Label}. Arguments draws {G Label}.
