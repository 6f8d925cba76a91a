(** Specification for C98: what a call computes when its random draws are made by torch.rand / torch.randn.
    A random quantity is given by the list of its equally likely values (a value may be listed several times), so that two random quantities are equally distributed
    when their lists are permutations of each other.  torch.rand in single precision returns k / 2^24 with k uniform in 0 .. 2^24 - 1: [rand_values (2 ^ 24)]. *)
From Coq Require Import String ZArith Permutation.
From Verif Require Import Prelude RMath Mat Tensor Kernel Conv Layers Public Network.
Open Scope R_scope.

(** The values of torch.rand with N steps. *)
Definition rand_values (N : nat) : list R := map (fun k => INR k / INR N) (seq 0 N).
(** Two independent draws; k independent draws of the same law. *)
Definition both {A B} (law : list A) (law' : list B) : list (A * B) := flat_map (fun a => map (fun b => (a, b)) law') law.
Fixpoint independent {A} (law : list A) (k : nat) : list (list A) :=
  match k with O => [[]] | S k => map (fun p => fst p :: snd p) (both law (independent law k)) end.
(** Elementwise. *)
Fixpoint zip_with {A B C} (f : A -> B -> C) (l : list A) (l' : list B) : list C := match l, l' with a :: l, b :: l' => f a b :: zip_with f l l' | _, _ => [] end.
(** Equally distributed. *)
Definition same_law {A} (law law' : list A) : Prop := Permutation law law'.

(** What is left of a network's answer after global pooling: the average pool, the maximum pool, and the modules with their new running statistics. *)
Definition pool_values (p : pooled) : tensor R := match p with PTensor t => t | PPair v _ => v end.
Definition features {G P} (r : result (tensor R * list G * list (block G P))) : result (tensor R * tensor R * list (block G P)) :=
  r <- r ;; a <- g_avg_global_pool (fst (fst r)) ;; m <- g_max_global_pool (fst (fst r)) ;; Ok (pool_values a, pool_values m, snd r).
(** The network answers with a non-empty output. *)
Definition answered {G P} (r : result (tensor R * list G * list (block G P))) : Prop :=
  exists Y H ms v i, r = Ok (Y, H, ms) /\ g_max_global_pool Y = Ok (PPair v i).
