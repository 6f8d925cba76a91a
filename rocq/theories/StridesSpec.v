(** What is claimed about memory layouts. *)
From Verif Require Import Prelude RMath Mat Tensor Layers Kernel Conv Strides.
Open Scope nat_scope.

(** One stride per axis. *)
Definition laid_out (x : strided) : Prop := length (s_strides x) = length (s_shape x).

(** The entries of [x], listed in row-major order, can be addressed as a tensor of shape [new] in the same memory:
    some strides put the k-th entry of the new shape where the k-th entry of x is, for every k. *)
Definition addressable (new : list nat) (x : strided) : Prop :=
  exists st, length st = length new /\
    forall k, k < prodn (s_shape x) -> dot st (unravel new k) = dot (s_strides x) (unravel (s_shape x) k).

(** A choice of layouts for the results of torch operations: any layout, with the right values. *)
Definition faithful (place : tensor R -> strided) : Prop :=
  forall t, wft t -> laid_out (place t) /\ dense (place t) = t.

(** The values of the result. *)
Definition values {A} (r : result (strided * A)) : result (tensor R * A) := rmap (fun p => (dense (fst p), snd p)) r.
Definition values3 {A B} (r : result (strided * A * B)) : result (tensor R * A * B) :=
  rmap (fun p => (dense (fst (fst p)), snd (fst p), snd p)) r.

(** The group axis (axis 2) and the first spatial axis (axis 3) of x lie in memory as one axis. *)
Definition one_axis (x : strided) : Prop :=
  prodn (s_shape x) = 0 \/ nth 2 (s_shape x) 0 = 1 \/ nth 3 (s_shape x) 0 = 1 \/
  nth 2 (s_strides x) 0 = nth 3 (s_shape x) 0 * nth 3 (s_strides x) 0.
