(** Specification: what a user has to supply for a custom group convolution (README.md:36, gconv_tutorial.ipynb cell 3:
    det_H, inverse_H, left_apply_H_to_H, left_apply_H_to_Rn, grid_sample). Group elements may have several representations
    ([same]), as long as products are normalised; [member] delimits the representations that are used. *)
From Coq Require Import String RelationClasses.
From Verif Require Import Prelude RMath Mat Interp Tensor Functional Kernel KernelFacts.
Open Scope R_scope.

Record group_ops {G P} (ops : gops G P) (member : G -> Prop) (same : G -> G -> Prop)
    (one : G) (inv : G -> G) (mul : G -> G -> G) (act : G -> P -> P) (det : option (G -> R)) : Prop := {
  (** the tensor operations apply an operation on elements to every element, or to every pair *)
  go_elementwise : gops_ok ops inv mul act det;
  (** group laws, up to representation *)
  go_same : Equivalence same;
  go_one_member : member one;
  go_inv_member : forall a, member a -> member (inv a);
  go_mul_member : forall a b, member a -> member b -> member (mul a b);
  go_mul_same : forall a a' b b', member a -> member a' -> member b -> member b' -> same a a' -> same b b' -> same (mul a b) (mul a' b');
  go_assoc : forall a b c, member a -> member b -> member c -> same (mul (mul a b) c) (mul a (mul b c));
  go_one : forall a, member a -> same (mul one a) a;
  go_inverse : forall a, member a -> same (mul (inv a) a) one;
  (** products are normalised *)
  go_normal : forall a b c d, member a -> member b -> member c -> member d -> same (mul a b) (mul c d) -> mul a b = mul c d;
  (** an action on R^n *)
  go_act_same : forall a b v, member a -> member b -> same a b -> act a v = act b v;
  go_act_one : forall v, act one v = v;
  go_act_mul : forall a b v, member a -> member b -> act (mul a b) v = act a (act b v);
  (** determinants *)
  go_det_mul : forall a b, member a -> member b -> detf det (mul a b) = detf det a * detf det b
}.

(** The sampler returns one row of S numbers per query, equal queries getting equal rows. How good the interpolation is does
    not matter. *)
Definition row_by_row {G P} (ops : gops G P) : Prop := forall S queries signal grid rows,
  (forall r, In r signal -> List.length r = S) -> op_sample_H ops S queries signal grid = Ok rows ->
  exists row, rows = map row queries /\ forall q, In q queries -> List.length (row q) = S.
