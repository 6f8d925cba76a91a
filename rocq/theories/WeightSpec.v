(** Specification: entrywise linear combinations of tensors, for the statement that layers are linear in their parameters. *)
From Verif Require Import Prelude RMath Interp Tensor Functional Kernel KernelFacts Conv.
Open Scope R_scope.

(** Z = a X + b Y, three tensors of shape s. *)
Definition combines (a b : R) (s : list nat) (X Y Z : tensor R) : Prop :=
  has_shape X s /\ has_shape Y s /\ has_shape Z s /\ forall i, valid s i -> at_ Z i = a * at_ X i + b * at_ Y i.

(** The same for a bias, which every one of the three layers has or none has. *)
Definition bias_combines (a b : R) (b1 b2 b3 : option (tensor R)) : Prop :=
  match b1, b2, b3 with
  | None, None, None => True
  | Some x, Some y, Some z => exists s, combines a b s x y z
  | _, _, _ => False
  end.

(** The layer L with another bias parameter. *)
Definition with_bias {G P} (L : gconv G P) (bias : option (tensor R)) : gconv G P :=
  {| l_kernel := l_kernel L; l_in := l_in L; l_out := l_out L; l_ks := l_ks L; l_gks := l_gks L; l_groups := l_groups L; l_stride := l_stride L;
     l_padding := l_padding L; l_dil := l_dil L; l_mode := l_mode L; l_rev := l_rev L; l_bias := bias |}.

(** a x + b y, entry by entry. *)
Definition lincomb (a b : R) (x y : list R) : list R := map2 (fun u v => a * u + b * v) x y.

(** The spatial sampler of the kernel is linear in the image ... *)
Definition linear_in_images {G P} (k : gkernel G P) : Prop := forall smp s v a b x y,
  op_sample_Rn (k_ops k) = Ok smp -> List.length s = List.length (k_size k) -> List.length x = List.length y ->
  smp s (lincomb a b x y) v = a * smp s x v + b * smp s y v.
(** ... and its group sampler, if it accepts one signal (group_kernel_size rows of S numbers), accepts all and is linear in the signal. *)
Definition linear_in_signals {G P} (k : gkernel G P) : Prop := forall S queries a b s1 s2 r1,
  wfm (k_gdim k) S s1 -> wfm (k_gdim k) S s2 -> op_sample_H (k_ops k) S queries s1 (k_grid_H k) = Ok r1 ->
  exists r2, op_sample_H (k_ops k) S queries s2 (k_grid_H k) = Ok r2 /\
    op_sample_H (k_ops k) S queries (map2 (lincomb a b) s1 s2) (k_grid_H k) = Ok (map2 (lincomb a b) r1 r2) /\
    wfm (List.length r1) S r1 /\ wfm (List.length r1) S r2.
