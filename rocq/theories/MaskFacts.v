(** The mask option of the kernels (C42). *)
From Coq Require Import String.
From Verif Require Import Prelude RMath Mat Interp InterpFacts SO2 O2 SO3 O3 Tensor TensorFacts
  Functional FunctionalFacts Kernel KernelFacts GroupKernelFacts KernelMore SO2Facts O2Facts SO3Facts O3Facts.
Open Scope R_scope.

Definition set_mask {G P} (k : gkernel G P) (m : option (tensor R)) : gkernel G P :=
  {| k_in := k_in k; k_out := k_out k; k_groups := k_groups k; k_size := k_size k; k_gsize := k_gsize k;
     k_grid_H := k_grid_H k; k_grid_Rn := k_grid_Rn k; k_mask := m; k_ops := k_ops k |}.

  Lemma valid_cons_inv n s i l : valid (n :: s) (i :: l) -> (i < n)%nat /\ valid s l.
  Proof. intros H. inversion H; subst; auto. Qed.
  Lemma lt_nth {A} (l : list A) i : (i < List.length l)%nat -> exists a, nth_error l i = Some a.
  Proof. intros H. destruct (nth_error l i) eqn:E; [eauto|]. apply nth_error_None in E. lia. Qed.

Section Masks.
  Context {G P : Type} {D : Dflt P} (k : gkernel G P).
  Context (inv : G -> G) (mul : G -> G -> G) (act : G -> P -> P) (det : option (G -> R)).
  Hypothesis Hops : gops_ok (k_ops k) inv mul act det.
  Hypothesis Hgrid : has_shape (k_grid_Rn k) (k_size k).
  Hypothesis Hnone : k_mask k = None.
  Hypothesis Hks : prodn (k_size k) <> 0%nat.
  Context (m : tensor R) (Hm : has_shape m (k_size k)).

  (** the same kernel with and without the mask: every entry is multiplied by the mask *)
  Definition masked_version (nlead : nat) (W W' : tensor R) : Prop :=
    shape W' = shape W /\
    forall lead x, List.length lead = nlead -> valid (shape W) (lead ++ x) -> valid (k_size k) x ->
      at_ W' (lead ++ x) = at_ m x * at_ W (lead ++ x).

  Lemma lifting_mask smp weight H : op_sample_Rn (k_ops k) = Ok smp ->
    has_shape weight (lifting_weight_shape k) ->
    exists W W', lifting_kernel_forward k weight H = Ok W /\
      lifting_kernel_forward (set_mask k (Some m)) weight H = Ok W' /\ masked_version 3 W W'.
  Proof.
    intros Hsmp Hw.
    assert (mask_ok (k_mask k) (k_size k)) as Hmask by (rewrite Hnone; exact I).
    destruct (lifting_formula k _ _ _ _ Hops Hgrid Hmask Hks smp weight H Hsmp Hw) as (W & E & [S1 _] & A).
    destruct (lifting_formula (set_mask k (Some m)) inv mul act det Hops Hgrid Hm Hks smp weight H Hsmp Hw) as (W' & E' & [S2 _] & A').
    exists W, W'. split; [assumption|]. split; [assumption|]. split; [rewrite S1, S2; reflexivity|].
    intros lead x Hl Hv Hx. destruct lead as [|o [|i [|c [|]]]]; try discriminate. rewrite S1 in Hv. cbn [app] in *.
    apply valid_cons_inv in Hv. destruct Hv as [Ho Hv]. apply valid_cons_inv in Hv. destruct Hv as [Hi Hv].
    apply valid_cons_inv in Hv. destruct Hv as [Hc _]. destruct (lt_nth H i Hi) as [g Hg].
    rewrite (A o i g c x), (A' o i g c x) by assumption. rewrite Hnone. cbn [maskf k_mask set_mask k_size k_grid_Rn].
    unfold Rdiv. ring.
  Qed.
  Lemma full_mask smp weight in_H out_H V : op_sample_Rn (k_ops k) = Ok smp -> k_gdim k <> 0%nat ->
    has_shape weight (full_weight_shape k) ->
    sampled k inv mul (k_out k :: k_cin k :: k_size k) weight in_H out_H V ->
    exists W W', full_kernel_forward k weight in_H out_H = Ok W /\
      full_kernel_forward (set_mask k (Some m)) weight in_H out_H = Ok W' /\ masked_version 4 W W'.
  Proof.
    intros Hsmp Hd Hw Hs.
    assert (mask_ok (k_mask k) (k_size k)) as Hmask by (rewrite Hnone; exact I).
    destruct (full_formula k _ _ _ _ Hops Hgrid Hmask Hks Hd smp weight in_H out_H V Hsmp Hw Hs) as (W & E & [S1 _] & A).
    destruct (full_formula (set_mask k (Some m)) inv mul act det Hops Hgrid Hm Hks Hd smp weight in_H out_H V Hsmp Hw Hs) as (W' & E' & [S2 _] & A').
    exists W, W'. split; [assumption|]. split; [assumption|]. split; [rewrite S1, S2; reflexivity|].
    intros lead x Hl Hv Hx. destruct lead as [|o [|i [|c [|j [|]]]]]; try discriminate. rewrite S1 in Hv. cbn [app] in *.
    apply valid_cons_inv in Hv. destruct Hv as [Ho Hv]. apply valid_cons_inv in Hv. destruct Hv as [Hi Hv].
    apply valid_cons_inv in Hv. destruct Hv as [Hc Hv]. apply valid_cons_inv in Hv. destruct Hv as [Hj _].
    destruct (lt_nth out_H i Hi) as [g Hg]. destruct (lt_nth in_H j Hj) as [h Hh].
    destruct (relabel_exists (k_out k) (k_cin k) o c Ho Hc) as (o' & c' & Ho' & Hc' & Hoc).
    rewrite (A o i g c j h x o' c'), (A' o i g c j h x o' c') by assumption. rewrite Hnone. cbn [maskf k_mask set_mask k_size k_grid_Rn].
    change (k_cin (set_mask k (Some m))) with (k_cin k). cbn [k_out set_mask]. unfold Rdiv. ring.
  Qed.
  Lemma separable_mask smp weight_H weight in_H out_H V : op_sample_Rn (k_ops k) = Ok smp -> k_gdim k <> 0%nat ->
    has_shape weight_H (group_weight_shape k) -> has_shape weight (separable_weight_shape k) ->
    sampled k inv mul [k_out k; k_cin k] weight_H in_H out_H V ->
    exists WH W W', separable_kernel_forward k weight_H weight in_H out_H = Ok (WH, W) /\
      separable_kernel_forward (set_mask k (Some m)) weight_H weight in_H out_H = Ok (WH, W') /\ masked_version 3 W W'.
  Proof.
    intros Hsmp Hd HwH Hw Hs.
    assert (mask_ok (k_mask k) (k_size k)) as Hmask by (rewrite Hnone; exact I).
    destruct (separable_formula k _ _ _ _ Hops Hgrid Hmask Hks Hd smp weight_H weight in_H out_H V Hsmp HwH Hw Hs)
      as (WH & W & E & _ & [S1 _] & _ & A).
    destruct (separable_formula (set_mask k (Some m)) inv mul act det Hops Hgrid Hm Hks Hd smp weight_H weight in_H out_H V Hsmp HwH Hw Hs)
      as (WH' & W' & E' & _ & [S2 _] & _ & A').
    exists WH, W, W'. split; [assumption|]. split.
    { rewrite E'. f_equal. f_equal. rewrite separable_split in E, E'.
      change (sample_group (set_mask k (Some m)) weight_H in_H out_H) with (sample_group k weight_H in_H out_H) in E'.
      destruct (sample_group k weight_H in_H out_H) as [w0|]; [|discriminate]. cbn [bind] in *.
      cbn [k_cin k_out k_size set_mask k_in k_groups] in E'.
      change (k_cin (set_mask k (Some m))) with (k_cin k) in E'.
      destruct (view _ w0) as [w1|]; [|discriminate]. cbn [bind] in *.
      destruct (spatial_stage k weight out_H); [|discriminate].
      destruct (spatial_stage (set_mask k (Some m)) weight out_H); [|discriminate]. cbn [bind] in *. congruence. }
    split; [rewrite S1, S2; reflexivity|].
    intros lead x Hl Hv Hx. destruct lead as [|o [|i [|c [|]]]]; try discriminate. rewrite S1 in Hv. cbn [app] in *.
    apply valid_cons_inv in Hv. destruct Hv as [Ho Hv]. apply valid_cons_inv in Hv. destruct Hv as [Hi Hv].
    apply valid_cons_inv in Hv. destruct Hv as [Hc _]. destruct (lt_nth out_H i Hi) as [g Hg].
    assert (c = 0%nat) by lia. subst c.
    rewrite (A o i g x), (A' o i g x) by assumption. rewrite Hnone. cbn [maskf k_mask set_mask k_size k_grid_Rn].
    unfold Rdiv. ring.
  Qed.
End Masks.
