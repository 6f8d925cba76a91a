(** Consequences of the group laws of CustomSpec.v. *)
From Coq Require Import String RelationClasses Setoid.
From Verif Require Import Prelude RMath Mat Interp Tensor TensorFacts SignedPerm Functional FunctionalFacts Kernel KernelFacts GroupKernelFacts KernelMore
  Conv ConvSpec ConvFacts ConvInit Prop_Kernel Prop_Kernel2 EquiSpec EquiSpecFacts EquiKernel EquiGroups CustomSpec.
Open Scope R_scope.

Section Laws.
  Context {G P : Type} (ops : gops G P) (member : G -> Prop) (same : G -> G -> Prop)
    (one : G) (inv : G -> G) (mul : G -> G -> G) (act : G -> P -> P) (det : option (G -> R)).
  Hypothesis GO : group_ops ops member same one inv mul act det.
  Let Hs : Equivalence same := go_same _ _ _ _ _ _ _ _ GO.
  Local Notation M1 := (go_one_member _ _ _ _ _ _ _ _ GO).
  Local Notation MI := (go_inv_member _ _ _ _ _ _ _ _ GO).
  Local Notation MM := (go_mul_member _ _ _ _ _ _ _ _ GO).
  Lemma s_refl a : same a a. Proof. apply Hs. Qed.
  Lemma s_sym a b : same a b -> same b a. Proof. apply Hs. Qed.
  Lemma s_trans a b c : same a b -> same b c -> same a c. Proof. apply Hs. Qed.
  Lemma c_mul_l a a' b : member a -> member a' -> member b -> same a a' -> same (mul a b) (mul a' b).
  Proof. intros. apply (go_mul_same _ _ _ _ _ _ _ _ GO); auto using s_refl. Qed.
  Lemma c_mul_r a b b' : member a -> member b -> member b' -> same b b' -> same (mul a b) (mul a b').
  Proof. intros. apply (go_mul_same _ _ _ _ _ _ _ _ GO); auto using s_refl. Qed.
  Lemma assoc a b c : member a -> member b -> member c -> same (mul (mul a b) c) (mul a (mul b c)).
  Proof. apply (go_assoc _ _ _ _ _ _ _ _ GO). Qed.
  (* inv a * (a * b) ~ b *)
  Lemma cancel a b : member a -> member b -> same (mul (inv a) (mul a b)) b.
  Proof.
    intros Ha Hb. eapply s_trans; [apply s_sym, assoc; auto using MI|].
    eapply s_trans; [apply (c_mul_l _ one); auto using MI, MM, M1; apply (go_inverse _ _ _ _ _ _ _ _ GO); assumption|].
    apply (go_one _ _ _ _ _ _ _ _ GO); assumption.
  Qed.
  (* left cancellation *)
  Lemma cancel_l a b c : member a -> member b -> member c -> same (mul a b) (mul a c) -> same b c.
  Proof.
    intros Ha Hb Hc E. eapply s_trans; [apply s_sym, (cancel a b); assumption|].
    eapply s_trans; [apply c_mul_r; try exact E; auto using MI, MM|]. apply cancel; assumption.
  Qed.
  Lemma cancel' a b : member a -> member b -> same (mul a (mul (inv a) b)) b.
  Proof.
    intros Ha Hb. apply (cancel_l (inv a)); auto using MI, MM. apply cancel; auto using MI, MM.
  Qed.
  Lemma left_invariant g a b : member g -> member a -> member b -> mul (inv (mul g a)) (mul g b) = mul (inv a) b.
  Proof.
    intros Hg Ha Hb. apply (go_normal _ _ _ _ _ _ _ _ GO); auto using MI, MM.
    apply (cancel_l (mul g a)); auto using MI, MM.
    eapply s_trans; [apply cancel'; auto using MI, MM|].
    eapply s_trans; [|apply s_sym, assoc; auto using MI, MM]. apply c_mul_r; auto using MI, MM. apply s_sym, cancel'; auto.
  Qed.
  Lemma act_inv a v : member a -> act (inv a) (act a v) = v.
  Proof.
    intros Ha. rewrite <- (go_act_mul _ _ _ _ _ _ _ _ GO) by auto using MI.
    rewrite (go_act_same _ _ _ _ _ _ _ _ GO _ one) by (auto using MI, MM, M1; apply (go_inverse _ _ _ _ _ _ _ _ GO); assumption).
    apply (go_act_one _ _ _ _ _ _ _ _ GO).
  Qed.
  Lemma act_inv' a v : member a -> act a (act (inv a) v) = v.
  Proof.
    intros Ha. pose proof (act_inv (inv a) (act a (act (inv a) v)) (MI a Ha)) as E. rewrite (act_inv a) in E by assumption.
    rewrite <- E. apply act_inv. auto using MI.
  Qed.
  Lemma act_inv_mul g a v : member g -> member a -> act (inv (mul g a)) v = act (inv a) (act (inv g) v).
  Proof.
    intros Hg Ha. rewrite <- (act_inv a (act (inv (mul g a)) v)) at 1 by assumption. f_equal.
    rewrite <- (act_inv g (act a (act (inv (mul g a)) v))) by assumption. f_equal.
    rewrite <- !(go_act_mul _ _ _ _ _ _ _ _ GO g a) by assumption. apply act_inv'. auto using MM.
  Qed.
End Laws.

Section Moves.
  Context {G : Type} (member : G -> Prop) (same : G -> G -> Prop) (one : G) (inv : G -> G) (mul : G -> G -> G) (det : option (G -> R)).
  Lemma moves_custom2 (act : G -> V2 -> V2) (k : gkernel G V2) s (b : bool) g A sp e H : group_ops (k_ops k) member same one inv mul act det ->
    (2 <= s)%nat -> k_size k = [s; s] -> k_grid_Rn k = create_grid_R2 s -> k_mask k = (if b then Some (create_spherical_mask_R2 s) else None) ->
    member g -> (forall h, In h H -> member h) -> (forall v, act g v = app2 A v) -> signed2 A ->
    detf det g = e -> e = 1 \/ e = -1 -> sp_ok 2 sp -> tr2 A = sp_mat2 sp ->
    kernel_moves 2 k inv mul act det g sp e H.
  Proof.
    intros GO Hs Ek Eg Em Hg HH HA HsA Hd He Hok E. split; rewrite ?Ek, ?Eg, ?Em;
      [apply GO|apply grid_R2_shape|apply opt_mask_R2|apply square_nonzero; lia|assumption|exists s; reflexivity| |
       intros x Hx; apply opt_mask2_sperm; assumption|exact He|].
    - intros h x Hh Hx. rewrite (act_inv_mul _ _ _ _ _ _ _ _ GO) by auto. f_equal. rewrite <- grid_R2_sperm by assumption. rewrite <- E.
      rewrite <- (act_inv _ _ _ _ _ _ _ _ GO g (app2 (tr2 A) _) Hg). f_equal. rewrite HA, app2_mul.
      destruct HsA as [O _]. rewrite O, app2_I. reflexivity.
    - intros h Hh. rewrite (go_det_mul _ _ _ _ _ _ _ _ GO) by auto. congruence.
  Qed.
  Lemma moves_custom3 (act : G -> V3 -> V3) (k : gkernel G V3) s (b : bool) g A sp e H : group_ops (k_ops k) member same one inv mul act det ->
    (2 <= s)%nat -> k_size k = [s; s; s] -> k_grid_Rn k = create_grid_R3 s -> k_mask k = (if b then Some (create_spherical_mask_R3 s) else None) ->
    member g -> (forall h, In h H -> member h) -> (forall v, act g v = app3 A v) -> signed3 A ->
    detf det g = e -> e = 1 \/ e = -1 -> sp_ok 3 sp -> tr3 A = sp_mat3 sp ->
    kernel_moves 3 k inv mul act det g sp e H.
  Proof.
    intros GO Hs Ek Eg Em Hg HH HA HsA Hd He Hok E. split; rewrite ?Ek, ?Eg, ?Em;
      [apply GO|apply grid_R3_shape|apply opt_mask_R3|apply cube_nonzero; lia|assumption|exists s; reflexivity| |
       intros x Hx; apply opt_mask3_sperm; assumption|exact He|].
    - intros h x Hh Hx. rewrite (act_inv_mul _ _ _ _ _ _ _ _ GO) by auto. f_equal. rewrite <- grid_R3_sperm by assumption. rewrite <- E.
      rewrite <- (act_inv _ _ _ _ _ _ _ _ GO g (app3 (tr3 A) _) Hg). f_equal. rewrite HA, app3_mul.
      destruct HsA as [[O O'] _]. first [rewrite O | rewrite O']. rewrite app3_I. reflexivity.
    - intros h Hh. rewrite (go_det_mul _ _ _ _ _ _ _ _ GO) by auto. congruence.
  Qed.
End Moves.

Lemma rowwise_sampled {G P} {D : Dflt P} (k : gkernel G P) inv mul rest weight in_H out_H rows : row_by_row (k_ops k) ->
  op_sample_H (k_ops k) (prodn rest) (relatives inv mul in_H out_H) (param_rows (k_gdim k) rest weight) (k_grid_H k) = Ok rows ->
  exists V, sampled k inv mul rest weight in_H out_H V.
Proof. intros HR E. destruct (HR _ _ _ _ _ (param_rows_len _ rest weight) E) as (V & -> & HV). exists V. split; [exact HV|exact E]. Qed.
