(** Proofs about inputs of the wrong shape (gconv.py:238-255, 292-327, 361-384). *)
From Coq Require Import String ZArith.
From Verif Require Import Prelude RMath Mat Repulse RepulseFacts Tensor TensorFacts Kernel KernelFacts Conv ConvSpec ConvFacts GConvFacts ConvInit
  WeightSpec Layers LayersSpec LayersFacts NormFacts NoBatchFacts.
Open Scope nat_scope.

(** [reread X X' cin n]: X' has the shape the layer expects, and its entry for channel c and group element h is entry number c * n + h of the second and
    third axes of X, counted row by row. *)
Definition reread (X X' : tensor R) (cin n : nat) : Prop := exists N A B sp,
  shape X = N :: A :: B :: sp /\ has_shape X' (N :: cin :: n :: sp) /\
  forall a c h y, a < N -> c < cin -> h < n -> valid sp y ->
    at_ X' (a :: c :: h :: y) = at_ X (a :: (c * n + h) / B :: (c * n + h) mod B :: y).

Lemma same_product N A B cin n sp : A * B = cin * n -> prodn (N :: cin :: n :: sp) = prodn (N :: A :: B :: sp).
Proof. intros E. rewrite !prodn_cons. f_equal. rewrite !Nat.mul_assoc. rewrite E. reflexivity. Qed.
Lemma reread_data (X X' : tensor R) cin n N A B sp : has_shape X (N :: A :: B :: sp) -> A * B = cin * n -> reread X X' cin n ->
  X' = mkT (N :: cin :: n :: sp) (data X).
Proof.
  intros HX HAB (N' & A' & B' & sp' & Hs & HX' & HV). rewrite (proj1 HX) in Hs. injection Hs as <- <- <- <-.
  pose proof (has_shape_mk X _ (N :: cin :: n :: sp) HX (same_product N A B cin n sp HAB)) as HM.
  apply tensor_ext; [exact (proj2 HX')|exact (proj2 HM)|rewrite (proj1 HX'), (proj1 HM); reflexivity|].
  intros idx Hv. rewrite (proj1 HX') in Hv.
  destruct idx as [|a idx]; [inversion Hv|]. destruct idx as [|c idx]; [inversion Hv; subst; match goal with Q : Forall2 _ _ _ |- _ => inversion Q end|].
  destruct idx as [|h y]. { exfalso. apply valid_length in Hv. cbn in Hv. lia. }
  apply valid_cons_inv in Hv. destruct Hv as [Ha Hv]. apply valid_cons_inv in Hv. destruct Hv as [Hc Hv]. apply valid_cons_inv in Hv. destruct Hv as [Hh Hy].
  rewrite HV by assumption. destruct X as [sx dx]. destruct HX as [Hs _]. cbn in Hs. subst sx. cbn [data]. apply at_reshape. cbn [ravel]. rewrite !prodn_cons.
  assert (0 < B) as HB by (destruct B; [nia|lia]). pose proof (Nat.div_mod (c * n + h) B ltac:(lia)) as Q.
  set (u := (c * n + h) / B) in *. set (v := (c * n + h) mod B) in *.
  assert (a * (A * (B * prodn sp)) = a * (cin * (n * prodn sp))) as E1 by (rewrite !Nat.mul_assoc; f_equal; rewrite <- !Nat.mul_assoc; f_equal; exact HAB).
  rewrite E1. f_equal. assert (u * (B * prodn sp) + v * prodn sp = c * (n * prodn sp) + h * prodn sp) as E2.
  { transitivity ((B * u + v) * prodn sp); [ring|]. rewrite <- Q. ring. }
  lia.
Qed.
Lemma reread_exists (X : tensor R) cin n N A B sp : has_shape X (N :: A :: B :: sp) -> A * B = cin * n -> reread X (mkT (N :: cin :: n :: sp) (data X)) cin n.
Proof.
  intros HX HAB. exists N, A, B, sp. split; [exact (proj1 HX)|]. split; [apply (has_shape_mk X _ _ HX); apply same_product; exact HAB|].
  intros a c h y Ha Hc Hh Hy. destruct X as [sx dx]. destruct HX as [Hs _]. cbn in Hs. subst sx. cbn [data]. apply at_reshape. cbn [ravel]. rewrite !prodn_cons.
  assert (0 < B) as HB by (destruct B; [nia|lia]). pose proof (Nat.div_mod (c * n + h) B ltac:(lia)) as Q.
  set (u := (c * n + h) / B) in *. set (v := (c * n + h) mod B) in *.
  assert (a * (A * (B * prodn sp)) = a * (cin * (n * prodn sp))) as E1 by (rewrite !Nat.mul_assoc; f_equal; rewrite <- !Nat.mul_assoc; f_equal; exact HAB).
  rewrite E1. f_equal. assert (u * (B * prodn sp) + v * prodn sp = c * (n * prodn sp) + h * prodn sp) as E2.
  { transitivity ((B * u + v) * prodn sp); [ring|]. rewrite <- Q. ring. }
  lia.
Qed.

(** ** Errors *)
Lemma pad_axes_err m pads X e : pad_axes m pads X = Err e -> e = RuntimeError.
Proof. unfold pad_axes. destruct (shape X) as [|? [|? ?]]; try congruence. match goal with |- context [if ?c then _ else _] => destruct c end; congruence. Qed.
Lemma conv_nd_err st dl g p w e : conv_nd st dl g p w = Err e -> e = RuntimeError.
Proof.
  unfold conv_nd. destruct (shape p) as [|? [|? ?]]; destruct (shape w) as [|? [|? ?]]; try congruence. cbv zeta.
  match goal with |- context [if ?c then _ else _] => destruct c end; congruence.
Qed.
Lemma fpad_err m fl X e : fpad m fl X = Err e -> e = RuntimeError.
Proof.
  unfold fpad, unflatten_pads. match goal with |- context [if ?c then _ else _] => destruct c end; cbn [bind]; [apply pad_axes_err|congruence].
Qed.
Lemma bind_err {A B} (r : result A) (k : A -> result B) e0 : (forall e, r = Err e -> e = e0) -> (forall x e, r = Ok x -> k x = Err e -> e = e0) ->
  forall e, (x <- r ;; k x) = Err e -> e = e0.
Proof. intros H1 H2 e. destruct r as [x|e1]; cbn [bind]; [apply H2; reflexivity|]. intros [= <-]. apply H1. reflexivity. Qed.
Lemma view_error s (t : tensor R) e : view s t = Err e -> e = RuntimeError.
Proof. unfold view. destruct (Nat.eqb _ _); congruence. Qed.
Lemma view_lead_error s (t : tensor R) e : view_lead s t = Err e -> e = RuntimeError.
Proof. unfold view_lead. destruct (Nat.eqb _ 0); [congruence|apply view_error]. Qed.

Section Err.
  Context {G P : Type} {D : Dflt P} (L : gconv G P).
  Lemma conv_batched_err X w g e : conv_batched L X w g = Err e -> e = RuntimeError.
  Proof.
    unfold conv_batched. destruct (l_mode L); apply bind_err; intros; eauto using pad_axes_err, conv_nd_err, fpad_err.
  Qed.
  Lemma conv_forward_err X w g e : conv_forward L X w g = Err e -> e = RuntimeError.
  Proof.
    unfold conv_forward. destruct (Nat.eqb _ _); [|apply conv_batched_err]. destruct (conv_batched L (unsqueeze0 X) w g) eqn:E; cbn [rmap]; [congruence|].
    intros [= <-]. eapply conv_batched_err. exact E.
  Qed.
  Lemma add_bias_err x e : add_bias L x = Err e -> e = RuntimeError.
  Proof. unfold add_bias, bcast2. destruct (l_bias L); [|congruence]. destruct (bshape _ _); congruence. Qed.

  Lemma lifting_err weight W X H e : lifting_kernel_forward (l_kernel L) weight H = Ok W -> lifting_forward L weight X H = Err e -> e = RuntimeError.
  Proof.
    intros HK. unfold lifting_forward. rewrite HK. cbn [bind]. revert e.
    do 4 (apply bind_err; [eauto using view_error, view_lead_error, conv_forward_err, add_bias_err|let e := fresh in intros ? e _; revert e]); intros; congruence.
  Qed.
  Lemma group_err kf W X in_H out_H e : kf in_H out_H = Ok W -> 3 <= List.length (shape X) -> group_forward_with L kf X in_H out_H = Err e -> e = RuntimeError.
  Proof.
    intros HK Hr. unfold group_forward_with. destruct (shape X) as [|N [|A [|B sp]]]; cbn [List.length] in Hr; try lia. rewrite HK. cbn [bind]. revert e.
    do 5 (apply bind_err; [eauto using view_error, view_lead_error, conv_forward_err, add_bias_err|let e := fresh in intros ? e _; revert e]); intros; congruence.
  Qed.
  Lemma separable_err wH w WW X in_H out_H e : separable_kernel_forward (l_kernel L) wH w in_H out_H = Ok WW -> 3 <= List.length (shape X) -> separable_forward L wH w X in_H out_H = Err e -> e = RuntimeError.
  Proof.
    intros HK Hr. unfold separable_forward. destruct (shape X) as [|N [|A [|B sp]]]; cbn [List.length] in Hr; try lia. rewrite HK. cbn [bind]. revert e.
    do 7 (apply bind_err; [eauto using view_error, view_lead_error, conv_forward_err, add_bias_err|let e := fresh in intros ? e _; revert e]); intros; congruence.
  Qed.
End Err.

(** ** Ranks *)
Lemma conv_nd_rank st dl g X W Y Co Cg ks : conv_nd st dl g X W = Ok Y -> shape W = Co :: Cg :: ks -> List.length (shape X) = S (S (List.length ks)).
Proof.
  unfold conv_nd. intros E Hw. rewrite Hw in E. destruct (shape X) as [|N [|C sp]]; try discriminate. cbv zeta in E.
  match type of E with (if ?c then _ else _) = _ => destruct c eqn:Ec; [|discriminate] end.
  rewrite !Bool.andb_true_iff, !Nat.eqb_eq in Ec. destruct Ec as (((((((E1 & _) & _) & _) & EC) & _) & _) & _). cbn [List.length]. congruence.
Qed.
Lemma pad_axes_rank m pads X p : pad_axes m pads X = Ok p -> List.length (shape p) = List.length (shape X).
Proof.
  unfold pad_axes. destruct (shape X) as [|N [|C sp]]; try discriminate. match goal with |- context [if ?c then _ else _] => destruct c end; [|discriminate].
  intros [= <-]. cbn [build shape List.length]. unfold pad_shape. rewrite ConvFacts.axes_length. reflexivity.
Qed.
Section Rank.
  Context {G P : Type} {D : Dflt P} (L : gconv G P).
  Lemma conv_batched_rank X W g Y Co Cg ks : conv_batched L X W g = Ok Y -> shape W = Co :: Cg :: ks -> exists N sp, shape X = N :: Cg * g :: sp /\ List.length sp = List.length ks.
  Proof.
    intros E Hw. destruct (conv_batched_inv L _ _ _ _ _ _ _ E Hw) as (N & sp & o & Es & _). exists N, sp. split; [exact Es|].
    assert (exists m pads p, pad_axes m pads X = Ok p /\ conv_nd (l_stride L) (l_dil L) g p W = Ok Y) as (m & pads & p & Ep & Ec).
    { unfold conv_batched in E. destruct (l_mode L); (apply bind_ok' in E; destruct E as (p & Ep & E));
        try (unfold fpad in Ep; apply bind_ok' in Ep; destruct Ep as (pads & _ & Ep)); eauto. }
    apply conv_nd_rank with (1 := Ec) in Hw. rewrite (pad_axes_rank _ _ _ _ Ep), Es in Hw. cbn [List.length] in Hw. lia.
  Qed.
  Lemma conv_forward_rank X W g Y Co Cg ks : conv_forward L X W g = Ok Y -> shape W = Co :: Cg :: ks ->
    (exists N sp, shape X = N :: Cg * g :: sp /\ List.length sp = List.length ks) \/ (exists sp, shape X = Cg * g :: sp /\ List.length sp = List.length ks).
  Proof.
    intros E Hw. unfold conv_forward in E. destruct (Nat.eqb _ _).
    - right. destruct (conv_batched L (unsqueeze0 X) W g) as [y|] eqn:Ey; [|discriminate].
      destruct (conv_batched_rank _ _ _ _ _ _ _ Ey Hw) as (N & sp & Es & Ls). cbn [unsqueeze0 shape] in Es. injection Es as _ Es. eauto.
    - left. eapply conv_batched_rank; eassumption.
  Qed.
End Rank.
