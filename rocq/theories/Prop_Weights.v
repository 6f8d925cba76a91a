(** Property theorems C77: layers are linear in their parameters.
    Reading guide.  [combines a b s X Y Z]: X, Y, Z are tensors of shape s and Z = a X + b Y entry by entry; [bias_combines] the same for
    optional biases; [with_bias L bias]: the layer L with that bias parameter (WeightSpec.v).  The parameters of the kernels are the
    arguments weight (and weight_H) of the forward functions. *)
From Coq Require Import String ZArith.
From Verif Require Import Prelude RMath Mat Interp InterpFacts InterpExample SO2 SO2Facts O2 O2Facts SO3 SO3Facts O3 O3Facts OSplit Repulse RepulseFacts Tensor TensorFacts Functional FunctionalFacts
  Kernel KernelFacts KernelMore Conv ConvSpec ConvFacts ConvInit Prop_Regrid WeightSpec SampleRn WeightFacts.
Open Scope R_scope.

Lemma mlin_map2 a b s1 : forall s2, mlin a b s1 s2 = map2 (lincomb a b) s1 s2.
Proof. induction s1 as [|x s1 IH]; intros [|y s2]; try reflexivity. unfold mlin in *. cbn [combine map map2 fst snd]. rewrite IH. f_equal. symmetry. apply lc_combine. Qed.
Lemma signals_of {G P} (k : gkernel G P) : (forall a b S q s1 s2, wfm (k_gdim k) S s1 -> wfm (k_gdim k) S s2 ->
  lin (rc a b S) (op_sample_H (k_ops k) S q s1 (k_grid_H k)) (op_sample_H (k_ops k) S q s2 (k_grid_H k)) (op_sample_H (k_ops k) S q (mlin a b s1 s2) (k_grid_H k))) ->
  linear_in_signals k.
Proof.
  intros H S q a b s1 s2 r1 W1 W2 E. destruct (H a b S q s1 s2 W1 W2 r1 E) as (r2 & r3 & E2 & E3 & C). destruct (rc_wf _ _ _ _ _ _ C) as [R1 R2].
  exists r2. rewrite (rc_3 _ _ _ _ _ _ C), !mlin_map2 in E3. auto.
Qed.
Lemma of_signals {G P} (k : gkernel G P) a b : linear_in_signals k -> forall S q s1 s2, wfm (k_gdim k) S s1 -> wfm (k_gdim k) S s2 ->
  lin (rc a b S) (op_sample_H (k_ops k) S q s1 (k_grid_H k)) (op_sample_H (k_ops k) S q s2 (k_grid_H k)) (op_sample_H (k_ops k) S q (mlin a b s1 s2) (k_grid_H k)).
Proof.
  intros H S q s1 s2 W1 W2 r1 E. destruct (H S q a b s1 s2 r1 W1 W2 E) as (r2 & E2 & E3 & [_ R1] & R2). exists r2, (map2 (lincomb a b) r1 r2).
  rewrite mlin_map2. split; [exact E2|]. split; [exact E3|]. constructor; [exact R1|exact R2|symmetry; apply mlin_map2].
Qed.
Lemma of_images {G P} (k : gkernel G P) a b : linear_in_images k -> forall smp s, op_sample_Rn (k_ops k) = Ok smp -> List.length s = List.length (k_size k) -> linear_sampler a b smp s.
Proof. intros H smp s E El v x y E2. apply (H smp s v a b x y E El). auto. Qed.
Lemma shape_rank (X Y Z : tensor R) a b s : combines a b s X Y Z -> shape X = s.
Proof. intros [[E _] _]. exact E. Qed.

(** All kernels of the package have linear samplers (for the E(n) group kernels: when the stored grid has as many elements as
    group_kernel_size says). *)
Theorem C77_library_kernels : forall T cin out s groups n m gmode given given' mode pm mask, torch_ok T ->
  (forall grid, linear_in_images (lifting_kernel_SE2 T cin out s groups mode pm mask grid)) /\
  (forall grid, linear_in_images (lifting_kernel_SE3 T cin out s groups mode pm mask grid)) /\
  (forall grid, linear_in_images (lifting_kernel_E2 T cin out s groups n m mode pm mask grid)) /\
  (forall grid, linear_in_images (lifting_kernel_E3 T cin out s groups n m mode pm mask grid)) /\
  (forall grid k, kernel_SE2 T cin out s groups gmode given mode pm mask grid = Ok k -> linear_in_images k /\ linear_in_signals k) /\
  (forall grid k, kernel_SE3 T cin out s groups gmode given mode pm mask grid = Ok k -> linear_in_images k /\ linear_in_signals k) /\
  (forall grid k, kernel_E2 T cin out s groups n m gmode given given' mode pm mask grid = Ok k -> List.length grid = (n + m)%nat ->
    linear_in_images k /\ linear_in_signals k) /\
  (forall grid k, kernel_E3 T cin out s groups n m gmode given given' mode pm mask grid = Ok k -> List.length grid = (n + m)%nat ->
    linear_in_images k /\ linear_in_signals k) /\
  (forall grid k, kernel_SO3 T cin out groups gmode given grid = Ok k -> linear_in_signals k).
Proof.
  intros T cin out s groups n m gmode given given' mode pm mask HT.
  assert (forall smp l v a b x y, sample_R2 mode pm = Ok smp -> List.length l = 2%nat -> List.length x = List.length y -> smp l (lincomb a b x y) v = a * smp l x v + b * smp l y v) as L2.
  { intros smp l v a b x y E El Exy. destruct l as [|p [|q [|? ?]]]; try discriminate. apply (linear2 a b mode pm smp p q E v x y). auto. }
  assert (forall smp l v a b x y, sample_R3 mode pm = Ok smp -> List.length l = 3%nat -> List.length x = List.length y -> smp l (lincomb a b x y) v = a * smp l x v + b * smp l y v) as L3.
  { intros smp l v a b x y E El Exy. destruct l as [|p [|q [|r [|? ?]]]]; try discriminate. apply (linear3 a b mode pm smp p q r E v x y). auto. }
  assert (forall k c : nat, fold_right Nat.add 0%nat [k] = k) as F1 by (intros; simpl; lia).
  split; [intros grid smp l v a b x y E El Exy; exact (L2 smp l v a b x y E El Exy)|].
  split; [intros grid smp l v a b x y E El Exy; exact (L3 smp l v a b x y E El Exy)|].
  split; [intros grid smp l v a b x y E El Exy; exact (L2 smp l v a b x y E El Exy)|].
  split; [intros grid smp l v a b x y E El Exy; exact (L3 smp l v a b x y E El Exy)|].
  split; [|split; [|split; [|split]]]; intros grid k Ek.
  - unfold kernel_SE2 in Ek. apply bind_ok in Ek. destruct Ek as (w & _ & Ek). injection Ek as <-. split; [intros smp l v a b x y E El Exy; exact (L2 smp l v a b x y E El Exy)|].
    apply signals_of. intros a b S q s1 s2 W1 W2. unfold k_gdim in W1, W2. cbn [k_gsize k_ops ops_SE2 op_sample_H k_grid_H] in *. rewrite F1 in W1, W2 by exact 0%nat.
    apply so2_sample_linear; assumption.
  - unfold kernel_SE3 in Ek. apply bind_ok in Ek. destruct Ek as (w & _ & Ek). injection Ek as <-. split; [intros smp l v a b x y E El Exy; exact (L3 smp l v a b x y E El Exy)|].
    apply signals_of. intros a b S q s1 s2 W1 W2. unfold k_gdim in W1, W2. cbn [k_gsize k_ops ops_SE3 op_sample_H k_grid_H] in *. rewrite F1 in W1, W2 by exact 0%nat.
    apply so3_sample_linear; assumption.
  - intros Hlen. unfold kernel_E2 in Ek. apply bind_ok in Ek. destruct Ek as (w & _ & Ek). apply bind_ok in Ek. destruct Ek as (w' & _ & Ek). injection Ek as <-. split; [intros smp l v a b x y E El Exy; exact (L2 smp l v a b x y E El Exy)|].
    apply signals_of. intros a b S q s1 s2 W1 W2. unfold k_gdim in W1, W2. cbn [k_gsize k_ops ops_E2 op_sample_H k_grid_H fold_right] in *. rewrite Nat.add_0_r, <- Hlen in W1, W2.
    exact (split_linear a b o2c o2a (fun S q s g => so2_grid_sample T gmode w S q s g) (fun S q s g => so2_grid_sample T gmode w' S q s g) n m (so2_sample_linear a b T HT gmode w) (so2_sample_linear a b T HT gmode w') S q s1 s2 grid W1 W2).
  - intros Hlen. unfold kernel_E3 in Ek. apply bind_ok in Ek. destruct Ek as (w & _ & Ek). apply bind_ok in Ek. destruct Ek as (w' & _ & Ek). injection Ek as <-. split; [intros smp l v a b x y E El Exy; exact (L3 smp l v a b x y E El Exy)|].
    apply signals_of. intros a b S q s1 s2 W1 W2. unfold k_gdim in W1, W2. cbn [k_gsize k_ops ops_E3 op_sample_H k_grid_H fold_right] in *. rewrite Nat.add_0_r, <- Hlen in W1, W2.
    exact (split_linear a b o3c o3r (fun S q s g => so3_grid_sample_matrix T gmode w S q s g) (fun S q s g => so3_grid_sample_matrix T gmode w' S q s g) n m (so3_sample_linear a b T HT gmode w) (so3_sample_linear a b T HT gmode w') S q s1 s2 grid W1 W2).
  - unfold kernel_SO3 in Ek. apply bind_ok in Ek. destruct Ek as (w & _ & Ek). injection Ek as <-.
    apply signals_of. intros a b S q s1 s2 W1 W2. unfold k_gdim in W1, W2. cbn [k_gsize k_ops op_sample_H k_grid_H] in *. rewrite F1 in W1, W2 by exact 0%nat.
    unfold so3_grid_sample. destruct (String.eqb gmode "nearest"); [eapply NN_linear; eassumption|]. destruct (String.eqb gmode "rbf"); [apply RBF_lin; assumption|apply lin_err].
Qed.
Print Assumptions C77_library_kernels.

(** The output of a lifting layer is linear in (weight, bias); if one weight is accepted all of its shape are. *)
Theorem C77_lifting : forall G P (D : Dflt P) (L : gconv G P) a b b1 b2 b3 w1 w2 w3 X H Y1 H1, linear_in_images (l_kernel L) ->
  bias_combines a b b1 b2 b3 -> combines a b (lifting_weight_shape (l_kernel L)) w1 w2 w3 ->
  lifting_forward (with_bias L b1) w1 X H = Ok (Y1, H1) ->
  exists Y2 Y3, lifting_forward (with_bias L b2) w2 X H = Ok (Y2, H1) /\ lifting_forward (with_bias L b3) w3 X H = Ok (Y3, H1) /\
    combines a b (shape Y1) Y1 Y2 Y3.
Proof.
  intros G P D L a b b1 b2 b3 w1 w2 w3 X H Y1 H1 HK HB HW E.
  pose proof (lifting_layer_linear a b L b1 b2 b3 w1 w2 w3 X H HB) as K.
  destruct (K (lifting_kernel_linear a b (l_kernel L) (of_images _ a b HK) w1 w2 w3 H ltac:(rewrite (shape_rank _ _ _ _ _ _ HW); reflexivity) (tc_combines a b _ _ _ _ HW)) _ E)
    as ([Y2 H2] & [Y3 H3] & E2 & E3 & [C [Q2 Q3]]). cbn [fst snd] in *. subst H2 H3.
  exists Y2, Y3. split; [exact E2|]. split; [exact E3|]. apply (tc_has_shape a b _ _ _ _ C). split; [reflexivity|]. eapply lifting_wf. exact E.
Qed.
Print Assumptions C77_lifting.

(** The same for the full group layer. *)
Theorem C77_full : forall G P (D : Dflt P) (L : gconv G P) a b b1 b2 b3 w1 w2 w3 X in_H out_H Y1 H1,
  linear_in_images (l_kernel L) -> linear_in_signals (l_kernel L) ->
  bias_combines a b b1 b2 b3 -> combines a b (full_weight_shape (l_kernel L)) w1 w2 w3 ->
  full_forward (with_bias L b1) w1 X in_H out_H = Ok (Y1, H1) ->
  exists Y2 Y3, full_forward (with_bias L b2) w2 X in_H out_H = Ok (Y2, H1) /\ full_forward (with_bias L b3) w3 X in_H out_H = Ok (Y3, H1) /\
    combines a b (shape Y1) Y1 Y2 Y3.
Proof.
  intros G P D L a b b1 b2 b3 w1 w2 w3 X in_H out_H Y1 H1 HK HS HB HW E.
  pose proof (group_layer_linear a b L b1 b2 b3 (full_kernel_forward (l_kernel L) w1) (full_kernel_forward (l_kernel L) w2) (full_kernel_forward (l_kernel L) w3) X in_H out_H HB) as K.
  destruct (K (full_kernel_linear a b (l_kernel L) (of_images _ a b HK) (of_signals _ a b HS) w1 w2 w3 in_H out_H (tc_combines a b _ _ _ _ HW)) _ E)
    as ([Y2 H2] & [Y3 H3] & E2 & E3 & [C [Q2 Q3]]). cbn [fst snd] in *. subst H2 H3.
  exists Y2, Y3. split; [exact E2|]. split; [exact E3|]. apply (tc_has_shape a b _ _ _ _ C). split; [reflexivity|]. eapply group_wf. exact E.
Qed.
Print Assumptions C77_full.

(** The same for a group layer with a subgroup kernel. *)
Theorem C77_subgroup : forall G P (D : Dflt P) (L : gconv G P) a b b1 b2 b3 w1 w2 w3 X in_H out_H Y1 H1, linear_in_signals (l_kernel L) ->
  bias_combines a b b1 b2 b3 -> combines a b (group_weight_shape (l_kernel L)) w1 w2 w3 ->
  subgroup_forward (with_bias L b1) w1 X in_H out_H = Ok (Y1, H1) ->
  exists Y2 Y3, subgroup_forward (with_bias L b2) w2 X in_H out_H = Ok (Y2, H1) /\ subgroup_forward (with_bias L b3) w3 X in_H out_H = Ok (Y3, H1) /\
    combines a b (shape Y1) Y1 Y2 Y3.
Proof.
  intros G P D L a b b1 b2 b3 w1 w2 w3 X in_H out_H Y1 H1 HS HB HW E.
  pose proof (group_layer_linear a b L b1 b2 b3 (subgroup_kernel_forward (l_kernel L) w1) (subgroup_kernel_forward (l_kernel L) w2) (subgroup_kernel_forward (l_kernel L) w3) X in_H out_H HB) as K.
  destruct (K (subgroup_kernel_linear a b (l_kernel L) (of_signals _ a b HS) w1 w2 w3 in_H out_H (tc_combines a b _ _ _ _ HW)) _ E)
    as ([Y2 H2] & [Y3 H3] & E2 & E3 & [C [Q2 Q3]]). cbn [fst snd] in *. subst H2 H3.
  exists Y2, Y3. split; [exact E2|]. split; [exact E3|]. apply (tc_has_shape a b _ _ _ _ C). split; [reflexivity|]. eapply group_wf. exact E.
Qed.
Print Assumptions C77_subgroup.

(** The separable layer is linear in (weight_H, bias) for a fixed weight, and in (weight, bias) for a fixed weight_H. *)
Theorem C77_separable : forall G P (D : Dflt P) (L : gconv G P) a b b1 b2 b3 X in_H out_H Y1 H1,
  linear_in_images (l_kernel L) -> linear_in_signals (l_kernel L) -> bias_combines a b b1 b2 b3 ->
  (forall w1 w2 w3 weight, combines a b (group_weight_shape (l_kernel L)) w1 w2 w3 ->
    separable_forward (with_bias L b1) w1 weight X in_H out_H = Ok (Y1, H1) ->
    exists Y2 Y3, separable_forward (with_bias L b2) w2 weight X in_H out_H = Ok (Y2, H1) /\
      separable_forward (with_bias L b3) w3 weight X in_H out_H = Ok (Y3, H1) /\ combines a b (shape Y1) Y1 Y2 Y3) /\
  (forall w1 w2 w3 weight_H, combines a b (separable_weight_shape (l_kernel L)) w1 w2 w3 ->
    separable_forward (with_bias L b1) weight_H w1 X in_H out_H = Ok (Y1, H1) ->
    exists Y2 Y3, separable_forward (with_bias L b2) weight_H w2 X in_H out_H = Ok (Y2, H1) /\
      separable_forward (with_bias L b3) weight_H w3 X in_H out_H = Ok (Y3, H1) /\ combines a b (shape Y1) Y1 Y2 Y3).
Proof.
  intros G P D L a b b1 b2 b3 X in_H out_H Y1 H1 HK HS HB. split; intros w1 w2 w3 W HW E.
  - pose proof (separable_layer_linear_H a b L b1 b2 b3 w1 w2 w3 W X in_H out_H HB) as K.
    destruct (K (separable_kernel_linear_H a b (l_kernel L) (of_signals _ a b HS) w1 w2 w3 W in_H out_H (tc_combines a b _ _ _ _ HW)) _ E)
      as ([Y2 H2] & [Y3 H3] & E2 & E3 & [C [Q2 Q3]]). cbn [fst snd] in *. subst H2 H3.
    exists Y2, Y3. split; [exact E2|]. split; [exact E3|]. apply (tc_has_shape a b _ _ _ _ C). split; [reflexivity|]. eapply separable_wf. exact E.
  - pose proof (separable_layer_linear a b L b1 b2 b3 w1 w2 w3 W X in_H out_H HB) as K.
    destruct (K (separable_kernel_linear a b (l_kernel L) (of_images _ a b HK) w1 w2 w3 W in_H out_H ltac:(rewrite (shape_rank _ _ _ _ _ _ HW); reflexivity) (tc_combines a b _ _ _ _ HW)) _ E)
      as ([Y2 H2] & [Y3 H3] & E2 & E3 & [C [Q2 Q3]]). cbn [fst snd] in *. subst H2 H3.
    exists Y2, Y3. split; [exact E2|]. split; [exact E3|]. apply (tc_has_shape a b _ _ _ _ C). split; [reflexivity|]. eapply separable_wf. exact E.
Qed.
Print Assumptions C77_separable.

(** Consequence: scaling weight and bias of a lifting layer scales its output. *)
Theorem C77_scaling : forall G P (D : Dflt P) (L : gconv G P) c b1 b3 w1 w3 X H Y1 H1, linear_in_images (l_kernel L) ->
  bias_combines c 0 b1 b1 b3 -> combines c 0 (lifting_weight_shape (l_kernel L)) w1 w1 w3 ->
  lifting_forward (with_bias L b1) w1 X H = Ok (Y1, H1) ->
  exists Y3, lifting_forward (with_bias L b3) w3 X H = Ok (Y3, H1) /\ has_shape Y3 (shape Y1) /\ forall i, valid (shape Y1) i -> at_ Y3 i = c * at_ Y1 i.
Proof.
  intros G P D L c b1 b3 w1 w3 X H Y1 H1 HK HB HW E. destruct (C77_lifting G P D L c 0 b1 b1 b3 w1 w1 w3 X H Y1 H1 HK HB HW E) as (Y2 & Y3 & E2 & E3 & (_ & _ & S3 & A)).
  rewrite E in E2. injection E2 as <-. exists Y3. split; [exact E3|]. split; [exact S3|]. intros i V. rewrite (A i V). ring.
Qed.
Print Assumptions C77_scaling.

(** the hypotheses are met: a two-channel SE(2) layer, weights 2 w1 - 3 w2 *)
Example C77_nonvacuous : exists (k : gkernel R V2) (L : gconv R V2) X Y1 Y2 Y3,
  let w1 := build [2; 3; 2; 3; 3]%nat (fun idx => INR (nth 0 idx 0%nat)) in
  let w2 := build [2; 3; 2; 3; 3]%nat (fun idx => INR (nth 4 idx 0%nat)) in
  let w3 := build [2; 3; 2; 3; 3]%nat (fun idx => 2 * INR (nth 0 idx 0%nat) + -3 * INR (nth 4 idx 0%nat)) in
  l_kernel L = k /\ linear_in_images k /\ linear_in_signals k /\ combines 2 (-3) (full_weight_shape k) w1 w2 w3 /\
  full_forward (with_bias L None) w1 X [0; 1; 2] [0; PI / 2; 3] = Ok (Y1, [0; PI / 2; 3]) /\
  full_forward (with_bias L None) w2 X [0; 1; 2] [0; PI / 2; 3] = Ok (Y2, [0; PI / 2; 3]) /\
  full_forward (with_bias L None) w3 X [0; 1; 2] [0; PI / 2; 3] = Ok (Y3, [0; PI / 2; 3]) /\
  combines 2 (-3) (shape Y1) Y1 Y2 Y3.
Proof.
  destruct (C70_nonvacuous ex_env ex_env_ok) as (k & L & X & X' & Y & Z & Q). cbv zeta in Q.
  destruct Q as (Hk & HL & Hw & HwH & HwS & _ & _ & _ & HX & _ & _ & EY & EZ).
  destruct (C77_library_kernels ex_env 2 3 3 1 0 0 "nearest" 1 1 "bilinear" "border" true ex_env_ok) as (_ & _ & _ & _ & K & _). destruct (K _ _ Hk) as [K1 K2].
  set (w1 := build [2; 3; 2; 3; 3]%nat (fun idx => INR (nth 0 idx 0%nat))) in *.
  set (w2 := build [2; 3; 2; 3; 3]%nat (fun idx => INR (nth 4 idx 0%nat))).
  set (w3 := build [2; 3; 2; 3; 3]%nat (fun idx => 2 * INR (nth 0 idx 0%nat) + -3 * INR (nth 4 idx 0%nat))).
  assert (full_weight_shape k = [2; 3; 2; 3; 3]%nat) as Hd. { unfold kernel_SE2 in Hk. destruct (width_SE2 _ _); [|discriminate]. injection Hk as <-. reflexivity. }
  assert (combines 2 (-3) (full_weight_shape k) w1 w2 w3) as HW.
  { rewrite Hd. split; [split; [reflexivity|apply wft_build]|]. split; [split; [reflexivity|apply wft_build]|]. split; [split; [reflexivity|apply wft_build]|].
    intros i V. unfold w1, w2, w3. rewrite !at_build by exact V. reflexivity. }
  destruct (constructed_spec _ _ _ _ _ _ _ _ _ _ _ _ HL) as (_ & _ & ELk & _ & _ & _ & _ & _ & _ & _ & _ & ELb & _).
  assert (with_bias L None = L) as EL. { unfold with_bias. rewrite <- ELb. destruct L. reflexivity. }
  assert (l_kernel L = k) as Ek by exact ELk.
  rewrite <- EL in EY. rewrite <- Ek in K1, K2, HW.
  destruct (C77_full R V2 _ L 2 (-3) None None None w1 w2 w3 X [0; 1; 2] [0; PI / 2; 3] Y _ K1 K2 I HW EY) as (Y2 & Y3 & E2 & E3 & C).
  exists (l_kernel L), L, X, Y, Y2, Y3. cbv zeta. fold w1 w2 w3. repeat (split; [first [reflexivity|assumption]|]).
  exact C.
Qed.
