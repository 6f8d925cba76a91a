(** The four families of kernels move with the grid symmetries. *)
From Coq Require Import String ZArith Permutation.
From Verif Require Import Prelude RMath Mat Interp SO2 SO2Facts O2 O2Facts SO3 SO3Facts O3 O3Facts Repulse RepulseFacts Tensor TensorFacts SignedPerm Functional
  FunctionalFacts Kernel KernelFacts GroupKernelFacts KernelMore Conv ConvSpec ConvFacts Equi EquiLayer EquiSpec EquiSpecFacts EquiKernel.
Open Scope R_scope.

Lemma unit_neg x : unit_entry x -> unit_entry (- x).
Proof. intros [->|[->| ->]]; [right; right|right; left|left]; ring. Qed.

Lemma quarter_cs n : exists c s, cos (INR n * (PI / 2)) = c /\ sin (INR n * (PI / 2)) = s /\ unit_entry c /\ unit_entry s.
Proof.
  induction n as [|n (c & s & C & S & Hc & Hs)].
  - exists 1, 0. simpl. rewrite Rmult_0_l, cos_0, sin_0. unfold unit_entry. auto 10.
  - exists (- s), c. replace (INR (Datatypes.S n) * (PI / 2)) with (INR n * (PI / 2) + PI / 2) by (rewrite S_INR; ring).
    rewrite cos_plus, sin_plus, cos_PI2, sin_PI2, C, S. split; [ring|]. split; [ring|]. split; [apply unit_neg|]; assumption.
Qed.
Lemma quarter_unit q : unit_entry (cos (IZR q * (PI / 2))) /\ unit_entry (sin (IZR q * (PI / 2))).
Proof.
  destruct (Z_le_gt_dec 0 q) as [H|H].
  - rewrite <- (Z2Nat.id q H), <- INR_IZR_INZ. destruct (quarter_cs (Z.to_nat q)) as (c & s & -> & -> & ? & ?). auto.
  - replace (IZR q) with (- INR (Z.to_nat (- q))) by (rewrite INR_IZR_INZ, Z2Nat.id by lia; rewrite opp_IZR; ring).
    rewrite Ropp_mult_distr_l_reverse, cos_neg, sin_neg. destruct (quarter_cs (Z.to_nat (- q))) as (c & s & -> & -> & ? & ?).
    split; [assumption|apply unit_neg; assumption].
Qed.
Lemma quarter_signed q : signed2 (so2_angle_to_matrix (IZR q * (PI / 2))).
Proof.
  destruct (quarter_unit q) as [A B]. destruct (so2_matrix_SO2 (IZR q * (PI / 2))) as (_ & O & _).
  split; [exact O|]. cbn. split; [assumption|]. split; [apply unit_neg; assumption|]. auto.
Qed.

Lemma signed2_tr A : signed2 A -> mul2 (tr2 A) A = I2 /\ signed2 (tr2 A).
Proof.
  intros H. destruct (signed2_sperm A H) as (sp & Hok & E). destruct H as (O & H0 & H1 & H2 & H3).
  assert (mul2 (tr2 A) A = I2) as O'.
  { rewrite E. destruct (sp2_cases sp Hok) as (fa & fb & [-> | ->]); unfold sp_mat2, mul2, tr2, I2; cbn; destruct fa, fb; cbn; f_equal; ring. }
  split; [assumption|]. split; [|cbn; auto]. destruct A; cbn in *. exact O'.
Qed.
Lemma signed3_tr A : signed3 A -> signed3 (tr3 A).
Proof.
  intros ([O1 O2] & H). destruct A. unfold signed3, isO3. cbn in *. split; [split; assumption|]. tauto.
Qed.

(** Symmetries of the 2d and 3d grids as permutations of the axes of the inverse. *)
Lemma symmetry2 A : signed2 A -> exists sp, sp_ok 2 sp /\ tr2 A = sp_mat2 sp /\
  forall rel X X', carried2 rel A X X' <-> carried_sp 2 sp rel X X'.
Proof.
  intros H. destruct (signed2_tr A H) as [O' H']. destruct (signed2_sperm _ H') as (sp & Hok & E). exists sp. split; [assumption|]. split; [assumption|].
  intros. apply carried2_sp; try assumption. apply H.
Qed.
Lemma symmetry3 A : signed3 A -> exists sp, sp_ok 3 sp /\ tr3 A = sp_mat3 sp /\
  forall rel X X', carried3 rel A X X' <-> carried_sp 3 sp rel X X'.
Proof.
  intros H. pose proof (signed3_tr A H) as H'. destruct (signed3_sperm _ H') as (sp & Hok & E). exists sp. split; [assumption|]. split; [assumption|].
  intros. destruct H as ((O1 & O2) & _). apply carried3_sp; assumption.
Qed.

Lemma opt_mask2_sperm (b : bool) s sp x : (2 <= s)%nat -> sp_ok 2 sp -> valid [s; s] x ->
  maskf (if b then Some (create_spherical_mask_R2 s) else None) (sp_idx sp [s; s] x) =
  maskf (if b then Some (create_spherical_mask_R2 s) else None) x.
Proof. intros. destruct b; cbn [maskf]; [apply mask_sperm_2; assumption|reflexivity]. Qed.
Lemma opt_mask3_sperm (b : bool) s sp x : (2 <= s)%nat -> sp_ok 3 sp -> valid [s; s; s] x ->
  maskf (if b then Some (create_spherical_mask_R3 s) else None) (sp_idx sp [s; s; s] x) =
  maskf (if b then Some (create_spherical_mask_R3 s) else None) x.
Proof. intros. destruct b; cbn [maskf]; [apply mask_sperm_3; assumption|reflexivity]. Qed.

Lemma angle_neg t : so2_angle_to_matrix (- t) = tr2 (so2_angle_to_matrix t).
Proof. unfold so2_angle_to_matrix, tr2. cbn. rewrite cos_neg, sin_neg, Ropp_involutive. reflexivity. Qed.

Lemma tr2_mul A B : tr2 (mul2 A B) = mul2 (tr2 B) (tr2 A).
Proof. destruct A, B. unfold tr2, mul2. cbn. f_equal; ring. Qed.
Lemma tr3_mul A B : tr3 (mul3 A B) = mul3 (tr3 B) (tr3 A).
Proof. destruct A, B. unfold tr3, mul3. cbn. f_equal; ring. Qed.

Lemma moves_SE2 (k : gkernel R V2) s (b : bool) T gm w mode pm t sp H : (2 <= s)%nat ->
  k_size k = [s; s] -> k_grid_Rn k = create_grid_R2 s -> k_mask k = (if b then Some (create_spherical_mask_R2 s) else None) ->
  k_ops k = ops_SE2 T gm w mode pm ->
  sp_ok 2 sp -> tr2 (so2_angle_to_matrix t) = sp_mat2 sp ->
  kernel_moves 2 k so2_inverse_angle so2_left_apply_angle act1_SE2 None t sp 1 H.
Proof.
  intros Hs Ek Eg Em Eo Hok E. split; rewrite ?Ek, ?Eg, ?Em, ?Eo;
    [apply gops_ok_SE2|apply grid_R2_shape|apply opt_mask_R2|apply square_nonzero; lia|assumption|exists s; reflexivity| |
     intros x Hx; apply opt_mask2_sperm; assumption|auto|intros; cbn; ring].
  intros h x _ Hx. unfold act1_SE2, so2_inverse_angle. rewrite <- grid_R2_sperm by assumption. rewrite <- E.
  rewrite !angle_neg, app2_mul, <- tr2_mul, <- so2_matrix_mul. reflexivity.
Qed.

Lemma moves_SE3 (k : gkernel M3 V3) s (b : bool) T gm w mode pm g sp H : (2 <= s)%nat ->
  k_size k = [s; s; s] -> k_grid_Rn k = create_grid_R3 s -> k_mask k = (if b then Some (create_spherical_mask_R3 s) else None) ->
  k_ops k = ops_SE3 T gm w mode pm ->
  sp_ok 3 sp -> tr3 g = sp_mat3 sp ->
  kernel_moves 3 k so3_matrix_inverse mul3 act1_SE3 None g sp 1 H.
Proof.
  intros Hs Ek Eg Em Eo Hok E. split; rewrite ?Ek, ?Eg, ?Em, ?Eo;
    [apply gops_ok_SE3|apply grid_R3_shape|apply opt_mask_R3|apply cube_nonzero; lia|assumption|exists s; reflexivity| |
     intros x Hx; apply opt_mask3_sperm; assumption|auto|intros; cbn; ring].
  intros h x _ Hx. unfold act1_SE3, so3_matrix_inverse. rewrite <- grid_R3_sperm by assumption. rewrite <- E.
  rewrite app3_mul, <- tr3_mul. reflexivity.
Qed.

Lemma o2_act_inv h v : act1_E2 (o2_inverse h) v = app2 (tr2 (o2_acting_matrix h)) v.
Proof.
  unfold act1_E2, o2_inverse, o2_acting_matrix. cbn [o2c o2a]. replace (o2a h * -1) with (- o2a h) by ring. rewrite angle_neg.
  mext; ring.
Qed.
Lemma moves_E2 (k : gkernel O2 V2) s (b : bool) T gm rw fw n m mode pm g sp H : (2 <= s)%nat ->
  k_size k = [s; s] -> k_grid_Rn k = create_grid_R2 s -> k_mask k = (if b then Some (create_spherical_mask_R2 s) else None) ->
  k_ops k = ops_E2 T gm rw fw n m mode pm -> o2_wf g ->
  sp_ok 2 sp -> tr2 (o2_acting_matrix g) = sp_mat2 sp ->
  kernel_moves 2 k o2_inverse o2_left_apply_angle act1_E2 (Some o2_det) g sp (o2c g) H.
Proof.
  intros Hs Ek Eg Em Eo Hg Hok E. split; rewrite ?Ek, ?Eg, ?Em, ?Eo;
    [apply gops_ok_E2|apply grid_R2_shape|apply opt_mask_R2|apply square_nonzero; lia|assumption|exists s; reflexivity| |
     intros x Hx; apply opt_mask2_sperm; assumption|exact Hg|intros; reflexivity].
  intros h x _ Hx. rewrite <- grid_R2_sperm by assumption. rewrite <- E.
  rewrite !o2_act_inv, o2_matrix_mul, tr2_mul, app2_mul. reflexivity.
Qed.

Lemma o3_act_inv h v : act1_E3 (o3_inverse h) v = app3 (tr3 (o3_as_matrix h)) v.
Proof. unfold act1_E3, o3_inverse, o3_as_matrix. cbn [o3c o3r]. mext; ring. Qed.
Lemma moves_E3 (k : gkernel O3 V3) s (b : bool) T gm rw fw n m mode pm g sp H : (2 <= s)%nat ->
  k_size k = [s; s; s] -> k_grid_Rn k = create_grid_R3 s -> k_mask k = (if b then Some (create_spherical_mask_R3 s) else None) ->
  k_ops k = ops_E3 T gm rw fw n m mode pm -> o3_wf g ->
  sp_ok 3 sp -> tr3 (o3_as_matrix g) = sp_mat3 sp ->
  kernel_moves 3 k o3_inverse o3_left_apply_O3 act1_E3 (Some o3_det) g sp (o3c g) H.
Proof.
  intros Hs Ek Eg Em Eo Hg Hok E. split; rewrite ?Ek, ?Eg, ?Em, ?Eo;
    [apply gops_ok_E3|apply grid_R3_shape|apply opt_mask_R3|apply cube_nonzero; lia|assumption|exists s; reflexivity| |
     intros x Hx; apply opt_mask3_sperm; assumption|exact (proj1 Hg)|intros; reflexivity].
  intros h x _ Hx. rewrite <- grid_R3_sperm by assumption. rewrite <- E.
  rewrite !o3_act_inv, o3_product, tr3_mul, app3_mul. reflexivity.
Qed.
