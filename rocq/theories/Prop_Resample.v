(** Property theorems C78: moving images with the package's own functions (coordinate grid, group action, grid_sample in mode "nearest"),
    and the equivariance experiment of the package's test suite.
    Reading guide.  [resample_R3 mode pm X H n] is grid_sample(X, so3.left_apply_to_R3(H, create_grid_R3(n)), mode, pm): image b of the
    batch is sampled on the coordinate grid moved by H[b].  [moved3 A X X'] (EquiSpec.v): X' shows X moved by the matrix A about the
    centre.  [image_of b X]: image b of the batch.  [signed3 h]: h is orthogonal with entries -1, 0, 1.  [sharp pm n]: the padding mode pm
    is "border" or "reflection", or it is "zeros" and the size n is odd. *)
From Coq Require Import String ZArith.
From Verif Require Import Prelude RMath Mat Interp SO2 SO2Facts O2 O2Facts SO3 SO3Facts O3 O3Facts Repulse RepulseFacts Tensor TensorFacts SignedPerm Functional
  FunctionalFacts Kernel KernelFacts GroupKernelFacts KernelMore Conv ConvSpec ConvFacts ConvInit Equi EquiLayer EquiSpec EquiSpecFacts EquiKernel EquiGroups
  EquiMore RegridSpec LinSpec Prop_Kernel Prop_Conv Prop_Conv2 Resample ResampleSpec ResampleFacts Prop_Equi Prop_Equi2 Prop_Regrid Prop_Linear.
Open Scope R_scope.

(** Each image of the batch is moved by the inverse of its own group element. *)
Theorem C78_rotating_volumes : forall pm H n (X : tensor R) C, sharp pm n -> (2 <= n)%nat ->
  has_shape X (List.length H :: C :: [n; n; n])%nat -> (forall h, In h H -> signed3 h) ->
  exists X', resample_R3 "nearest" pm X H n = Ok X' /\ has_shape X' (List.length H :: C :: [n; n; n])%nat /\
    forall b h, nth_error H b = Some h -> moved3 (so3_matrix_inverse h) (image_of b X) (image_of b X').
Proof. exact resample3_images. Qed.
Print Assumptions C78_rotating_volumes.

(** A whole batch moved by one element. *)
Theorem C78_rotating_a_batch : forall pm N h n (X : tensor R) C, sharp pm n -> (2 <= n)%nat ->
  has_shape X (N :: C :: [n; n; n])%nat -> signed3 h ->
  exists X', resample_R3 "nearest" pm X (repeat h N) n = Ok X' /\ has_shape X' (N :: C :: [n; n; n])%nat /\ moved3 (so3_matrix_inverse h) X X'.
Proof. exact resample3_batch. Qed.
Print Assumptions C78_rotating_a_batch.

(** With padding mode "zeros" and an even size, every voxel that should come from a last slice is 0 (also for the identity); the other
    voxels are moved. *)
Theorem C78_zeros_even_size_loses_the_last_slices : forall H n (X : tensor R) C, Nat.even n = true -> (2 <= n)%nat ->
  has_shape X (List.length H :: C :: [n; n; n])%nat ->
  exists X', resample_R3 "nearest" "zeros" X H n = Ok X' /\ has_shape X' (List.length H :: C :: [n; n; n])%nat /\
    forall b h c i j k i' j' k', nth_error H b = Some h -> (c < C)%nat -> (i < n)%nat -> (j < n)%nat -> (k < n)%nat ->
      (i' < n)%nat -> (j' < n)%nat -> (k' < n)%nat -> centred3 n n n i j k = app3 h (centred3 n n n i' j' k') ->
      ((i = n - 1 \/ j = n - 1 \/ k = n - 1)%nat -> at_ X' [b; c; i'; j'; k'] = 0) /\
      ((i < n - 1)%nat -> (j < n - 1)%nat -> (k < n - 1)%nat -> at_ X' [b; c; i'; j'; k'] = at_ X [b; c; i; j; k]).
Proof.
  intros H n X C He Hn HX. destruct (resample3_entries "zeros" GsZeros H n X C eq_refl Hn HX) as (X' & E & HX' & V).
  exists X'. split; [exact E|]. split; [exact HX'|]. intros b h c i j k i' j' k' Hb Hc Hi Hj Hk Hi' Hj' Hk' Ec.
  rewrite (V b h c i j k i' j' k') by assumption. unfold lost. rewrite He. cbn [andb].
  split.
  - intros Hl. destruct (Nat.eqb_spec (S i) n) as [|E1]; [reflexivity|]. destruct (Nat.eqb_spec (S j) n) as [|E2]; [reflexivity|].
    destruct (Nat.eqb_spec (S k) n) as [|E3]; [reflexivity|]. lia.
  - intros Li Lj Lk. rewrite (proj2 (Nat.eqb_neq (S i) n)), (proj2 (Nat.eqb_neq (S j) n)), (proj2 (Nat.eqb_neq (S k) n)) by lia. reflexivity.
Qed.
Print Assumptions C78_zeros_even_size_loses_the_last_slices.

(** The identity leaves a batch as it is, and two steps are one: sampling with g and then with h is sampling with g h. *)
Theorem C78_identity : forall pm N n (X : tensor R) C, sharp pm n -> (2 <= n)%nat -> has_shape X (N :: C :: [n; n; n])%nat ->
  resample_R3 "nearest" pm X (repeat I3 N) n = Ok X.
Proof. exact resample_identity. Qed.
Print Assumptions C78_identity.
Theorem C78_two_steps : forall pm N n g h (X X1 : tensor R) C, sharp pm n -> (2 <= n)%nat -> has_shape X (N :: C :: [n; n; n])%nat ->
  signed3 g -> signed3 h -> resample_R3 "nearest" pm X (repeat g N) n = Ok X1 ->
  resample_R3 "nearest" pm X1 (repeat h N) n = resample_R3 "nearest" pm X (repeat (so3_left_apply_matrix g h) N) n.
Proof. exact resample_compose. Qed.
Print Assumptions C78_two_steps.

(** ** The equivariance experiment (test_equivariance.py): one image X is repeated |H| times, copy b is resampled on the grid moved by H[b],
    and the lifting layer is applied to the copies with the group elements H. Whenever the product of the element h of copy b and the element
    at position e is the element at position e', the response of copy b at e is the response of X at e' moved by the inverse of h. *)
Theorem C78_equivariance_experiment : forall T (L : gconv M3 V3) cin out s groups st padding dl m bias lp mode pm mask grid weight (X Y : tensor R) n H pmx,
  constructed 3 L cin out [s; s; s] (lifting_kernel_SE3 T cin out s groups mode pm mask grid) groups [st; st; st] padding [dl; dl; dl] m bias ->
  (2 <= s)%nat -> padded_by 3 padding s dl lp ->
  has_shape weight (out :: cin / groups :: [s; s; s])%nat -> H <> [] ->
  has_shape X (1 :: cin :: [n; n; n])%nat -> (2 <= n)%nat -> covered 3 s st dl lp [n; n; n] -> sharp pmx n ->
  (forall h, In h H -> signed3 h /\ det3 h = 1) ->
  lifting_forward L weight X H = Ok (Y, H) ->
  exists X' Y', resample_R3 "nearest" pmx (repeat0 (List.length H) X) H n = Ok X' /\
    lifting_forward L weight X' H = Ok (Y', H) /\
    forall b h e g e', nth_error H b = Some h -> nth_error H e = Some g -> nth_error H e' = Some (so3_left_apply_matrix h g) ->
      moved3 (so3_matrix_inverse h) (response 0 e' Y) (response b e Y').
Proof.
  intros T L cin out s groups st padding dl m bias lp mode pm mask grid weight X Y n H pmx Hc Hs Hpad Hw HH HX Hn Hcov Hsh HS E.
  set (k := lifting_kernel_SE3 T cin out s groups mode pm mask grid) in *.
  destruct (constructed_spec _ _ _ _ _ _ _ _ _ _ _ _ Hc) as (_ & _ & _ & _ & _ & _ & _ & _ & _ & _ & _ & _ & _ & _ & Gg & Gi & Go & Di & Do).
  assert (has_shape (repeat0 (List.length H) X) (List.length H :: cin :: [n; n; n])) as HR.
  { split; [rewrite (shape_repeat0 _ 1%nat (cin :: [n; n; n])) by apply HX; rewrite Nat.mul_1_r; reflexivity|apply wft_repeat0, HX]. }
  assert (forall h, In h H -> signed3 h) as HS1 by (intros h Hh; apply HS; assumption).
  destruct (resample3_images pmx H n (repeat0 (List.length H) X) cin Hsh Hn HR HS1) as (X' & EX' & HX' & HM).
  pose proof (C75_library_kernels T cin out s groups 0 0 "" 0 0 mode pm mask) as (_ & K & _). specialize (K grid).
  pose proof (C75_lifting_layer_is_affine 3 L cin out [s; s; s] k groups [st; st; st] padding [dl; dl; dl] m bias weight X Y 1 [n; n; n] H Hc K Hw HH HX eq_refl E) as Aff.
  pose proof Aff as (s' & Afw & _). destruct (Afw X' _ HX') as (Y' & EY' & HY'). destruct (Afw X _ HX) as (Y0 & EY0 & HY). rewrite E in EY0. injection EY0 as <-.
  exists X', Y'. split; [exact EX'|]. split; [exact EY'|]. intros b h e g e' Hb He He'.
  assert (b < List.length H)%nat as Lb by (apply nth_error_Some_lt in Hb; assumption).
  assert (signed3 h /\ det3 h = 1) as [Sh Dh] by (apply HS, (nth_error_In _ _ Hb)).
  (* copy b on its own *)
  pose proof (single_shape _ _ _ b HX') as HXb. set (Xb := single b X') in *.
  destruct (Afw Xb _ HXb) as (Yb & EYb & HYb).
  assert (tl (shape Y') = tl (shape Yb) /\ forall y, valid (tl (shape Y')) y -> at_ Y' (b :: y) = at_ Yb (0%nat :: y)) as [_ Vb].
  { refine (C75_samples_are_independent _ H cin out groups [n; n; n] _ X' Xb Y' Yb (List.length H) 1 b 0 Aff Gg _ _ HX' HXb Lb (Nat.lt_0_1) _ EY' EYb).
    - rewrite Nat.mul_comm. exact Di.
    - rewrite Nat.mul_comm. exact Do.
    - intros i Hi. symmetry. apply (single_at _ _ _ _ _ HX' Hi). }
  assert (moved3 (tr3 h) X Xb) as HMb.
  { specialize (HM b h Hb). apply (carried3_cube _ _ _ _ [1; cin]%nat n); [apply signed3_tr; exact Sh|exact HX|exact HXb|].
    intros pre i j k0 i' j' k' Hpre Hi Hj Hk Hi' Hj' Hk' Ec.
    apply valid_inv_cons in Hpre. destruct Hpre as (a & r & -> & Ha & Hr). apply valid_inv_cons in Hr. destruct Hr as (c & r2 & -> & Hcc & Hr).
    apply valid_inv_nil in Hr. subst r2. assert (a = 0%nat) as -> by lia. cbn [app].
    unfold Xb. rewrite (single_at X' _ _ b [c; i'; j'; k'] HX') by (repeat (apply valid_cons; [assumption|]); apply valid_nil).
    destruct (carried3_inv _ _ _ _ [cin] n n n HM (image_of_shape _ _ _ b HR)) as (d1 & h1 & w1 & S1 & _ & _ & _ & V1).
    pose proof (image_of_shape _ _ _ b HX') as S2. destruct S1 as [S1 _]. rewrite (proj1 S2) in S1. injection S1 as <- <- <-.
    specialize (V1 [c] i j k0 i' j' k'). cbn [app] in V1.
    rewrite (image_of_at _ _ _ b [c; i; j; k0] HR), (image_of_at _ _ _ b [c; i'; j'; k'] HX') in V1 by (repeat (apply valid_cons; [assumption|]); apply valid_nil).
    rewrite V1; try assumption.
    - rewrite (at_repeat0 _ 1%nat (cin :: [n; n; n])); [rewrite Nat.mod_1_r; reflexivity|apply HX|].
      rewrite Nat.mul_1_r. repeat (apply valid_cons; [assumption|]). apply valid_nil.
    - apply valid_cons; [assumption|apply valid_nil].
    - rewrite Ec, <- app3_mul. rewrite tr3_tr3. destruct Sh as ((O1 & O2) & _). rewrite O1. symmetry. apply app3_I. }
  (* one group element at a time *)
  destruct (C70_lifting_SE3 T L cin out s groups [st; st; st] padding [dl; dl; dl] m bias mode pm mask grid weight X Y 1 n n n H [mul3 h g] (fun _ => e')
    Hc Hw HX HH ltac:(discriminate)) as (Y1 & E1 & RG1).
  { intros j x Hj. destruct j as [|j]; [injection Hj as <-; exact He'|destruct j; discriminate]. } { exact E. }
  destruct (C49_lifting_SE3 T L cin out s groups st padding dl m bias lp mode pm mask grid weight X Xb Y1 1 n n n [mul3 h g] (tr3 h)
    Hc Hs Hpad Hw ltac:(discriminate) HX Hcov (signed3_tr _ Sh)) as (Y2 & E2 & M2).
  { rewrite <- Dh. destruct h; unfold det3, tr3; cbn; ring. } { exact HMb. } { exact E1. }
  cbn [map] in E2. assert (mul3 (tr3 h) (mul3 h g) = g) as Eg.
  { destruct Sh as ((O1 & _) & _). rewrite mul3_assoc, O1. apply mul3_I_l. }
  rewrite Eg in E2.
  destruct (C70_lifting_SE3 T L cin out s groups [st; st; st] padding [dl; dl; dl] m bias mode pm mask grid weight Xb Yb 1 n n n H [g] (fun _ => e)
    Hc Hw HXb HH ltac:(discriminate)) as (Y3 & E3 & RG3).
  { intros j x Hj. destruct j as [|j]; [injection Hj as <-; exact He|destruct j; discriminate]. } { exact EYb. }
  rewrite E2 in E3. injection E3 as <-.
  (* put together *)
  destruct RG1 as (N1 & C1 & t1 & L1 & SY & SY1 & V1). destruct RG3 as (N3 & C3 & t3 & L3 & SYb & SY2 & V3).
  pose proof (proj1 SY) as Q. rewrite (proj1 HY) in Q. injection Q as Q1 Q2 Q3. subst N1 C1 s'. clear SY.
  pose proof (proj1 SYb) as Q. rewrite (proj1 HYb) in Q. injection Q as Q1 Q2 Q3. subst N3 C3 t3. clear SYb.
  destruct (len3 t1 L1) as (d1 & h1 & w1 & ->).
  destruct (carried3_inv _ _ _ _ [1; out; 1]%nat d1 h1 w1 M2 SY1) as (d2 & h2 & w2 & S2 & D1 & D2 & D3 & V2).
  pose proof (proj1 S2) as Q. rewrite (proj1 SY2) in Q. injection Q as <- <- <-.
  exists [out], d1, h1, w1, d1, h1, w1.
  split; [exact (response_shape _ _ _ _ _ _ _ HY)|]. split; [exact (response_shape _ _ _ _ _ _ _ HY')|]. do 3 (split; [assumption|]).
  intros pre i j k0 i' j' k' Hpre Hi Hj Hk Hi' Hj' Hk' Ec. apply valid_inv_cons in Hpre. destruct Hpre as (o & r & -> & Ho & Hr). apply valid_inv_nil in Hr. subst r. cbn [app].
  assert (valid [d1; h1; w1] [i; j; k0]) as W1 by (repeat (apply valid_cons; [assumption|]); apply valid_nil).
  assert (valid [d1; h1; w1] [i'; j'; k']) as W2 by (repeat (apply valid_cons; [assumption|]); apply valid_nil).
  assert (e < List.length H)%nat as Le by (apply nth_error_Some_lt in He; assumption).
  rewrite (response_at _ _ _ _ _ b e o [i'; j'; k'] HY' Ho W2), (response_at _ _ _ _ _ 0%nat e' o [i; j; k0] HY Ho W1).
  rewrite (Vb (o :: e :: [i'; j'; k'])) by (rewrite (proj1 HY'); cbn [tl]; repeat (apply valid_cons; [assumption|]); apply valid_nil).
  destruct (V3 0%nat o 0%nat [i'; j'; k'] Nat.lt_0_1 Ho Nat.lt_0_1 W2) as [_ <-].
  destruct (V1 0%nat o 0%nat [i; j; k0] Nat.lt_0_1 Ho Nat.lt_0_1 W1) as [_ <-].
  apply (V2 [0; o; 0]%nat i j k0 i' j' k'); try assumption. apply valid_cons; [lia|]. apply valid_cons; [assumption|]. apply valid_cons; [lia|apply valid_nil].
Qed.
Print Assumptions C78_equivariance_experiment.

(** ** In the plane: create_grid_R2 lists the row coordinate first and grid_sample reads the column coordinate first, so the batch is mirrored:
    it is transposed and then turned by the inverse angle. *)
Theorem C78_plane_images_are_mirrored : forall pm N q n (X : tensor R) C, sharp pm n -> (2 <= n)%nat -> has_shape X (N :: C :: [n; n])%nat ->
  exists X', resample_R2 "nearest" pm X (repeat (IZR q * (PI / 2)) N) n = Ok X' /\ has_shape X' (N :: C :: [n; n])%nat /\
    moved2 (mul2 (so2_angle_to_matrix (so2_inverse_angle (IZR q * (PI / 2)))) (mkM2 0 1 1 0)) X X'.
Proof.
  intros. unfold so2_inverse_angle. replace (IZR q * (PI / 2) * -1) with (- (IZR q * (PI / 2))) by ring. apply resample2_batch; assumption.
Qed.
Print Assumptions C78_plane_images_are_mirrored.

(** In particular the identity grid transposes every image. *)
Theorem C78_plane_identity_transposes : forall pm N n (X : tensor R) C, sharp pm n -> (2 <= n)%nat -> has_shape X (N :: C :: [n; n])%nat ->
  exists X', resample_R2 "nearest" pm X (repeat 0 N) n = Ok X' /\ has_shape X' (N :: C :: [n; n])%nat /\
    forall b c i j, (b < N)%nat -> (c < C)%nat -> (i < n)%nat -> (j < n)%nat -> at_ X' [b; c; i; j] = at_ X [b; c; j; i].
Proof.
  intros pm N n X C Hs Hn HX. destruct (sharp_kept pm n Hs) as (p & Hp & Hl).
  destruct (resample2_entries pm p (repeat 0 N) n X C Hp Hn) as (X' & E & HX' & V); [rewrite repeat_length; assumption|].
  rewrite repeat_length in HX'. exists X'. split; [exact E|]. split; [exact HX'|]. intros b c i j Hb Hc Hi Hj.
  rewrite (V b 0 c j i i j); try assumption.
  - rewrite !Hl. reflexivity.
  - apply nth_error_repeat. assumption.
  - unfold centred2, app2, mul2, swap2, so2_angle_to_matrix. cbn. rewrite cos_0, sin_0. f_equal; ring.
Qed.
Print Assumptions C78_plane_identity_transposes.

(** No quarter turn describes what happens to an image with different entries: the experiment does not rotate images in the plane. *)
Theorem C78_plane_rotation_refuted : forall pm n, sharp pm n -> (2 <= n)%nat ->
  exists X, has_shape X [1; 1; n; n]%nat /\ forall q, exists X', resample_R2 "nearest" pm X [IZR q * (PI / 2)] n = Ok X' /\
    forall q', ~ moved2 (so2_angle_to_matrix (IZR q' * (PI / 2))) X X'.
Proof.
  intros pm n Hs Hn. pose (X := build [1; 1; n; n]%nat (fun idx => INR (nth 2 idx 0%nat * n + nth 3 idx 0%nat))). exists X.
  assert (has_shape X [1; 1; n; n]%nat) as HX by (split; [reflexivity|apply wft_build]). split; [exact HX|]. intros q.
  destruct (resample2_batch pm 1 q n X 1 Hs Hn HX) as (X' & E & HX' & HM). exists X'. split; [exact E|]. intros q' HR.
  assert (forall i j, (i < n)%nat -> (j < n)%nat -> at_ X [0; 0; i; j]%nat = INR (i * n + j)) as VX.
  { intros i j Hi Hj. unfold X. rewrite at_build; [reflexivity|]. apply valid_cons; [lia|]. apply valid_cons; [lia|]. apply valid_cons; [assumption|]. apply valid_cons; [assumption|apply valid_nil]. }
  set (M := mul2 (so2_angle_to_matrix (- (IZR q * (PI / 2)))) swap2) in *. set (A := so2_angle_to_matrix (IZR q' * (PI / 2))) in *.
  assert (signed2 M) as SM.
  { unfold M. rewrite angle_neg. change swap2 with (tr2 swap2). rewrite <- tr2_mul. apply (signed2_tr _ (quarter_swap q)). }
  pose proof (quarter_signed q') as SA. fold A in SA.
  assert (forall i j, (i < n)%nat -> (j < n)%nat -> app2 M (centred2 n n i j) = app2 A (centred2 n n i j)) as Same.
  { intros i j Hi Hj. destruct (cell_exists2 M n i j SM Hn Hi Hj) as (i1 & j1 & Hi1 & Hj1 & E1).
    destruct (cell_exists2 (tr2 A) n i1 j1 (proj2 (signed2_tr A SA)) Hn Hi1 Hj1) as (i2 & j2 & Hi2 & Hj2 & E2).
    assert (centred2 n n i1 j1 = app2 A (centred2 n n i2 j2)) as E3. { rewrite E2, <- app2_mul, (proj1 SA). symmetry. apply app2_I. }
    destruct (carried2_inv _ _ _ _ [1; 1]%nat n n HM HX) as (h1 & w1 & S1 & _ & _ & V1).
    pose proof (proj1 S1) as Q. rewrite (proj1 HX') in Q. injection Q as <- <-.
    destruct (carried2_inv _ _ _ _ [1; 1]%nat n n HR HX) as (h2 & w2 & S2 & _ & _ & V2).
    pose proof (proj1 S2) as Q. rewrite (proj1 HX') in Q. injection Q as <- <-.
    assert (valid [1; 1]%nat [0; 0]%nat) as Hp by (apply valid_cons; [lia|]; apply valid_cons; [lia|apply valid_nil]).
    specialize (V1 [0; 0]%nat i j i1 j1 Hp Hi Hj Hi1 Hj1 E1). specialize (V2 [0; 0]%nat i2 j2 i1 j1 Hp Hi2 Hj2 Hi1 Hj1 E3).
    cbn [app] in V1, V2. rewrite V1 in V2. rewrite !VX in V2 by assumption. apply INR_eq in V2.
    assert (i = i2) as <-.
    { apply (f_equal (fun z => z / n)%nat) in V2. rewrite !Nat.div_add_l, !Nat.div_small in V2 by lia. lia. }
    assert (j = j2) as <- by lia. rewrite <- E1. exact E3. }
  pose proof (Same 0%nat 0%nat ltac:(lia) ltac:(lia)) as P0. pose proof (Same 0%nat 1%nat ltac:(lia) ltac:(lia)) as P1.
  assert (b00 M * b11 M - b01 M * b10 M = -1) as DM.
  { unfold M, so2_angle_to_matrix, mul2, swap2. cbn [b00 b01 b10 b11]. set (t := - _). pose proof (sin2_cos2 t). unfold Rsqr in *. nra. }
  assert (b00 A * b11 A - b01 A * b10 A = 1) as DA.
  { unfold A, so2_angle_to_matrix. cbn [b00 b01 b10 b11]. set (t := IZR q' * _). pose proof (sin2_cos2 t). unfold Rsqr in *. nra. }
  clearbody M A. destruct M as [m0 m1 m2 m3], A as [x0 x1 x2 x3]. unfold app2, centred2 in P0, P1. cbn in P0, P1, DM, DA.
  injection P0 as P00 P01. injection P1 as P10 P11. assert (2 <= INR n) by (apply (le_INR 2); lia).
  assert (m1 = x1) by lra. assert (m3 = x3) by lra. subst.
  assert (m0 = x0) by (apply (Rmult_eq_reg_r (2 * 0 - (INR n - 1))); lra). assert (m2 = x2) by (apply (Rmult_eq_reg_r (2 * 0 - (INR n - 1))); lra). subst. lra.
Qed.
Print Assumptions C78_plane_rotation_refuted.

(** The experiment as it stands in the test suite: a 5x5x5 image with a line of ones, the quarter turns about the z axis, a kernel of size 5 with
    padding "same" and mask; its hypotheses hold and the four elements are closed under products. *)
Example C78_nonvacuous : forall T, exists (L : gconv M3 V3) (Y : tensor R),
  let H := map so3_matrix_z (removelast (linspace 0 (2 * PI) 5)) in
  let X := build [1; 2; 5; 5; 5]%nat (fun idx => if (Nat.eqb (nth 2 idx 0%nat) 2 && Nat.eqb (nth 3 idx 0%nat) 2)%bool then 1 else 0) in
  let w := build [3; 2; 5; 5; 5]%nat (fun idx => INR (nth 3 idx 0%nat)) in
  constructed 3 L 2 3 [5; 5; 5]%nat (lifting_kernel_SE3 T 2 3 5 1 "nearest" "zeros" true [I3]) 1 [1; 1; 1]%nat (PStr "same") [1; 1; 1]%nat Zeros None /\
  padded_by 3 (PStr "same") 5 1 2 /\ has_shape w [3; 2; 5; 5; 5]%nat /\ has_shape X [1; 2; 5; 5; 5]%nat /\ covered 3 5 1 1 2 [5; 5; 5]%nat /\
  sharp "zeros" 5 /\ (forall h, In h H -> signed3 h /\ det3 h = 1) /\ H <> [] /\ lifting_forward L w X H = Ok (Y, H) /\
  (forall h g, In h H -> In g H -> In (so3_left_apply_matrix h g) H).
Proof.
  intros T. pose (k := lifting_kernel_SE3 T 2 3 5 1 "nearest" "zeros" true [I3]).
  pose (w := build [3; 2; 5; 5; 5]%nat (fun idx => INR (nth 3 idx 0%nat))).
  pose (X := build [1; 2; 5; 5; 5]%nat (fun idx => if (Nat.eqb (nth 2 idx 0%nat) 2 && Nat.eqb (nth 3 idx 0%nat) 2)%bool then 1 else 0)).
  pose (H := map so3_matrix_z (removelast (linspace 0 (2 * PI) 5))).
  assert (H = [mkM3 1 0 0 0 1 0 0 0 1; mkM3 0 (-1) 0 1 0 0 0 0 1; mkM3 (-1) 0 0 0 (-1) 0 0 0 1; mkM3 0 1 0 (-1) 0 0 0 0 1]) as EH.
  { unfold H. cbn [linspace seq map removelast]. unfold so3_matrix_z.
    replace (0 + INR 0 * ((2 * PI - 0) / INR (5 - 1))) with 0 by (simpl; field).
    replace (0 + INR 1 * ((2 * PI - 0) / INR (5 - 1))) with (PI / 2) by (simpl; field).
    replace (0 + INR 2 * ((2 * PI - 0) / INR (5 - 1))) with PI by (simpl; field).
    replace (0 + INR 3 * ((2 * PI - 0) / INR (5 - 1))) with (3 * (PI / 2)) by (simpl; field).
    rewrite cos_0, sin_0, cos_PI2, sin_PI2, cos_PI, sin_PI, cos_3PI2, sin_3PI2. repeat f_equal; ring. }
  assert (has_shape w [3; 2; 5; 5; 5]%nat) as Hw by (split; [reflexivity|apply wft_build]).
  assert (has_shape X [1; 2; 5; 5; 5]%nat) as HX by (split; [reflexivity|apply wft_build]).
  assert (H <> []) as HH by (rewrite EH; discriminate).
  destruct (C36_SE3 T 2 3 5 1 "nearest" "zeros" true [I3] (gs3 false GsZeros) w H) as (W & E & HW & _); [lia|reflexivity|exact Hw|].
  assert (exists L, constructed 3 L 2 3 [5; 5; 5]%nat k 1 [1; 1; 1]%nat (PStr "same") [1; 1; 1]%nat Zeros None) as [L HL].
  { eexists. exists "3d"%string, (GkInt 4), "zeros"%string. split; [right; auto|]. split; [reflexivity|]. split; [reflexivity|].
    split; [|split; [exact I|lia]].
    split; [reflexivity|]. split; [reflexivity|]. split; [reflexivity|]. split; [reflexivity|]. split; [exact I|].
    repeat split; intros x [<-|[<-|[<-|[]]]]; lia. }
  destruct (C45_lifting_convolution _ _ _ 3 L 2 3 [5; 5; 5]%nat k 1 [1; 1; 1]%nat (PStr "same") [1; 1; 1]%nat Zeros None w W H X 1 [5; 5; 5]%nat HL) as [A _]; auto.
  destruct A as (Y & EY & _). { intros j Hj. cbn in Hj. destruct j as [|[|[|j]]]; [vm_compute; lia|vm_compute; lia|vm_compute; lia|lia]. }
  exists L, Y. cbv zeta. fold H X w. split; [exact HL|]. split; [right; right; right; auto|]. split; [exact Hw|]. split; [exact HX|].
  split; [left; reflexivity|]. split; [right; right; auto|]. split; [|split; [exact HH|split; [exact EY|]]].
  - rewrite EH. intros h [<-|[<-|[<-|[<-|[]]]]]; unfold signed3, isO3, unit_entry, mul3, tr3, I3, det3; cbn; (split; [|ring]);
      (split; [split; f_equal; ring|]); repeat split; auto.
  - rewrite EH. intros h g [<-|[<-|[<-|[<-|[]]]]] [<-|[<-|[<-|[<-|[]]]]]; unfold so3_left_apply_matrix, mul3; cbn;
      first [left; f_equal; ring|right; left; f_equal; ring|right; right; left; f_equal; ring|right; right; right; left; f_equal; ring].
Qed.
