(** Property theorems C97: training on moved images. *)
From Coq Require Import String ZArith Permutation.
From Verif Require Import Prelude RMath Mat Interp SO2 SO2Facts O2 O2Facts SO3 SO3Facts O3 O3Facts Tensor TensorFacts SignedPerm Functional FunctionalFacts Kernel KernelFacts GroupKernelFacts KernelMore Conv ConvSpec ConvFacts ConvInit
  EquiSpec EquiGroups Layers LayersSpec LayersFacts Prop_Conv Prop_Equi Prop_Layers RegridSpec Public PublicFacts Prop_Public Network NetworkSpec NetworkCond Prop_Network TrainSpec.
Open Scope R_scope.

(** Same pools for every batch: same training. *)
Lemma same_training {G P} {D : Dflt P} fam d mul {Label S : Type} (M : gmodule G P) K (within : weights -> Prop) (opt : optimizer S) (loss : tensor R -> tensor R -> Label -> R)
  (data data' : list (batch G Label)) :
  stays_within opt within ->
  Forall2 (fun b b' => labels b' = labels b /\ forall s, within s -> exists Y H ms v i Y' H' i',
    forward_pass fam d mul M K s b = Ok (Y, H, ms) /\ g_max_global_pool Y = Ok (PPair v i) /\
    forward_pass fam d mul M K s b' = Ok (Y', H', ms) /\ g_avg_global_pool Y' = g_avg_global_pool Y /\ g_max_global_pool Y' = Ok (PPair v i')) data data' ->
  forall t s, within s -> train fam d mul opt loss M K (t, s) data' = train fam d mul opt loss M K (t, s) data.
Proof.
  intros [S1 S2] H. induction H as [|b b' data data' [El Hb] H IH]; intros t s Hs; cbn [train]; [reflexivity|].
  assert (train_step fam d mul opt loss M K (t, s) b' = train_step fam d mul opt loss M K (t, s) b) as ->.
  { unfold train_step. cbn [fst snd]. destruct (Hb s Hs) as (Y & HY & ms & v & i & Y' & HY' & i' & E & Ev & E' & Ea & Ev'). rewrite E, E'. cbn [bind fst snd]. f_equal.
    apply S2; [exact Hs|]. intros s' Hs'. destruct (Hb s' Hs') as (Y1 & HY1 & ms1 & v1 & i1 & Y1' & HY1' & i1' & E1 & Ev1 & E1' & Ea1 & Ev1').
    unfold objective. rewrite E1, E1'. cbn [bind fst snd]. rewrite Ea1, Ev1, Ev1', El. cbn [bind]. destruct (g_avg_global_pool Y1) as [[a|a j]|]; reflexivity. }
  unfold train_step. cbn [fst snd]. destruct (Hb s Hs) as (Y & HY & ms & v & i & _ & _ & _ & E & _). rewrite E. cbn [bind fst snd].
  destruct (opt t s ms (objective fam d mul loss M K b)) as [t1 s1] eqn:Eo. apply IH. pose proof (S1 t s ms (objective fam d mul loss M K b) Hs) as Q. rewrite Eo in Q. exact Q.
Qed.

(** 2d, rotations.  Turn every batch by quarter turns of its own; let what is drawn correspond as in C52.  Then for every loss on the pooled features,
    every optimizer and every number of iterations, training ends with exactly the same weights, running statistics and optimizer state. *)
Theorem C97_SE2 : forall (Label S : Type) (M : gmodule R V2) (K : option (list R)) (within : weights -> Prop) (opt : optimizer S) (loss : tensor R -> tensor R -> Label -> R)
  (data data' : list (batch R Label)),
  stays_within opt within ->
  answers SEn 2 so2_left_apply_angle M K within data ->
  (forall s b, within s -> In b data -> ready_lifting_SE2 M (fst s) (images b) /\
    network_ok SEn 2 so2_left_apply_angle ready_SE2 M (fst s) (lifting_draw b) K (combine (snd s) (draws b)) (images b)) ->
  Forall2 (fun b b' => labels b' = labels b /\ exists q : Z, let g := IZR q * (PI / 2) in
    moved2 (so2_angle_to_matrix g) (images b) (images b') /\
    partner_lifting so2_left_apply_angle g M K (lifting_draw b) (lifting_draw b') /\
    forall s, within s -> partners SEn so2_left_apply_angle g (combine (snd s) (draws b)) (combine (snd s) (draws b'))) data data' ->
  forall (t : S) (s : weights), within s ->
    train SEn 2 so2_left_apply_angle opt loss M K (t, s) data' = train SEn 2 so2_left_apply_angle opt loss M K (t, s) data.
Proof.
  intros Label S M K within opt loss data data' Hopt Hans Hok H. apply same_training; [exact Hopt|].
  induction H as [|b b' data data' [El (q & Hm & Hl & Hp)] H IH]; constructor.
  - split; [exact El|]. intros s Hs. destruct (Hans s b Hs (or_introl eq_refl)) as (Y & HY & ms & v & i & E & Ev). destruct (Hok s b Hs (or_introl eq_refl)) as [R1 R2].
    destruct (C52_SE2 q M (fst s) K _ _ _ _ _ _ _ _ _ R1 R2 Hl (Hp s Hs) Hm E) as (Y' & HY' & E' & _ & Ea & Em). destruct (Em v i Ev) as [i' Ev'].
    exists Y, HY, ms, v, i, Y', HY', i'. auto 10.
  - apply IH; intros s b0 Hs Hb0; [apply Hans|apply Hok]; try assumption; right; assumption.
Qed.
Print Assumptions C97_SE2.

Theorem C97_SE3 : forall (Label S : Type) (M : gmodule M3 V3) (K : option (list M3)) (within : weights -> Prop) (opt : optimizer S) (loss : tensor R -> tensor R -> Label -> R)
  (data data' : list (batch M3 Label)),
  stays_within opt within ->
  answers SEn 3 so3_left_apply_matrix M K within data ->
  (forall s b, within s -> In b data -> ready_lifting_SE3 M (fst s) (images b) /\
    network_ok SEn 3 so3_left_apply_matrix ready_SE3 M (fst s) (lifting_draw b) K (combine (snd s) (draws b)) (images b)) ->
  Forall2 (fun b b' => labels b' = labels b /\ exists g : M3, signed3 g /\ det3 g = 1 /\
    moved3 g (images b) (images b') /\
    partner_lifting so3_left_apply_matrix g M K (lifting_draw b) (lifting_draw b') /\
    forall s, within s -> partners SEn so3_left_apply_matrix g (combine (snd s) (draws b)) (combine (snd s) (draws b'))) data data' ->
  forall (t : S) (s : weights), within s ->
    train SEn 3 so3_left_apply_matrix opt loss M K (t, s) data' = train SEn 3 so3_left_apply_matrix opt loss M K (t, s) data.
Proof.
  intros Label S M K within opt loss data data' Hopt Hans Hok H. apply same_training; [exact Hopt|].
  induction H as [|b b' data data' [El (g & Hg1 & Hg2 & Hm & Hl & Hp)] H IH]; constructor.
  - split; [exact El|]. intros s Hs. destruct (Hans s b Hs (or_introl eq_refl)) as (Y & HY & ms & v & i & E & Ev). destruct (Hok s b Hs (or_introl eq_refl)) as [R1 R2].
    destruct (C52_SE3 g Hg1 Hg2 M (fst s) K _ _ _ _ _ _ _ _ _ R1 R2 Hl (Hp s Hs) Hm E) as (Y' & HY' & E' & _ & Ea & Em). destruct (Em v i Ev) as [i' Ev'].
    exists Y, HY, ms, v, i, Y', HY', i'. auto 10.
  - apply IH; intros s b0 Hs Hb0; [apply Hans|apply Hok]; try assumption; right; assumption.
Qed.
Print Assumptions C97_SE3.

(** E(n): rotations of the grid (for inversions see C51). *)
Theorem C97_E2 : forall (Label S : Type) (M : gmodule O2 V2) (K : option (list O2)) (within : weights -> Prop) (opt : optimizer S) (loss : tensor R -> tensor R -> Label -> R)
  (data data' : list (batch O2 Label)),
  stays_within opt within ->
  answers En 2 o2_left_apply_angle M K within data ->
  (forall s b, within s -> In b data -> ready_lifting_E2 M (fst s) (images b) /\
    network_ok En 2 o2_left_apply_angle ready_E2 M (fst s) (lifting_draw b) K (combine (snd s) (draws b)) (images b)) ->
  Forall2 (fun b b' => labels b' = labels b /\ exists q : Z, let g := mkO2 1 (IZR q * (PI / 2)) in
    moved2 (o2_acting_matrix g) (images b) (images b') /\
    partner_lifting o2_left_apply_angle g M K (lifting_draw b) (lifting_draw b') /\
    forall s, within s -> partners En o2_left_apply_angle g (combine (snd s) (draws b)) (combine (snd s) (draws b'))) data data' ->
  forall (t : S) (s : weights), within s ->
    train En 2 o2_left_apply_angle opt loss M K (t, s) data' = train En 2 o2_left_apply_angle opt loss M K (t, s) data.
Proof.
  intros Label S M K within opt loss data data' Hopt Hans Hok H. apply same_training; [exact Hopt|].
  induction H as [|b b' data data' [El (q & Hm & Hl & Hp)] H IH]; constructor.
  - split; [exact El|]. intros s Hs. destruct (Hans s b Hs (or_introl eq_refl)) as (Y & HY & ms & v & i & E & Ev). destruct (Hok s b Hs (or_introl eq_refl)) as [R1 R2].
    destruct (C52_E2 q M (fst s) K _ _ _ _ _ _ _ _ _ R1 R2 Hl (Hp s Hs) Hm E) as (Y' & HY' & E' & _ & Ea & Em). destruct (Em v i Ev) as [i' Ev'].
    exists Y, HY, ms, v, i, Y', HY', i'. auto 10.
  - apply IH; intros s b0 Hs Hb0; [apply Hans|apply Hok]; try assumption; right; assumption.
Qed.
Print Assumptions C97_E2.

Theorem C97_E3 : forall (Label S : Type) (M : gmodule O3 V3) (K : option (list O3)) (within : weights -> Prop) (opt : optimizer S) (loss : tensor R -> tensor R -> Label -> R)
  (data data' : list (batch O3 Label)),
  stays_within opt within ->
  answers En 3 o3_left_apply_O3 M K within data ->
  (forall s b, within s -> In b data -> ready_lifting_E3 M (fst s) (images b) /\
    network_ok En 3 o3_left_apply_O3 ready_E3 M (fst s) (lifting_draw b) K (combine (snd s) (draws b)) (images b)) ->
  Forall2 (fun b b' => labels b' = labels b /\ exists g : O3, o3_wf g /\ o3c g = 1 /\ signed3 (o3_as_matrix g) /\
    moved3 (o3_as_matrix g) (images b) (images b') /\
    partner_lifting o3_left_apply_O3 g M K (lifting_draw b) (lifting_draw b') /\
    forall s, within s -> partners En o3_left_apply_O3 g (combine (snd s) (draws b)) (combine (snd s) (draws b'))) data data' ->
  forall (t : S) (s : weights), within s ->
    train En 3 o3_left_apply_O3 opt loss M K (t, s) data' = train En 3 o3_left_apply_O3 opt loss M K (t, s) data.
Proof.
  intros Label S M K within opt loss data data' Hopt Hans Hok H. apply same_training; [exact Hopt|].
  induction H as [|b b' data data' [El (g & Hg1 & Hg2 & Hg3 & Hm & Hl & Hp)] H IH]; constructor.
  - split; [exact El|]. intros s Hs. destruct (Hans s b Hs (or_introl eq_refl)) as (Y & HY & ms & v & i & E & Ev). destruct (Hok s b Hs (or_introl eq_refl)) as [R1 R2].
    destruct (C52_E3 g Hg1 Hg2 Hg3 M (fst s) K _ _ _ _ _ _ _ _ _ R1 R2 Hl (Hp s Hs) Hm E) as (Y' & HY' & E' & _ & Ea & Em). destruct (Em v i Ev) as [i' Ev'].
    exists Y, HY, ms, v, i, Y', HY', i'. auto 10.
  - apply IH; intros s b0 Hs Hb0; [apply Hans|apply Hok]; try assumption; right; assumption.
Qed.
Print Assumptions C97_E3.

(** In particular: with permute_output_grid off and uniform grids of 4m rotations, turning training images by quarter turns (data augmentation) changes nothing. *)
Theorem C97_augmentation_is_void_SE2 : forall (m : nat) (Label S : Type) (M : gmodule R V2) (K : option (list R)) (within : weights -> Prop) (opt : optimizer S)
  (loss : tensor R -> tensor R -> Label -> R) (data data' : list (batch R Label)),
  gm_permute M = false -> or_else K (k_grid_H (l_kernel (gm_layer M))) = so2_uniform_grid (4 * m) ->
  (forall s, within s -> Forall (fun b => not_permuting b /\ default_grid b) (snd s)) ->
  stays_within opt within ->
  answers SEn 2 so2_left_apply_angle M K within data ->
  (forall s b, within s -> In b data -> ready_lifting_SE2 M (fst s) (images b) /\
    network_ok SEn 2 so2_left_apply_angle ready_SE2 M (fst s) (lifting_draw b) K (combine (snd s) (draws b)) (images b)) ->
  Forall2 (fun b b' => labels b' = labels b /\ lifting_draw b' = lifting_draw b /\ draws b' = draws b /\
    exists q : Z, moved2 (so2_angle_to_matrix (IZR q * (PI / 2))) (images b) (images b')) data data' ->
  forall (t : S) (s : weights), within s ->
    train SEn 2 so2_left_apply_angle opt loss M K (t, s) data' = train SEn 2 so2_left_apply_angle opt loss M K (t, s) data.
Proof.
  intros m Label S M K within opt loss data data' Hp HK Hd Hopt Hans Hok H. apply same_training; [exact Hopt|].
  induction H as [|b b' data data' (El & Er & Ed & q & Hm) H IH]; constructor.
  - split; [exact El|]. intros s Hs. destruct (Hans s b Hs (or_introl eq_refl)) as (Y & HY & ms & v & i & E & Ev). destruct (Hok s b Hs (or_introl eq_refl)) as [R1 R2].
    assert (Forall (fun b => not_permuting (fst b) /\ default_grid (fst b)) (combine (snd s) (draws b))) as Hc.
    { specialize (Hd s Hs). apply Forall_forall. intros [c r] Hc. apply in_combine_l in Hc. rewrite Forall_forall in Hd. exact (Hd c Hc). }
    destruct (C52_uniform_SE2 q m M (fst s) K _ _ _ _ _ _ _ Hp HK Hc R1 R2 Hm E) as (Y' & HY' & E' & _ & Ea & Em). destruct (Em v i Ev) as [i' Ev'].
    exists Y, HY, ms, v, i, Y', HY', i'. unfold forward_pass in *. rewrite Er, Ed. auto 10.
  - apply IH; intros s b0 Hs Hb0; [apply Hans|apply Hok]; try assumption; right; assumption.
Qed.
Print Assumptions C97_augmentation_is_void_SE2.

(** Non-vacuity: the network of C52_nonvacuous (a lifting convolution 1 -> 2 on four rotations, batch normalization, ReLU, a group convolution 2 -> 3) on batches of two
    6x6 images meets the conditions of C97_augmentation_is_void_SE2 with all its weights of the right shapes, and an optimizer that subtracts the loss from every entry of the
    lifting parameter and takes over the running statistics stays within these. *)
Example C97_nonvacuous : forall T, torch_ok T -> exists (M M1 : gmodule R V2),
  let within (s : weights) := has_shape (fst s) [2; 1; 3; 3]%nat /\ exists n w1, snd s = [BBatchNorm n; BReLU; BConv M1 w1 None] /\
    check_channels n 2 = true /\ nm_training n = true /\ has_shape w1 [4; 3; 2; 3; 3]%nat in
  let opt : optimizer nat := fun t s ms f =>
    (S t, (ewise (fun v => v - match f s with Ok l => l | Err _ => 0 end) (fst s),
      match ms, snd s with
      | BBatchNorm n :: _, _ :: rest => if (check_channels n 2 && nm_training n)%bool then BBatchNorm n :: rest else snd s
      | _, _ => snd s
      end)) in
  gm_permute M = false /\ or_else None (k_grid_H (l_kernel (gm_layer M))) = so2_uniform_grid (4 * 1) /\
  (forall s, within s -> Forall (fun b => not_permuting b /\ default_grid b) (snd s)) /\
  stays_within opt within /\
  forall (Label : Type) (data : list (batch R Label)),
    (forall b, In b data -> has_shape (images b) [2; 1; 6; 6]%nat /\ lifting_draw b = [] /\ draws b = [[]; []; []]) ->
    answers SEn 2 so2_left_apply_angle M None within data /\
    (forall s b, within s -> In b data -> ready_lifting_SE2 M (fst s) (images b) /\
      network_ok SEn 2 so2_left_apply_angle ready_SE2 M (fst s) (lifting_draw b) None (combine (snd s) (draws b)) (images b)).
Proof.
  intros T HT.
  destruct (C69_lifting_SE2 T 1 2 3 1 1 (PInt 0) 1 "zeros" false None "bilinear" "border" true 4 None) as (A & _ & Eg & _).
  destruct A as (L & EM & EL & _).
  { split; [exact I|]. split; [lia|]. split; [exists 1%Z; reflexivity|]. split; [exists 2%Z; reflexivity|]. split; [discriminate|simpl; auto]. }
  set (M := mkModule L false) in *.
  destruct (C69_group_SE2 T 2 3 3 1 1 (PInt 0) 1 "zeros" false None "bilinear" "border" true 4 "nearest" 1 None) as (A1 & _).
  destruct A1 as (k & Ek & (L1 & EM1 & EL1 & HC1) & Egk & _).
  { left. lra. }
  { split; [exact I|]. split; [lia|]. split; [exists 2%Z; reflexivity|]. split; [exists 3%Z; reflexivity|]. split; [discriminate|simpl; auto]. }
  set (M1 := mkModule L1 false) in *.
  destruct HC1 as (m1 & Em1 & HC1). { repeat split; lia. } injection Em1 as <-.
  assert (kernel_grid M = so2_uniform_grid 4) as EK. { unfold kernel_grid, M. cbn [gm_layer]. rewrite EL. exact Eg. }
  assert (so2_uniform_grid 4 <> []) as Hne. { intros Q. apply (f_equal (@List.length R)) in Q. rewrite so2_uniform_grid_length in Q. discriminate. }
  exists M, M1. cbv zeta. split; [reflexivity|]. split; [exact EK|]. split.
  { intros s (_ & n & w1 & -> & _). repeat constructor. }
  split.
  { split.
    - intros t s ms f (Hw & n & w1 & E & Hn1 & Hn2 & Hw1). cbn [fst snd]. split.
      + destruct Hw as [Q1 Q2]. split; [exact Q1|]. unfold wft in *. cbn [ewise shape data]. rewrite map_length. exact Q2.
      + rewrite E. destruct ms as [|[| |n'| | | |] ms]; try solve [exists n, w1; auto]. destruct (check_channels n' 2 && nm_training n')%bool eqn:B; [|exists n, w1; auto].
        apply andb_prop in B as [B1 B2]. exists n', w1. auto.
    - intros t s ms f f' Hs Hf. rewrite (Hf s Hs). reflexivity. }
  intros Label batches Hdata.
  assert (forall (w w1 X : tensor R) (s : norm_state), has_shape w [2; 1; 3; 3]%nat -> has_shape w1 [4; 3; 2; 3; 3]%nat -> has_shape X [2; 1; 6; 6]%nat -> check_channels s 2 = true -> nm_training s = true ->
    let net := [(BBatchNorm s, []); (BReLU, []); (BConv M1 w1 None, [])] : list (block R V2 * list R) in
    ready_lifting_SE2 M w X /\ network_ok SEn 2 so2_left_apply_angle ready_SE2 M w [] None net X /\
    exists Y HY ms, network SEn 2 so2_left_apply_angle M w [] None net X = Ok (Y, HY, ms) /\ has_shape Y [2; 3; 4; 2; 2]%nat) as Main.
  { intros w w1 X s Hw Hw1 HX Hs1 Hs2 net. unfold net. clear net.
    destruct (C69_lifting_SE2_calls T 1 2 3 1 1 (PInt 0) 1 "zeros" false None "bilinear" "border" true 4 None M 0 w X 2 6 6 (gs2 true GsBorder) EM)
      with (H := @None (list R)) as (m & Hm & F & _); [repeat split; lia|reflexivity|exact Hw|exact HX|exact Hne|].
    injection Hm as <-. destruct F as (Y1 & H1 & EY1 & SY1).
    { intros j Hj. cbn in Hj. destruct j as [|[|j]]; [vm_compute; lia|vm_compute; lia|lia]. }
    assert (lifting_call M so2_left_apply_angle [] w X None = Ok (Y1, H1)) as EY by exact EY1.
    assert (H1 = so2_uniform_grid 4) as ->. { pose proof (lifting_forward_grid _ _ _ _ _ _ EY1) as Q. exact (eq_trans Q EK). }
    rewrite so2_uniform_grid_length in SY1. change (has_shape Y1 [2; 2; 4; 4; 4]%nat) in SY1.
    destruct (C56_batch_norm R 2 s Y1 (so2_uniform_grid 4) 2 2 4 [4; 4]%nat SY1 eq_refl ltac:(lia) Hs1) as [_ B].
    destruct B as (Y2 & s' & EY2 & SY2 & _). { right. vm_compute. discriminate. }
    pose (Y3 := ewise relu Y2). assert (has_shape Y3 [2; 2; 4; 4; 4]%nat) as SY3. { destruct SY2 as [Q1 Q2]. split; [exact Q1|]. unfold wft in *. cbn [Y3 ewise shape data]. rewrite map_length. exact Q2. }
    destruct (nearest_full_SE2 T HT 2 3 3 1 1 true (so2_uniform_grid 4) k w1 (so2_uniform_grid 4) (so2_uniform_grid 4)) as (W & EW & HW);
      [lia|lra|exact Hne|exact Ek|rewrite so2_uniform_grid_length; exact Hw1|].
    rewrite so2_uniform_grid_length in HW.
    destruct (C46_group_convolution R V2 _ 2 L1 2 3 [3; 3]%nat k 1 [1; 1]%nat (PInt 0) [1; 1]%nat Zeros None w1 W (so2_uniform_grid 4) (so2_uniform_grid 4) Y3 2 [4; 4]%nat)
      as [C _]; [exact HC1|exact Hne|exact EW|rewrite so2_uniform_grid_length; exact HW|rewrite so2_uniform_grid_length; exact SY3|reflexivity|].
    destruct C as (Y4 & EY4 & SY4 & _).
    { intros j Hj. cbn in Hj. destruct j as [|[|j]]; [vm_compute; lia|vm_compute; lia|lia]. }
    rewrite so2_uniform_grid_length in SY4. change (has_shape Y4 [2; 3; 4; 2; 2]%nat) in SY4.
    split.
    { exists T, 1%nat, 2%nat, 3%nat, 1%Z, 1%nat, (PInt 0), 1%nat, "zeros"%string, false, None, "bilinear"%string, "border"%string, true, 4%nat, None, (so2_uniform_grid 4), 0%nat, 2%nat, 6%nat, 6%nat.
      split; [reflexivity|]. split; [exact EM|]. split; [repeat split; lia|]. split; [lia|]. split; [left; reflexivity|]. split; [exact Hw|]. split; [exact HX|left; reflexivity]. }
    split.
    { split; [cbn [or_else]; rewrite EK; exact Hne|]. intros Y0 H0 E0. rewrite EY in E0. injection E0 as <- <-. cbn [throughout ready_SE2]. split; [exact I|].
      intros Y0 H0 b0 E0. cbn [step] in E0. rewrite EY2 in E0. cbn [bind fst snd] in E0. injection E0 as <- <- <-. split; [exact I|].
      intros Y0 H0 b0 E0. cbn [step g_relu bind fst snd] in E0. injection E0 as <- <- <-. split; [|intros; exact I].
      split; [|exact Hne].
      exists T, 2%nat, 3%nat, 3%nat, 1%Z, 1%nat, (PInt 0), 1%nat, "zeros"%string, false, None, "bilinear"%string, "border"%string, true, 4%nat, "nearest"%string, 1, None, (so2_uniform_grid 4), 0%nat, 2%nat, 4%nat, 4%nat, 4%nat.
      split; [reflexivity|]. split; [exact EM1|]. split; [repeat split; lia|]. split; [lia|]. split; [left; reflexivity|].
      split; [rewrite so2_uniform_grid_length; exact Hw1|]. split; [exact SY3|left; reflexivity]. }
    exists Y4, (so2_uniform_grid 4), [BBatchNorm s'; BReLU; BConv M1 w1 None]. split; [|exact SY4].
    unfold network. rewrite EY. cbn [bind fst snd run step]. rewrite EY2. cbn [bind fst snd run step g_relu]. fold Y3.
    unfold full_call_SEn. cbn [or_else permuted M1 gm_permute gm_layer]. unfold permuted. cbn [gm_permute]. rewrite EY4. cbn [bind fst snd]. reflexivity. }
  split.
  - intros [w ms] b (Hw & n & w1 & E & Hn1 & Hn2 & Hw1) Hb. cbn [fst snd] in *. subst ms. destruct (Hdata b Hb) as (HX & Er & Ed).
    destruct (Main w w1 (images b) n Hw Hw1 HX Hn1 Hn2) as (_ & _ & Y & HY & ms & EN & SY). unfold forward_pass. cbn [fst snd]. rewrite Er, Ed. cbn [combine].
    unfold g_max_global_pool, flatten2, max2. destruct SY as [SY _].
    do 3 eexists. do 2 eexists. split; [exact EN|]. rewrite SY. cbn [bind shape]. 
    change (prodn [4; 2; 2]%nat) with 16%nat. cbn [Nat.eqb rmap]. reflexivity.
  - intros [w ms] b (Hw & n & w1 & E & Hn1 & Hn2 & Hw1) Hb. cbn [fst snd] in *. subst ms. destruct (Hdata b Hb) as (HX & Er & Ed).
    destruct (Main w w1 (images b) n Hw Hw1 HX Hn1 Hn2) as (Q1 & Q2 & _). rewrite Er, Ed. cbn [combine]. split; [exact Q1|exact Q2].
Qed.
