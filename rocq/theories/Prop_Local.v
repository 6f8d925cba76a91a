(** Property theorems C83: receptive fields and independent samples.
    Reading guide (LocalSpec.v).  [same_there d X X' n n' S]: sample n of X and sample n' of X' have the same values at every pixel of S, in all
    channels and group elements (the two batches may differ in everything else, also in size).  [network_stages d M prog]: the sliding windows of
    the network's layers, one per convolution, two per separable convolution, plus a stage that looks at the whole image for an instance
    normalization by the statistics of the image.  [field l sp S]: the pixels of an input image of size sp that the output pixels of S can depend
    on through these windows.  [plain ...]: parameters and inputs have the shapes the layers expect, batch normalizations use their running
    statistics (evaluation mode).  [span j l] = (s, a, r): along axis j the field of output pixel y lies in y s - a .. y s - a + r. *)
From Coq Require Import String ZArith Permutation Lra.
From Verif Require Import Prelude RMath Mat Interp SO2 SO2Facts Repulse RepulseFacts Functional Tensor TensorFacts Kernel KernelFacts Conv ConvSpec ConvFacts GConvFacts ConvInit ConvShift SepProduct EquiKernel Regrid
  Layers LayersSpec LayersFacts NormFacts Public PublicFacts Network NetworkCond Prop_Kernel KernelMore GroupKernelFacts Prop_Kernel2 Prop_SampleRn Prop_Conv Prop_Conv2 Prop_Public Prop_Network Prop_Layers Prop_Equi2 NetFacts SepConvFacts LocalSpec LocalFacts.
Open Scope nat_scope.

(** Two runs of a network on inputs that agree on the receptive field of S agree on S; the second run succeeds and returns the same grid. *)
Theorem C83_receptive_field : forall G P (D : Dflt P) fam d mul (M : gmodule G P) w rs K prog (X X' Y : tensor R) HY modules N C sp n n' (S : region), 0 < d ->
  plain_lifting d M w X (permuted M mul rs (or_else K (kernel_grid M))) ->
  (forall Z H, lifting_call M mul rs w X K = Ok (Z, H) -> throughout fam d mul (plain fam d mul) prog Z H) ->
  network fam d mul M w rs K prog X = Ok (Y, HY, modules) ->
  has_shape X (N :: C :: sp) -> length sp = d ->
  same_there d X X' n n' (field (network_stages d M prog) sp S) ->
  exists Y' modules', network fam d mul M w rs K prog X' = Ok (Y', HY, modules') /\ same_there d Y Y' n n' S.
Proof.
  intros G P D fam d mul M w rs K prog X X' Y HY modules N C sp n n' S Hd HP HN E HX Lsp HS. unfold network in *.
  destruct (lifting_call M mul rs w X K) as [[Z H]|] eqn:EL; [|discriminate]. cbn [bind fst snd] in E. specialize (HN Z H eq_refl).
  unfold lifting_call in EL. pose proof (lifting_forward_grid _ _ _ _ _ _ EL) as EH. rewrite <- EH in EL, HP.
  destruct (same_there_agree d N [C] sp X X' n n' _ HX Lsp HS) as (N' & HA).
  destruct (lifting_local d M w X X' H N N' C sp n n' (stages d prog) S Z HP Lsp HA EL) as (Z' & C' & sp' & EZ & L' & A').
  assert (lifting_call M mul rs w X' K = Ok (Z', H)) as EZ' by (unfold lifting_call; rewrite <- EH; exact EZ). rewrite EZ'. cbn [bind fst snd].
  destruct (run_local fam d mul Hd prog Z Z' H N N' C' (length H) sp' n n' S Y HY modules HN L' A' E) as (Y' & bs' & C1 & h1 & sp1 & E1 & L1 & A1).
  exists Y', bs'. split; [exact E1|]. exact (agree_same_there d _ _ _ _ _ _ _ _ _ L1 A1).
Qed.
Print Assumptions C83_receptive_field.

(** Samples do not see each other: the output for a sample depends on that sample only, not on the rest of the batch, its size, or the sample's
    place in the batch. *)
Theorem C83_samples_are_independent : forall G P (D : Dflt P) fam d mul (M : gmodule G P) w rs K prog (X X' Y : tensor R) HY modules n n', 0 < d ->
  plain_lifting d M w X (permuted M mul rs (or_else K (kernel_grid M))) ->
  (forall Z H, lifting_call M mul rs w X K = Ok (Z, H) -> throughout fam d mul (plain fam d mul) prog Z H) ->
  network fam d mul M w rs K prog X = Ok (Y, HY, modules) ->
  same_there d X X' n n' (fun _ => True) ->
  exists Y' modules', network fam d mul M w rs K prog X' = Ok (Y', HY, modules') /\ same_there d Y Y' n n' (fun _ => True).
Proof.
  intros G P D fam d mul M w rs K prog X X' Y HY modules n n' Hd HP HN E HS.
  pose proof HP as (cin & cout & ks & k & groups & stride & padding & dil & m & bias & W & N & sp & _ & _ & _ & _ & HX & Lsp).
  apply (C83_receptive_field G P D fam d mul M w rs K prog X X' Y HY modules N cin sp n n' (fun _ => True)); try assumption.
  destruct HS as (N0 & N' & lead & s & A1 & A2 & A3 & A4 & A5 & A6). exists N0, N', lead, s. repeat (split; [assumption|]). intros pre y Hp Hy _. apply A6; auto.
Qed.
Print Assumptions C83_samples_are_independent.

(** With zero padding and no instance normalization of the image: a pixel of the output depends on a box of the input, whose place and size
    follow from strides, dilations, kernel sizes and paddings. *)
Theorem C83_window : forall G P (D : Dflt P) fam d mul (M : gmodule G P) w rs K prog (X X' Y : tensor R) HY modules n n' (y : list nat), 0 < d ->
  plain_lifting d M w X (permuted M mul rs (or_else K (kernel_grid M))) ->
  (forall Z H, lifting_call M mul rs w X K = Ok (Z, H) -> throughout fam d mul (plain fam d mul) prog Z H) ->
  network fam d mul M w rs K prog X = Ok (Y, HY, modules) ->
  zero_padded (network_stages d M prog) ->
  same_there d X X' n n' (fun i => forall j, j < d -> let '(s, a, r) := span j (network_stages d M prog) in
    (Z.of_nat (nth j y 0%nat * s) - Z.of_nat a <= Z.of_nat (nth j i 0%nat) <= Z.of_nat (nth j y 0%nat * s) - Z.of_nat a + Z.of_nat r)%Z) ->
  exists Y' modules', network fam d mul M w rs K prog X' = Ok (Y', HY, modules') /\ same_there d Y Y' n n' (fun q => q = y).
Proof.
  intros G P D fam d mul M w rs K prog X X' Y HY modules n n' y Hd HP HN E HZ HS.
  pose proof HP as (cin & cout & ks & k & groups & stride & padding & dil & m & bias & W & N & sp & Hc & _ & _ & _ & HX & Lsp).
  apply (C83_receptive_field G P D fam d mul M w rs K prog X X' Y HY modules N cin sp n n' (fun q => q = y)); try assumption.
  assert (Forall (fun s => match s with Window _ ks stride _ _ _ => length ks = length sp /\ length stride = length sp | Whole => True end) (network_stages d M prog)) as HF.
  { rewrite Lsp. change (Forall (stage_lengths d) (network_stages d M prog)). constructor; [apply (layer_stage_lengths d _ _ _ _ _ _ _ _ _ _ _ Hc)|].
    unfold network in E. destruct (lifting_call M mul rs w X K) as [[Z H]|] eqn:EL; [|discriminate]. cbn [bind fst snd] in E.
    exact (run_lengths fam d mul prog Z H _ (HN Z H eq_refl) E). }
  destruct HS as (N0 & N' & lead & s & A1 & A2 & A3 & A4 & A5 & A6). exists N0, N', lead, s. repeat (split; [assumption|]). intros pre i Hp Hi Hf. apply A6; try assumption.
  intros j Hj. destruct (field_span _ sp _ i j HZ ltac:(lia) HF Hf) as (y0 & -> & B). destruct (span j (network_stages d M prog)) as [[s0 a] r]. rewrite Nat2Z.inj_mul. exact B.
Qed.
Print Assumptions C83_window.

(** In training mode batch normalization couples the samples: what sample 0 becomes depends on sample 1. *)
Theorem C83_training_batch_norm_couples_refuted : forall (eps : R) (H : list R) m v mom, (0 < eps)%R ->
  let s := {| nm_features := 1; nm_eps := eps; nm_momentum := Some mom; nm_weight := None; nm_bias := None; nm_mean := Some [m]; nm_var := Some [v]; nm_count := 0; nm_training := true |} in
  exists X X' Y Y' s1 s2, same_there 2 X X' 0 0 (fun _ => True) /\
    g_batch_norm 2 s X H = Ok (Y, H, s1) /\ g_batch_norm 2 s X' H = Ok (Y', H, s2) /\ ~ same_there 2 Y Y' 0 0 (fun _ => True).
Proof.
  intros eps H m v mom He s.
  pose (T := fun a : R => build [2; 1; 1; 1; 1] (fun idx => if nth 0 idx 0 =? 0 then 0%R else a)).
  assert (forall a, has_shape (T a) [2; 1; 1; 1; 1]) as HT by (intros a; split; [reflexivity|apply wft_build]).
  assert (forall a y s1, g_batch_norm 2 s (T a) H = Ok (y, H, s1) -> has_shape y [2; 1; 1; 1; 1] ->
     at_ y [0; 0; 0; 0; 0] = ((0 - (a / 2)) / sqrt (a * a / 4 + eps))%R) as V.
  { intros a y s1 E Sy. destruct (C56_batch_norm R 2 s (T a) H 2 1 1 [1; 1] (HT a) eq_refl ltac:(lia) eq_refl) as [_ B].
    destruct B as (y0 & s' & E0 & _ & V0 & _); [right; vm_compute; discriminate|]. rewrite E in E0. injection E0 as -> _.
    rewrite (V0 0 0 [0; 0; 0]) by (first [lia|repeat apply valid_cons; auto using valid_nil; lia]). change (bn_batch s) with true. cbn [affine1 nm_weight nm_bias s nm_eps].
    assert (channel_entries 2 [1; 1; 1] (T a) 0 = [0; a]%R) as EV.
    { unfold channel_entries. change (indices [1; 1; 1]) with [[0; 0; 0]]. cbn [seq flat_map map app]. unfold T. rewrite !at_build by (repeat apply valid_cons; auto using valid_nil; lia). reflexivity. }
    rewrite EV. unfold T. rewrite at_build by (repeat apply valid_cons; auto using valid_nil; lia). cbn [nth Nat.eqb].
    unfold variance, squares, average. cbn [length total map INR]. f_equal; [|f_equal]; field. }
  assert (forall a, exists y s1, g_batch_norm 2 s (T a) H = Ok (y, H, s1) /\ has_shape y [2; 1; 1; 1; 1]) as EX.
  { intros a. destruct (C56_batch_norm R 2 s (T a) H 2 1 1 [1; 1] (HT a) eq_refl ltac:(lia) eq_refl) as [_ B].
    destruct B as (y0 & s' & E0 & S0 & _); [right; vm_compute; discriminate|]. eauto. }
  destruct (EX 0%R) as (Y & s1 & E1 & S1). destruct (EX 2%R) as (Y' & s2 & E2 & S2).
  exists (T 0%R), (T 2%R), Y, Y', s1, s2. split; [|split; [exact E1|split; [exact E2|]]].
  - exists 2, 2, [1; 1], [1; 1]. split; [reflexivity|]. split; [lia|]. split; [lia|]. split; [apply HT|]. split; [apply HT|]. intros pre y Hp Hy _.
    unfold T. rewrite !at_build by (apply valid_cons; [lia|exact (valid_app [1; 1] [1; 1] pre y Hp Hy)]). reflexivity.
  - intros HS. destruct (same_there_agree 2 2 [1; 1] [1; 1] Y Y' 0 0 _ S1 eq_refl HS) as (N' & _ & _ & _ & _ & HV).
    specialize (HV [0; 0] [0; 0] ltac:(repeat apply valid_cons; auto using valid_nil) ltac:(repeat apply valid_cons; auto using valid_nil) I). cbn [app] in HV.
    rewrite (V 2%R Y' s2 E2 S2), (V 0%R Y s1 E1 S1) in HV.
    assert (0 < sqrt (2 * 2 / 4 + eps))%R as Hp by (apply sqrt_lt_R0; lra).
    assert ((0 - 2 / 2) / sqrt (2 * 2 / 4 + eps) < 0)%R as Hneg.
    { unfold Rdiv at 1. replace (0 - 2 / 2)%R with (-1)%R by field. pose proof (Rinv_0_lt_compat _ Hp). lra. }
    rewrite HV in Hneg. unfold Rdiv in Hneg. rewrite Rmult_0_l, Rminus_0_r, Rmult_0_l in Hneg. lra.
Qed.
Print Assumptions C83_training_batch_norm_couples_refuted.

(** A network meeting the hypotheses: lifting (stride 2), batch normalization in evaluation mode, ReLU, a 3x3 group convolution: an output pixel
    depends on a 7 x 7 box of the 6 x 8 images, from 2 y - 3 to 2 y + 3. *)
Example C83_nonvacuous : forall T, torch_ok T -> exists M M1 (Y : tensor R) HY modules,
  let w := build [2; 1; 3; 3] (fun idx => INR (nth 3 idx 0)) in
  let w1 := build [4; 3; 2; 3; 3] (fun idx => INR (nth 0 idx 0)) in
  let X := build [2; 1; 6; 8] (fun idx => INR (nth 2 idx 0)) in
  let s := {| nm_features := 2; nm_eps := 1/100000; nm_momentum := Some (1/10)%R; nm_weight := Some [1; 1]%R; nm_bias := Some [0; 0]%R;
    nm_mean := Some [0; 0]%R; nm_var := Some [1; 1]%R; nm_count := 0; nm_training := false |} in
  let net := [(BBatchNorm s, []); (BReLU, []); (BConv M1 w1 None, [])] : list (block R V2 * list R) in
  lifting_SE2 T 1 2 3 1 2 (PInt 1) 1 "zeros" false None "bilinear" "border" true 4 None = Ok M /\
  group_SE2 T 2 3 3 1 1 (PStr "same") 1 "zeros" false None "bilinear" "border" true 4 "nearest" 1 None = Ok M1 /\
  plain_lifting 2 M w X (permuted M so2_left_apply_angle [] (or_else None (kernel_grid M))) /\
  (forall Z H, lifting_call M so2_left_apply_angle [] w X None = Ok (Z, H) -> throughout SEn 2 so2_left_apply_angle (plain SEn 2 so2_left_apply_angle) net Z H) /\
  network SEn 2 so2_left_apply_angle M w [] None net X = Ok (Y, HY, modules) /\ has_shape Y [2; 3; 4; 3; 4] /\
  zero_padded (network_stages 2 M net) /\ span 0 (network_stages 2 M net) = (2, 3, 6) /\ span 1 (network_stages 2 M net) = (2, 3, 6).
Proof.
  intros T HT.
  pose (w := build [2; 1; 3; 3] (fun idx => INR (nth 3 idx 0))).
  pose (w1 := build [4; 3; 2; 3; 3] (fun idx => INR (nth 0 idx 0))).
  pose (X := build [2; 1; 6; 8] (fun idx => INR (nth 2 idx 0))).
  pose (s := {| nm_features := 2; nm_eps := 1/100000; nm_momentum := Some (1/10)%R; nm_weight := Some [1; 1]%R; nm_bias := Some [0; 0]%R;
    nm_mean := Some [0; 0]%R; nm_var := Some [1; 1]%R; nm_count := 0; nm_training := false |}).
  assert (has_shape w [2; 1; 3; 3]) as Hw by (split; [reflexivity|apply wft_build]).
  assert (has_shape w1 [4; 3; 2; 3; 3]) as Hw1 by (split; [reflexivity|apply wft_build]).
  assert (has_shape X [2; 1; 6; 8]) as HX by (split; [reflexivity|apply wft_build]).
  destruct (C69_lifting_SE2 T 1 2 3 1 2 (PInt 1) 1 "zeros" false None "bilinear" "border" true 4 None) as (A & _ & Eg & _).
  destruct A as (L & EM & EL & HC0).
  { split; [exact I|]. split; [lia|]. split; [exists 1%Z; reflexivity|]. split; [exists 2%Z; reflexivity|]. split; [discriminate|simpl; auto]. }
  destruct HC0 as (m0 & Em0 & HC0). { repeat split; lia. } injection Em0 as <-.
  set (M := mkModule L false) in *.
  destruct (C69_group_SE2 T 2 3 3 1 1 (PStr "same") 1 "zeros" false None "bilinear" "border" true 4 "nearest" 1 None) as (A1 & _).
  destruct A1 as (k & Ek & (L1 & EM1 & EL1 & HC1) & Egk & _).
  { left. lra. }
  { split; [exact I|]. split; [lia|]. split; [exists 2%Z; reflexivity|]. split; [exists 3%Z; reflexivity|].
    split; [|simpl; auto 6]. intros x Hx. injection Hx as <-. split; [auto|]. intros _ y [<-|[<-|[]]]; reflexivity. }
  set (M1 := mkModule L1 false) in *.
  destruct HC1 as (m1 & Em1 & HC1). { repeat split; lia. } injection Em1 as <-.
  assert (kernel_grid M = so2_uniform_grid 4) as EK. { unfold kernel_grid, M. cbn [gm_layer]. rewrite EL. exact Eg. }
  assert (so2_uniform_grid 4 <> []) as Hne. { intros Q. apply (f_equal (@List.length R)) in Q. rewrite so2_uniform_grid_length in Q. discriminate. }
  destruct (C36_SE2 T 1 2 3 1 "bilinear" "border" true (so2_uniform_grid 4) (gs2 true GsBorder) w (so2_uniform_grid 4)) as (W0 & EW0 & SW0 & _); [lia|reflexivity|exact Hw|].
  destruct (C45_lifting_convolution _ _ _ 2 L 1 2 [3; 3] _ 1 [2; 2] (PInt 1) [1; 1] Zeros None w W0 (so2_uniform_grid 4) X 2 [6; 8] HC0 Hne EW0 SW0 HX eq_refl) as [F _].
  destruct F as (Y1 & EY1 & SY1 & _).
  { intros j Hj. cbn in Hj. destruct j as [|[|j]]; [vm_compute; split; [lia|exact I]|vm_compute; split; [lia|exact I]|lia]. }
  assert (lifting_call M so2_left_apply_angle [] w X None = Ok (Y1, so2_uniform_grid 4)) as EY by (unfold lifting_call, permuted; cbn [gm_permute M or_else]; fold M; rewrite EK; exact EY1).
  rewrite so2_uniform_grid_length in SY1. change (has_shape Y1 [2; 2; 4; 3; 4]) in SY1.
  destruct (C56_batch_norm R 2 s Y1 (so2_uniform_grid 4) 2 2 4 [3; 4] SY1 eq_refl ltac:(lia) eq_refl) as [_ B].
  destruct B as (Y2 & s' & EY2 & SY2 & _). { right. vm_compute. discriminate. }
  pose (Y3 := ewise relu Y2). assert (has_shape Y3 [2; 2; 4; 3; 4]) as SY3 by (apply ewise_shape; exact SY2).
  destruct (nearest_full_SE2 T HT 2 3 3 1 1 true (so2_uniform_grid 4) k w1 (so2_uniform_grid 4) (so2_uniform_grid 4)) as (W & EW & HW);
    [lia|lra|exact Hne|exact Ek|rewrite so2_uniform_grid_length; exact Hw1|].
  destruct (C46_group_convolution R V2 _ 2 L1 2 3 [3; 3] k 1 [1; 1] (PStr "same") [1; 1] Zeros None w1 W (so2_uniform_grid 4) (so2_uniform_grid 4) Y3 2 [3; 4])
    as [C _]; [exact HC1|exact Hne|exact EW|exact HW|rewrite so2_uniform_grid_length; exact SY3|reflexivity|].
  destruct C as (Y4 & EY4 & SY4 & _).
  { intros j Hj. cbn in Hj. destruct j as [|[|j]]; [vm_compute; split; [lia|exact I]|vm_compute; split; [lia|exact I]|lia]. }
  rewrite so2_uniform_grid_length in SY4. change (has_shape Y4 [2; 3; 4; 3; 4]) in SY4.
  destruct (constructed_spec _ _ _ _ _ _ _ _ _ _ _ _ HC0) as (_ & _ & _ & _ & _ & Ek0 & _ & Es0 & Ep0 & Ed0 & Em0 & _).
  destruct (constructed_spec _ _ _ _ _ _ _ _ _ _ _ _ HC1) as (_ & _ & _ & _ & _ & Ek1 & _ & Es1 & Ep1 & Ed1 & Em1 & _).
  exists M, M1, Y4, (so2_uniform_grid 4), [BBatchNorm s'; BReLU; BConv M1 w1 None]. cbv zeta. fold w w1 X s.
  split; [exact EM|]. split; [exact EM1|]. split.
  { unfold permuted. cbn [gm_permute M or_else]. fold M. rewrite EK.
    exists 1, 2, [3; 3], (lifting_kernel_SE2 T 1 2 3 1 "bilinear" "border" true (so2_uniform_grid 4)), 1, [2; 2], (PInt 1), [1; 1], Zeros, None, W0, 2, [6; 8].
    split; [exact HC0|]. split; [exact Hne|]. split; [exact EW0|]. split; [exact SW0|]. split; [exact HX|]. reflexivity. }
  split.
  { intros Y0 H0 E0. rewrite EY in E0. injection E0 as <- <-. cbn [throughout plain]. split; [reflexivity|].
    intros Y0 H0 b0 E0. cbn [step] in E0. rewrite EY2 in E0. cbn [bind fst snd] in E0. injection E0 as <- <- <-. split; [exact I|].
    intros Y0 H0 b0 E0. cbn [step g_relu bind fst snd] in E0. injection E0 as <- <- <-. split; [|intros; exact I].
    exists 2, 3, [3; 3], k, 1, [1; 1], (PStr "same"), [1; 1], Zeros, None, W, 2, [3; 4]. change (out_grid SEn so2_left_apply_angle M1 None [] (so2_uniform_grid 4)) with (so2_uniform_grid 4).
    split; [exact HC1|]. split; [exact Hne|]. split; [exact EW|]. split; [exact HW|]. split; [rewrite so2_uniform_grid_length; exact SY3|]. reflexivity. }
  split.
  { unfold network. rewrite EY. cbn [bind fst snd run step]. rewrite EY2. cbn [bind fst snd run step g_relu]. fold Y3.
    unfold full_call_SEn. cbn [or_else permuted M1 gm_permute gm_layer]. unfold permuted. cbn [gm_permute]. rewrite EY4. cbn [bind fst snd]. reflexivity. }
  split; [exact SY4|]. unfold network_stages, stages. cbn [flat_map block_stages fst app M M1 gm_layer]. unfold layer_stage. rewrite Ek0, Es0, Ep0, Ed0, Em0, Ek1, Es1, Ep1, Ed1, Em1.
  split; [repeat constructor|]. split; reflexivity.
Qed.
