(** Property theorems C86: whether a call succeeds depends on configurations and shapes only, never on the numbers in the parameters, grids or inputs.
    Reading guide (AcceptSpec.v).  [alike d proper b b']: two modules of the same class and configuration whose parameters, buffers and optional
    grids have the same shapes, with arbitrary and independent numbers in them; the grids consist of proper elements.  [proper]: any element for the
    SE(n) classes; for the E(n) classes, coefficient 1, or -1 if the kernel has reflections.  [follows]: the next call in a history: modules alike to
    those the previous call left behind (for example after an optimizer step), new draws, a new batch. *)
From Coq Require Import String ZArith Permutation Lra.
From Verif Require Import Prelude RMath Mat Interp SO2 SO2Facts O2 O2Facts SO3 SO3Facts O3 O3Facts Repulse RepulseFacts Functional Tensor TensorFacts Kernel KernelFacts Conv ConvSpec ConvFacts GConvFacts ConvInit ConvShift SepProduct EquiKernel Regrid
  Layers LayersSpec LayersFacts NormFacts Public PublicFacts Network NetworkCond Prop_Kernel KernelMore GroupKernelFacts Prop_Kernel2 Prop_SampleRn Prop_Conv Prop_Conv2 Prop_Public Prop_Network Prop_Layers Prop_Equi2 Prop_Linear NetFacts SepConvFacts SampleRn AcceptSpec AcceptFacts.
Open Scope nat_scope.

(** The samplers of the library's group kernels answer for all signals and all proper grids or for none: always for SE(n), and for E(n) kernels with
    n rotations (n > 0), m reflections and a grid of n + m elements. *)
Theorem C86_library_kernels : forall T cin out s groups n m gmode given given' mode pm mask, torch_ok T ->
  (forall grid k, kernel_SE2 T cin out s groups gmode given mode pm mask grid = Ok k -> settled (fun _ => True) k) /\
  (forall grid k, kernel_SE3 T cin out s groups gmode given mode pm mask grid = Ok k -> settled (fun _ => True) k) /\
  (forall grid k, n <> 0 -> length grid = n + m -> kernel_E2 T cin out s groups n m gmode given given' mode pm mask grid = Ok k -> settled (fun h => sign (m <> 0) (o2c h)) k) /\
  (forall grid k, n <> 0 -> length grid = n + m -> kernel_E3 T cin out s groups n m gmode given given' mode pm mask grid = Ok k -> settled (fun h => sign (m <> 0) (o3c h)) k).
Proof.
  intros. split; [|split; [|split]]; intros grid k.
  - apply settled_SE2. assumption.
  - apply settled_SE3. assumption.
  - intros Hn Lg. apply settled_E2; assumption.
  - intros Hn Lg. apply settled_E3; assumption.
Qed.
Print Assumptions C86_library_kernels.

(** Proper elements are closed under the group product, the default O(2) grid is proper, and every draw is proper if the kernel has reflections. *)
Theorem C86_proper_elements : forall n m,
  (forall a b, sign (m <> 0) (o2c a) -> sign (m <> 0) (o2c b) -> sign (m <> 0) (o2c (o2_left_apply_angle a b))) /\
  (forall a b, sign (m <> 0) (o3c a) -> sign (m <> 0) (o3c b) -> sign (m <> 0) (o3c (o3_left_apply_O3 a b))) /\
  length (o2_uniform_grid n m) = n + m /\ Forall (fun h => sign (m <> 0) (o2c h)) (o2_uniform_grid n m) /\
  (m <> 0 -> forall u c, Forall (fun h => sign (m <> 0) (o2c h)) (drawn_E2 u c)) /\
  (m <> 0 -> forall u q, sign (m <> 0) (o3c (o3_random u q))).
Proof.
  intros n m. split; [intros a b; apply sign_mul|]. split; [intros a b; apply sign_mul|].
  assert (length (repeat 1%R n ++ repeat (- (1))%R m) = length (so2_uniform_grid n ++ so2_uniform_grid m)) as EL by (rewrite !app_length, !repeat_length, !so2_uniform_grid_length; reflexivity).
  split. { unfold o2_uniform_grid. rewrite map_length, combine_length, EL, Nat.min_id, app_length, !so2_uniform_grid_length. reflexivity. }
  split.
  { unfold o2_uniform_grid. apply Forall_forall. intros e He. apply in_map_iff in He. destruct He as ([c a] & <- & Hca). cbn [fst snd o2c]. apply in_combine_l in Hca. apply in_app_or in Hca.
    destruct Hca as [Hc|Hc]; [left; apply repeat_spec in Hc; exact Hc|]. right. split; [apply repeat_spec in Hc; lra|]. destruct m; [contradiction|discriminate]. }
  split.
  { intros Hm u c. unfold drawn_E2, o2_random_grid, so2_random_grid. cbn [map combine fst snd]. constructor; [|constructor]. cbn [o2c]. unfold sign. destruct (Rlt_dec (1 / 2) c); [left; lra|right; split; [lra|exact Hm]]. }
  intros Hm u q. unfold o3_random, sign. cbn [o3c]. destruct (Rlt_dec (1 / 2) u); [left; lra|right; split; [lra|exact Hm]].
Qed.
Print Assumptions C86_proper_elements.

(** One layer: if one call succeeds, then every call of every layer of that configuration succeeds whose parameter has the right shape and whose input has
    the channels and the spatial size of the first, with any grids, any batch size and any numbers; and the outputs have the same channels and spatial size. *)
Theorem C86_lifting_layer : forall {G P} {D : Dflt P} d (L L' : gconv G P) cin cout ks k groups (w w' : tensor R) (H H' : list G) (X X' Y : tensor R) HY N N' s,
  same_config d L L' cin cout ks k groups -> regular_kernel k cin cout ks groups ->
  has_shape w (cout :: cin / groups :: ks) -> has_shape w' (cout :: cin / groups :: ks) -> H <> [] -> H' <> [] ->
  has_shape X (N :: cin :: s) -> has_shape X' (N' :: cin :: s) -> length s = d ->
  lifting_forward L w X H = Ok (Y, HY) ->
  exists Y' s', lifting_forward L' w' X' H' = Ok (Y', H') /\ has_shape Y (N :: cout :: length H :: s') /\ has_shape Y' (N' :: cout :: length H' :: s').
Proof.
  intros G P D d L L' cin cout ks k groups w w' H H' X X' Y HY N N' s HC HK Hw Hw' HH HH' HX HX' Hs E.
  destruct (lifting_any d L L' cin cout ks k groups HC HK w w' H H' X X' N N' s Y HY Hw Hw' HH HH' HX HX' Hs E) as (Y' & s' & E' & _ & _ & _ & S1 & S2). eauto.
Qed.
Print Assumptions C86_lifting_layer.

Theorem C86_full_layer : forall {G P} {D : Dflt P} d (L L' : gconv G P) cin cout ks k groups proper (w w' : tensor R) (in_H out_H in_H' out_H' : list G) (X X' Y : tensor R) HY N N' s,
  same_config d L L' cin cout ks k groups -> regular_kernel k cin cout ks groups -> settled proper k ->
  has_shape w (k_gdim k :: cout :: cin / groups :: ks) -> has_shape w' (k_gdim k :: cout :: cin / groups :: ks) ->
  out_H <> [] -> out_H' <> [] -> Forall proper in_H' -> Forall proper out_H' ->
  has_shape X (N :: cin :: length in_H :: s) -> has_shape X' (N' :: cin :: length in_H' :: s) -> length s = d ->
  full_forward L w X in_H out_H = Ok (Y, HY) ->
  exists Y' s', full_forward L' w' X' in_H' out_H' = Ok (Y', out_H') /\ has_shape Y (N :: cout :: length out_H :: s') /\ has_shape Y' (N' :: cout :: length out_H' :: s').
Proof.
  intros G P D d L L' cin cout ks k groups proper w w' in_H out_H in_H' out_H' X X' Y HY N N' s HC HK HS Hw Hw' HH HH' Pi Po HX HX' Hs E.
  destruct (full_any d L L' cin cout ks k groups HC HK proper HS w w' in_H out_H in_H' out_H' X X' N N' s Y HY Hw Hw' HH HH' Pi Po HX HX' Hs E) as (Y' & s' & E' & _ & _ & _ & S1 & S2). eauto.
Qed.
Print Assumptions C86_full_layer.

Theorem C86_separable_layer : forall {G P} {D : Dflt P} d (L L' : gconv G P) cin cout ks k groups proper (wH wH' w w' : tensor R) (in_H out_H in_H' out_H' : list G) (X X' Y : tensor R) HY N N' s,
  same_config d L L' cin cout ks k groups -> regular_kernel k cin cout ks groups -> settled proper k ->
  has_shape wH [k_gdim k; cout; cin / groups] -> has_shape wH' [k_gdim k; cout; cin / groups] ->
  has_shape w (cout :: 1 :: ks) -> has_shape w' (cout :: 1 :: ks) ->
  out_H <> [] -> out_H' <> [] -> Forall proper in_H' -> Forall proper out_H' ->
  has_shape X (N :: cin :: length in_H :: s) -> has_shape X' (N' :: cin :: length in_H' :: s) -> length s = d ->
  separable_forward L wH w X in_H out_H = Ok (Y, HY) ->
  exists Y' s', separable_forward L' wH' w' X' in_H' out_H' = Ok (Y', out_H') /\ has_shape Y (N :: cout :: length out_H :: s') /\ has_shape Y' (N' :: cout :: length out_H' :: s').
Proof.
  intros G P D d L L' cin cout ks k groups proper wH wH' w w' in_H out_H in_H' out_H' X X' Y HY N N' s HC HK HS HwH HwH' Hw Hw' HH HH' Pi Po HX HX' Hs E.
  destruct (separable_any d L L' cin cout ks k groups HC HK proper HS wH wH' w w' in_H out_H in_H' out_H' X X' N N' s Y HY HwH HwH' Hw Hw' HH HH' Pi Po HX HX' Hs E) as (Y' & s' & E' & _ & _ & _ & S1 & S2). eauto.
Qed.
Print Assumptions C86_separable_layer.

(** Whole networks: if a network succeeds on one batch, every alike network succeeds on every batch of the same channels and spatial size, whatever the
    numbers and draws; the outputs have the same channels, number of group elements and spatial size, and the modules are left alike. *)
Theorem C86_network : forall {G P} {D : Dflt P} fam d mul (proper : G -> Prop) (M M' : gmodule G P) w w' rs rs' K K' prog prog' (X X' Y : tensor R) H bs N N' sp, 0 < d ->
  (forall a b, proper a -> proper b -> proper (mul a b)) ->
  alike_lifting d proper M M' w w' K K' -> one_draw proper (gm_permute M) rs rs' -> alike_program d proper prog prog' ->
  has_shape X (N :: l_in (gm_layer M) :: sp) -> has_shape X' (N' :: l_in (gm_layer M) :: sp) -> length sp = d -> enough N N' ->
  network fam d mul M w rs K prog X = Ok (Y, H, bs) ->
  exists Y' H' bs' C' sp', network fam d mul M' w' rs' K' prog' X' = Ok (Y', H', bs') /\ length H' = length H /\ Forall2 (alike d proper) bs bs' /\
    has_shape Y (N :: C' :: length H :: sp') /\ has_shape Y' (N' :: C' :: length H :: sp').
Proof.
  intros G P D fam d mul proper M M' w w' rs rs' K K' prog prog' X X' Y H bs N N' sp Hd Hmul A1 A2 A3 HX HX' Hs HN E.
  destruct (network_any fam d mul proper Hd Hmul M M' w w' rs rs' K K' prog prog' X X' N N' sp Y H bs A1 A2 A3 HX HX' Hs HN E) as (Y' & H' & bs' & C' & sp' & E' & AB & S1 & S2 & _ & _ & EL & _).
  exists Y', H', bs', C', sp'. rewrite EL in S2. auto.
Qed.
Print Assumptions C86_network.

(** Histories: if the first iteration of a training loop succeeds, then all do, whatever the optimizer does to the numbers, whatever the running
    statistics have become and whatever is drawn, as long as the batches have the channels and the spatial size of the first. *)
Theorem C86_training_never_fails : forall {G P} {D : Dflt P} fam d mul (proper : G -> Prop) (it : @iteration G P) its N sp (Y : tensor R) H bs, 0 < d ->
  (forall a b, proper a -> proper b -> proper (mul a b)) ->
  single_draws it -> samples it N sp -> length sp = d -> call d fam mul it = Ok (Y, H, bs) ->
  training d proper fam mul sp N it its ->
  forall it', In it' its -> exists N' Y' H' bs' C' sp', samples it' N' sp /\ call d fam mul it' = Ok (Y', H', bs') /\ length H' = length H /\
    has_shape Y (N :: C' :: length H :: sp') /\ has_shape Y' (N' :: C' :: length H :: sp').
Proof.
  intros G P D fam d mul proper it its N sp Y H bs Hd Hmul HD HX Hs E HT it' Hin.
  destruct (training_any fam d mul proper Hd Hmul its it N sp Y H bs HD HX Hs E HT it' Hin) as (N' & Y' & H' & bs' & C' & sp' & X' & E' & S1 & S2 & EL).
  exists N', Y', H', bs', C', sp'. rewrite EL in S2. auto 10.
Qed.
Print Assumptions C86_training_never_fails.

(** What is not true: that the E(n) layers behave so for every group_kernel_size.  A layer with n rotations and no reflections, grids of rotations and
    permute_output_grid (the default) works when the element drawn is a rotation and raises IndexError when it is a reflection, for the same
    arguments: one call in two fails. *)
Theorem C86_no_reflections_refuted_E2 : forall T cin out s groups n gmode given given' mode pm mask grid k (M : gmodule O2 V2) (in_H : list O2) out_H (X : tensor R) r r', torch_ok T ->
  n <> 0 -> length grid = n -> kernel_E2 T cin out s groups n 0 gmode given given' mode pm mask grid = Ok k -> l_kernel (gm_layer M) = k -> gm_permute M = true ->
  (forall h, In h in_H -> o2c h = 1%R) -> in_H <> [] -> (forall h, In h (or_else out_H grid) -> o2c h = 1%R) -> or_else out_H grid <> [] ->
  o2c r' = (-1)%R ->
  (forall weight res, has_shape weight (full_weight_shape k) ->
     full_call_En M o2_left_apply_angle [r] weight X in_H out_H = Ok res -> full_call_En M o2_left_apply_angle [r'] weight X in_H out_H = Err IndexError) /\
  (forall weight_H weight res, has_shape weight_H (group_weight_shape k) ->
     separable_call_En M o2_left_apply_angle [r] weight_H weight X in_H out_H = Ok res -> separable_call_En M o2_left_apply_angle [r'] weight_H weight X in_H out_H = Err IndexError).
Proof.
  intros T cin out s groups n gmode given given' mode pm mask grid k M in_H out_H X r r' HT Hn Lg Hk EK Ep Pi Ni Pb Nb Hr.
  pose proof (unreflected_E2 T HT cin out s groups n gmode given given' mode pm mask grid k Hn Lg Hk) as HU.
  assert (k_grid_H k = grid) as EH. { unfold kernel_E2 in Hk. destruct (width_E2_rot given n grid); [|discriminate]. destruct (width_E2_ref given' n grid); [|discriminate]. injection Hk as <-. reflexivity. }
  rewrite <- EH in Pb, Nb. split.
  - intros weight res Hw E. exact (full_unreflected k o2c o2_left_apply_angle HU (fun _ _ => eq_refl) M _ weight X in_H out_H r r' res EK Ep Hw Pi Ni Pb Nb Hr E).
  - intros weight_H weight res Hw E. exact (separable_unreflected k o2c o2_left_apply_angle HU (fun _ _ => eq_refl) M _ weight_H weight X in_H out_H r r' res EK Ep Hw Pi Ni Pb Nb Hr E).
Qed.
Print Assumptions C86_no_reflections_refuted_E2.

Theorem C86_no_reflections_refuted_E3 : forall T cin out s groups n gmode given given' mode pm mask grid k (M : gmodule O3 V3) (in_H : list O3) out_H (X : tensor R) r r', torch_ok T ->
  n <> 0 -> length grid = n -> kernel_E3 T cin out s groups n 0 gmode given given' mode pm mask grid = Ok k -> l_kernel (gm_layer M) = k -> gm_permute M = true ->
  (forall h, In h in_H -> o3c h = 1%R) -> in_H <> [] -> (forall h, In h (or_else out_H grid) -> o3c h = 1%R) -> or_else out_H grid <> [] ->
  o3c r' = (-1)%R ->
  (forall weight res, has_shape weight (full_weight_shape k) ->
     full_call_En M o3_left_apply_O3 [r] weight X in_H out_H = Ok res -> full_call_En M o3_left_apply_O3 [r'] weight X in_H out_H = Err IndexError) /\
  (forall weight_H weight res, has_shape weight_H (group_weight_shape k) ->
     separable_call_En M o3_left_apply_O3 [r] weight_H weight X in_H out_H = Ok res -> separable_call_En M o3_left_apply_O3 [r'] weight_H weight X in_H out_H = Err IndexError).
Proof.
  intros T cin out s groups n gmode given given' mode pm mask grid k M in_H out_H X r r' HT Hn Lg Hk EK Ep Pi Ni Pb Nb Hr.
  pose proof (unreflected_E3 T HT cin out s groups n gmode given given' mode pm mask grid k Hn Lg Hk) as HU.
  assert (k_grid_H k = grid) as EH. { unfold kernel_E3 in Hk. destruct (width_E3_rot given n grid); [|discriminate]. destruct (width_E3_ref given' n grid); [|discriminate]. injection Hk as <-. reflexivity. }
  rewrite <- EH in Pb, Nb. split.
  - intros weight res Hw E. exact (full_unreflected k o3c o3_left_apply_O3 HU (fun _ _ => eq_refl) M _ weight X in_H out_H r r' res EK Ep Hw Pi Ni Pb Nb Hr E).
  - intros weight_H weight res Hw E. exact (separable_unreflected k o3c o3_left_apply_O3 HU (fun _ _ => eq_refl) M _ weight_H weight X in_H out_H r r' res EK Ep Hw Pi Ni Pb Nb Hr E).
Qed.
Print Assumptions C86_no_reflections_refuted_E3.

(** The network of C52_nonvacuous (lifting, batch normalization in training mode, ReLU, group convolution on four rotations): it succeeds for all
    parameters, running statistics and batches of at least two 6 x 6 images, and a second iteration with the modules the first left behind, other
    parameters of the lifting layer and another batch meets the hypotheses of C86_training_never_fails. *)
Example C86_nonvacuous : forall T, torch_ok T -> exists M M1 : gmodule R V2,
  lifting_SE2 T 1 2 3 1 1 (PInt 0) 1 "zeros" false None "bilinear" "border" true 4 None = Ok M /\
  group_SE2 T 2 3 3 1 1 (PInt 0) 1 "zeros" false None "bilinear" "border" true 4 "nearest" 1 None = Ok M1 /\
  let s := {| nm_features := 2; nm_eps := (1/100000)%R; nm_momentum := Some (1/10)%R; nm_weight := Some [1; 1]%R; nm_bias := Some [0; 0]%R;
    nm_mean := Some [0; 0]%R; nm_var := Some [1; 1]%R; nm_count := 0; nm_training := true |} in
  (forall (w w1 X : tensor R) s' N, has_shape w [2; 1; 3; 3] -> has_shape w1 [4; 3; 2; 3; 3] -> has_shape X [N; 1; 6; 6] -> same_norm s s' -> 1 < N ->
     exists (Y : tensor R) H bs, network SEn 2 so2_left_apply_angle M w [] None [(BBatchNorm s', []); (BReLU, []); (BConv M1 w1 None, [])] X = Ok (Y, H, bs) /\ has_shape Y [N; 3; 4; 2; 2]) /\
  exists it (Y : tensor R) H bs, call 2 SEn so2_left_apply_angle it = Ok (Y, H, bs) /\ single_draws it /\ samples it 2 [6; 6] /\
    forall (w X : tensor R) N, has_shape w [2; 1; 3; 3] -> has_shape X [N; 1; 6; 6] -> 1 < N ->
      training 2 (fun _ => True) SEn so2_left_apply_angle [6; 6] 2 it [{| it_layer := M; it_weight := w; it_draw := []; it_grid := None; it_prog := map (fun b => (b, [])) bs; it_input := X |}].
Proof.
  intros T HT. destruct (C52_nonvacuous T HT) as (M & M1 & Y & HY & modules & Q). cbv zeta in Q. destruct Q as (EM & EM1 & Ep & EK & _ & _ & _ & EN & SY). exists M, M1. split; [exact EM|]. split; [exact EM1|].
  set (w0 := build [2; 1; 3; 3] (fun idx => INR (nth 3 idx 0))) in *. set (w10 := build [4; 3; 2; 3; 3] (fun idx => INR (nth 0 idx 0))) in *. set (X0 := build [2; 1; 6; 6] (fun idx => INR (nth 2 idx 0))) in *.
  match type of EN with context [BBatchNorm ?x] => set (s := x) in * end. intros s0. change s0 with s. clear s0.
  assert (has_shape w0 [2; 1; 3; 3]) as Hw0 by (split; [reflexivity|apply wft_build]).
  assert (has_shape w10 [4; 3; 2; 3; 3]) as Hw10 by (split; [reflexivity|apply wft_build]).
  assert (has_shape X0 [2; 1; 6; 6]) as HX0 by (split; [reflexivity|apply wft_build]).
  destruct (C69_lifting_SE2 T 1 2 3 1 1 (PInt 0) 1 "zeros" false None "bilinear" "border" true 4 None) as (A & _ & Eg & _).
  destruct A as (L & EM' & EL & HC0).
  { split; [exact I|]. split; [lia|]. split; [exists 1%Z; reflexivity|]. split; [exists 2%Z; reflexivity|]. split; [discriminate|simpl; auto]. }
  destruct HC0 as (m0 & Em0 & HC0). { repeat split; lia. } injection Em0 as <-.
  rewrite EM in EM'. injection EM' as ->.
  destruct (C69_group_SE2 T 2 3 3 1 1 (PInt 0) 1 "zeros" false None "bilinear" "border" true 4 "nearest" 1 None) as (A1 & _).
  destruct A1 as (k & Ek & (L1 & EM1' & EL1 & HC1) & Egk & _).
  { left. lra. }
  { split; [exact I|]. split; [lia|]. split; [exists 2%Z; reflexivity|]. split; [exists 3%Z; reflexivity|]. split; [discriminate|simpl; auto]. }
  destruct HC1 as (m1 & Em1 & HC1). { repeat split; lia. } injection Em1 as <-.
  rewrite EM1 in EM1'. injection EM1' as ->.
  assert (so2_uniform_grid 4 <> []) as Hne. { intros Q. apply (f_equal (@List.length R)) in Q. rewrite so2_uniform_grid_length in Q. discriminate. }
  destruct (C75_library_kernels T 1 2 3 1 0 0 "nearest" 1 1 "bilinear" "border" true) as (RK & _). destruct (C75_library_kernels T 2 3 3 1 0 0 "nearest" 1 1 "bilinear" "border" true) as (_ & _ & _ & _ & RK1 & _).
  specialize (RK (so2_uniform_grid 4)). specialize (RK1 _ _ Ek).
  assert (forall w w' : tensor R, has_shape w [2; 1; 3; 3] -> has_shape w' [2; 1; 3; 3] -> alike_lifting 2 (fun _ : R => True) (mkModule L false) (mkModule L false) w w' None None) as AL.
  { intros w w' Hw Hw'. split; [split; exact I|]. split; [reflexivity|]. exists 1, 2, [3; 3], (lifting_kernel_SE2 T 1 2 3 1 "bilinear" "border" true (so2_uniform_grid 4)), 1.
    split; [exists [1; 1], (PInt 0), [1; 1], Zeros, None, None; split; exact HC0|]. split; [exact RK|]. split; [exact Hne|]. split; [apply Forall_forall; auto|]. split; assumption. }
  assert (k_gdim k = 4) as Ed. { clear - Ek. unfold kernel_SE2 in Ek. destruct (width_SE2 1 (so2_uniform_grid 4)); [|discriminate]. injection Ek as <-. unfold k_gdim. cbn [k_gsize fold_right]. rewrite Nat.add_0_r. exact (so2_uniform_grid_length 4). }
  assert (forall w w' : tensor R, has_shape w [4; 3; 2; 3; 3] -> has_shape w' [4; 3; 2; 3; 3] -> alike 2 (fun _ : R => True) (BConv (mkModule L1 false) w None) (BConv (mkModule L1 false) w' None)) as AC.
  { intros w w' Hw Hw'. split; [split; exact I|]. split; [reflexivity|]. exists 2, 3, [3; 3], k, 1.
    split; [exists [1; 1], (PInt 0), [1; 1], Zeros, None, None; split; exact HC1|]. split; [exact RK1|]. split; [rewrite Egk; exact Hne|]. split; [apply Forall_forall; auto|].
    split; [exact (settled_SE2 T HT _ _ _ _ _ _ _ _ _ _ k Ek)|]. rewrite Ed. split; assumption. }
  assert (l_in (gm_layer (mkModule L false)) = 1) as Ein. { cbn [gm_layer]. destruct (constructed_spec _ _ _ _ _ _ _ _ _ _ _ _ HC0) as (_ & _ & _ & E2 & _). exact E2. }
  assert (forall b rs rs', @one_draw R (fun _ => True) b rs rs' \/ b = true) as OD by (intros [|]; auto; left; discriminate).
  assert (forall w1 s', has_shape w1 [4; 3; 2; 3; 3] -> same_norm s s' ->
    alike_program 2 (fun _ : R => True) [(BBatchNorm s, []); (BReLU, []); (BConv (mkModule L1 false) w10 None, [])] [(BBatchNorm s', []); (BReLU, []); (BConv (mkModule L1 false) w1 None, [])]) as AP.
  { intros w1 s' Hw1 Hs. repeat (constructor; [split; [|discriminate]|]); [exact Hs|exact I|exact (AC _ _ Hw10 Hw1)|constructor]. }
  split.
  - intros w w1 X s' N Hw Hw1 HX Hs HN.
    destruct (C86_network SEn 2 so2_left_apply_angle (fun _ => True) (mkModule L false) (mkModule L false) w0 w [] [] None None [(BBatchNorm s, []); (BReLU, []); (BConv (mkModule L1 false) w10 None, [])] [(BBatchNorm s', []); (BReLU, []); (BConv (mkModule L1 false) w1 None, [])] X0 X Y HY modules 2 N [6; 6])
      as (Y' & H' & bs' & C' & sp' & E' & EH' & _ & S1 & S2); [lia|auto|exact (AL _ _ Hw0 Hw)|discriminate|exact (AP _ _ Hw1 Hs)|rewrite Ein; exact HX0|rewrite Ein; exact HX|reflexivity|unfold enough; lia|exact EN|].
    exists Y', H', bs'. split; [exact E'|]. pose proof (has_shape_inj _ _ _ SY S1) as Q. injection Q as Q1 Q2 Q3. rewrite <- Q1, <- Q2, <- Q3 in S2. exact S2.
  - exists {| it_layer := mkModule L false; it_weight := w0; it_draw := []; it_grid := None; it_prog := [(BBatchNorm s, []); (BReLU, []); (BConv (mkModule L1 false) w10 None, [])]; it_input := X0 |}, Y, HY, modules.
    split; [exact EN|]. split. { split; [discriminate|]. repeat (constructor; [discriminate|]). constructor. } split; [unfold samples; cbn [it_layer it_input]; rewrite Ein; exact HX0|].
    intros w X N Hw HX HN. cbn [training]. exists N. split; [unfold samples; cbn [it_layer it_input]; rewrite Ein; exact HX|]. split; [unfold enough; lia|]. split; [|exact I].
    intros Y1 H1 bs1 E1. unfold call in E1. cbn [it_layer it_weight it_draw it_grid it_prog it_input] in E1. rewrite EN in E1. injection E1 as <- <- <-.
    split; [exact (AL _ _ Hw0 Hw)|]. split; [discriminate|]. cbn [it_prog].
    destruct (C86_network SEn 2 so2_left_apply_angle (fun _ => True) (mkModule L false) (mkModule L false) w0 w0 [] [] None None [(BBatchNorm s, []); (BReLU, []); (BConv (mkModule L1 false) w10 None, [])] [(BBatchNorm s, []); (BReLU, []); (BConv (mkModule L1 false) w10 None, [])] X0 X0 Y HY modules 2 2 [6; 6])
      as (Y' & H' & bs' & C' & sp' & E' & EH' & AB & S1 & S2); [lia|auto|exact (AL _ _ Hw0 Hw0)|discriminate|refine (AP _ _ Hw10 _); repeat split; reflexivity|rewrite Ein; exact HX0|rewrite Ein; exact HX0|reflexivity|unfold enough; lia|exact EN|].
    rewrite EN in E'. injection E' as <- <- <-.
    assert (Forall (fun b => draws b = false) modules) as DF.
    { clear - EN. unfold network in EN. apply bind_ok in EN. destruct EN as (z & _ & EN). cbn [run] in EN. apply bind_ok in EN. destruct EN as (z1 & E1 & EN). apply bind_ok in EN. destruct EN as (z2 & E2 & EN).
      injection EN as _ _ <-. apply bind_ok in E2. destruct E2 as (z3 & E3 & E2). apply bind_ok in E2. destruct E2 as (z4 & E4 & E2). apply bind_ok in E4. destruct E4 as (z5 & E5 & E4). cbn [bind] in E4. injection E4 as <-. injection E2 as <-.
      cbn [step] in E1, E3, E5. apply bind_ok in E1. destruct E1 as (y1 & _ & E1). injection E1 as <-. cbn [g_relu bind] in E3. injection E3 as <-. apply bind_ok in E5. destruct E5 as (y5 & _ & E5). injection E5 as <-. cbn [snd fst].
      repeat (constructor; [reflexivity|]). constructor. }
    unfold next_program. clear - AB DF. induction DF as [|b bs Hb F IH]; [constructor|]. inversion AB; subst. constructor; [|apply IH; assumption]. cbn [fst snd]. split; [assumption|]. rewrite Hb. discriminate.
Qed.

(** A layer with two rotations and no reflections: constructed, called, and failing on a reflection. *)
Example C86_no_reflections_nonvacuous : forall T, torch_ok T -> exists M k res,
  let weight := build [2; 1; 1; 3; 3] (fun idx => INR (nth 0 idx 0)) in
  let X := build [1; 1; 2; 5; 5] (fun idx => INR (nth 3 idx 0)) in
  let H := o2_uniform_grid 2 0 in
  group_E2 T 1 1 3 1 1 (PInt 0) 1 "zeros" true None "bilinear" "border" true (PairTuple 2 0) "nearest" 1 1 None = Ok M /\
  kernel_E2 T 1 1 3 1 2 0 "nearest" 1 1 "bilinear" "border" true H = Ok k /\ l_kernel (gm_layer M) = k /\ gm_permute M = true /\
  length H = 2 /\ (forall h, In h H -> o2c h = 1%R) /\ has_shape weight (full_weight_shape k) /\
  full_call_En M o2_left_apply_angle [mkO2 1 0] weight X H None = Ok res /\
  full_call_En M o2_left_apply_angle [mkO2 (-1) 0] weight X H None = Err IndexError.
Proof.
  intros T HT.
  destruct (C69_group_E2 T 1 1 3 1 1 (PInt 0) 1 "zeros" true None "bilinear" "border" true (PairTuple 2 0) "nearest" 1 1 None) as (A & _). cbv zeta in A. cbn [pair_rot pair_ref] in A.
  assert (length (o2_uniform_grid 2 0) = 2) as LH by apply (C86_proper_elements 2 0).
  assert (forall h, In h (o2_uniform_grid 2 0) -> o2c h = 1%R) as PH.
  { destruct (C86_proper_elements 2 0) as (_ & _ & _ & F & _). rewrite Forall_forall in F. intros h Hh. destruct (F h Hh) as [|[_ Q]]; [assumption|congruence]. }
  destruct A as (k & Ek & (L & EM & EL & HC) & Egk & Ew & _).
  { split; left; lra. }
  { split; [|split; [lia|split; [exists 1%Z; reflexivity|split; [exists 1%Z; reflexivity|split; [discriminate|simpl; auto]]]]]. split; [|reflexivity]. intros i [<-|[<-|[]]]; lia. }
  destruct HC as (m1 & Em1 & HC). { repeat split; lia. } injection Em1 as <-.
  pose (weight := build [2; 1; 1; 3; 3] (fun idx => INR (nth 0 idx 0))). pose (X := build [1; 1; 2; 5; 5] (fun idx => INR (nth 3 idx 0))). pose (H := o2_uniform_grid 2 0).
  assert (has_shape weight [2; 1; 1; 3; 3]) as Hw by (split; [reflexivity|apply wft_build]).
  assert (has_shape X [1; 1; 2; 5; 5]) as HX by (split; [reflexivity|apply wft_build]).
  assert (exists res, full_call_En (mkModule L true) o2_left_apply_angle [mkO2 1 0] weight X H None = Ok res) as [res Er].
  { unfold full_call_En, permuted, bcast_left, or_else, kernel_grid. cbn [gm_permute gm_layer flat_map]. rewrite app_nil_r, EL, Egk. fold H.
    set (H' := map (o2_left_apply_angle (mkO2 1 0)) H).
    assert (length H' = 2) as LH' by (unfold H'; rewrite map_length; exact LH).
    assert (forall h, In h H' -> o2c h = 1%R) as PH'. { intros h Hh. apply in_map_iff in Hh. destruct Hh as (x & <- & Hx). cbn [o2c o2_left_apply_angle]. rewrite (PH x Hx). lra. }
    assert (k_size k = [3; 3] /\ k_ops k = ops_E2 T "nearest" 1 1 2 0 "bilinear" "border" /\ k_gdim k = 2 /\ k_out k = 1 /\ k_cin k = 1 /\ has_shape (k_grid_Rn k) [3; 3] /\ mask_ok (k_mask k) [3; 3]) as (S1 & S2 & S3 & S4 & S5 & S7 & S8).
    { clear - Ek. revert Ek. unfold kernel_E2, width_E2_rot, width_E2_ref. rewrite !default_width_given by lra. cbn [bind]. intros E. injection E as <-.
      repeat (split; [reflexivity|]). split; [apply (grid_R2_shape 3)|apply (mask_R2_shape 3)]. }
    assert (forall q, In q (relatives o2_inverse o2_left_apply_angle H H') -> o2c q = 1%R) as PQ.
    { intros q Hq. apply relatives_In in Hq. destruct Hq as (g & h & Hg & Hh & ->). cbn [o2c o2_left_apply_angle o2_inverse]. rewrite (PH' g Hg), (PH h Hh). lra. }
    assert (length (param_rows 2 [1; 1; 3; 3] weight) = 2) as LP by apply param_rows_count.
    destruct (so2_nearest_total T HT 1 (prodn [1; 1; 3; 3]) (o2_angles_with 1 (relatives o2_inverse o2_left_apply_angle H H')) (param_rows 2 [1; 1; 3; 3] weight) (map o2a H)) as (ro & Ero).
    { intros Q. apply (f_equal (@List.length R)) in Q. rewrite map_length in Q. unfold H in Q. rewrite LH in Q. discriminate. } { rewrite map_length, LP. symmetry. exact LH. }
    destruct (o2_grid_sample_total T "nearest" 1 1 (prodn [1; 1; 3; 3]) (relatives o2_inverse o2_left_apply_angle H H') (param_rows 2 [1; 1; 3; 3] weight) H 2 0 ro []) as (rows & Erows).
    { intros e He. left. exact (PQ e He). } { exact (eq_sym LP). } { discriminate. } { intros _ e He. rewrite (PQ e He). lra. }
    { intros _. rewrite (firstn_all2 (param_rows 2 [1; 1; 3; 3] weight)) by (rewrite LP; reflexivity). rewrite (firstn_all2 H) by (unfold H; rewrite LH; reflexivity). exact Ero. } { congruence. }
    pose proof (sampled_E2 k T "nearest" 1 1 2 0 "bilinear" "border" [1; 1; 3; 3] weight H H' rows S2 S3) as Hsam. rewrite S3, Egk in Hsam. fold H in Hsam.
    specialize (Hsam ltac:(apply Forall_forall; intros h Hh; left; exact (PH h Hh)) ltac:(apply Forall_forall; intros h Hh; left; exact (PH' h Hh)) Erows).
    pose proof (gops_ok_E2 T "nearest" 1 1 2 0 "bilinear" "border") as Hops. rewrite <- S2 in Hops.
    assert (op_sample_Rn (k_ops k) = Ok (gs2 true GsBorder)) as Hsmp by (rewrite S2; reflexivity).
    rewrite <- S1 in S7, S8.
    assert (prodn (k_size k) <> 0) as Hp by (rewrite S1; discriminate).
    assert (k_gdim k <> 0) as Hg by (rewrite S3; discriminate).
    assert (has_shape weight (full_weight_shape k)) as Hw' by (rewrite Ew; exact Hw).
    assert ([1; 1; 3; 3] = k_out k :: k_cin k :: k_size k) as Erow by (rewrite S1, S4, S5; reflexivity). rewrite Erow in Hsam.
    destruct (full_formula k _ _ _ _ Hops S7 S8 Hp Hg (gs2 true GsBorder) weight H H' _ Hsmp Hw' Hsam) as (W & EW & HW & _).
    rewrite S1, S4, S5 in HW.
    assert (length H = 2) as LHH by exact LH.
    destruct (C46_group_convolution O2 V2 _ 2 L 1 1 [3; 3] k 1 [1; 1] (PInt 0) [1; 1] Zeros None weight W H H' X 1 [5; 5] HC) as [C _];
      [intros Q; rewrite Q in LH'; discriminate|exact EW|exact HW|rewrite LHH; exact HX|reflexivity|].
    destruct C as (Y4 & EY4 & _).
    { intros j Hj. cbn in Hj. destruct j as [|[|j]]; [vm_compute; lia|vm_compute; lia|lia]. }
    eauto. }
  exists (mkModule L true), k, res. cbv zeta. fold weight X H. split; [exact EM|]. split; [exact Ek|]. split; [exact EL|]. split; [reflexivity|]. split; [exact LH|]. split; [exact PH|].
  split; [rewrite Ew; exact Hw|]. split; [exact Er|].
  refine (proj1 (C86_no_reflections_refuted_E2 T 1 1 3 1 2 "nearest" 1 1 "bilinear" "border" true H k (mkModule L true) H None X (mkO2 1 0) (mkO2 (-1) 0) HT _ LH Ek EL eq_refl PH _ PH _ eq_refl) weight res _ Er).
  - discriminate.
  - intros Q. unfold H in Q. rewrite Q in LH. discriminate.
  - cbn [or_else]. intros Q. unfold H in Q. rewrite Q in LH. discriminate.
  - rewrite Ew. exact Hw.
Qed.
