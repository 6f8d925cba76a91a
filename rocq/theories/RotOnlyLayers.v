(** Proofs for C101: the layers. *)
From Coq Require Import String ZArith Lra.
From Verif Require Import Prelude RMath Mat Interp InterpFacts SO2 SO2Facts O2 O2Facts SO3 SO3Facts O3 O3Facts OSplit OSplitFacts Repulse Tensor TensorFacts
  Functional FunctionalFacts Kernel KernelFacts GroupKernelFacts KernelMore Conv Public LiveFacts RotOnlySpec RotOnlyFacts.
Open Scope R_scope.

(** ** The random element *)
Lemma permuted_2 (M : gmodule O2 V2) (M' : gmodule R V2) u c H :
  gm_permute M = gm_permute M' -> (gm_permute M = true -> 1 / 2 < c) ->
  permuted M o2_left_apply_angle (drawn_E2 u c) (map as_o2 H) = map as_o2 (permuted M' so2_left_apply_angle (drawn_SE2 u) H).
Proof.
  intros E Hc. unfold permuted. rewrite <- E. destruct (gm_permute M); [|reflexivity].
  unfold drawn_E2, drawn_SE2, o2_random_grid, so2_random_grid, bcast_left. cbn [map combine flat_map fst snd].
  destruct (Rlt_dec (1 / 2) c) as [_|N]; [|contradiction (N (Hc eq_refl))]. rewrite !app_nil_r, !map_map. apply map_ext. intros a.
  unfold o2_left_apply_angle, so2_left_apply_angle, as_o2. cbn [o2c o2a]. f_equal. ring.
Qed.
Lemma permuted_3 (M : gmodule O3 V3) (M' : gmodule M3 V3) q c H :
  gm_permute M = gm_permute M' -> (gm_permute M = true -> 1 / 2 < c) ->
  permuted M o3_left_apply_O3 (drawn_E3 c q) (map as_o3 H) = map as_o3 (permuted M' so3_left_apply_matrix (drawn_SE3 q) H).
Proof.
  intros E Hc. unfold permuted. rewrite <- E. destruct (gm_permute M); [|reflexivity].
  unfold drawn_E3, drawn_SE3, o3_random, bcast_left. cbn [flat_map].
  destruct (Rlt_dec (1 / 2) c) as [_|N]; [|contradiction (N (Hc eq_refl))]. rewrite !app_nil_r, !map_map. apply map_ext. intros a.
  unfold o3_left_apply_O3, so3_left_apply_matrix, as_o3. cbn [o3c o3r]. f_equal. ring.
Qed.

(** ** The constructors *)
Lemma make2_same {G G'} cin cout s groups st padding dl pmode permute bias gks gks' (k : gkernel G V2) (k' : gkernel G' V2) M M' :
  make2 cin cout s groups st padding dl pmode permute bias gks k = Ok M ->
  make2 cin cout s groups st padding dl pmode permute bias gks' k' = Ok M' -> k_size k = k_size k' ->
  same_conv (gm_layer M) (gm_layer M') /\ l_kernel (gm_layer M) = k /\ l_kernel (gm_layer M') = k' /\
  gm_permute M = permute /\ gm_permute M' = permute.
Proof.
  unfold make2, gconv_init2. intros H H' Hk.
  destruct (gconv_init _ _ _ _ gks _ _ _ _ _ _ _) as [L|] eqn:E; [|discriminate]. cbn [bind] in H. injection H as <-.
  destruct (gconv_init _ _ _ _ gks' _ _ _ _ _ _ _) as [L'|] eqn:E'; [|discriminate]. cbn [bind] in H'. injection H' as <-.
  destruct (init_same _ _ _ _ _ _ _ _ _ _ _ _ _ _ _ _ E E' Hk) as (A & B & C & _). auto.
Qed.
Lemma make3_same {G G'} cin cout s groups st padding dl pmode permute bias gks gks' (k : gkernel G V3) (k' : gkernel G' V3) M M' :
  make3 cin cout s groups st padding dl pmode permute bias gks k = Ok M ->
  make3 cin cout s groups st padding dl pmode permute bias gks' k' = Ok M' -> k_size k = k_size k' ->
  same_conv (gm_layer M) (gm_layer M') /\ l_kernel (gm_layer M) = k /\ l_kernel (gm_layer M') = k' /\
  gm_permute M = permute /\ gm_permute M' = permute.
Proof.
  unfold make3, gconv_init3. intros H H' Hk.
  destruct (gconv_init _ _ _ _ gks _ _ _ _ _ _ _) as [L|] eqn:E; [|discriminate]. cbn [bind] in H. injection H as <-.
  destruct (gconv_init _ _ _ _ gks' _ _ _ _ _ _ _) as [L'|] eqn:E'; [|discriminate]. cbn [bind] in H'. injection H' as <-.
  destruct (init_same _ _ _ _ _ _ _ _ _ _ _ _ _ _ _ _ E E' Hk) as (A & B & C & _). auto.
Qed.

Lemma groups_arg cin groups g : kernel_weight_groups cin groups = Ok g -> g = Z.to_nat groups.
Proof. unfold kernel_weight_groups. destruct (Z.eqb _ _); [discriminate|]. destruct (Z.ltb _ _); [discriminate|]. congruence. Qed.

(** ** Lifting layers *)
Lemma lifting_rot_2 T cin cout s groups st padding dl pmode permute bias mode pm mask gks n gridE gridS M M' u c w X H :
  (0 < s)%nat -> (permute = true -> 1 / 2 < c) -> has_shape w [cout; (cin / Z.to_nat groups)%nat; s; s] ->
  lifting_E2 T cin cout s groups st padding dl pmode permute bias mode pm true gks gridE = Ok M ->
  lifting_SE2 T cin cout s groups st padding dl pmode permute bias mode pm mask n gridS = Ok M' ->
  lifting_E2_call M u c w X (Some (map as_o2 H)) = renamed as_o2 (lifting_SE2_call M' u w X (Some H)).
Proof.
  intros Hs Hc Hw HM HM'. unfold lifting_E2, lifting_SE2 in *.
  destruct (pick_grid gridE _) as [gE|]; [|discriminate]. destruct (pick_grid gridS _) as [gS|]; [|discriminate]. cbn [bind] in *.
  destruct (kernel_weight_groups cin groups) as [g|] eqn:Eg; [|discriminate]. apply groups_arg in Eg as ->. cbn [bind] in *.
  destruct (make2_same _ _ _ _ _ _ _ _ _ _ _ _ _ _ _ _ HM HM' eq_refl) as (HL & K1 & K2 & P1 & P2).
  unfold lifting_E2_call, lifting_SE2_call, lifting_call. cbn [or_else].
  rewrite (permuted_2 M M' u c H (eq_trans P1 (eq_sym P2)) (fun K => Hc (eq_trans (eq_sym P1) K))). apply lifting_layer_sim; [exact HL|]. rewrite K1, K2.
  eapply (lifting_sim _ _ as_o2 o2_det); [reflexivity|reflexivity|reflexivity|reflexivity| |reflexivity|reflexivity|reflexivity| | | | | |].
  - intros H'. eapply product_rot_2; reflexivity.
  - reflexivity.
  - apply gops_ok_SE2.
  - apply grid_R2_shape.
  - apply mask_R2_shape.
  - apply square_nonzero. exact Hs.
  - exact Hw.
Qed.
Lemma lifting_rot_3 T cin cout s groups st padding dl pmode permute bias mode pm mask gks n gridE dE gridS dS M M' q c w X H :
  (0 < s)%nat -> (permute = true -> 1 / 2 < c) -> has_shape w [cout; (cin / Z.to_nat groups)%nat; s; s; s] ->
  lifting_E3 T cin cout s groups st padding dl pmode permute bias mode pm mask gks gridE dE = Ok M ->
  lifting_SE3 T cin cout s groups st padding dl pmode permute bias mode pm mask n gridS dS = Ok M' ->
  lifting_E3_call M c q w X (Some (map as_o3 H)) = renamed as_o3 (lifting_SE3_call M' q w X (Some H)).
Proof.
  intros Hs Hc Hw HM HM'. unfold lifting_E3, lifting_SE3 in *.
  destruct (pick_grid gridE _) as [gE|]; [|discriminate]. destruct (pick_grid gridS _) as [gS|]; [|discriminate]. cbn [bind] in *.
  destruct (kernel_weight_groups cin groups) as [g|] eqn:Eg; [|discriminate]. apply groups_arg in Eg as ->. cbn [bind] in *.
  destruct (make3_same _ _ _ _ _ _ _ _ _ _ _ _ _ _ _ _ HM HM' eq_refl) as (HL & K1 & K2 & P1 & P2).
  unfold lifting_E3_call, lifting_SE3_call, lifting_call. cbn [or_else].
  rewrite (permuted_3 M M' q c H (eq_trans P1 (eq_sym P2)) (fun K => Hc (eq_trans (eq_sym P1) K))). apply lifting_layer_sim; [exact HL|]. rewrite K1, K2.
  eapply (lifting_sim _ _ as_o3 o3_det); [reflexivity|reflexivity|reflexivity|reflexivity| |reflexivity|reflexivity|reflexivity| | | | | |].
  - intros H'. eapply product_rot_3; reflexivity.
  - reflexivity.
  - apply gops_ok_SE3.
  - apply grid_R3_shape.
  - apply opt_mask_R3.
  - apply cube_nonzero. exact Hs.
  - exact Hw.
Qed.

(** ** The E(n) group layers against the SE(n) ones *)
Section Two.
  Context (T : torch_env) (cin cout s : nat) (groups : Z) (st : nat) (padding : padarg) (dl : nat) (pmode : string) (permute : bool)
    (bias : option (tensor R)) (mode pm : string) (mask : bool) (gks : pair_arg) (gmode : string) (width ref : R) (n : nat)
    (gridE : option (list O2)) (gridS : option (list R)) (M : gmodule O2 V2) (M' : gmodule R V2).
  Hypothesis Hs : (0 < s)%nat.
  Hypothesis Hr : pair_rot gks <> 0%nat.
  Hypothesis HM : group_E2 T cin cout s groups st padding dl pmode permute bias mode pm true gks gmode width ref gridE = Ok M.
  Hypothesis HM' : group_SE2 T cin cout s groups st padding dl pmode permute bias mode pm mask n gmode width gridS = Ok M'.
  Hypothesis Hgrid : firstn (pair_rot gks) (kernel_grid M) = map as_o2 (kernel_grid M').
  Hypothesis Hlen : List.length (kernel_grid M') = pair_rot gks.

  Lemma group_rot_2 : exists gE gS w' fw,
    let kE := l_kernel (gm_layer M) in let kS := l_kernel (gm_layer M') in
    same_conv (gm_layer M) (gm_layer M') /\ gm_permute M = permute /\ gm_permute M' = permute /\
    kE = {| k_in := cin; k_out := cout; k_groups := Z.to_nat groups; k_size := [s; s];
            k_gsize := [pair_rot gks; pair_ref gks]; k_grid_H := gE; k_grid_Rn := create_grid_R2 s;
            k_mask := Some (create_spherical_mask_R2 s); k_ops := ops_E2 T gmode w' fw (pair_rot gks) (pair_ref gks) mode pm |} /\
    kS = {| k_in := cin; k_out := cout; k_groups := Z.to_nat groups; k_size := [s; s];
            k_gsize := [List.length gS]; k_grid_H := gS; k_grid_Rn := create_grid_R2 s;
            k_mask := Some (create_spherical_mask_R2 s); k_ops := ops_SE2 T gmode w' mode pm |} /\
    firstn (pair_rot gks) gE = map as_o2 gS /\ List.length gS = pair_rot gks.
  Proof using HM HM' Hgrid Hlen.
    unfold group_E2 in HM. unfold group_SE2 in HM'.
    destruct (pick_grid gridE _) as [gE|]; [|discriminate]. destruct (pick_grid gridS _) as [gS|]; [|discriminate]. cbn [bind] in *.
    unfold kernel_E2 in HM. unfold kernel_SE2 in HM'.
    destruct (width_E2_rot width (pair_rot gks) gE) as [w1|] eqn:E1; [|discriminate].
    destruct (width_E2_ref ref (pair_rot gks) gE) as [w2|] eqn:E2; [|discriminate].
    destruct (width_SE2 width gS) as [w3|] eqn:E3; [|discriminate]. cbn [bind] in *.
    destruct (kernel_weight_groups cin groups) as [g|]; [|discriminate]. cbn [bind] in *.
    destruct (make2_same _ _ _ _ _ _ _ _ _ _ _ _ _ _ _ _ HM HM' eq_refl) as (HL & K1 & K2 & P1 & P2).
    unfold kernel_grid in Hgrid, Hlen. rewrite K2 in Hlen. rewrite K1, K2 in Hgrid. cbn [k_grid_H] in Hgrid, Hlen.
    assert (w1 = w3) as ->.
    { unfold width_E2_rot in E1. rewrite Hgrid, map_o2a_as in E1. unfold width_SE2 in E3. congruence. }
    exists gE, gS, w3, w2. cbv zeta. auto 10.
  Qed.

  Lemma full_rot_2 W W' u c X in_H out_H Y HH :
    (permute = true -> 1 / 2 < c) ->
    has_shape W [(pair_rot gks + pair_ref gks)%nat; cout; (cin / Z.to_nat groups)%nat; s; s] ->
    first_slices (pair_rot gks) [cout; (cin / Z.to_nat groups)%nat; s; s] W W' ->
    full_E2_call M u c W X (map as_o2 in_H) (Some (map as_o2 out_H)) = Ok (Y, HH) ->
    exists HS, full_SE2_call M' u W' X in_H (Some out_H) = Ok (Y, HS) /\ HH = map as_o2 HS.
  Proof using HM HM' Hgrid Hlen Hs Hr.
    intros Hc HW HW' H. destruct group_rot_2 as (gE & gS & w' & fw & K). cbv zeta in K. destruct K as (HL & P1 & P2 & K1 & K2 & F1 & F2).
    unfold full_E2_call, full_call_En in H. cbn [or_else] in H. rewrite (permuted_2 M M' u c out_H (eq_trans P1 (eq_sym P2)) (fun K => Hc (eq_trans (eq_sym P1) K))) in H.
    unfold full_SE2_call, full_call_SEn. cbn [or_else]. set (oH := permuted M' _ _ out_H) in *. exists oH.
    unfold full_forward in *. eapply (group_layer_sim as_o2 (gm_layer M) (gm_layer M') HL) in H; [destruct H; eauto|].
    intros t. rewrite K1, K2. intros E.
    match type of E with full_kernel_forward ?k _ _ _ = _ => set (kE := k) in * end.
    match goal with |- full_kernel_forward ?k _ _ _ = _ => set (kS := k) in * end.
    destruct (sample_group kE W (map as_o2 in_H) (map as_o2 oH)) as [sg|] eqn:Es; [|unfold full_kernel_forward in E; rewrite Es in E; discriminate].
    destruct (sample_rot_E2 T gmode _ _ _ W W' Hr HW HW' kE kS w' fw mode pm mode pm in_H oH sg) as (Es' & V & HV);
      [reflexivity|reflexivity|unfold k_gdim; cbn [fold_right k_gsize kE]; lia|unfold k_gdim; cbn [fold_right k_gsize kS]; lia|exact F1|exact Es|].
    revert E. eapply (full_sim kE kS as_o2 o2_det) with (s := sg) (V := V);
      [reflexivity|reflexivity|reflexivity|reflexivity| |reflexivity|reflexivity|reflexivity|reflexivity|apply gops_ok_SE2|apply grid_R2_shape
      |apply mask_R2_shape|apply square_nonzero; exact Hs|exact Es|exact Es'| | | |exact HV].
    - intros H'. eapply product_rot_2; reflexivity.
    - unfold k_gdim. cbn [fold_right k_gsize kS]. lia.
    - destruct HW as [-> _]. reflexivity.
    - destruct HW' as [HW' _]. unfold full_weight_shape, k_gdim. cbn [fold_right k_gsize kS k_out k_size]. rewrite Nat.add_0_r, F2. exact HW'.
  Qed.

  Lemma separable_rot_2 WH WH' w u c X in_H out_H Y HH :
    (permute = true -> 1 / 2 < c) ->
    has_shape WH [(pair_rot gks + pair_ref gks)%nat; cout; (cin / Z.to_nat groups)%nat] ->
    first_slices (pair_rot gks) [cout; (cin / Z.to_nat groups)%nat] WH WH' -> has_shape w [cout; 1%nat; s; s] ->
    separable_E2_call M u c WH w X (map as_o2 in_H) (Some (map as_o2 out_H)) = Ok (Y, HH) ->
    exists HS, separable_SE2_call M' u WH' w X in_H (Some out_H) = Ok (Y, HS) /\ HH = map as_o2 HS.
  Proof using HM HM' Hgrid Hlen Hs Hr.
    intros Hc HW HW' Hw H. destruct group_rot_2 as (gE & gS & w' & fw & K). cbv zeta in K. destruct K as (HL & P1 & P2 & K1 & K2 & F1 & F2).
    unfold separable_E2_call, separable_call_En in H. cbn [or_else] in H. rewrite (permuted_2 M M' u c out_H (eq_trans P1 (eq_sym P2)) (fun K => Hc (eq_trans (eq_sym P1) K))) in H.
    unfold separable_SE2_call, separable_call_SEn. cbn [or_else]. set (oH := permuted M' _ _ out_H) in *. exists oH.
    eapply (separable_layer_sim as_o2 (gm_layer M) (gm_layer M') HL WH WH') in H; [destruct H; eauto|].
    intros t. rewrite K1, K2. intros E.
    match type of E with separable_kernel_forward ?k _ _ _ _ = _ => set (kE := k) in * end.
    match goal with |- separable_kernel_forward ?k _ _ _ _ = _ => set (kS := k) in * end.
    destruct (sample_group kE WH (map as_o2 in_H) (map as_o2 oH)) as [sg|] eqn:Es; [|rewrite separable_split, Es in E; discriminate].
    destruct (sample_rot_E2 T gmode _ _ _ WH WH' Hr HW HW' kE kS w' fw mode pm mode pm in_H oH sg) as (Es' & V & HV);
      [reflexivity|reflexivity|unfold k_gdim; cbn [fold_right k_gsize kE]; lia|unfold k_gdim; cbn [fold_right k_gsize kS]; lia|exact F1|exact Es|].
    revert E. eapply (separable_sim kE kS as_o2 o2_det) with (s := sg) (V := V);
      [reflexivity|reflexivity|reflexivity|reflexivity| |reflexivity|reflexivity|reflexivity|reflexivity|apply gops_ok_SE2|apply grid_R2_shape
      |apply mask_R2_shape|apply square_nonzero; exact Hs|exact Es|exact Es'| | | |exact HV].
    - intros H'. eapply product_rot_2; reflexivity.
    - unfold k_gdim. cbn [fold_right k_gsize kS]. lia.
    - destruct HW' as [HW' _]. unfold group_weight_shape, k_gdim. cbn [fold_right k_gsize kS k_out k_size]. rewrite Nat.add_0_r, F2. exact HW'.
    - exact Hw.
  Qed.
End Two.

Section Three.
  Context (T : torch_env) (cin cout s : nat) (groups : Z) (st : nat) (padding : padarg) (dl : nat) (pmode : string) (permute : bool)
    (bias : option (tensor R)) (mode pm : string) (mask : bool) (gks : pair_arg) (gmode : string) (width ref : R) (n : nat)
    (gridE : option (list O3)) (dE : result (list O3)) (gridS : option (list M3)) (dS : result (list M3)) (M : gmodule O3 V3) (M' : gmodule M3 V3).
  Hypothesis Hs : (0 < s)%nat.
  Hypothesis Hr : pair_rot gks <> 0%nat.
  Hypothesis Hw : gmode = "nearest"%string \/ width <> 0.
  Hypothesis HM : group_E3 T cin cout s groups st padding dl pmode permute bias mode pm mask gks gmode width ref gridE dE = Ok M.
  Hypothesis HM' : group_SE3 T cin cout s groups st padding dl pmode permute bias mode pm mask n gmode width gridS dS = Ok M'.
  Hypothesis Hgrid : firstn (pair_rot gks) (kernel_grid M) = map as_o3 (kernel_grid M').
  Hypothesis Hlen : List.length (kernel_grid M') = pair_rot gks.

  Lemma group_rot_3 : exists gE gS rw w' fw,
    let kE := l_kernel (gm_layer M) in let kS := l_kernel (gm_layer M') in
    same_conv (gm_layer M) (gm_layer M') /\ gm_permute M = permute /\ gm_permute M' = permute /\
    kE = {| k_in := cin; k_out := cout; k_groups := Z.to_nat groups; k_size := [s; s; s];
            k_gsize := [pair_rot gks; pair_ref gks]; k_grid_H := gE; k_grid_Rn := create_grid_R3 s;
            k_mask := if mask then Some (create_spherical_mask_R3 s) else None; k_ops := ops_E3 T gmode rw fw (pair_rot gks) (pair_ref gks) mode pm |} /\
    kS = {| k_in := cin; k_out := cout; k_groups := Z.to_nat groups; k_size := [s; s; s];
            k_gsize := [List.length gS]; k_grid_H := gS; k_grid_Rn := create_grid_R3 s;
            k_mask := if mask then Some (create_spherical_mask_R3 s) else None; k_ops := ops_SE3 T gmode w' mode pm |} /\
    firstn (pair_rot gks) gE = map as_o3 gS /\ List.length gS = pair_rot gks /\ (gmode = "nearest"%string \/ w' = rw).
  Proof using HM HM' Hgrid Hlen Hw.
    unfold group_E3 in HM. unfold group_SE3 in HM'.
    destruct (pick_grid gridE _) as [gE|]; [|discriminate]. destruct (pick_grid gridS _) as [gS|]; [|discriminate]. cbn [bind] in *.
    unfold kernel_E3 in HM. unfold kernel_SE3 in HM'.
    destruct (width_E3_rot width (pair_rot gks) gE) as [w1|] eqn:E1; [|discriminate].
    destruct (width_E3_ref ref (pair_rot gks) gE) as [w2|] eqn:E2; [|discriminate].
    destruct (width_SE3 width gS) as [w3|] eqn:E3; [|discriminate]. cbn [bind] in *.
    destruct (kernel_weight_groups cin groups) as [g|]; [|discriminate]. cbn [bind] in *.
    destruct (make3_same _ _ _ _ _ _ _ _ _ _ _ _ _ _ _ _ HM HM' eq_refl) as (HL & K1 & K2 & P1 & P2).
    unfold kernel_grid in Hgrid, Hlen. rewrite K2 in Hlen. rewrite K1, K2 in Hgrid. cbn [k_grid_H] in Hgrid, Hlen.
    exists gE, gS, w1, w3, w2. cbv zeta.
    assert (gmode = "nearest"%string \/ w3 = w1) as Hq.
    { destruct Hw as [|Hn]; [left; assumption|right]. unfold width_E3_rot in E1. unfold width_SE3 in E3.
      rewrite default_width_given in E1, E3 by assumption. congruence. }
    auto 10.
  Qed.

  Lemma full_rot_3 W W' q c X in_H out_H Y HH :
    (permute = true -> 1 / 2 < c) ->
    has_shape W [(pair_rot gks + pair_ref gks)%nat; cout; (cin / Z.to_nat groups)%nat; s; s; s] ->
    first_slices (pair_rot gks) [cout; (cin / Z.to_nat groups)%nat; s; s; s] W W' ->
    full_E3_call M c q W X (map as_o3 in_H) (Some (map as_o3 out_H)) = Ok (Y, HH) ->
    exists HS, full_SE3_call M' q W' X in_H (Some out_H) = Ok (Y, HS) /\ HH = map as_o3 HS.
  Proof using HM HM' Hgrid Hlen Hs Hr Hw.
    intros Hc HW HW' H. destruct group_rot_3 as (gE & gS & rw & w' & fw & K). cbv zeta in K. destruct K as (HL & P1 & P2 & K1 & K2 & F1 & F2 & F3).
    unfold full_E3_call, full_call_En in H. cbn [or_else] in H. rewrite (permuted_3 M M' q c out_H (eq_trans P1 (eq_sym P2)) (fun K => Hc (eq_trans (eq_sym P1) K))) in H.
    unfold full_SE3_call, full_call_SEn. cbn [or_else]. set (oH := permuted M' _ _ out_H) in *. exists oH.
    unfold full_forward in *. eapply (group_layer_sim as_o3 (gm_layer M) (gm_layer M') HL) in H; [destruct H; eauto|].
    intros t. rewrite K1, K2. intros E.
    match type of E with full_kernel_forward ?k _ _ _ = _ => set (kE := k) in * end.
    match goal with |- full_kernel_forward ?k _ _ _ = _ => set (kS := k) in * end.
    destruct (sample_group kE W (map as_o3 in_H) (map as_o3 oH)) as [sg|] eqn:Es; [|unfold full_kernel_forward in E; rewrite Es in E; discriminate].
    destruct (sample_rot_E3 T gmode _ _ _ W W' Hr HW HW' kE kS rw fw w' mode pm mode pm in_H oH sg) as (Es' & V & HV);
      [reflexivity|reflexivity|exact F3|unfold k_gdim; cbn [fold_right k_gsize kE]; lia|unfold k_gdim; cbn [fold_right k_gsize kS]; lia|exact F1|exact Es|].
    revert E. eapply (full_sim kE kS as_o3 o3_det) with (s := sg) (V := V);
      [reflexivity|reflexivity|reflexivity|reflexivity| |reflexivity|reflexivity|reflexivity|reflexivity|apply gops_ok_SE3|apply grid_R3_shape
      |apply opt_mask_R3|apply cube_nonzero; exact Hs|exact Es|exact Es'| | | |exact HV].
    - intros H'. eapply product_rot_3; reflexivity.
    - unfold k_gdim. cbn [fold_right k_gsize kS]. lia.
    - destruct HW as [-> _]. reflexivity.
    - destruct HW' as [HW' _]. unfold full_weight_shape, k_gdim. cbn [fold_right k_gsize kS k_out k_size]. rewrite Nat.add_0_r, F2. exact HW'.
  Qed.

  Lemma separable_rot_3 WH WH' w q c X in_H out_H Y HH :
    (permute = true -> 1 / 2 < c) ->
    has_shape WH [(pair_rot gks + pair_ref gks)%nat; cout; (cin / Z.to_nat groups)%nat] ->
    first_slices (pair_rot gks) [cout; (cin / Z.to_nat groups)%nat] WH WH' -> has_shape w [cout; 1%nat; s; s; s] ->
    separable_E3_call M c q WH w X (map as_o3 in_H) (Some (map as_o3 out_H)) = Ok (Y, HH) ->
    exists HS, separable_SE3_call M' q WH' w X in_H (Some out_H) = Ok (Y, HS) /\ HH = map as_o3 HS.
  Proof using HM HM' Hgrid Hlen Hs Hr Hw.
    intros Hc HW HW' Hsw H. destruct group_rot_3 as (gE & gS & rw & w' & fw & K). cbv zeta in K. destruct K as (HL & P1 & P2 & K1 & K2 & F1 & F2 & F3).
    unfold separable_E3_call, separable_call_En in H. cbn [or_else] in H. rewrite (permuted_3 M M' q c out_H (eq_trans P1 (eq_sym P2)) (fun K => Hc (eq_trans (eq_sym P1) K))) in H.
    unfold separable_SE3_call, separable_call_SEn. cbn [or_else]. set (oH := permuted M' _ _ out_H) in *. exists oH.
    eapply (separable_layer_sim as_o3 (gm_layer M) (gm_layer M') HL WH WH') in H; [destruct H; eauto|].
    intros t. rewrite K1, K2. intros E.
    match type of E with separable_kernel_forward ?k _ _ _ _ = _ => set (kE := k) in * end.
    match goal with |- separable_kernel_forward ?k _ _ _ _ = _ => set (kS := k) in * end.
    destruct (sample_group kE WH (map as_o3 in_H) (map as_o3 oH)) as [sg|] eqn:Es; [|rewrite separable_split, Es in E; discriminate].
    destruct (sample_rot_E3 T gmode _ _ _ WH WH' Hr HW HW' kE kS rw fw w' mode pm mode pm in_H oH sg) as (Es' & V & HV);
      [reflexivity|reflexivity|exact F3|unfold k_gdim; cbn [fold_right k_gsize kE]; lia|unfold k_gdim; cbn [fold_right k_gsize kS]; lia|exact F1|exact Es|].
    revert E. eapply (separable_sim kE kS as_o3 o3_det) with (s := sg) (V := V);
      [reflexivity|reflexivity|reflexivity|reflexivity| |reflexivity|reflexivity|reflexivity|reflexivity|apply gops_ok_SE3|apply grid_R3_shape
      |apply opt_mask_R3|apply cube_nonzero; exact Hs|exact Es|exact Es'| | | |exact HV].
    - intros H'. eapply product_rot_3; reflexivity.
    - unfold k_gdim. cbn [fold_right k_gsize kS]. lia.
    - destruct HW' as [HW' _]. unfold group_weight_shape, k_gdim. cbn [fold_right k_gsize kS k_out k_size]. rewrite Nat.add_0_r, F2. exact HW'.
    - exact Hsw.
  Qed.
End Three.

(** ** The default grids *)
Lemma default_grid_2 n m : firstn n (o2_uniform_grid n m) = map as_o2 (so2_uniform_grid n) /\ List.length (so2_uniform_grid n) = n.
Proof.
  pose proof so2_uniform_grid_length as L.
  split; [|apply L]. unfold o2_uniform_grid. rewrite firstn_map, combine_firstn, !firstn_app, repeat_length, L, Nat.sub_diag.
  cbn [firstn]. rewrite !app_nil_r, !firstn_all2 by (rewrite ?repeat_length, ?L; lia).
  pose proof (L n) as Ln. revert n Ln. generalize so2_uniform_grid. intros f n Ln. revert Ln. generalize (f n). clear f. intros l. revert n.
  induction l as [|x l IH]; intros [|n] E; try discriminate; [reflexivity|]. cbn [repeat combine map fst snd]. f_equal. apply IH. injection E. auto.
Qed.
