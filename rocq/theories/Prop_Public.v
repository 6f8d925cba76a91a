(** Property theorems C53 and C69: the twelve public layers.
    Reading guide.  [rigidly_moved mul inv element permute H H'] (PublicFacts.v): without permutation H' = H; with it,
    H' = r H for one group element r; in both cases the length and all relative elements a^-1 b are kept.
    [built d r k ...]: the constructor result r is a layer with kernel k and the given permute flag, and (for positive
    sizes) a [constructed] base layer as in Prop_Conv.v, so that C43-C51 apply to it. [rejection cin groups e]: the
    exception is ZeroDivisionError for groups = 0, RuntimeError for groups < 0, ValueError otherwise.
    [valid_config]: see C43. *)
From Coq Require Import String ZArith Permutation.
From Verif Require Import Prelude RMath Mat Interp SO2 SO2Facts O2 O2Facts SO3 SO3Facts SO3More O3 O3Facts Repulse RepulseFacts GridTables GridTablesFacts GridCache
  GridCacheFacts Tensor TensorFacts SignedPerm Functional Kernel KernelFacts KernelMore WidthFacts Conv ConvSpec ConvFacts GConvFacts ConvInit Public PublicFacts Prop_Kernel Prop_Conv.
Open Scope R_scope.

(** ** C53 *)

(** The returned grid for a call with grid argument H and default grid H0. *)
Theorem C53_SE2 : forall (M : gmodule R V2) u (X Y : tensor R) H', 0 <= u < 1 ->
  let angle r := 0 <= r < 2 * PI in
  let moved := rigidly_moved so2_left_apply_angle so2_inverse_angle angle (gm_permute M) in
  (forall weight H, lifting_SE2_call M u weight X H = Ok (Y, H') ->
     moved (match H with Some h => h | None => k_grid_H (l_kernel (gm_layer M)) end) H') /\
  (forall weight in_H out_H, full_SE2_call M u weight X in_H out_H = Ok (Y, H') ->
     moved (match out_H with Some h => h | None => in_H end) H') /\
  (forall weight_H weight in_H out_H, separable_SE2_call M u weight_H weight X in_H out_H = Ok (Y, H') ->
     moved (match out_H with Some h => h | None => in_H end) H').
Proof.
  intros M u X Y H' Hu angle moved.
  assert (forall H, moved H (permuted M so2_left_apply_angle (drawn_SE2 u) H)) as K.
  { intros H. apply (permuted_rigid M so2_left_apply_angle so2_inverse_angle angle (2 * PI * u)); [reflexivity| |].
    - unfold angle. pose proof PI_RGT_0. split; [apply Rmult_le_pos; lra|]. rewrite <- (Rmult_1_r (2 * PI)) at 2. apply Rmult_lt_compat_l; lra.
    - intros. apply so2_relative. }
  split; [|split]; intros; [apply lifting_forward_grid in H0|apply full_forward_grid in H|apply separable_forward_grid in H];
    subst H'; apply K.
Qed.
Print Assumptions C53_SE2.

Theorem C53_SE3 : forall (M : gmodule M3 V3) q (X Y : tensor R) H', 0 < qdot q q ->
  let moved := rigidly_moved mul3 tr3 isSO3 (gm_permute M) in
  (forall weight H, lifting_SE3_call M q weight X H = Ok (Y, H') ->
     moved (match H with Some h => h | None => k_grid_H (l_kernel (gm_layer M)) end) H') /\
  (forall weight in_H out_H, full_SE3_call M q weight X in_H out_H = Ok (Y, H') ->
     moved (match out_H with Some h => h | None => in_H end) H') /\
  (forall weight_H weight in_H out_H, separable_SE3_call M q weight_H weight X in_H out_H = Ok (Y, H') ->
     moved (match out_H with Some h => h | None => in_H end) H').
Proof.
  intros M q X Y H' Hq moved.
  assert (forall H, moved H (permuted M so3_left_apply_matrix (drawn_SE3 q) H)) as K.
  { intros H. destruct (so3_random_ok q Hq) as [_ Ho]. apply (permuted_rigid M mul3 tr3 isSO3 (so3_random_matrix q)); [reflexivity|assumption|].
    intros a b. apply mul3_relative. apply Ho. }
  split; [|split]; intros; [apply lifting_forward_grid in H0|apply full_forward_grid in H|apply separable_forward_grid in H];
    subst H'; apply K.
Qed.
Print Assumptions C53_SE3.

(** E(2), E(3): the output grid of the group layers defaults to the kernel's reference grid instead. *)
Theorem C53_E2 : forall (M : gmodule O2 V2) u c (X Y : tensor R) H', 0 <= u < 1 ->
  let element r := o2_wf r /\ 0 <= o2a r < 2 * PI in
  let moved := rigidly_moved o2_left_apply_angle o2_inverse element (gm_permute M) in
  let H0 := k_grid_H (l_kernel (gm_layer M)) in
  (forall weight H, lifting_E2_call M u c weight X H = Ok (Y, H') ->
     moved (match H with Some h => h | None => H0 end) H') /\
  (forall weight in_H out_H, full_E2_call M u c weight X in_H out_H = Ok (Y, H') ->
     moved (match out_H with Some h => h | None => H0 end) H') /\
  (forall weight_H weight in_H out_H, separable_E2_call M u c weight_H weight X in_H out_H = Ok (Y, H') ->
     moved (match out_H with Some h => h | None => H0 end) H').
Proof.
  intros M u c X Y H' Hu element moved H0.
  assert (forall H, moved H (permuted M o2_left_apply_angle (drawn_E2 u c) H)) as K.
  { intros H. set (r := mkO2 (2 * (if Rlt_dec (1 / 2) c then 1 else 0) - 1) (2 * PI * u)).
    assert (o2_wf r) as Hr. { unfold o2_wf, r. cbn [o2c]. destruct (Rlt_dec (1 / 2) c); [left|right]; ring. }
    apply (permuted_rigid M o2_left_apply_angle o2_inverse element r); [reflexivity| |].
    - split; [assumption|]. cbn [o2a r]. pose proof PI_RGT_0. split; [apply Rmult_le_pos; lra|].
      rewrite <- (Rmult_1_r (2 * PI)) at 2. apply Rmult_lt_compat_l; lra.
    - intros. apply o2_relative. assumption. }
  split; [|split]; intros; [apply lifting_forward_grid in H1|apply full_forward_grid in H|apply separable_forward_grid in H];
    subst H'; apply K.
Qed.
Print Assumptions C53_E2.

Theorem C53_E3 : forall (M : gmodule O3 V3) c q (X Y : tensor R) H', 0 < qdot q q ->
  let moved := rigidly_moved o3_left_apply_O3 o3_inverse o3_wf (gm_permute M) in
  let H0 := k_grid_H (l_kernel (gm_layer M)) in
  (forall weight H, lifting_E3_call M c q weight X H = Ok (Y, H') ->
     moved (match H with Some h => h | None => H0 end) H') /\
  (forall weight in_H out_H, full_E3_call M c q weight X in_H out_H = Ok (Y, H') ->
     moved (match out_H with Some h => h | None => H0 end) H') /\
  (forall weight_H weight in_H out_H, separable_E3_call M c q weight_H weight X in_H out_H = Ok (Y, H') ->
     moved (match out_H with Some h => h | None => H0 end) H').
Proof.
  intros M c q X Y H' Hq moved H0.
  assert (forall H, moved H (permuted M o3_left_apply_O3 (drawn_E3 c q) H)) as K.
  { intros H. pose proof (o3_random_wf c q Hq) as Hr. apply (permuted_rigid M o3_left_apply_O3 o3_inverse o3_wf (o3_random c q)); [reflexivity|assumption|].
    destruct Hr as [Hc [[Ho _] _]]. intros a b. apply o3_relative; assumption. }
  split; [|split]; intros; [apply lifting_forward_grid in H1|apply full_forward_grid in H|apply separable_forward_grid in H];
    subst H'; apply K.
Qed.
Print Assumptions C53_E3.

(** Every planar rotation, and every coefficient, can be drawn. *)
Theorem C53_every_rotation_can_be_drawn :
  (forall r, 0 <= r < 2 * PI -> exists u, 0 <= u < 1 /\ drawn_SE2 u = [r]) /\
  (forall r, o2_wf r -> 0 <= o2a r < 2 * PI -> exists u c, 0 <= u < 1 /\ 0 <= c < 1 /\ drawn_E2 u c = [r]).
Proof.
  pose proof PI_RGT_0 as HP.
  assert (forall r, 0 <= r < 2 * PI -> exists u, 0 <= u < 1 /\ 2 * PI * u = r) as K.
  { intros r Hr. exists (r / (2 * PI)). split; [|field; lra].
    assert (0 < / (2 * PI)) by (apply Rinv_0_lt_compat; lra).
    unfold Rdiv. split; [apply Rmult_le_pos; lra|].
    rewrite <- (Rinv_r (2 * PI)) by lra. apply Rmult_lt_compat_r; lra. }
  split.
  - intros r Hr. destruct (K r Hr) as (u & Hu & E). exists u. split; [assumption|]. unfold drawn_SE2, so2_random_grid. cbn. rewrite E. reflexivity.
  - intros [rc ra] Hw Hr. cbn [o2a] in Hr. destruct (K ra Hr) as (u & Hu & E). exists u.
    destruct Hw as [Hc|Hc]; cbn [o2c] in Hc; subst rc.
    + exists (3 / 4). split; [assumption|]. split; [lra|]. unfold drawn_E2, o2_random_grid, so2_random_grid. cbn. rewrite E.
      destruct (Rlt_dec (1 / 2) (3 / 4)); [|lra]. f_equal. f_equal. ring.
    + exists (1 / 4). split; [assumption|]. split; [lra|]. unfold drawn_E2, o2_random_grid, so2_random_grid. cbn. rewrite E.
      destruct (Rlt_dec (1 / 2) (1 / 4)); [lra|]. f_equal. f_equal. ring.
Qed.
Print Assumptions C53_every_rotation_can_be_drawn.

(** Only the output grid is affected: the feature map of a permuting layer is the one the same layer without permutation computes
    for the returned grid from the input and the input grid as given. *)
Definition without_permutation {G P} (M : gmodule G P) : gmodule G P := mkModule (gm_layer M) false.
Theorem C53_values : forall (X Y : tensor R),
  (forall M u u' H', 
     (forall weight H, lifting_SE2_call M u weight X H = Ok (Y, H') -> lifting_SE2_call (without_permutation M) u' weight X (Some H') = Ok (Y, H')) /\
     (forall weight in_H out_H, full_SE2_call M u weight X in_H out_H = Ok (Y, H') -> full_SE2_call (without_permutation M) u' weight X in_H (Some H') = Ok (Y, H')) /\
     (forall weight_H weight in_H out_H, separable_SE2_call M u weight_H weight X in_H out_H = Ok (Y, H') ->
        separable_SE2_call (without_permutation M) u' weight_H weight X in_H (Some H') = Ok (Y, H'))) /\
  (forall M q q' H', 
     (forall weight H, lifting_SE3_call M q weight X H = Ok (Y, H') -> lifting_SE3_call (without_permutation M) q' weight X (Some H') = Ok (Y, H')) /\
     (forall weight in_H out_H, full_SE3_call M q weight X in_H out_H = Ok (Y, H') -> full_SE3_call (without_permutation M) q' weight X in_H (Some H') = Ok (Y, H')) /\
     (forall weight_H weight in_H out_H, separable_SE3_call M q weight_H weight X in_H out_H = Ok (Y, H') ->
        separable_SE3_call (without_permutation M) q' weight_H weight X in_H (Some H') = Ok (Y, H'))) /\
  (forall M u c u' c' H', 
     (forall weight H, lifting_E2_call M u c weight X H = Ok (Y, H') -> lifting_E2_call (without_permutation M) u' c' weight X (Some H') = Ok (Y, H')) /\
     (forall weight in_H out_H, full_E2_call M u c weight X in_H out_H = Ok (Y, H') -> full_E2_call (without_permutation M) u' c' weight X in_H (Some H') = Ok (Y, H')) /\
     (forall weight_H weight in_H out_H, separable_E2_call M u c weight_H weight X in_H out_H = Ok (Y, H') ->
        separable_E2_call (without_permutation M) u' c' weight_H weight X in_H (Some H') = Ok (Y, H'))) /\
  (forall M c q c' q' H', 
     (forall weight H, lifting_E3_call M c q weight X H = Ok (Y, H') -> lifting_E3_call (without_permutation M) c' q' weight X (Some H') = Ok (Y, H')) /\
     (forall weight in_H out_H, full_E3_call M c q weight X in_H out_H = Ok (Y, H') -> full_E3_call (without_permutation M) c' q' weight X in_H (Some H') = Ok (Y, H')) /\
     (forall weight_H weight in_H out_H, separable_E3_call M c q weight_H weight X in_H out_H = Ok (Y, H') ->
        separable_E3_call (without_permutation M) c' q' weight_H weight X in_H (Some H') = Ok (Y, H'))).
Proof.
  intros X Y.
  assert (L : forall G P (D : Dflt P) (M : gmodule G P) mul rs rs' weight H H', lifting_call M mul rs weight X H = Ok (Y, H') ->
    lifting_call (without_permutation M) mul rs' weight X (Some H') = Ok (Y, H')).
  { intros G P D M mul rs rs' weight H H' E. pose proof (lifting_forward_grid _ _ _ _ _ _ E) as ->. exact E. }
  assert (F1 : forall G P (D : Dflt P) (M : gmodule G P) mul rs rs' weight iH H H', full_call_SEn M mul rs weight X iH H = Ok (Y, H') ->
    full_call_SEn (without_permutation M) mul rs' weight X iH (Some H') = Ok (Y, H')).
  { intros G P D M mul rs rs' weight iH H H' E. pose proof (full_forward_grid _ _ _ _ _ _ _ E) as ->. exact E. }
  assert (S1 : forall G P (D : Dflt P) (M : gmodule G P) mul rs rs' weight_H weight iH H H', separable_call_SEn M mul rs weight_H weight X iH H = Ok (Y, H') ->
    separable_call_SEn (without_permutation M) mul rs' weight_H weight X iH (Some H') = Ok (Y, H')).
  { intros G P D M mul rs rs' weight_H weight iH H H' E. pose proof (separable_forward_grid _ _ _ _ _ _ _ _ E) as ->. exact E. }
  assert (F2 : forall G P (D : Dflt P) (M : gmodule G P) mul rs rs' weight iH H H', full_call_En M mul rs weight X iH H = Ok (Y, H') ->
    full_call_En (without_permutation M) mul rs' weight X iH (Some H') = Ok (Y, H')).
  { intros G P D M mul rs rs' weight iH H H' E. pose proof (full_forward_grid _ _ _ _ _ _ _ E) as ->. exact E. }
  assert (S2 : forall G P (D : Dflt P) (M : gmodule G P) mul rs rs' weight_H weight iH H H', separable_call_En M mul rs weight_H weight X iH H = Ok (Y, H') ->
    separable_call_En (without_permutation M) mul rs' weight_H weight X iH (Some H') = Ok (Y, H')).
  { intros G P D M mul rs rs' weight_H weight iH H H' E. pose proof (separable_forward_grid _ _ _ _ _ _ _ _ E) as ->. exact E. }
  split; [|split; [|split]]; intros; (split; [|split]); intros.
  - eapply L; eassumption.
  - eapply F1; eassumption.
  - eapply S1; eassumption.
  - eapply L; eassumption.
  - eapply F1; eassumption.
  - eapply S1; eassumption.
  - eapply L; eassumption.
  - eapply F2; eassumption.
  - eapply S2; eassumption.
  - eapply L; eassumption.
  - eapply F2; eassumption.
  - eapply S2; eassumption.
Qed.
Print Assumptions C53_values.

(** ** C69 *)

Theorem C69_lifting_SE2 : forall T cin cout s groups st padding dl pmode permute bias mode pm mask n given,
  let grid := match given with Some g => g | None => so2_uniform_grid n end in
  let r := lifting_SE2 T cin cout s groups st padding dl pmode permute bias mode pm mask n given in
  let k := lifting_kernel_SE2 T cin cout s (Z.to_nat groups) mode pm mask grid in
  let ok := valid_config (GkInt (Z.of_nat n)) cin cout groups padding [st; st] pmode in
  (ok -> built 2 r k cin cout s groups st padding dl pmode permute bias) /\
  (~ ok -> exists e, r = Err e /\ rejection cin groups e) /\
  k_grid_H k = grid /\ lifting_weight_shape k = [cout; cin / Z.to_nat groups; s; s]%nat.
Proof.
  intros. unfold r, lifting_SE2. replace (pick_grid given (Ok (so2_uniform_grid n))) with (Ok grid) by (destruct given; reflexivity).
  cbn [bind].
  destruct (lifting_ctor 2 "2d" (or_introl (conj eq_refl eq_refl)) cin cout s groups st padding dl pmode permute bias (GkInt (Z.of_nat n))
    (fun g => lifting_kernel_SE2 T cin cout s g mode pm mask grid) (fun _ => eq_refl)) as [A B].
  split; [exact A|]. split; [exact B|]. split; reflexivity.
Qed.
Print Assumptions C69_lifting_SE2.

Theorem C69_lifting_SE3 : forall T cin cout s groups st padding dl pmode permute bias mode pm mask n given default grid,
  (given = Some grid \/ given = None /\ default = Ok grid) ->
  let r := lifting_SE3 T cin cout s groups st padding dl pmode permute bias mode pm mask n given default in
  let k := lifting_kernel_SE3 T cin cout s (Z.to_nat groups) mode pm mask grid in
  let ok := valid_config (GkInt (Z.of_nat n)) cin cout groups padding [st; st; st] pmode in
  (ok -> built 3 r k cin cout s groups st padding dl pmode permute bias) /\
  (~ ok -> exists e, r = Err e /\ rejection cin groups e) /\
  k_grid_H k = grid /\ lifting_weight_shape k = [cout; cin / Z.to_nat groups; s; s; s]%nat.
Proof.
  intros. unfold r, lifting_SE3. replace (pick_grid given default) with (Ok grid) by (destruct H as [->|[-> ->]]; reflexivity).
  cbn [bind].
  destruct (lifting_ctor 3 "3d" (or_intror (conj eq_refl eq_refl)) cin cout s groups st padding dl pmode permute bias (GkInt (Z.of_nat n))
    (fun g => lifting_kernel_SE3 T cin cout s g mode pm mask grid) (fun _ => eq_refl)) as [A B].
  split; [exact A|]. split; [exact B|]. split; reflexivity.
Qed.
Print Assumptions C69_lifting_SE3.

Theorem C69_lifting_E2 : forall T cin cout s groups st padding dl pmode permute bias mode pm mask gks given,
  let grid := match given with Some g => g | None => o2_uniform_grid (pair_rot gks) (pair_ref gks) end in
  let r := lifting_E2 T cin cout s groups st padding dl pmode permute bias mode pm mask gks given in
  let k := lifting_kernel_E2 T cin cout s (Z.to_nat groups) (pair_rot gks) (pair_ref gks) mode pm mask grid in
  let ok := valid_config (pair_gks gks) cin cout groups padding [st; st] pmode in
  (ok -> built 2 r k cin cout s groups st padding dl pmode permute bias) /\
  (~ ok -> exists e, r = Err e /\ rejection cin groups e) /\
  k_grid_H k = grid /\ lifting_weight_shape k = [cout; cin / Z.to_nat groups; s; s]%nat.
Proof.
  intros. unfold r, lifting_E2. replace (pick_grid given _) with (Ok grid) by (destruct given; reflexivity).
  cbn [bind].
  destruct (lifting_ctor 2 "2d" (or_introl (conj eq_refl eq_refl)) cin cout s groups st padding dl pmode permute bias (pair_gks gks)
    (fun g => lifting_kernel_E2 T cin cout s g (pair_rot gks) (pair_ref gks) mode pm mask grid) (fun _ => eq_refl)) as [A B].
  split; [exact A|]. split; [exact B|]. split; reflexivity.
Qed.
Print Assumptions C69_lifting_E2.

Theorem C69_lifting_E3 : forall T cin cout s groups st padding dl pmode permute bias mode pm mask gks given default grid,
  (given = Some grid \/ given = None /\ default = Ok grid) ->
  let r := lifting_E3 T cin cout s groups st padding dl pmode permute bias mode pm mask gks given default in
  let k := lifting_kernel_E3 T cin cout s (Z.to_nat groups) (pair_rot gks) (pair_ref gks) mode pm mask grid in
  let ok := valid_config (pair_gks gks) cin cout groups padding [st; st; st] pmode in
  (ok -> built 3 r k cin cout s groups st padding dl pmode permute bias) /\
  (~ ok -> exists e, r = Err e /\ rejection cin groups e) /\
  k_grid_H k = grid /\ lifting_weight_shape k = [cout; cin / Z.to_nat groups; s; s; s]%nat.
Proof.
  intros. unfold r, lifting_E3. replace (pick_grid given default) with (Ok grid) by (destruct H as [->|[-> ->]]; reflexivity).
  cbn [bind].
  destruct (lifting_ctor 3 "3d" (or_intror (conj eq_refl eq_refl)) cin cout s groups st padding dl pmode permute bias (pair_gks gks)
    (fun g => lifting_kernel_E3 T cin cout s g (pair_rot gks) (pair_ref gks) mode pm mask grid) (fun _ => eq_refl)) as [A B].
  split; [exact A|]. split; [exact B|]. split; reflexivity.
Qed.
Print Assumptions C69_lifting_E3.

(** Group and separable layers.  The default width is computed first: it needs a non-empty grid (SE(2)), non-empty halves
    (E(2)), two elements (SE(3)), two elements in each half (E(3)), or a given width; otherwise IndexError. *)
Theorem C69_group_SE2 : forall T cin cout s groups st padding dl pmode permute bias mode pm mask n gmode w given,
  let grid := match given with Some g => g | None => so2_uniform_grid n end in
  let r := group_SE2 T cin cout s groups st padding dl pmode permute bias mode pm mask n gmode w given in
  let ok := valid_config (GkInt (Z.of_nat n)) cin cout groups padding [st; st] pmode in
  let density := w <> 0 \/ grid <> [] in
  (density -> ok -> exists k, kernel_SE2 T cin cout s (Z.to_nat groups) gmode w mode pm mask grid = Ok k /\
     built 2 r k cin cout s groups st padding dl pmode permute bias /\
     k_grid_H k = grid /\ full_weight_shape k = [List.length grid; cout; cin / Z.to_nat groups; s; s]%nat /\
     group_weight_shape k = [List.length grid; cout; cin / Z.to_nat groups]%nat /\
     separable_weight_shape k = [cout; 1; s; s]%nat) /\
  (density -> ~ ok -> exists e, r = Err e /\ rejection cin groups e) /\
  (~ density -> r = Err IndexError).
Proof.
  intros. unfold r, group_SE2. replace (pick_grid given _) with (Ok grid) by (destruct given; reflexivity).
  cbn [bind]. unfold kernel_SE2. destruct (width_SE2 w grid) as [wd|e] eqn:Ew; cbn [bind].
  - set (k := Build_gkernel _ _ _ _ _ _ _ _ _ _ _).
    destruct (lifting_ctor 2 "2d" (or_introl (conj eq_refl eq_refl)) cin cout s groups st padding dl pmode permute bias (GkInt (Z.of_nat n))
      (fun _ => k) (fun _ => eq_refl)) as [A B].
    split; [|split; [intros _; exact B|]].
    + intros _ Hok. exists k. split; [reflexivity|]. split; [exact (A Hok)|]. unfold full_weight_shape, group_weight_shape, separable_weight_shape, k_gdim, k_cin, k.
      cbn [k_grid_H k_gsize k_out k_in k_groups k_size fold_right]. rewrite Nat.add_0_r. repeat split; reflexivity.
    + intros Hn. exfalso. apply Hn. apply width_SE2_ok. eauto.
  - assert (~ density) as Hd by (intros Hd; apply width_SE2_ok in Hd; destruct Hd; congruence).
    split; [tauto|]. split; [tauto|]. intros _. f_equal. eapply width_SE2_err; eassumption.
Qed.
Print Assumptions C69_group_SE2.

Theorem C69_group_SE3 : forall T cin cout s groups st padding dl pmode permute bias mode pm mask n gmode w given default grid,
  (given = Some grid \/ given = None /\ default = Ok grid) ->
  let r := group_SE3 T cin cout s groups st padding dl pmode permute bias mode pm mask n gmode w given default in
  let ok := valid_config (GkInt (Z.of_nat n)) cin cout groups padding [st; st; st] pmode in
  let density := w <> 0 \/ (2 <= List.length grid)%nat in
  (density -> ok -> exists k, kernel_SE3 T cin cout s (Z.to_nat groups) gmode w mode pm mask grid = Ok k /\
     built 3 r k cin cout s groups st padding dl pmode permute bias /\
     k_grid_H k = grid /\ full_weight_shape k = [List.length grid; cout; cin / Z.to_nat groups; s; s; s]%nat /\
     group_weight_shape k = [List.length grid; cout; cin / Z.to_nat groups]%nat /\
     separable_weight_shape k = [cout; 1; s; s; s]%nat) /\
  (density -> ~ ok -> exists e, r = Err e /\ rejection cin groups e) /\
  (~ density -> r = Err IndexError).
Proof.
  intros. unfold r, group_SE3. replace (pick_grid given default) with (Ok grid) by (destruct H as [->|[-> ->]]; reflexivity).
  cbn [bind]. unfold kernel_SE3. destruct (width_SE3 w grid) as [wd|e] eqn:Ew; cbn [bind].
  - set (k := Build_gkernel _ _ _ _ _ _ _ _ _ _ _).
    destruct (lifting_ctor 3 "3d" (or_intror (conj eq_refl eq_refl)) cin cout s groups st padding dl pmode permute bias (GkInt (Z.of_nat n))
      (fun _ => k) (fun _ => eq_refl)) as [A B].
    split; [|split; [intros _; exact B|]].
    + intros _ Hok. exists k. split; [reflexivity|]. split; [exact (A Hok)|]. unfold full_weight_shape, group_weight_shape, separable_weight_shape, k_gdim, k_cin, k.
      cbn [k_grid_H k_gsize k_out k_in k_groups k_size fold_right]. rewrite Nat.add_0_r. repeat split; reflexivity.
    + intros Hn. exfalso. apply Hn. apply width_SE3_ok. eauto.
  - assert (~ density) as Hd by (intros Hd; apply width_SE3_ok in Hd; destruct Hd; congruence).
    split; [tauto|]. split; [tauto|]. intros _. f_equal. eapply width_SE3_err; eassumption.
Qed.
Print Assumptions C69_group_SE3.

(** E(2), E(3): the parameter has n + m group positions whatever grid is given (n, m the sizes in group_kernel_size). *)
Theorem C69_group_E2 : forall T cin cout s groups st padding dl pmode permute bias mode pm mask gks gmode rot ref given,
  let n := pair_rot gks in let m := pair_ref gks in
  let grid := match given with Some g => g | None => o2_uniform_grid n m end in
  let r := group_E2 T cin cout s groups st padding dl pmode permute bias mode pm mask gks gmode rot ref given in
  let ok := valid_config (pair_gks gks) cin cout groups padding [st; st] pmode in
  let density := (rot <> 0 \/ firstn n grid <> []) /\ (ref <> 0 \/ skipn n grid <> []) in
  (density -> ok -> exists k, kernel_E2 T cin cout s (Z.to_nat groups) n m gmode rot ref mode pm mask grid = Ok k /\
     built 2 r k cin cout s groups st padding dl pmode permute bias /\
     k_grid_H k = grid /\ full_weight_shape k = [n + m; cout; cin / Z.to_nat groups; s; s]%nat /\
     group_weight_shape k = [n + m; cout; cin / Z.to_nat groups]%nat /\
     separable_weight_shape k = [cout; 1; s; s]%nat) /\
  (density -> ~ ok -> exists e, r = Err e /\ rejection cin groups e) /\
  (~ density -> r = Err IndexError).
Proof.
  intros. unfold r, group_E2. replace (pick_grid given _) with (Ok grid) by (destruct given; reflexivity).
  cbn [bind]. fold n m. unfold kernel_E2.
  destruct (width_E2_rot rot n grid) as [wr|e] eqn:Er; cbn [bind]; [destruct (width_E2_ref ref n grid) as [wf|e] eqn:Ef; cbn [bind]|].
  - set (k := Build_gkernel _ _ _ _ _ _ _ _ _ _ _).
    destruct (lifting_ctor 2 "2d" (or_introl (conj eq_refl eq_refl)) cin cout s groups st padding dl pmode permute bias (pair_gks gks)
      (fun _ => k) (fun _ => eq_refl)) as [A B].
    split; [|split; [intros _; exact B|]].
    + intros _ Hok. exists k. split; [reflexivity|]. split; [exact (A Hok)|]. unfold full_weight_shape, group_weight_shape, separable_weight_shape, k_gdim, k_cin, k.
      cbn [k_grid_H k_gsize k_out k_in k_groups k_size fold_right]. rewrite Nat.add_0_r. repeat split; reflexivity.
    + intros Hn. exfalso. apply Hn. split; [apply width_E2_rot_ok|apply width_E2_ref_ok]; eauto.
  - assert (~ density) as Hd by (intros [_ Hd]; apply width_E2_ref_ok in Hd; destruct Hd; congruence).
    split; [tauto|]. split; [tauto|]. intros _. f_equal. eapply width_E2_ref_err; eassumption.
  - assert (~ density) as Hd by (intros [Hd _]; apply width_E2_rot_ok in Hd; destruct Hd; congruence).
    split; [tauto|]. split; [tauto|]. intros _. f_equal. eapply width_E2_rot_err; eassumption.
Qed.
Print Assumptions C69_group_E2.

Theorem C69_group_E3 : forall T cin cout s groups st padding dl pmode permute bias mode pm mask gks gmode rot ref given default grid,
  (given = Some grid \/ given = None /\ default = Ok grid) ->
  let n := pair_rot gks in let m := pair_ref gks in
  let r := group_E3 T cin cout s groups st padding dl pmode permute bias mode pm mask gks gmode rot ref given default in
  let ok := valid_config (pair_gks gks) cin cout groups padding [st; st; st] pmode in
  let density := (rot <> 0 \/ (2 <= List.length (firstn n grid))%nat) /\ (ref <> 0 \/ (2 <= List.length (skipn n grid))%nat) in
  (density -> ok -> exists k, kernel_E3 T cin cout s (Z.to_nat groups) n m gmode rot ref mode pm mask grid = Ok k /\
     built 3 r k cin cout s groups st padding dl pmode permute bias /\
     k_grid_H k = grid /\ full_weight_shape k = [n + m; cout; cin / Z.to_nat groups; s; s; s]%nat /\
     group_weight_shape k = [n + m; cout; cin / Z.to_nat groups]%nat /\
     separable_weight_shape k = [cout; 1; s; s; s]%nat) /\
  (density -> ~ ok -> exists e, r = Err e /\ rejection cin groups e) /\
  (~ density -> r = Err IndexError).
Proof.
  intros. unfold r, group_E3. replace (pick_grid given default) with (Ok grid) by (destruct H as [->|[-> ->]]; reflexivity).
  cbn [bind]. fold n m. unfold kernel_E3.
  destruct (width_E3_rot rot n grid) as [wr|e] eqn:Er; cbn [bind]; [destruct (width_E3_ref ref n grid) as [wf|e] eqn:Ef; cbn [bind]|].
  - set (k := Build_gkernel _ _ _ _ _ _ _ _ _ _ _).
    destruct (lifting_ctor 3 "3d" (or_intror (conj eq_refl eq_refl)) cin cout s groups st padding dl pmode permute bias (pair_gks gks)
      (fun _ => k) (fun _ => eq_refl)) as [A B].
    split; [|split; [intros _; exact B|]].
    + intros _ Hok. exists k. split; [reflexivity|]. split; [exact (A Hok)|]. unfold full_weight_shape, group_weight_shape, separable_weight_shape, k_gdim, k_cin, k.
      cbn [k_grid_H k_gsize k_out k_in k_groups k_size fold_right]. rewrite Nat.add_0_r. repeat split; reflexivity.
    + intros Hn. exfalso. apply Hn. split; [apply width_E3_rot_ok|apply width_E3_ref_ok]; eauto.
  - assert (~ density) as Hd by (intros [_ Hd]; apply width_E3_ref_ok in Hd; destruct Hd; congruence).
    split; [tauto|]. split; [tauto|]. intros _. f_equal. eapply width_flat_err; eassumption.
  - assert (~ density) as Hd by (intros [Hd _]; apply width_E3_rot_ok in Hd; destruct Hd; congruence).
    split; [tauto|]. split; [tauto|]. intros _. f_equal. eapply width_flat_err; eassumption.
Qed.
Print Assumptions C69_group_E3.

(** The default grids of the 3d layers: the tables for 2 to 24 elements whatever was called before, some grid of n elements
    beyond that; the E(3) layers cannot be built with a default grid when one of the two sizes is 1. *)
Theorem C69_default_grids :
  (forall h n o, write_free h -> (2 <= n <= 24)%nat -> default_SE3 (grun ginit h) n o = Ok (table_matrix n)) /\
  (forall h n o, cache_free h -> (24 < n)%nat -> oracle_ok n o ->
     exists g, default_SE3 (grun ginit h) n o = Ok g /\ List.length g = n) /\
  (forall h n m o1 o2, cache_free h -> oracle_ok n o1 -> oracle_ok m o2 -> n <> 1%nat -> m <> 1%nat -> (n + m <> 0)%nat ->
     exists g, default_E3 (grun ginit h) n m o1 o2 = Ok g /\ List.length g = (n + m)%nat) /\
  (forall h n m o1 o2, write_free h -> oracle_ok n o1 -> oracle_ok m o2 -> n = 1%nat \/ m = 1%nat ->
     default_E3 (grun ginit h) n m o1 o2 = Err RuntimeError).
Proof.
  split; [|split; [|split]].
  - intros h n o Hw Hn. destruct (tabulated_matrix h n "matrix" false o Hw Hn eq_refl) as (l & E & Hl).
    unfold default_SE3. rewrite E. cbn [bind]. rewrite Hl. reflexivity.
  - intros h n o Hc Hn Ho. destruct (fresh_grid h n "matrix" false o Hc Hn Ho) as (_ & A & _).
    destruct (A eq_refl) as (l & E & Hlen & _). exists l. split; [|assumption].
    unfold default_SE3. unfold outcome in E. destruct (so3_uniform_grid (grun ginit h) n "matrix" false o) as [s' [loc|e]]; cbn [fst snd bind] in *; [|discriminate].
    injection E as E. rewrite E. reflexivity.
  - intros h n m o1 o2 Hc H1 H2 Hn Hm Hnm. destruct (o3_uniform_ok h n m o1 o2 Hc H1 H2 Hn Hm Hnm) as (g & E & Hl & _).
    exists g. split; [|assumption]. unfold default_E3. rewrite E. reflexivity.
  - intros h n m o1 o2 Hw H1 H2 Hnm. unfold default_E3. rewrite (o3_uniform_one h n m o1 o2 Hw H1 H2 Hnm). reflexivity.
Qed.
Print Assumptions C69_default_grids.

(** E(n): an int group_kernel_size n > 0 means n rotations and n reflections; the layers differ in nothing but the attribute group_kernel_size,
    which keeps the argument as given ([with_gks v M]: M with that attribute set to v). *)
Definition with_gks {G P} (v : gk_arg) (M : gmodule G P) : gmodule G P :=
  let L := gm_layer M in
  mkModule {| l_kernel := l_kernel L; l_in := l_in L; l_out := l_out L; l_ks := l_ks L; l_gks := v; l_groups := l_groups L; l_stride := l_stride L;
     l_padding := l_padding L; l_dil := l_dil L; l_mode := l_mode L; l_rev := l_rev L; l_bias := l_bias L |} (gm_permute M).
Theorem C69_int_group_kernel_size : forall T cin cout s groups st padding dl pmode permute bias mode pm mask n gmode rot ref v, (0 < n)%nat ->
  (forall given, rmap (with_gks v) (lifting_E2 T cin cout s groups st padding dl pmode permute bias mode pm mask (PairInt n) given) =
                 rmap (with_gks v) (lifting_E2 T cin cout s groups st padding dl pmode permute bias mode pm mask (PairTuple n n) given)) /\
  (forall given, rmap (with_gks v) (group_E2 T cin cout s groups st padding dl pmode permute bias mode pm mask (PairInt n) gmode rot ref given) =
                 rmap (with_gks v) (group_E2 T cin cout s groups st padding dl pmode permute bias mode pm mask (PairTuple n n) gmode rot ref given)) /\
  (forall given default, rmap (with_gks v) (lifting_E3 T cin cout s groups st padding dl pmode permute bias mode pm mask (PairInt n) given default) =
                 rmap (with_gks v) (lifting_E3 T cin cout s groups st padding dl pmode permute bias mode pm mask (PairTuple n n) given default)) /\
  (forall given default, rmap (with_gks v) (group_E3 T cin cout s groups st padding dl pmode permute bias mode pm mask (PairInt n) gmode rot ref given default) =
                 rmap (with_gks v) (group_E3 T cin cout s groups st padding dl pmode permute bias mode pm mask (PairTuple n n) gmode rot ref given default)) /\
  (forall m, o2_uniform_grid (pair_rot (PairTuple n m)) (pair_ref (PairTuple n m)) = o2_uniform_grid n m).
Proof.
  intros T cin cout s groups st padding dl pmode permute bias mode pm mask n gmode rot ref v Hn.
  assert (C : forall a b c d e f, check_config (GkInt (Z.of_nat n)) a b c d e f = check_config (GkTuple [Z.of_nat n; Z.of_nat n]) a b c d e f).
  { intros a b c d e f. unfold check_config. cbn [existsb]. rewrite (proj2 (Z.ltb_ge (Z.of_nat n) 0)) by lia.
    rewrite (proj2 (Z.leb_gt (sumZ [Z.of_nat n; Z.of_nat n]) 0)) by (unfold sumZ; cbn [fold_right]; lia). reflexivity. }
  assert (K2 : forall G (k : gkernel G V2), rmap (with_gks v) (make2 cin cout s groups st padding dl pmode permute bias (pair_gks (PairInt n)) k) =
    rmap (with_gks v) (make2 cin cout s groups st padding dl pmode permute bias (pair_gks (PairTuple n n)) k)).
  { intros G k. unfold make2, gconv_init2, gconv_init, pair_gks. rewrite C. destruct (check_config _ _ _ _ _ _ _); reflexivity. }
  assert (K3 : forall G (k : gkernel G V3), rmap (with_gks v) (make3 cin cout s groups st padding dl pmode permute bias (pair_gks (PairInt n)) k) =
    rmap (with_gks v) (make3 cin cout s groups st padding dl pmode permute bias (pair_gks (PairTuple n n)) k)).
  { intros G k. unfold make3, gconv_init3, gconv_init, pair_gks. rewrite C. destruct (check_config _ _ _ _ _ _ _); reflexivity. }
  split; [|split; [|split; [|split]]].
  - intros given. unfold lifting_E2. cbn [pair_rot pair_ref]. destruct (pick_grid _ _) as [g|e]; [|reflexivity]. cbn [bind].
    destruct (kernel_weight_groups _ _) as [z|e]; [|reflexivity]. apply K2.
  - intros given. unfold group_E2. cbn [pair_rot pair_ref]. destruct (pick_grid _ _) as [g|e]; [|reflexivity]. cbn [bind].
    destruct (kernel_E2 _ _ _ _ _ _ _ _ _ _ _ _ _ _) as [k|e]; [|reflexivity]. cbn [bind]. destruct (kernel_weight_groups _ _) as [z|e]; [|reflexivity]. apply K2.
  - intros given default. unfold lifting_E3. cbn [pair_rot pair_ref]. destruct (pick_grid _ _) as [g|e]; [|reflexivity]. cbn [bind].
    destruct (kernel_weight_groups _ _) as [z|e]; [|reflexivity]. apply K3.
  - intros given default. unfold group_E3. cbn [pair_rot pair_ref]. destruct (pick_grid _ _) as [g|e]; [|reflexivity]. cbn [bind].
    destruct (kernel_E3 _ _ _ _ _ _ _ _ _ _ _ _ _ _) as [k|e]; [|reflexivity]. cbn [bind]. destruct (kernel_weight_groups _ _) as [z|e]; [|reflexivity]. apply K3.
  - reflexivity.
Qed.
Print Assumptions C69_int_group_kernel_size.

(** Defect: "If provided, group_kernel_size will be set to N" (the size of the given grid) is false for E(2) and E(3). *)
Theorem C69_En_given_grid_size_refuted : forall T,
  ~ (forall gks (g : list O2) M, group_E2 T 1 1 3 1 1 (PInt 0) 1 "zeros" true None "bilinear" "border" true gks "rbf" 0 0 (Some g) = Ok M ->
       k_gdim (l_kernel (gm_layer M)) = List.length g) /\
  ~ (forall gks (g : list O3) M, group_E3 T 1 1 3 1 1 (PInt 0) 1 "zeros" true None "bilinear" "border" true gks "rbf" 1 1 (Some g) (Err TypeError) = Ok M ->
       k_gdim (l_kernel (gm_layer M)) = List.length g).
Proof.
  intros T. assert (forall st, valid_config (pair_gks (PairTuple 1 1)) 1 1 1 (PInt 0) st "zeros") as Hv.
  { intros st. split; [split; [intros i [<-|[<-|[]]]; cbn; lia|reflexivity]|]. split; [lia|]. split; [exists 1%Z; reflexivity|]. split; [exists 1%Z; reflexivity|].
    split; [discriminate|simpl; auto]. }
  split.
  - intros H.
    destruct (C69_group_E2 T 1 1 3 1 1 (PInt 0) 1 "zeros" true None "bilinear" "border" true (PairTuple 1 1) "rbf" 0 0 (Some (o2_uniform_grid 2 2))) as [A _].
    destruct A as (k & _ & (L & E & Ek & _) & _ & W & _); [split; right; discriminate|apply Hv|].
    specialize (H _ _ _ E). cbn [gm_layer] in H. rewrite Ek in H.
    unfold full_weight_shape in W. injection W as W _ _. rewrite W in H. discriminate.
  - intros H.
    destruct (C69_group_E3 T 1 1 3 1 1 (PInt 0) 1 "zeros" true None "bilinear" "border" true (PairTuple 1 1) "rbf" 1 1 (Some []) (Err TypeError) [] (or_introl eq_refl)) as [A _].
    destruct A as (k & _ & (L & E & Ek & _) & _ & W & _); [split; left; lra|apply Hv|].
    specialize (H _ _ _ E). cbn [gm_layer] in H. rewrite Ek in H.
    unfold full_weight_shape in W. injection W as W _ _. rewrite W in H. discriminate.
Qed.
Print Assumptions C69_En_given_grid_size_refuted.

(** End to end: a lifting layer built from a valid configuration, called on images that fit, succeeds for every draw, with
    one output image per element of the output grid; on other images it raises RuntimeError. *)
Theorem C69_lifting_SE2_calls : forall T cin cout s groups st padding dl pmode permute bias mode pm mask n given M u weight (X : tensor R) N h w smp,
  lifting_SE2 T cin cout s groups st padding dl pmode permute bias mode pm mask n given = Ok M ->
  usable 2 s st dl cin cout padding bias -> sample_R2 mode pm = Ok smp ->
  has_shape weight [cout; cin / Z.to_nat groups; s; s]%nat -> has_shape X [N; cin; h; w]%nat ->
  forall H, match H with Some l => l | None => match given with Some g => g | None => so2_uniform_grid n end end <> [] ->
  exists m, padmode_of pmode = Some m /\
  let left := lefts (stored_padding 2 padding) [s; s] [dl; dl] in
  let right := rights (stored_padding 2 padding) [s; s] [dl; dl] in
  (fits m [h; w] [s; s] [st; st] [dl; dl] left right ->
   exists Y H', lifting_SE2_call M u weight X H = Ok (Y, H') /\
     has_shape Y (N :: cout :: List.length H' :: conv_size [h; w] [s; s] [st; st] [dl; dl] left right)) /\
  (~ fits m [h; w] [s; s] [st; st] [dl; dl] left right -> lifting_SE2_call M u weight X H = Err RuntimeError).
Proof.
  intros T cin cout s groups st padding dl pmode permute bias mode pm mask n given M u weight X N h w smp EM HU Hsmp Hw HX H HH.
  destruct (C69_lifting_SE2 T cin cout s groups st padding dl pmode permute bias mode pm mask n given) as (A & B & _).
  set (grid := match given with Some g => g | None => so2_uniform_grid n end) in *.
  set (k := lifting_kernel_SE2 T cin cout s (Z.to_nat groups) mode pm mask grid) in *.
  destruct (check_config_spec (GkInt (Z.of_nat n)) cin cout groups padding [st; st] pmode) as [C1 C2].
  assert (valid_config (GkInt (Z.of_nat n)) cin cout groups padding [st; st] pmode) as Hok.
  { destruct (check_config (GkInt (Z.of_nat n)) cin cout groups padding [st; st] pmode) as [[]|e] eqn:Ec; [apply C1; reflexivity|].
    exfalso. assert (~ valid_config (GkInt (Z.of_nat n)) cin cout groups padding [st; st] pmode) as Hn by (intros Hv; apply C1 in Hv; discriminate).
    destruct (B Hn) as (e' & E' & _). congruence. }
  destruct (A Hok) as (L & E & Ek & Hc). rewrite EM in E. injection E as ->. destruct (Hc HU) as (m & Hm & Hcon). exists m. split; [assumption|].
  cbn [repeat] in Hcon. set (H0 := permuted (mkModule L permute) so2_left_apply_angle (drawn_SE2 u) (or_else H (kernel_grid (mkModule L permute)))).
  assert (H0 <> []) as HH0.
  { unfold H0, permuted, drawn_SE2, so2_random_grid. cbn [gm_permute map]. rewrite bcast_left_one.
    assert (or_else H (kernel_grid (mkModule L permute)) <> []) as K.
    { unfold or_else, kernel_grid. cbn [gm_layer]. rewrite Ek. destruct H; exact HH. }
    destruct permute; [|assumption]. destruct (or_else H _); [congruence|discriminate]. }
  destruct (C36_SE2 T cin cout s (Z.to_nat groups) mode pm mask grid smp weight H0 (proj1 HU) Hsmp Hw) as (W & EW & SW & _).
  destruct (C45_lifting_convolution _ _ _ 2 L cin cout [s; s] k (Z.to_nat groups) [st; st] padding [dl; dl] m bias weight W H0 X N [h; w] Hcon HH0 EW SW HX eq_refl)
    as [F1 F2].
  split.
  - intros Hf. destruct (F1 Hf) as (Y & EY & SY & _). exists Y, H0. split; [exact EY|exact SY].
  - intros Hf. exact (F2 Hf).
Qed.
Print Assumptions C69_lifting_SE2_calls.

(** GLiftingConvSE2(3, 8, 5) with its default arguments (groups 1, stride 1, padding 0, dilation 1, 4 elements, permuted). *)
Example C53_C69_nonvacuous : forall T u, 0 <= u < 1 -> exists M Y H',
  let w := build [8; 3; 5; 5]%nat (fun idx => INR (nth 3 idx 0%nat)) in
  let X := build [2; 3; 7; 9]%nat (fun idx => INR (nth 2 idx 0%nat)) in
  lifting_SE2 T 3 8 5 1 1 (PInt 0) 1 "zeros" true None "bilinear" "border" true 4 None = Ok M /\ gm_permute M = true /\
  lifting_SE2_call M u w X None = Ok (Y, H') /\ has_shape Y [2; 8; 4; 3; 5]%nat /\ List.length H' = 4%nat.
Proof.
  intros T u Hu. 
  destruct (C69_lifting_SE2 T 3 8 5 1 1 (PInt 0) 1 "zeros" true None "bilinear" "border" true 4 None) as (A & _).
  destruct A as (L & E & _).
  { split; [exact I|]. split; [lia|]. split; [exists 3%Z; reflexivity|]. split; [exists 8%Z; reflexivity|]. split; [discriminate|simpl; auto]. }
  pose (w := build [8; 3; 5; 5]%nat (fun idx => INR (nth 3 idx 0%nat))). pose (X := build [2; 3; 7; 9]%nat (fun idx => INR (nth 2 idx 0%nat))).
  assert (has_shape w [8; 3; 5; 5]%nat) as Hw by (split; [reflexivity|apply wft_build]).
  assert (has_shape X [2; 3; 7; 9]%nat) as HX by (split; [reflexivity|apply wft_build]).
  destruct (C69_lifting_SE2_calls T 3 8 5 1 1 (PInt 0) 1 "zeros" true None "bilinear" "border" true 4 None _ u w X 2 7 9 (gs2 true GsBorder) E)
    with (H := @None (list R)) as (m & Hm & F & _); [repeat split; lia|reflexivity|exact Hw|exact HX|discriminate|].
  injection Hm as <-. destruct F as (Y & H' & EY & SY).
  { intros j Hj. cbn in Hj. destruct j as [|[|j]]; [vm_compute; lia|vm_compute; lia|lia]. }
  destruct (C53_SE2 (mkModule L true) u X Y H' Hu) as (K & _). destruct (K w None EY) as (_ & _ & Hlen & _).
  assert (List.length H' = 4%nat) as H4.
  { rewrite Hlen. destruct (C69_lifting_SE2 T 3 8 5 1 1 (PInt 0) 1 "zeros" true None "bilinear" "border" true 4 None) as (A2 & _ & Eg & _).
    destruct A2 as (L2 & E2 & Ek2 & _).
    { split; [exact I|]. split; [lia|]. split; [exists 3%Z; reflexivity|]. split; [exists 8%Z; reflexivity|]. split; [discriminate|simpl; auto]. }
    rewrite E in E2. injection E2 as <-. cbn [gm_layer]. rewrite Ek2, Eg. reflexivity. }
  exists (mkModule L true), Y, H'. cbv zeta. split; [exact E|]. split; [reflexivity|]. split; [exact EY|]. split; [|assumption].
  rewrite H4 in SY. exact SY.
Qed.
Example C69_rejections_nonvacuous : forall T,
  lifting_SE2 T 3 8 5 0 1 (PInt 0) 1 "zeros" true None "bilinear" "border" true 4 None = Err ZeroDivisionError /\
  lifting_SE2 T 3 8 5 (-1) 1 (PInt 0) 1 "zeros" true None "bilinear" "border" true 4 None = Err RuntimeError /\
  lifting_SE2 T 3 8 5 2 1 (PInt 0) 1 "zeros" true None "bilinear" "border" true 4 None = Err ValueError /\
  group_E2 T 3 8 5 1 1 (PInt 0) 1 "zeros" true None "bilinear" "border" true (PairTuple 4 0) "rbf" 0 0 None = Err IndexError.
Proof.
  intros T. split; [reflexivity|]. split; [reflexivity|]. split; [reflexivity|].
  destruct (C69_group_E2 T 3 8 5 1 1 (PInt 0) 1 "zeros" true None "bilinear" "border" true (PairTuple 4 0) "rbf" 0 0 None) as (_ & _ & A).
  apply A. intros [_ [H|H]]; [lra|]. apply H. reflexivity.
Qed.
