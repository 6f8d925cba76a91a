From Coq Require Import String ZArith.
From Verif Require Import Prelude RMath Mat SO2 SO3 Tensor TensorFacts SignedPerm Functional FunctionalFacts Kernel KernelFacts
  GroupKernelFacts EquiSpec EquiSpecFacts EquiGroups Resample ResampleSpec.
Open Scope R_scope.

Lemma image_of_shape X N s b : has_shape X (N :: s) -> has_shape (image_of b X) s.
Proof. intros [E _]. unfold image_of. rewrite E. split; [reflexivity|apply wft_build]. Qed.
Lemma image_of_at X N s b idx : has_shape X (N :: s) -> valid s idx -> at_ (image_of b X) idx = at_ X (b :: idx).
Proof. intros [E _] Hv. unfold image_of. rewrite E. cbn [tl]. rewrite at_build by assumption. reflexivity. Qed.

Lemma moved_grid_spec {G P} {D : Dflt P} (act : list G -> list P -> list (list P)) (act1 : G -> P -> P) (grid : tensor P) s H :
  (forall H pts, act H pts = map (fun g => map (act1 g) pts) H) -> has_shape grid s ->
  shape (moved_grid act H grid) = List.length H :: s /\
  forall b h x, nth_error H b = Some h -> valid s x -> at_ (moved_grid act H grid) (b :: x) = act1 h (at_ grid x).
Proof.
  intros Hact [Hgs Hgw]. unfold moved_grid. split; [cbn [shape]; rewrite Hgs; reflexivity|].
  intros b h x Hb Hx. rewrite Hact. unfold at_; cbn [shape data ravel]. rewrite Hgs.
  set (rows := map (fun x => map (act1 x) (data grid)) H).
  assert (forall l, In l rows -> List.length l = prodn s) as Hrows.
  { intros l Hl. apply in_map_iff in Hl. destruct Hl as (y & <- & _). rewrite map_length, Hgw, Hgs. reflexivity. }
  assert (b < List.length H)%nat by (apply nth_error_Some_lt in Hb; assumption).
  rewrite (nth_concat rows (prodn s) b); [|exact Hrows|unfold rows; rewrite map_length; assumption|apply ravel_lt; assumption].
  unfold rows. rewrite (nth_map_in _ H b [] h) by assumption. rewrite (nth_of_nth_error H b h h Hb).
  rewrite (nth_map_in _ _ _ _ dflt); [reflexivity|]. rewrite Hgw, Hgs. apply ravel_lt; assumption.
Qed.

Lemma act_SE3_eq H pts : act_SE3 H pts = map (fun g => map (act1_SE3 g) pts) H.
Proof.
  unfold act_SE3, so3_left_apply_to_R3. rewrite !map_map. apply map_ext. intros a. cbn [map concat app]. rewrite !app_nil_r. reflexivity.
Qed.
Lemma act_SE2_eq H pts : act_SE2 H pts = map (fun g => map (act1_SE2 g) pts) H.
Proof.
  unfold act_SE2, so2_left_apply_angle_to_R2, so2_left_apply_matrix_to_R2. rewrite !map_map.
  apply map_ext. intros a. cbn [map concat]. rewrite app_nil_r. reflexivity.
Qed.

(** ** Which cell nearest sampling reads at a grid coordinate *)
Definition lost (pm : gs_padding) (n i : nat) : bool :=
  match pm with GsZeros => (Nat.even n && Nat.eqb (S i) n)%bool | _ => false end.

Lemma reflect_inside n u : (1 <= n)%nat -> - (1 / 2) <= u <= INR n - 1 / 2 -> gs_reflect n u = u.
Proof.
  intros Hn Hu. assert (0 < INR n) by (apply lt_0_INR; lia). unfold gs_reflect.
  rewrite (Rabs_pos_eq (u + 1 / 2)) by lra.
  destruct (Rlt_dec u (INR n - 1 / 2)) as [Hlt|Hge].
  - assert (Int_part ((u + 1 / 2) / INR n) = 0%Z) as ->.
    { apply Int_part_unique. split; [apply Rmult_le_pos; [lra|left; apply Rinv_0_lt_compat; assumption]|].
      apply Rmult_lt_reg_r with (INR n); [assumption|]. replace ((u + 1 / 2) / INR n * INR n) with (u + 1 / 2) by (field; lra). lra. }
    cbn [Z.even]. ring.
  - replace (u + 1 / 2) with (INR n) by lra. replace (INR n / INR n) with 1 by (field; lra).
    assert (Int_part 1 = 1%Z) as -> by (apply Int_part_unique; lra). cbn [Z.even]. lra.
Qed.

Lemma frac_le s i : (2 <= s)%nat -> (i < s)%nat -> 0 <= INR i / INR (s - 1) <= 1.
Proof.
  intros Hs Hi. assert (0 < INR (s - 1)) by (apply lt_0_INR; lia). assert (0 <= INR i) by apply pos_INR.
  assert (INR i <= INR (s - 1)) by (apply le_INR; lia).
  split; [apply Rmult_le_pos; [lra|left; apply Rinv_0_lt_compat; assumption]|].
  apply Rmult_le_reg_r with (INR (s - 1)); [assumption|]. unfold Rdiv. rewrite Rmult_assoc, Rinv_l by lra. lra.
Qed.

Lemma even_of_nat n : Z.even (Z.of_nat n) = Nat.even n.
Proof.
  induction n as [|n IH]; [reflexivity|]. rewrite Nat2Z.inj_succ, Z.even_succ, <- Z.negb_even, IH.
  rewrite Nat.even_succ, <- Nat.negb_even. reflexivity.
Qed.

Lemma nearest_cell pm s i : (2 <= s)%nat -> (i < s)%nat ->
  rne (gs_coord pm s (lin s i)) = if lost pm s i then Z.of_nat s else Z.of_nat i.
Proof.
  intros Hs Hi. assert (1 <= INR s) by (apply (le_INR 1); lia).
  pose proof (unnorm_lin s i Hs) as Eu. pose proof (frac_le s i Hs Hi) as Hf.
  destruct pm.
  - (* zeros *)
    cbn [lost]. unfold gs_coord, gs_place. rewrite Eu.
    destruct (Nat.eq_dec i 0) as [->|Hi0].
    { cbn [INR]. unfold Rdiv at 1. rewrite Rmult_0_l. replace (Nat.eqb 1 s) with false by (symmetry; apply Nat.eqb_neq; lia).
      rewrite Bool.andb_false_r. unfold rne. rewrite (Int_part_unique _ (-1)) by lra.
      destruct (Rlt_dec (0 + 0 - 1 / 2 - -1) (1 / 2)); [lra|]. destruct (Rlt_dec (1 / 2) (0 + 0 - 1 / 2 - -1)); [lra|]. reflexivity. }
    destruct (Nat.eqb_spec (S i) s) as [El|Hl].
    + rewrite Bool.andb_true_r. replace (INR i / INR (s - 1)) with 1.
      2:{ replace (s - 1)%nat with i by lia. unfold Rdiv. rewrite Rinv_r; [reflexivity|]. apply not_0_INR. assumption. }
      unfold rne. rewrite (Int_part_unique _ (Z.of_nat i)) by (rewrite <- INR_IZR_INZ; lra). rewrite <- INR_IZR_INZ.
      destruct (Rlt_dec (INR i + 1 - 1 / 2 - INR i) (1 / 2)); [lra|]. destruct (Rlt_dec (1 / 2) (INR i + 1 - 1 / 2 - INR i)); [lra|].
      rewrite even_of_nat. replace (Nat.even s) with (negb (Nat.even i)) by (rewrite <- El, Nat.even_succ, <- Nat.negb_even; reflexivity).
      destruct (Nat.even i); cbn [negb]; [reflexivity|lia].
    + rewrite Bool.andb_false_r. apply rne_near. rewrite <- INR_IZR_INZ.
      pose proof (frac_strict s i ltac:(lia) ltac:(lia)). apply Rabs_def1; lra.
  - cbn [lost]. apply nearest_index; lia.
  - cbn [lost]. replace (gs_coord GsReflect s (lin s i)) with (gs_coord GsBorder s (lin s i)); [apply nearest_index; lia|].
    unfold gs_coord, gs_place. rewrite reflect_inside; [reflexivity|lia|].
    rewrite Eu. assert (0 <= INR i) by apply pos_INR.
    assert (INR i <= INR s - 1). { replace (INR s - 1) with (INR (s - 1)) by (rewrite minus_INR by lia; reflexivity). apply le_INR. lia. }
    lra.
Qed.

Lemma gs_read_out s im z : (exists a, (a < List.length s)%nat /\ (a < List.length z)%nat /\ nth a z 0%Z = Z.of_nat (nth a s 0%nat)) -> gs_read s im z = 0.
Proof.
  intros (a & Ha & Hz & E). unfold gs_read.
  assert (forallb (fun nz => in_range (fst nz) (snd nz)) (combine s z) = false) as ->; [|reflexivity].
  apply Bool.not_true_is_false. intros H. rewrite forallb_forall in H.
  specialize (H (nth a s 0%nat, nth a z 0%Z)). cbn [fst snd] in H.
  rewrite E in H. unfold in_range in H.
  assert (In (nth a s 0%nat, Z.of_nat (nth a s 0%nat)) (combine s z)) as Hin.
  { rewrite <- E. clear E H. revert z a Ha Hz. induction s as [|n s IH]; intros [|y z] [|a] Ha Hz; simpl in *; try lia; [left; reflexivity|].
    right. apply IH; lia. }
  specialize (H Hin). apply andb_prop in H. destruct H as [_ H]. apply Z.ltb_lt in H. lia.
Qed.

Lemma nearest_read3 pm n im i j k : (2 <= n)%nat -> (i < n)%nat -> (j < n)%nat -> (k < n)%nat ->
  gs3 false pm [n; n; n] im (at_ (create_grid_R3 n) [i; j; k]) =
  if (lost pm n i || lost pm n j || lost pm n k)%bool then 0 else at_ (mkT [n; n; n] im) [i; j; k].
Proof.
  intros Hn Hi Hj Hk. rewrite grid_R3_at by assumption. unfold gs3, gs_nearest, axis3. cbn [vx vy vz map2].
  rewrite !nearest_cell by assumption.
  destruct (lost pm n i) eqn:E1; [apply gs_read_out; exists 0%nat; cbn; repeat split; lia|].
  destruct (lost pm n j) eqn:E2; [apply gs_read_out; exists 1%nat; cbn; repeat split; lia|].
  destruct (lost pm n k) eqn:E3; [apply gs_read_out; exists 2%nat; cbn; repeat split; lia|].
  change [Z.of_nat i; Z.of_nat j; Z.of_nat k] with (map Z.of_nat [i; j; k]).
  apply gs_read_nat. repeat apply valid_cons; try assumption. apply valid_nil.
Qed.
Lemma nearest_read2 pm n im i j : (2 <= n)%nat -> (i < n)%nat -> (j < n)%nat ->
  gs2 false pm [n; n] im (at_ (create_grid_R2 n) [i; j]) =
  if (lost pm n i || lost pm n j)%bool then 0 else at_ (mkT [n; n] im) [j; i].
Proof.
  intros Hn Hi Hj. rewrite grid_R2_at by assumption. unfold gs2, gs_nearest, axis2. cbn [v2x v2y map2].
  rewrite !nearest_cell by assumption.
  destruct (lost pm n i) eqn:E1; [apply gs_read_out; exists 1%nat; cbn; repeat split; lia|].
  destruct (lost pm n j) eqn:E2; [apply gs_read_out; exists 0%nat; cbn; repeat split; lia|].
  change [Z.of_nat j; Z.of_nat i] with (map Z.of_nat [j; i]).
  apply gs_read_nat. repeat apply valid_cons; try assumption. apply valid_nil.
Qed.

(** ** Batches *)
Lemma lin_centred n i : (2 <= n)%nat -> (INR n - 1) * lin n i = 2 * INR i - (INR n - 1).
Proof.
  intros Hn. unfold lin. rewrite (minus_INR n 1) by lia. simpl (INR 1). assert (2 <= INR n) by (apply (le_INR 2); lia). field. lra.
Qed.
Lemma centred3_grid n i j k : (2 <= n)%nat -> (i < n)%nat -> (j < n)%nat -> (k < n)%nat ->
  centred3 n n n i j k = scalv3 (INR n - 1) (at_ (create_grid_R3 n) [i; j; k]).
Proof. intros. rewrite grid_R3_at by assumption. unfold centred3, scalv3. cbn [vx vy vz]. rewrite !lin_centred by assumption. reflexivity. Qed.
Lemma centred2_grid n i j : (2 <= n)%nat -> (i < n)%nat -> (j < n)%nat ->
  centred2 n n i j = scalv2 (INR n - 1) (at_ (create_grid_R2 n) [i; j]).
Proof. intros. rewrite grid_R2_at by assumption. unfold centred2, scalv2. cbn [v2x v2y]. rewrite !lin_centred by assumption. reflexivity. Qed.
Lemma scalv3_cancel c u v : c <> 0 -> scalv3 c u = scalv3 c v -> u = v.
Proof. intros Hc E. destruct u, v. injection E as E1 E2 E3. f_equal; eapply Rmult_eq_reg_l; eassumption. Qed.
Lemma scalv2_cancel c u v : c <> 0 -> scalv2 c u = scalv2 c v -> u = v.
Proof. intros Hc E. destruct u, v. injection E as E1 E2. f_equal; eapply Rmult_eq_reg_l; eassumption. Qed.
Lemma app3_scal A c v : app3 A (scalv3 c v) = scalv3 c (app3 A v).
Proof. destruct A, v. unfold app3, scalv3. cbn. f_equal; ring. Qed.
Lemma app2_scal A c v : app2 A (scalv2 c v) = scalv2 c (app2 A v).
Proof. destruct A, v. unfold app2, scalv2. cbn. f_equal; ring. Qed.

Lemma resample3_entries pm p H n X C : gs_pad pm = Ok p -> (2 <= n)%nat -> has_shape X (List.length H :: C :: [n; n; n]) ->
  exists X', resample_R3 "nearest" pm X H n = Ok X' /\ has_shape X' (List.length H :: C :: [n; n; n]) /\
  forall b h c i j k i' j' k', nth_error H b = Some h -> (c < C)%nat -> (i < n)%nat -> (j < n)%nat -> (k < n)%nat ->
    (i' < n)%nat -> (j' < n)%nat -> (k' < n)%nat -> centred3 n n n i j k = app3 h (centred3 n n n i' j' k') ->
    at_ X' [b; c; i'; j'; k'] = if (lost p n i || lost p n j || lost p n k)%bool then 0 else at_ X [b; c; i; j; k].
Proof.
  intros Hp Hn [HX HXw]. unfold resample_R3, sample_R3. cbn [String.eqb Ascii.eqb Bool.eqb gs_mode bind]. rewrite Hp. cbn [bind].
  destruct (moved_grid_spec act_SE3 act1_SE3 (create_grid_R3 n) [n; n; n] H act_SE3_eq) as [Hg Ha].
  { split; [reflexivity|apply wft_build]. }
  destruct (grid_sample_spec (gs3 false p) X (moved_grid act_SE3 H (create_grid_R3 n)) _ C [n; n; n] [n; n; n] HX Hg) as (X' & E & HX' & V).
  { cbn [prodn fold_right]. intros E0. repeat (apply Nat.eq_mul_0 in E0; destruct E0 as [E0|E0]; [lia|]); lia. }
  exists X'. split; [exact E|]. split; [assumption|]. intros b h c i j k i' j' k' Hb Hc Hi Hj Hk Hi' Hj' Hk' Ec.
  assert (valid [n; n; n] [i'; j'; k']) as Hv' by (repeat apply valid_cons; try assumption; apply valid_nil).
  assert (valid [n; n; n] [i; j; k]) as Hv by (repeat apply valid_cons; try assumption; apply valid_nil).
  change [b; c; i'; j'; k'] with (b :: c :: [i'; j'; k']). rewrite V; [|apply nth_error_Some_lt in Hb; assumption|assumption|assumption].
  rewrite (Ha b h) by assumption. unfold act1_SE3.
  assert (app3 h (at_ (create_grid_R3 n) [i'; j'; k']) = at_ (create_grid_R3 n) [i; j; k]) as ->.
  { rewrite !centred3_grid, app3_scal in Ec by assumption. symmetry. apply scalv3_cancel in Ec; [assumption|].
    assert (2 <= INR n) by (apply (le_INR 2); lia). lra. }
  rewrite nearest_read3 by assumption. destruct (_ || _)%bool; [reflexivity|].
  unfold slice. unfold at_ at 1. cbn [shape data].
  rewrite <- (at_build (D := Dflt_R) [n; n; n] (fun y => at_ X ([b; c] ++ y)) [i; j; k] Hv). reflexivity.
Qed.

(** The matrix exchanging the two coordinates of the plane. *)
Definition swap2 : M2 := mkM2 0 1 1 0.
Lemma swap_grid n i j : (i < n)%nat -> (j < n)%nat -> app2 swap2 (at_ (create_grid_R2 n) [i; j]) = at_ (create_grid_R2 n) [j; i].
Proof. intros. rewrite !grid_R2_at by assumption. unfold app2, swap2. cbn. f_equal; ring. Qed.
Lemma swap_swap v : app2 swap2 (app2 swap2 v) = v.
Proof. destruct v. unfold app2, swap2. cbn. f_equal; ring. Qed.
Lemma app2_mul A B v : app2 (mul2 A B) v = app2 A (app2 B v).
Proof. destruct A, B, v. unfold app2, mul2. cbn. f_equal; ring. Qed.

Lemma resample2_entries pm p H n X C : gs_pad pm = Ok p -> (2 <= n)%nat -> has_shape X (List.length H :: C :: [n; n]) ->
  exists X', resample_R2 "nearest" pm X H n = Ok X' /\ has_shape X' (List.length H :: C :: [n; n]) /\
  forall b h c i j i' j', nth_error H b = Some h -> (c < C)%nat -> (i < n)%nat -> (j < n)%nat ->
    (i' < n)%nat -> (j' < n)%nat -> centred2 n n i j = app2 (mul2 swap2 (so2_angle_to_matrix h)) (centred2 n n i' j') ->
    at_ X' [b; c; i'; j'] = if (lost p n i || lost p n j)%bool then 0 else at_ X [b; c; i; j].
Proof.
  intros Hp Hn [HX HXw]. unfold resample_R2, sample_R2. cbn [String.eqb Ascii.eqb Bool.eqb gs_mode bind]. rewrite Hp. cbn [bind].
  destruct (moved_grid_spec act_SE2 act1_SE2 (create_grid_R2 n) [n; n] H act_SE2_eq) as [Hg Ha].
  { split; [reflexivity|apply wft_build]. }
  destruct (grid_sample_spec (gs2 false p) X (moved_grid act_SE2 H (create_grid_R2 n)) _ C [n; n] [n; n] HX Hg) as (X' & E & HX' & V).
  { cbn [prodn fold_right]. intros E0. repeat (apply Nat.eq_mul_0 in E0; destruct E0 as [E0|E0]; [lia|]); lia. }
  exists X'. split; [exact E|]. split; [assumption|]. intros b h c i j i' j' Hb Hc Hi Hj Hi' Hj' Ec.
  assert (valid [n; n] [i'; j']) as Hv' by (repeat apply valid_cons; try assumption; apply valid_nil).
  assert (valid [n; n] [i; j]) as Hv by (repeat apply valid_cons; try assumption; apply valid_nil).
  change [b; c; i'; j'] with (b :: c :: [i'; j']). rewrite V; [|apply nth_error_Some_lt in Hb; assumption|assumption|assumption].
  rewrite (Ha b h) by assumption. unfold act1_SE2.
  assert (app2 (so2_angle_to_matrix h) (at_ (create_grid_R2 n) [i'; j']) = at_ (create_grid_R2 n) [j; i]) as ->.
  { rewrite !centred2_grid, app2_scal in Ec by assumption. apply scalv2_cancel in Ec;
      [|assert (2 <= INR n) by (apply (le_INR 2); lia); lra].
    rewrite app2_mul in Ec. rewrite <- (swap_swap (app2 _ _)), <- Ec. apply swap_grid; assumption. }
  rewrite nearest_read2 by assumption. rewrite (Bool.orb_comm (lost p n j)). destruct (_ || _)%bool; [reflexivity|].
  unfold slice. unfold at_ at 1. cbn [shape data].
  rewrite <- (at_build (D := Dflt_R) [n; n] (fun y => at_ X ([b; c] ++ y)) [i; j] Hv). reflexivity.
Qed.

(** ** As a motion of the image *)
Lemma abs_unit x : unit_entry x -> Rabs x = x * x.
Proof. intros [->|[->| ->]]; [rewrite Rabs_left; lra|rewrite Rabs_R0; lra|rewrite Rabs_pos_eq; lra]. Qed.
Lemma app3_I v : app3 I3 v = v.
Proof. destruct v. unfold app3, I3. cbn. f_equal; ring. Qed.
Lemma app3_mul A B v : app3 (mul3 A B) v = app3 A (app3 B v).
Proof. destruct A, B, v. unfold app3, mul3. cbn. f_equal; ring. Qed.
Lemma app2_I v : app2 I2 v = v.
Proof. destruct v. unfold app2, I2. cbn. f_equal; ring. Qed.

Lemma rows3 A : signed3 A ->
  Rabs (a00 A) + Rabs (a01 A) + Rabs (a02 A) = 1 /\ Rabs (a10 A) + Rabs (a11 A) + Rabs (a12 A) = 1 /\
  Rabs (a20 A) + Rabs (a21 A) + Rabs (a22 A) = 1.
Proof.
  intros ((_ & Ho) & H00 & H01 & H02 & H10 & H11 & H12 & H20 & H21 & H22).
  pose proof (f_equal a00 Ho) as E00. pose proof (f_equal a11 Ho) as E11. pose proof (f_equal a22 Ho) as E22.
  destruct A; cbn in *. rewrite !abs_unit by assumption. repeat split; assumption.
Qed.
Lemma rows2 A : signed2 A -> Rabs (b00 A) + Rabs (b01 A) = 1 /\ Rabs (b10 A) + Rabs (b11 A) = 1.
Proof.
  intros (Ho & H00 & H01 & H10 & H11).
  pose proof (f_equal b00 Ho) as E00. pose proof (f_equal b11 Ho) as E11.
  destruct A; cbn in *. rewrite !abs_unit by assumption. split; assumption.
Qed.

Lemma carried3_cube (rel : list nat -> R -> R -> Prop) A Y Y' lead n : signed3 A -> has_shape Y (lead ++ [n; n; n]) -> has_shape Y' (lead ++ [n; n; n]) ->
  (forall pre i j k i' j' k', valid lead pre -> (i < n)%nat -> (j < n)%nat -> (k < n)%nat -> (i' < n)%nat -> (j' < n)%nat -> (k' < n)%nat ->
     centred3 n n n i j k = app3 (tr3 A) (centred3 n n n i' j' k') -> rel pre (at_ Y (pre ++ [i; j; k])) (at_ Y' (pre ++ [i'; j'; k']))) ->
  carried3 rel A Y Y'.
Proof.
  intros HA HY HY' V. destruct (rows3 A HA) as (R0 & R1 & R2). exists lead, n, n, n, n, n, n.
  split; [assumption|]. split; [assumption|].
  split; [rewrite <- (Rmult_1_l (INR n)) at 1; rewrite <- R0; ring|].
  split; [rewrite <- (Rmult_1_l (INR n)) at 1; rewrite <- R1; ring|].
  split; [rewrite <- (Rmult_1_l (INR n)) at 1; rewrite <- R2; ring|].
  intros pre i j k i' j' k' Hp Hi Hj Hk Hi' Hj' Hk' E. apply V; try assumption.
  rewrite E, <- app3_mul. destruct HA as ((O1 & _) & _). rewrite O1. symmetry. apply app3_I.
Qed.
Lemma carried2_cube (rel : list nat -> R -> R -> Prop) A Y Y' lead n : signed2 A -> has_shape Y (lead ++ [n; n]) -> has_shape Y' (lead ++ [n; n]) ->
  (forall pre i j i' j', valid lead pre -> (i < n)%nat -> (j < n)%nat -> (i' < n)%nat -> (j' < n)%nat ->
     centred2 n n i j = app2 (tr2 A) (centred2 n n i' j') -> rel pre (at_ Y (pre ++ [i; j])) (at_ Y' (pre ++ [i'; j']))) ->
  carried2 rel A Y Y'.
Proof.
  intros HA HY HY' V. destruct (rows2 A HA) as (R0 & R1). exists lead, n, n, n, n.
  split; [assumption|]. split; [assumption|].
  split; [rewrite <- (Rmult_1_l (INR n)) at 1; rewrite <- R0; ring|].
  split; [rewrite <- (Rmult_1_l (INR n)) at 1; rewrite <- R1; ring|].
  intros pre i j i' j' Hp Hi Hj Hi' Hj' E. apply V; try assumption.
  rewrite E, <- app2_mul. rewrite (proj1 (signed2_tr A HA)). symmetry. apply app2_I.
Qed.

(** ** Exact motions: padding other than zeros, or an odd size *)
Lemma sharp_kept pm n : sharp pm n -> exists p, gs_pad pm = Ok p /\ forall i, lost p n i = false.
Proof.
  intros [->|[->|[-> Ho]]]; [exists GsBorder|exists GsReflect|exists GsZeros]; (split; [reflexivity|]); intros i; cbn [lost]; try reflexivity.
  rewrite <- Nat.negb_odd, Ho. reflexivity.
Qed.

Lemma tr3_tr3 A : tr3 (tr3 A) = A. Proof. destruct A; reflexivity. Qed.
Lemma tr2_tr2 A : tr2 (tr2 A) = A. Proof. destruct A; reflexivity. Qed.

Lemma resample3_images pm H n X C : sharp pm n -> (2 <= n)%nat -> has_shape X (List.length H :: C :: [n; n; n]) ->
  (forall h, In h H -> signed3 h) ->
  exists X', resample_R3 "nearest" pm X H n = Ok X' /\ has_shape X' (List.length H :: C :: [n; n; n]) /\
  forall b h, nth_error H b = Some h -> moved3 (tr3 h) (image_of b X) (image_of b X').
Proof.
  intros Hs Hn HX HH. destruct (sharp_kept pm n Hs) as (p & Hp & Hl).
  destruct (resample3_entries pm p H n X C Hp Hn HX) as (X' & E & HX' & V). exists X'. split; [assumption|]. split; [assumption|].
  intros b h Hb. apply (carried3_cube _ _ _ _ [C] n); [apply signed3_tr, HH, (nth_error_In _ _ Hb)| | |].
  - apply (image_of_shape _ _ _ _ HX).
  - apply (image_of_shape _ _ _ _ HX').
  - intros pre i j k i' j' k' Hpre Hi Hj Hk Hi' Hj' Hk' Ec. rewrite tr3_tr3 in Ec.
    apply valid_inv_cons in Hpre. destruct Hpre as (c & r & -> & Hc & Hr). apply valid_inv_nil in Hr. subst r. cbn [app].
    rewrite (image_of_at _ _ _ _ _ HX'), (image_of_at _ _ _ _ _ HX) by (repeat apply valid_cons; try assumption; apply valid_nil).
    rewrite (V b h c i j k i' j' k') by assumption. rewrite !Hl. reflexivity.
Qed.
Lemma resample3_batch pm N h n X C : sharp pm n -> (2 <= n)%nat -> has_shape X (N :: C :: [n; n; n]) -> signed3 h ->
  exists X', resample_R3 "nearest" pm X (repeat h N) n = Ok X' /\ has_shape X' (N :: C :: [n; n; n]) /\ moved3 (tr3 h) X X'.
Proof.
  intros Hs Hn HX Hh. destruct (sharp_kept pm n Hs) as (p & Hp & Hl).
  destruct (resample3_entries pm p (repeat h N) n X C Hp Hn) as (X' & E & HX' & V); [rewrite repeat_length; assumption|].
  rewrite repeat_length in HX'. exists X'. split; [assumption|]. split; [assumption|].
  apply (carried3_cube _ _ _ _ [N; C] n); [apply signed3_tr; assumption|assumption|assumption|].
  intros pre i j k i' j' k' Hpre Hi Hj Hk Hi' Hj' Hk' Ec. rewrite tr3_tr3 in Ec.
  apply valid_inv_cons in Hpre. destruct Hpre as (b & r & -> & Hb & Hr). apply valid_inv_cons in Hr. destruct Hr as (c & r' & -> & Hc & Hr).
  apply valid_inv_nil in Hr. subst r'. cbn [app].
  rewrite (V b h c i j k i' j' k') by (try assumption; apply nth_error_repeat; assumption). rewrite !Hl. reflexivity.
Qed.

Lemma quarter_swap q : signed2 (mul2 swap2 (so2_angle_to_matrix (IZR q * (PI / 2)))).
Proof.
  destruct (quarter_signed q) as (Ho & H0 & H1 & H2 & H3). pose proof (f_equal b00 Ho) as E0. pose proof (f_equal b01 Ho) as E1.
  pose proof (f_equal b10 Ho) as E2. pose proof (f_equal b11 Ho) as E3.
  destruct (so2_angle_to_matrix _) as [x y z w]. cbn in *. unfold signed2, mul2, swap2, tr2, I2. cbn.
  repeat split; try (f_equal; lra); match goal with |- unit_entry ?e => first [replace e with x by ring; assumption | replace e with y by ring; assumption
    | replace e with z by ring; assumption | replace e with w by ring; assumption] end.
Qed.

Lemma resample2_batch pm N q n X C : sharp pm n -> (2 <= n)%nat -> has_shape X (N :: C :: [n; n]) ->
  exists X', resample_R2 "nearest" pm X (repeat (IZR q * (PI / 2)) N) n = Ok X' /\ has_shape X' (N :: C :: [n; n]) /\
    moved2 (mul2 (so2_angle_to_matrix (- (IZR q * (PI / 2)))) swap2) X X'.
Proof.
  intros Hs Hn HX. destruct (sharp_kept pm n Hs) as (p & Hp & Hl). set (t := IZR q * (PI / 2)).
  destruct (resample2_entries pm p (repeat t N) n X C Hp Hn) as (X' & E & HX' & V); [rewrite repeat_length; assumption|].
  rewrite repeat_length in HX'. exists X'. split; [assumption|]. split; [assumption|].
  assert (mul2 (so2_angle_to_matrix (- t)) swap2 = tr2 (mul2 swap2 (so2_angle_to_matrix t))) as ->.
  { rewrite tr2_mul, angle_neg. reflexivity. }
  pose proof (quarter_swap q) as Hq. fold t in Hq.
  apply (carried2_cube _ _ _ _ [N; C] n); [apply (signed2_tr _ Hq)|assumption|assumption|].
  intros pre i j i' j' Hpre Hi Hj Hi' Hj' Ec. rewrite tr2_tr2 in Ec.
  apply valid_inv_cons in Hpre. destruct Hpre as (b & r & -> & Hb & Hr). apply valid_inv_cons in Hr. destruct Hr as (c & r' & -> & Hc & Hr).
  apply valid_inv_nil in Hr. subst r'. cbn [app].
  rewrite (V b t c i j i' j') by (try assumption; apply nth_error_repeat; assumption). rewrite !Hl. reflexivity.
Qed.

Lemma app_tail3 {A} (l l' : list A) a b c a' b' c' : l ++ [a; b; c] = l' ++ [a'; b'; c'] -> l = l' /\ a = a' /\ b = b' /\ c = c'.
Proof.
  intros E. change [a; b; c] with ([a; b] ++ [c]) in E. change [a'; b'; c'] with ([a'; b'] ++ [c']) in E. rewrite !app_assoc in E.
  apply app_inj_tail in E. destruct E as [E ->]. change [a; b] with ([a] ++ [b]) in E. change [a'; b'] with ([a'] ++ [b']) in E. rewrite !app_assoc in E.
  apply app_inj_tail in E. destruct E as [E ->]. apply app_inj_tail in E. destruct E as [E ->]. auto.
Qed.
Lemma carried3_inv (rel : list nat -> R -> R -> Prop) A Y Y' lead d h w : carried3 rel A Y Y' -> has_shape Y (lead ++ [d; h; w]) ->
  exists d' h' w', has_shape Y' (lead ++ [d'; h'; w']) /\
    INR w' = Rabs (a00 A) * INR w + Rabs (a01 A) * INR h + Rabs (a02 A) * INR d /\
    INR h' = Rabs (a10 A) * INR w + Rabs (a11 A) * INR h + Rabs (a12 A) * INR d /\
    INR d' = Rabs (a20 A) * INR w + Rabs (a21 A) * INR h + Rabs (a22 A) * INR d /\
    forall pre i j k i' j' k', valid lead pre -> (i < d)%nat -> (j < h)%nat -> (k < w)%nat ->
      (i' < d')%nat -> (j' < h')%nat -> (k' < w')%nat ->
      centred3 d' h' w' i' j' k' = app3 A (centred3 d h w i j k) ->
      rel pre (at_ Y (pre ++ [i; j; k])) (at_ Y' (pre ++ [i'; j'; k'])).
Proof.
  intros (l0 & d0 & h0 & w0 & d' & h' & w' & S & S' & E1 & E2 & E3 & V) HY.
  destruct S as [S _]. rewrite (proj1 HY) in S. apply app_tail3 in S. destruct S as (<- & <- & <- & <-).
  exists d', h', w'. repeat (split; [assumption|]). exact V.
Qed.

(** A symmetry permutes the cells of a cube. *)
Lemma cell_exists A n i j k : signed3 A -> (2 <= n)%nat -> (i < n)%nat -> (j < n)%nat -> (k < n)%nat ->
  exists i' j' k', (i' < n)%nat /\ (j' < n)%nat /\ (k' < n)%nat /\ centred3 n n n i' j' k' = app3 A (centred3 n n n i j k).
Proof.
  intros HA Hn Hi Hj Hk. destruct (signed3_sperm A HA) as (sp & Hok & ->).
  assert (valid [n; n; n] [i; j; k]) as Hv by (repeat apply valid_cons; try assumption; apply valid_nil).
  pose proof (grid_R3_sperm n sp [i; j; k] Hn Hok Hv) as G.
  pose proof (sp_idx_valid 3 sp Hok [n;n;n] [n;n;n] eq_refl (sp_shape_cube 3 sp n Hok) _ Hv) as Hv'.
  apply valid3_inv in Hv'. destruct Hv' as (i' & j' & k' & E & Hi' & Hj' & Hk'). rewrite E in G.
  exists i', j', k'. do 3 (split; [assumption|]). rewrite !centred3_grid by assumption. rewrite app3_scal, G. reflexivity.
Qed.
Lemma cell_exists2 A n i j : signed2 A -> (2 <= n)%nat -> (i < n)%nat -> (j < n)%nat ->
  exists i' j', (i' < n)%nat /\ (j' < n)%nat /\ centred2 n n i' j' = app2 A (centred2 n n i j).
Proof.
  intros HA Hn Hi Hj. destruct (signed2_sperm A HA) as (sp & Hok & ->).
  assert (valid [n; n] [i; j]) as Hv by (repeat apply valid_cons; try assumption; apply valid_nil).
  pose proof (grid_R2_sperm n sp [i; j] Hn Hok Hv) as G.
  pose proof (sp_idx_valid 2 sp Hok [n;n] [n;n] eq_refl (sp_shape_cube 2 sp n Hok) _ Hv) as Hv'.
  apply valid2_inv in Hv'. destruct Hv' as (i' & j' & E & Hi' & Hj'). rewrite E in G.
  exists i', j'. do 2 (split; [assumption|]). rewrite !centred2_grid by assumption. rewrite app2_scal, G. reflexivity.
Qed.

(** What resampling a batch with one sharp element does, entry by entry. *)
Lemma sharp_entries pm N h n X C : sharp pm n -> (2 <= n)%nat -> has_shape X (N :: C :: [n; n; n]) ->
  exists X', resample_R3 "nearest" pm X (repeat h N) n = Ok X' /\ has_shape X' (N :: C :: [n; n; n]) /\
  forall b c i j k i' j' k', (b < N)%nat -> (c < C)%nat -> (i < n)%nat -> (j < n)%nat -> (k < n)%nat ->
    (i' < n)%nat -> (j' < n)%nat -> (k' < n)%nat -> centred3 n n n i j k = app3 h (centred3 n n n i' j' k') ->
    at_ X' [b; c; i'; j'; k'] = at_ X [b; c; i; j; k].
Proof.
  intros Hs Hn HX. destruct (sharp_kept pm n Hs) as (p & Hp & Hl).
  destruct (resample3_entries pm p (repeat h N) n X C Hp Hn) as (X' & E & HX' & V); [rewrite repeat_length; assumption|].
  rewrite repeat_length in HX'. exists X'. split; [assumption|]. split; [assumption|]. intros b c i j k i' j' k' Hb Hc Hi Hj Hk Hi' Hj' Hk' Ec.
  rewrite (V b h c i j k i' j' k') by (try assumption; apply nth_error_repeat; assumption). rewrite !Hl. reflexivity.
Qed.
Lemma cube_ext (X Y : tensor R) N C n : has_shape X (N :: C :: [n; n; n]) -> has_shape Y (N :: C :: [n; n; n]) ->
  (forall b c i j k, (b < N)%nat -> (c < C)%nat -> (i < n)%nat -> (j < n)%nat -> (k < n)%nat -> at_ X [b; c; i; j; k] = at_ Y [b; c; i; j; k]) -> X = Y.
Proof.
  intros HX HY V. apply tensor_ext; [apply HX|apply HY|rewrite (proj1 HX), (proj1 HY); reflexivity|].
  rewrite (proj1 HX). intros idx Hv.
  apply valid_inv_cons in Hv. destruct Hv as (b & r & -> & Hb & Hv). apply valid_inv_cons in Hv. destruct Hv as (c & r2 & -> & Hc & Hv).
  apply valid3_inv in Hv. destruct Hv as (i & j & k & -> & Hi & Hj & Hk). apply V; assumption.
Qed.
Lemma signed3_I : signed3 I3.
Proof. unfold signed3, isO3, unit_entry, I3, mul3, tr3. cbn. repeat split; try (f_equal; ring); auto. Qed.
Lemma resample_identity pm N n X C : sharp pm n -> (2 <= n)%nat -> has_shape X (N :: C :: [n; n; n]) ->
  resample_R3 "nearest" pm X (repeat I3 N) n = Ok X.
Proof.
  intros Hs Hn HX. destruct (sharp_entries pm N I3 n X C Hs Hn HX) as (X' & E & HX' & V). rewrite E. f_equal.
  apply (cube_ext _ _ N C n HX' HX). intros. apply V; try assumption. symmetry. apply app3_I.
Qed.
Lemma resample_compose pm N n g h X X1 C : sharp pm n -> (2 <= n)%nat -> has_shape X (N :: C :: [n; n; n]) -> signed3 g -> signed3 h ->
  resample_R3 "nearest" pm X (repeat g N) n = Ok X1 ->
  resample_R3 "nearest" pm X1 (repeat h N) n = resample_R3 "nearest" pm X (repeat (mul3 g h) N) n.
Proof.
  intros Hs Hn HX Hg Hh E1. destruct (sharp_entries pm N g n X C Hs Hn HX) as (Z & EZ & HZ & V1). rewrite E1 in EZ. injection EZ as <-.
  destruct (sharp_entries pm N h n X1 C Hs Hn HZ) as (X2 & E2 & HX2 & V2).
  destruct (sharp_entries pm N (mul3 g h) n X C Hs Hn HX) as (X3 & E3 & HX3 & V3). rewrite E2, E3. f_equal.
  apply (cube_ext _ _ N C n HX2 HX3). intros b c i j k Hb Hc Hi Hj Hk.
  destruct (cell_exists h n i j k Hh Hn Hi Hj Hk) as (i1 & j1 & k1 & Hi1 & Hj1 & Hk1 & Ec1).
  destruct (cell_exists g n i1 j1 k1 Hg Hn Hi1 Hj1 Hk1) as (i2 & j2 & k2 & Hi2 & Hj2 & Hk2 & Ec2).
  rewrite (V2 b c i1 j1 k1 i j k) by assumption. rewrite (V1 b c i2 j2 k2 i1 j1 k1) by assumption.
  symmetry. apply V3; try assumption. rewrite app3_mul, <- Ec1. exact Ec2.
Qed.

Lemma response_shape Y N C e n s b : has_shape Y (N :: C :: n :: s) -> has_shape (response b e Y) (C :: s).
Proof. intros [E _]. unfold response. rewrite E. split; [reflexivity|apply wft_build]. Qed.
Lemma response_at Y N C n s b e c z : has_shape Y (N :: C :: n :: s) -> (c < C)%nat -> valid s z ->
  at_ (response b e Y) (c :: z) = at_ Y (b :: c :: e :: z).
Proof. intros [E _] Hc Hz. unfold response. rewrite E. rewrite at_build by (apply valid_cons; assumption). reflexivity. Qed.

(** Image b as a batch of one. *)
Definition single (b : nat) (X : tensor R) : tensor R := build (1%nat :: tl (shape X)) (fun idx => at_ X (b :: tl idx)).
Lemma single_shape X N s b : has_shape X (N :: s) -> has_shape (single b X) (1%nat :: s).
Proof. intros [E _]. unfold single. rewrite E. split; [reflexivity|apply wft_build]. Qed.
Lemma single_at X N s b idx : has_shape X (N :: s) -> valid s idx -> at_ (single b X) (0%nat :: idx) = at_ X (b :: idx).
Proof. intros [E _] Hv. unfold single. rewrite E. cbn [tl]. rewrite at_build by (apply valid_cons; [lia|assumption]). reflexivity. Qed.

Lemma app_tail2 {A} (l l' : list A) a b a' b' : l ++ [a; b] = l' ++ [a'; b'] -> l = l' /\ a = a' /\ b = b'.
Proof.
  intros E. change [a; b] with ([a] ++ [b]) in E. change [a'; b'] with ([a'] ++ [b']) in E. rewrite !app_assoc in E.
  apply app_inj_tail in E. destruct E as [E ->]. apply app_inj_tail in E. destruct E as [E ->]. auto.
Qed.
Lemma carried2_inv (rel : list nat -> R -> R -> Prop) A Y Y' lead h w : carried2 rel A Y Y' -> has_shape Y (lead ++ [h; w]) ->
  exists h' w', has_shape Y' (lead ++ [h'; w']) /\
    INR h' = Rabs (b00 A) * INR h + Rabs (b01 A) * INR w /\ INR w' = Rabs (b10 A) * INR h + Rabs (b11 A) * INR w /\
    forall pre i j i' j', valid lead pre -> (i < h)%nat -> (j < w)%nat -> (i' < h')%nat -> (j' < w')%nat ->
      centred2 h' w' i' j' = app2 A (centred2 h w i j) ->
      rel pre (at_ Y (pre ++ [i; j])) (at_ Y' (pre ++ [i'; j'])).
Proof.
  intros (l0 & h0 & w0 & h' & w' & S & S' & E1 & E2 & V) HY.
  destruct S as [S _]. rewrite (proj1 HY) in S. apply app_tail2 in S. destruct S as (<- & <- & <-).
  exists h', w'. repeat (split; [assumption|]). exact V.
Qed.
