(** The neighbour distance that the E(3) kernels compute (C41). *)
From Coq Require Import String Permutation.
From Verif Require Import Prelude RMath Mat Interp InterpFacts SO2 O2 SO3 O3 Repulse RepulseFacts Tensor
  Functional FunctionalFacts Kernel KernelMore SO2Facts O2Facts SO3Facts SO3More O3Facts.
Open Scope R_scope.

Lemma nn_generic {A} (dist : A -> A -> R) q out :
  (forall a b, In a q -> In b q -> dist a a <= dist a b) ->
  mapM (fun a => of_option IndexError (nth_error (sortR (map (dist a) q)) 1)) q = Ok out ->
  List.length out = List.length q /\
  forall i a, nth_error q i = Some a ->
    exists m, nth_error out i = Some m /\
      (exists j b, j <> i /\ nth_error q j = Some b /\ m = dist a b) /\
      (forall j b, j <> i -> nth_error q j = Some b -> m <= dist a b).
Proof.
  intros Hself H.
  split; [apply mapM_length in H; assumption|].
  intros i a Hi. destruct (mapM_nth _ _ _ _ _ H Hi) as (m & Em & Hm).
  exists m. split; [assumption|].
  destruct (nth_error (sortR _) 1) as [m0|] eqn:E; cbn in Em; [|discriminate].
  injection Em as ->.
  pose proof Hi as Hsp. apply nth_error_split in Hsp. destruct Hsp as (q1 & q2 & Hq & Hl).
  assert (Ha : In a q) by (eapply nth_error_In; eauto).
  rewrite Hq in E. rewrite map_app in E. cbn [map] in E.
  assert (UB : forall b, In b (q1 ++ q2) -> In b q).
  { intros b Hb. rewrite Hq. apply in_app_or in Hb. apply in_or_app. destruct Hb; [left|right; right]; assumption. }
  apply sortR_second in E.
  - rewrite <- map_app in E. destruct E as [E1 E2]. split.
    + apply in_map_iff in E1. destruct E1 as (b & Eb & Ib).
      apply in_app_or in Ib. destruct Ib as [Ib|Ib]; apply In_nth_error in Ib; destruct Ib as [k Hk].
      * exists k, b. pose proof (nth_error_Some_lt _ _ _ Hk).
        split; [lia|]. split; [|symmetry; exact Eb]. rewrite Hq, nth_error_app1 by assumption. assumption.
      * exists (S (List.length q1 + k)), b. split; [lia|]. split; [|symmetry; exact Eb].
        rewrite Hq, nth_error_app2 by lia.
        replace (S (List.length q1 + k) - List.length q1)%nat with (S k) by lia. assumption.
    + intros j b Hj Hb. apply E2. apply in_map_iff. exists b. split; [reflexivity|].
      rewrite Hq in Hb. apply in_or_app.
      destruct (Nat.lt_ge_cases j (List.length q1)) as [Lj|Lj].
      * left. rewrite nth_error_app1 in Hb by assumption. eapply nth_error_In; eauto.
      * right. rewrite nth_error_app2 in Hb by assumption.
        destruct (j - List.length q1)%nat as [|k] eqn:Ek; [lia|]. cbn in Hb.
        eapply nth_error_In; eauto.
  - intros x Hx. rewrite <- map_app in Hx. apply in_map_iff in Hx. destruct Hx as (b & <- & Ib). auto.
Qed.

Lemma clamp_in x lo hi : lo <= hi -> lo <= clamp x lo hi <= hi.
Proof. intros H. unfold clamp, Rmin, Rmax. repeat destruct (Rle_dec _ _); lra. Qed.
Lemma acos_clamp_ge x : acos (1 - so3_eps) <= acos (clamp x (-1 + so3_eps) (1 - so3_eps)).
Proof.
  pose proof so3_eps_range. pose proof (clamp_in x (-1 + so3_eps) (1 - so3_eps) ltac:(lra)).
  apply acos_decr_le; lra.
Qed.

(** What the E(3) kernels take for the distance of two elements. *)
Definition flat_distance (a b : O3) : R :=
  acos (clamp (Rabs (o3c a * o3c b + trace3 (mul3 (tr3 (o3r a)) (o3r b)))) (-1 + so3_eps) (1 - so3_eps)).

Lemma flat_self a : o3_wf a -> flat_distance a a = acos (1 - so3_eps).
Proof.
  intros [Hc [[H _] _]]. unfold flat_distance. rewrite H. rewrite clamp_ge; [reflexivity| |].
  - pose proof so3_eps_range. lra.
  - pose proof so3_eps_range. unfold trace3, I3. cbn. replace (o3c a * o3c a) with 1 by (destruct Hc as [-> | ->]; ring).
    rewrite Rabs_right; lra.
Qed.

Lemma flat_nn_spec q : Forall o3_wf q -> (2 <= List.length q)%nat ->
  exists out, so3_nearest_neighbour_distance_flat (map o3_flat q) = Ok out /\
  List.length out = List.length q /\
  forall i a, nth_error q i = Some a ->
    exists m, nth_error out i = Some m /\
      (exists j b, j <> i /\ nth_error q j = Some b /\ m = flat_distance a b) /\
      (forall j b, j <> i -> nth_error q j = Some b -> m <= flat_distance a b).
Proof.
  intros Hw Hl. unfold so3_nearest_neighbour_distance_flat. rewrite map_length.
  destruct (Nat.ltb_spec (List.length q) 2); [lia|].
  assert (exists out, mapM (fun a => of_option IndexError (nth_error (sortR (map (flat_distance a) q)) 1)) q = Ok out) as (out & Ho).
  { apply mapM_ok_all. intros a _. destruct (nth_error (sortR (map (flat_distance a) q)) 1) as [m|] eqn:E.
    - exists m. reflexivity.
    - exfalso. apply nth_error_None in E. rewrite <- (Permutation_length (sortR_perm _)), map_length in E. lia. }
  exists out. split.
  - rewrite <- Ho. rewrite mapM_map. apply mapM_ext. intros a Ha. rewrite map_map.
    f_equal. f_equal. f_equal. apply map_ext. intros b. apply flat_geodesic_trace.
  - apply nn_generic; [|exact Ho]. intros a b Ha Hb. rewrite Forall_forall in Hw.
    rewrite flat_self by auto. apply acos_clamp_ge.
Qed.

(** When every element has another one within 120 degrees the value is a constant. *)
Lemma flat_nn_constant q : Forall o3_wf q -> (2 <= List.length q)%nat ->
  (forall i a, nth_error q i = Some a -> exists j b, j <> i /\ nth_error q j = Some b /\
     o3c a = o3c b /\ 0 <= trace3 (mul3 (tr3 (o3r a)) (o3r b))) ->
  so3_nearest_neighbour_distance_flat (map o3_flat q) = Ok (repeat (acos (1 - so3_eps)) (List.length q)).
Proof.
  intros Hw Hl Hn. destruct (flat_nn_spec q Hw Hl) as (out & E & Hlen & Hs). rewrite E. f_equal.
  apply nth_error_ext. intros i. destruct (nth_error q i) as [a|] eqn:Ei.
  - destruct (Hs i a Ei) as (m & Em & (j & b & _ & _ & Ej) & Hmin).
    pose proof (nth_error_Some_lt _ _ _ Ei) as Li.
    rewrite Em. symmetry.
    assert (m = acos (1 - so3_eps)) as ->.
    { apply Rle_antisym.
      - destruct (Hn i a Ei) as (j' & b' & Hj & Eb & Hc & Ht).
        eapply Rle_trans; [apply (Hmin j' b' Hj Eb)|]. unfold flat_distance. rewrite clamp_ge; [lra| |].
        + pose proof so3_eps_range; lra.
        + pose proof so3_eps_range. rewrite <- Hc. rewrite Forall_forall in Hw.
          destruct (Hw a (nth_error_In _ _ Ei)) as [Ha _].
          replace (o3c a * o3c a) with 1 by (destruct Ha as [-> | ->]; ring). rewrite Rabs_right; lra.
      - rewrite Ej. apply acos_clamp_ge. }
    destruct (nth_error (repeat (acos (1 - so3_eps)) (List.length q)) i) as [x|] eqn:Ex.
    + apply nth_error_In, repeat_spec in Ex. congruence.
    + apply nth_error_None in Ex. rewrite repeat_length in Ex. lia.
  - apply nth_error_None in Ei. transitivity (@None R); [|symmetry]; apply nth_error_None; [lia|rewrite repeat_length; lia].
Qed.

Lemma meanR_gt c l : l <> [] -> (forall x, In x l -> c < x) -> c < meanR l.
Proof.
  intros Hne H. assert (INR (List.length l) * c < sumR l) as Hs.
  { destruct l as [|a l]; [congruence|]. clear Hne.
    assert (Ha := H a (or_introl eq_refl)).
    assert (forall l, (forall x, In x l -> c < x) -> INR (List.length l) * c <= sumR l) as Hle.
    { clear. induction l as [|x l IH]; intros H; [simpl; lra|].
      change (sumR (x :: l)) with (x + sumR l). change (List.length (x :: l)) with (S (List.length l)). rewrite S_INR.
      assert (c < x) by (apply H; left; reflexivity). assert (INR (List.length l) * c <= sumR l) by (apply IH; intros; apply H; right; assumption). lra. }
    change (sumR (a :: l)) with (a + sumR l). change (List.length (a :: l)) with (S (List.length l)). rewrite S_INR.
    assert (INR (List.length l) * c <= sumR l) by (apply Hle; intros; apply H; right; assumption). lra. }
  assert (0 < INR (List.length l)) by (apply INR_pos; destruct l; [congruence|simpl; lia]).
  unfold meanR. apply Rmult_lt_reg_r with (INR (List.length l)); [assumption|].
  unfold Rdiv. rewrite Rmult_assoc, Rinv_l by lra. lra.
Qed.

Lemma so3_width_mean grid : Forall isSO3 grid -> (2 <= List.length grid)%nat ->
  exists d, so3_nearest_neighbour_distance_matrix grid = Ok d /\ List.length d = List.length grid /\
    forall i a, nth_error grid i = Some a ->
      exists m, nth_error d i = Some m /\
        (exists j b, j <> i /\ nth_error grid j = Some b /\
           m = so3_geodesic_distance (so3_matrix_to_quat a) (so3_matrix_to_quat b) so3_eps) /\
        (forall j b, j <> i -> nth_error grid j = Some b ->
           m <= so3_geodesic_distance (so3_matrix_to_quat a) (so3_matrix_to_quat b) so3_eps).
Proof.
  intros HU Hl. unfold so3_nearest_neighbour_distance_matrix.
  destruct (so3_nn_total (map so3_matrix_to_quat grid)) as (d & Hd); [rewrite map_length; assumption|].
  exists d. split; [assumption|].
  destruct (so3_nn_spec (map so3_matrix_to_quat grid) d) as [Hlen Hs]; [|assumption|].
  { apply Forall_forall. intros q Hq. apply in_map_iff in Hq. destruct Hq as (r & <- & Hr).
    apply m2q_unit. rewrite Forall_forall in HU. auto. }
  split; [rewrite map_length in Hlen; assumption|].
  intros i a Ha. destruct (Hs i (so3_matrix_to_quat a)) as (m & Em & (j & b & Hj & Eb & Hm) & Hmin).
  { rewrite nth_error_map, Ha. reflexivity. }
  exists m. split; [assumption|]. split.
  - apply nth_error_map_inv in Eb. destruct Eb as (b' & Eb & ->). exists j, b'. auto.
  - intros j' b' Hj' Eb'. apply (Hmin j' (so3_matrix_to_quat b') Hj'). rewrite nth_error_map, Eb'. reflexivity.
Qed.

(** quaternion distance of matrices from the trace of the relative rotation *)
Lemma m2q_dot_sq r s : isSO3 r -> isSO3 s ->
  4 * (qdot (so3_matrix_to_quat r) (so3_matrix_to_quat s) * qdot (so3_matrix_to_quat r) (so3_matrix_to_quat s))
  = 1 + trace3 (mul3 (tr3 r) s).
Proof.
  intros Hr Hs. rewrite <- (m2q_right_inv r Hr) at 3. rewrite <- (m2q_right_inv s Hs) at 3.
  pose proof (m2q_unit r Hr) as Hp. pose proof (m2q_unit s Hs) as Hq.
  set (p := so3_matrix_to_quat r) in *. set (q := so3_matrix_to_quat s) in *.
  assert (E : trace3 (mul3 (tr3 (so3_quat_to_matrix p)) (so3_quat_to_matrix q))
              = 4 * (qdot p q * qdot p q) - qdot p p * qdot q q).
  { destruct p, q. unfold trace3, qdot; cbn. ring. }
  unfold unitq in Hp, Hq. rewrite E, Hp, Hq. ring.
Qed.
Lemma matrix_distance_gt r s : isSO3 r -> isSO3 s -> 1 + trace3 (mul3 (tr3 r) s) < 4 * ((1 - so3_eps) * (1 - so3_eps)) ->
  acos (1 - so3_eps) < so3_geodesic_distance (so3_matrix_to_quat r) (so3_matrix_to_quat s) so3_eps.
Proof.
  intros Hr Hs Ht. rewrite <- m2q_dot_sq in Ht by assumption.
  set (d := qdot _ _) in *. unfold so3_geodesic_distance. fold d. pose proof so3_eps_range as He.
  assert (Rabs d < 1 - so3_eps) as Hd.
  { destruct (Rlt_le_dec (Rabs d) (1 - so3_eps)) as [|Hge]; [assumption|exfalso].
    assert (d * d = Rabs d * Rabs d) as E by (rewrite <- Rabs_mult, Rabs_pos_eq; nra). rewrite E in Ht. nra. }
  pose proof (Rabs_pos d). apply acos_decr_lt; try lra.
  - pose proof (clamp_in (Rabs d) (-1 + so3_eps) (1 - so3_eps) ltac:(lra)). lra.
  - rewrite clamp_mid by lra. assumption.
Qed.

(** On such a half the E(3) width is smaller than the SE(3) width of the same rotations. *)
Lemma e3_width_too_small q : Forall o3_wf q -> (2 <= List.length q)%nat ->
  (forall i a, nth_error q i = Some a -> exists j b, j <> i /\ nth_error q j = Some b /\
     o3c a = o3c b /\ 0 <= trace3 (mul3 (tr3 (o3r a)) (o3r b))) ->
  (forall i j a b, i <> j -> nth_error q i = Some a -> nth_error q j = Some b ->
     1 + trace3 (mul3 (tr3 (o3r a)) (o3r b)) < 4 * ((1 - so3_eps) * (1 - so3_eps))) ->
  exists we ws, default_width 0 (so3_nearest_neighbour_distance_flat (map o3_flat q)) = Ok we /\
    width_SE3 0 (map o3r q) = Ok ws /\ we = 8 / 10 * acos (1 - so3_eps) /\ we < ws.
Proof.
  intros Hw Hl Hn Hsep.
  destruct (so3_width_mean (map o3r q)) as (d & Ed & Hlen & Hd).
  { apply Forall_forall. intros r Hr. apply in_map_iff in Hr. destruct Hr as (h & <- & Hh).
    rewrite Forall_forall in Hw. apply Hw. assumption. }
  { rewrite map_length. assumption. }
  exists (8 / 10 * acos (1 - so3_eps)), (8 / 10 * meanR d).
  split; [|split; [|split]].
  - rewrite default_width_zero, flat_nn_constant by assumption. cbn [bind]. rewrite meanR_repeat by lia. reflexivity.
  - unfold width_SE3. rewrite default_width_zero, Ed. reflexivity.
  - reflexivity.
  - assert (acos (1 - so3_eps) < meanR d); [|lra]. apply meanR_gt.
    + intros ->. simpl in Hlen. rewrite map_length in Hlen. lia.
    + intros x Hx. apply In_nth_error in Hx. destruct Hx as [i Hi].
      pose proof (nth_error_Some_lt _ _ _ Hi) as Li. rewrite Hlen, map_length in Li.
      destruct (nth_error q i) as [a|] eqn:Ea; [|apply nth_error_None in Ea; lia].
      destruct (Hd i (o3r a)) as (m & Em & (j & b & Hj & Eb & Hm) & _).
      { rewrite nth_error_map, Ea. reflexivity. }
      assert (x = m) as -> by congruence. rewrite Hm.
      apply nth_error_map_inv in Eb. destruct Eb as (b' & Eb & ->).
      rewrite Forall_forall in Hw.
      apply matrix_distance_gt.
      * apply (Hw a). eapply nth_error_In; eassumption.
      * apply (Hw b'). eapply nth_error_In; eassumption.
      * apply (Hsep i j); auto.
Qed.
