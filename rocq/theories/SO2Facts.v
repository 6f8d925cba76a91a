(** Proofs about the so2 model. *)
From Verif Require Import Prelude RMath Mat Interp SO2.
Open Scope R_scope.

Lemma so2_matrix_mul a b :
  so2_angle_to_matrix (so2_left_apply_angle a b)
  = mul2 (so2_angle_to_matrix a) (so2_angle_to_matrix b).
Proof.
  unfold so2_angle_to_matrix, so2_left_apply_angle. rewrite cos_Rmod, sin_Rmod, cos_plus, sin_plus.
  mext; ring.
Qed.

Lemma so2_matrix_SO2 a : isSO2 (so2_angle_to_matrix a).
Proof.
  pose proof (sc1 a) as H. unfold so2_angle_to_matrix. repeat split.
  - mext; try lra; ring.
  - mext; try lra; ring.
  - unfold det2; simpl. lra.
Qed.

Lemma so2_range a b : 0 <= so2_left_apply_angle a b < 2 * PI.
Proof. apply Rmod_bounds, two_PI_pos. Qed.

Lemma so2_pairwise_spec A B :
  length (so2_left_apply_to_angle A B) = length A /\
  forall n m a b, nth_error A n = Some a -> nth_error B m = Some b ->
    exists row, nth_error (so2_left_apply_to_angle A B) n = Some row /\
                length row = length B /\
                nth_error row m = Some (so2_left_apply_angle a b).
Proof.
  unfold so2_left_apply_to_angle. split; [apply map_length|].
  intros n m a b Ha Hb. eexists. rewrite nth_error_map, Ha. simpl. split; [reflexivity|].
  rewrite map_length. split; [reflexivity|]. rewrite nth_error_map, Hb. reflexivity.
Qed.

Lemma so2_assoc a b c :
  so2_left_apply_angle a (so2_left_apply_angle b c)
  = so2_left_apply_angle (so2_left_apply_angle a b) c.
Proof.
  unfold so2_left_apply_angle. rewrite Rmod_add_r, Rmod_add_l by apply two_PI_pos.
  f_equal; ring.
Qed.

Lemma so2_comm a b : so2_left_apply_angle a b = so2_left_apply_angle b a.
Proof. unfold so2_left_apply_angle. f_equal; ring. Qed.

Lemma so2_neutral a : so2_left_apply_angle 0 a = Rmod a (2 * PI).
Proof. unfold so2_left_apply_angle. f_equal; ring. Qed.

Lemma Rmod_0 : Rmod 0 (2 * PI) = 0.
Proof. apply Rmod_small. pose proof two_PI_pos. lra. Qed.

Lemma so2_inv_l a : so2_left_apply_angle (so2_inverse_angle a) a = 0.
Proof.
  unfold so2_left_apply_angle, so2_inverse_angle. replace (- a + a) with 0 by ring. apply Rmod_0.
Qed.

Lemma so2_inv_r a : so2_left_apply_angle a (so2_inverse_angle a) = 0.
Proof. rewrite so2_comm. apply so2_inv_l. Qed.

Lemma so2_inv_matrix a :
  so2_inverse_matrix (so2_angle_to_matrix a) = so2_angle_to_matrix (so2_inverse_angle a).
Proof.
  unfold so2_inverse_matrix, so2_angle_to_matrix, so2_inverse_angle.
  rewrite cos_neg, sin_neg. mext; ring.
Qed.

(** The relative element of two angles moved by the same rotation (used for C40/C53). *)
Lemma so2_relative g a b :
  so2_left_apply_angle (so2_inverse_angle (so2_left_apply_angle g a)) (so2_left_apply_angle g b)
  = so2_left_apply_angle (so2_inverse_angle a) b.
Proof.
  unfold so2_left_apply_angle, so2_inverse_angle.
  pose proof two_PI_pos as HP.
  rewrite Rmod_add_r by assumption.
  destruct (Rmod_decomp (g + a) (2 * PI)) as [k Hk].
  apply Rmod_congr with (k := k); [assumption|]. lra.
Qed.

(** ** uniform_grid *)
Lemma so2_uniform_grid_eq n :
  so2_uniform_grid n = map (fun i => 2 * PI * INR i / INR n) (seq 0 n).
Proof.
  unfold so2_uniform_grid, linspace. rewrite removelast_map.
  replace (n + 1)%nat with (S n) by lia. rewrite removelast_seq.
  replace (S n - 1)%nat with n by lia.
  apply map_ext_in. intros i Hi. apply in_seq in Hi.
  assert (INR n <> 0) by (apply not_0_INR; lia). field. assumption.
Qed.

Lemma so2_uniform_grid_length n : length (so2_uniform_grid n) = n.
Proof. rewrite so2_uniform_grid_eq, map_length, seq_length. reflexivity. Qed.

Lemma so2_uniform_grid_nth n i :
  (i < n)%nat -> nth_error (so2_uniform_grid n) i = Some (2 * PI * INR i / INR n).
Proof.
  intros Hi. rewrite so2_uniform_grid_eq, nth_error_map, nth_error_seq by assumption. reflexivity.
Qed.

Lemma so2_grid_range n i : (i < n)%nat -> 0 <= 2 * PI * INR i / INR n < 2 * PI.
Proof.
  intros Hi. pose proof two_PI_pos as HP.
  assert (Hn : 0 < INR n) by (apply lt_0_INR; lia).
  assert (Hi0 : 0 <= INR i) by apply pos_INR.
  assert (Hlt : INR i < INR n) by (apply lt_INR; assumption).
  assert (E : 2 * PI * INR i / INR n = 2 * PI * (INR i / INR n)) by (field; lra).
  assert (0 <= INR i / INR n) by (unfold Rdiv; apply Rmult_le_pos; [lra|left; apply Rinv_0_lt_compat; lra]).
  assert (INR i / INR n < 1).
  { apply Rmult_lt_reg_r with (INR n); [assumption|]. unfold Rdiv.
    rewrite Rmult_assoc, Rinv_l by lra. lra. }
  rewrite E. split; [apply Rmult_le_pos; lra|].
  rewrite <- (Rmult_1_r (2 * PI)) at 2. apply Rmult_lt_compat_l; lra.
Qed.

Lemma so2_grid_point_inj n i j :
  (i < n)%nat -> (j < n)%nat -> 2 * PI * INR i / INR n = 2 * PI * INR j / INR n -> i = j.
Proof.
  intros Hi Hj H. pose proof two_PI_pos as HP.
  assert (Hn : 0 < INR n) by (apply lt_0_INR; lia).
  apply INR_eq. apply Rmult_eq_reg_l with (2 * PI / INR n).
  - unfold Rdiv in *. rewrite !Rmult_assoc, !(Rmult_comm (/ INR n)), <- !Rmult_assoc. exact H.
  - apply Rgt_not_eq. apply Rdiv_lt_0_compat; assumption.
Qed.

Lemma so2_uniform_grid_NoDup n : NoDup (so2_uniform_grid n).
Proof.
  apply NoDup_nth_error. intros i j Hi H. rewrite so2_uniform_grid_length in Hi.
  rewrite so2_uniform_grid_nth in H by assumption.
  assert (Hj : (j < n)%nat).
  { rewrite <- (so2_uniform_grid_length n). apply nth_error_Some. rewrite <- H. discriminate. }
  rewrite so2_uniform_grid_nth in H by assumption. injection H as H.
  apply so2_grid_point_inj with n; assumption.
Qed.

Lemma so2_grid_mod n k : (0 < n)%nat ->
  Rmod (2 * PI * INR k / INR n) (2 * PI) = 2 * PI * INR (k mod n) / INR n.
Proof.
  intros Hn. assert (Hn' : 0 < INR n) by (apply lt_0_INR; lia).
  apply Rmod_unique with (k := Z.of_nat (k / n)).
  - apply two_PI_pos.
  - rewrite <- INR_IZR_INZ. rewrite (Nat.div_mod k n) at 1 by lia.
    rewrite plus_INR, mult_INR. field. lra.
  - apply so2_grid_range. apply Nat.mod_upper_bound. lia.
Qed.

Lemma so2_grid_closed n i j : (i < n)%nat -> (j < n)%nat ->
  so2_left_apply_angle (2 * PI * INR i / INR n) (2 * PI * INR j / INR n)
  = 2 * PI * INR ((i + j) mod n) / INR n.
Proof.
  intros Hi Hj. assert (Hn' : 0 < INR n) by (apply lt_0_INR; lia).
  rewrite <- so2_grid_mod by lia. unfold so2_left_apply_angle. f_equal.
  rewrite plus_INR. field. lra.
Qed.

Lemma so2_grid_inv_closed n i : (i < n)%nat ->
  Rmod (so2_inverse_angle (2 * PI * INR i / INR n)) (2 * PI)
  = 2 * PI * INR ((n - i) mod n) / INR n.
Proof.
  intros Hi. assert (Hn' : 0 < INR n) by (apply lt_0_INR; lia).
  rewrite <- so2_grid_mod by lia. unfold so2_inverse_angle.
  apply Rmod_congr with (k := (-1)%Z); [apply two_PI_pos|].
  rewrite minus_INR by lia. field. lra.
Qed.

Lemma so2_uniform_grid_group n :
  length (so2_uniform_grid n) = n /\
  NoDup (so2_uniform_grid n) /\
  (forall i, (i < n)%nat -> nth_error (so2_uniform_grid n) i = Some (2 * PI * INR i / INR n)) /\
  (forall a, In a (so2_uniform_grid n) -> 0 <= a < 2 * PI) /\
  (forall i j a b, nth_error (so2_uniform_grid n) i = Some a ->
                   nth_error (so2_uniform_grid n) j = Some b ->
     nth_error (so2_uniform_grid n) ((i + j) mod n) = Some (so2_left_apply_angle a b)) /\
  (forall i a, nth_error (so2_uniform_grid n) i = Some a ->
     nth_error (so2_uniform_grid n) ((n - i) mod n)
     = Some (Rmod (so2_inverse_angle a) (2 * PI))).
Proof.
  assert (Hnth : forall i a, nth_error (so2_uniform_grid n) i = Some a ->
            (i < n)%nat /\ a = 2 * PI * INR i / INR n).
  { intros i a H. pose proof (nth_error_Some_lt _ _ _ H) as Hi.
    rewrite so2_uniform_grid_length in Hi. split; [assumption|].
    rewrite so2_uniform_grid_nth in H by assumption. congruence. }
  repeat split.
  - apply so2_uniform_grid_length.
  - apply so2_uniform_grid_NoDup.
  - intros; apply so2_uniform_grid_nth; assumption.
  - apply In_nth_error in H as [i Hi]. apply Hnth in Hi as [Hi ->]. apply so2_grid_range; assumption.
  - apply In_nth_error in H as [i Hi]. apply Hnth in Hi as [Hi ->]. apply so2_grid_range; assumption.
  - intros i j a b Hi Hj. apply Hnth in Hi as [Hi ->]. apply Hnth in Hj as [Hj ->].
    rewrite so2_uniform_grid_nth by (apply Nat.mod_upper_bound; lia).
    rewrite so2_grid_closed by assumption. reflexivity.
  - intros i a Hi. apply Hnth in Hi as [Hi ->].
    rewrite so2_uniform_grid_nth by (apply Nat.mod_upper_bound; lia).
    rewrite so2_grid_inv_closed by assumption. reflexivity.
Qed.

(** ** geodesic distance *)
(** Specification: length of the shorter arc between the directions a and b. *)
Definition arc (a b : R) : R := Rmin (Rmod (a - b) (2 * PI)) (2 * PI - Rmod (a - b) (2 * PI)).

Lemma arc_bounds a b : 0 <= arc a b <= PI.
Proof.
  unfold arc. pose proof (Rmod_bounds (a - b) (2 * PI) two_PI_pos) as H.
  unfold Rmin. destruct (Rle_dec _ _); lra.
Qed.

Lemma cos_arc a b : cos (arc a b) = cos (a - b).
Proof.
  unfold arc, Rmin. destruct (Rle_dec _ _).
  - apply cos_Rmod.
  - replace (2 * PI - Rmod (a - b) (2 * PI)) with (- Rmod (a - b) (2 * PI) + 2 * PI * IZR 1)
      by (simpl; ring).
    rewrite cos_shift, cos_neg. apply cos_Rmod.
Qed.

Lemma acos_clamp_cos t eps : 0 < eps < 1 -> 0 <= t <= PI ->
  acos (clamp (cos t) (-1 + eps) (1 - eps)) = clamp t (acos (1 - eps)) (acos (-1 + eps)).
Proof.
  intros He Ht.
  pose proof (acos_bound (1 - eps)) as B1. pose proof (acos_bound (-1 + eps)) as B2.
  assert (Hle : acos (1 - eps) <= acos (-1 + eps)) by (apply acos_decr_le; lra).
  destruct (Rle_lt_dec (cos t) (-1 + eps)) as [H1|H1].
  - rewrite clamp_lo by lra.
    assert (acos (-1 + eps) <= t).
    { rewrite <- (acos_cos t) by lra. apply acos_decr_le; [|lra|lra]. apply COS_bound. }
    rewrite clamp_hi by lra. reflexivity.
  - destruct (Rle_lt_dec (1 - eps) (cos t)) as [H2|H2].
    + rewrite clamp_hi by lra.
      assert (t <= acos (1 - eps)).
      { rewrite <- (acos_cos t) by lra. apply acos_decr_le; [lra|lra|]. apply COS_bound. }
      rewrite clamp_lo by lra. reflexivity.
    + rewrite clamp_id by lra. rewrite acos_cos by lra.
      assert (acos (1 - eps) <= t).
      { rewrite <- (acos_cos t) by lra. apply acos_decr_le; lra. }
      assert (t <= acos (-1 + eps)).
      { rewrite <- (acos_cos t) by lra. apply acos_decr_le; lra. }
      rewrite clamp_id by lra. reflexivity.
Qed.

Lemma so2_geodesic_arc a b eps : 0 < eps < 1 ->
  so2_geodesic_distance a b eps = clamp (arc a b) (acos (1 - eps)) (acos (-1 + eps)).
Proof.
  intros He. unfold so2_geodesic_distance, so2_geodesic_distance_euclid, so2_angle_to_euclid.
  cbn [v2x v2y].
  rewrite <- acos_clamp_cos by (try apply arc_bounds; assumption).
  rewrite cos_arc, cos_minus. reflexivity.
Qed.

Lemma so2_geodesic_sym a b eps : so2_geodesic_distance a b eps = so2_geodesic_distance b a eps.
Proof.
  unfold so2_geodesic_distance, so2_geodesic_distance_euclid. f_equal. f_equal. ring.
Qed.

Lemma so2_geodesic_cos a b eps :
  so2_geodesic_distance a b eps = acos (clamp (cos (a - b)) (-1 + eps) (1 - eps)).
Proof.
  unfold so2_geodesic_distance, so2_geodesic_distance_euclid, so2_angle_to_euclid. cbn [v2x v2y].
  rewrite cos_minus. reflexivity.
Qed.

Lemma so2_geodesic_invariant g a b eps :
  so2_geodesic_distance (so2_left_apply_angle g a) (so2_left_apply_angle g b) eps
  = so2_geodesic_distance a b eps.
Proof.
  rewrite !so2_geodesic_cos. do 2 f_equal.
  unfold so2_left_apply_angle.
  rewrite cos_minus, !cos_Rmod, !sin_Rmod, <- cos_minus. f_equal. ring.
Qed.

Lemma so2_geodesic_range a b eps : 0 < eps < 1 ->
  acos (1 - eps) <= so2_geodesic_distance a b eps <= acos (-1 + eps).
Proof.
  intros He. rewrite so2_geodesic_arc by assumption. apply clamp_bounds. apply acos_decr_le; lra.
Qed.

Lemma so2_geodesic_self a eps : 0 < eps < 1 -> so2_geodesic_distance a a eps = acos (1 - eps).
Proof.
  intros He. rewrite so2_geodesic_cos. replace (a - a) with 0 by ring. rewrite cos_0.
  rewrite clamp_hi by lra. reflexivity.
Qed.

Lemma so2_geodesic_period a b j k eps :
  so2_geodesic_distance (a + 2 * PI * IZR j) (b + 2 * PI * IZR k) eps
  = so2_geodesic_distance a b eps.
Proof.
  unfold so2_geodesic_distance, so2_angle_to_euclid. rewrite !cos_shift, !sin_shift. reflexivity.
Qed.

(** ** nearest neighbour *)
Lemma so2_eps_range : 0 < so2_eps < 1.
Proof. unfold so2_eps. split; lra. Qed.

Lemma fold_Rmin_le l x : forall y, y <= x -> (forall z, In z l -> y <= z) -> y <= fold_left Rmin l x.
Proof.
  revert x; induction l as [|a l IH]; intros x y Hx Hl; simpl; [assumption|].
  apply IH; [|intros z Hz; apply Hl; right; assumption].
  unfold Rmin. destruct (Rle_dec x a); [assumption|apply Hl; left; reflexivity].
Qed.

Lemma fold_Rmin_lb l x : fold_left Rmin l x <= x /\ forall z, In z l -> fold_left Rmin l x <= z.
Proof.
  revert x; induction l as [|a l IH]; intros x; simpl; [split; [lra|tauto]|].
  destruct (IH (Rmin x a)) as [H1 H2]. split.
  - pose proof (Rmin_l x a). lra.
  - intros z [<-|Hz]; [pose proof (Rmin_r x a); lra|auto].
Qed.

Lemma row_min_char l m : In m l -> (forall z, In z l -> m <= z) -> row_min l = Ok m.
Proof.
  destruct l as [|x l]; intros Hin Hlb; [destruct Hin|].
  simpl. f_equal. apply Rle_antisym.
  - destruct (fold_Rmin_lb l x) as [H1 H2]. destruct Hin as [<-|Hin]; auto.
  - apply fold_Rmin_le; [apply Hlb; left; reflexivity|intros; apply Hlb; right; assumption].
Qed.

Lemma mapM_const {A B} (f : A -> result B) c l :
  (forall x, In x l -> f x = Ok c) -> mapM f l = Ok (repeat c (length l)).
Proof.
  induction l as [|a l IH]; intros H; simpl; [reflexivity|].
  rewrite H by (left; reflexivity). simpl. rewrite IH by (intros; apply H; right; assumption).
  reflexivity.
Qed.

Lemma so2_nn_constant grid : grid <> [] ->
  so2_nearest_neighbour_distance grid = Ok (repeat (acos (1 - so2_eps)) (length grid)).
Proof.
  intros Hne. unfold so2_nearest_neighbour_distance. destruct grid as [|g0 grid0]; [congruence|].
  set (grid := g0 :: grid0) in *.
  apply mapM_const. intros a Ha. apply row_min_char.
  - apply in_map_iff. exists a. split; [apply so2_geodesic_self, so2_eps_range|assumption].
  - intros z Hz. apply in_map_iff in Hz as (b & <- & Hb). apply so2_geodesic_range, so2_eps_range.
Qed.

(** ** action on R2 *)
Lemma so2_action_spec Rs grid n w h r row v :
  nth_error Rs n = Some r -> nth_error grid w = Some row -> nth_error row h = Some v ->
  exists G row', nth_error (so2_left_apply_angle_to_R2 Rs grid) n = Some G /\
    nth_error G w = Some row' /\
    nth_error row' h = Some (app2 (so2_angle_to_matrix r) v).
Proof.
  intros H1 H2 H3. unfold so2_left_apply_angle_to_R2, so2_left_apply_matrix_to_R2.
  rewrite !nth_error_map, H1. cbn [option_map]. do 2 eexists. split; [reflexivity|].
  rewrite nth_error_map, H2. split; [reflexivity|]. rewrite nth_error_map, H3. reflexivity.
Qed.

Lemma so2_action_compose a b v :
  app2 (so2_angle_to_matrix a) (app2 (so2_angle_to_matrix b) v)
  = app2 (so2_angle_to_matrix (so2_left_apply_angle a b)) v.
Proof. rewrite so2_matrix_mul, app2_mul. reflexivity. Qed.

Lemma so2_action_id v : app2 (so2_angle_to_matrix 0) v = v.
Proof. unfold so2_angle_to_matrix. rewrite cos_0, sin_0. mext; ring. Qed.

Lemma so2_action_isometry a u v :
  dot2 (app2 (so2_angle_to_matrix a) u) (app2 (so2_angle_to_matrix a) v) = dot2 u v.
Proof. apply isSO2_isometry, so2_matrix_SO2. Qed.

Lemma so2_action_list_compose a b grid :
  map (map (map (app2 (so2_angle_to_matrix a)))) (so2_left_apply_angle_to_R2 [b] grid)
  = so2_left_apply_angle_to_R2 [so2_left_apply_angle a b] grid.
Proof.
  unfold so2_left_apply_angle_to_R2, so2_left_apply_matrix_to_R2. simpl. f_equal.
  rewrite map_map. apply map_ext. intros row. rewrite map_map. apply map_ext. intros v.
  apply so2_action_compose.
Qed.

(** Bundles used by Prop_SO2. *)
Lemma so2_action_shape Rs grid :
  length (so2_left_apply_angle_to_R2 Rs grid) = length Rs /\
  forall G, In G (so2_left_apply_angle_to_R2 Rs grid) ->
    length G = length grid /\ map (@length V2) G = map (@length V2) grid.
Proof.
  unfold so2_left_apply_angle_to_R2, so2_left_apply_matrix_to_R2.
  rewrite !map_length. split; [reflexivity|].
  intros G HG. apply in_map_iff in HG as (r & <- & _). rewrite map_length. split; [reflexivity|].
  rewrite map_map. apply map_ext. intros row. apply map_length.
Qed.

Lemma so2_matrix_inj a b : so2_angle_to_matrix a = so2_angle_to_matrix b ->
  exists k : Z, a = b + 2 * PI * IZR k.
Proof.
  unfold so2_angle_to_matrix. intros H. injection H as Hc Hs1 Hs.
  assert (H1 : cos (a - b) = 1).
  { rewrite cos_minus, Hc, Hs. pose proof (sc1 b). lra. }
  destruct (Rmod_decomp (a - b) (2 * PI)) as [k Hk]. exists k.
  assert (Hz : Rmod (a - b) (2 * PI) = 0).
  { pose proof (Rmod_bounds (a - b) (2 * PI) two_PI_pos) as B.
    rewrite <- cos_Rmod in H1. set (t := Rmod (a - b) (2 * PI)) in *.
    destruct (Req_dec t 0) as [E|E]; [assumption|exfalso].
    pose proof PI_RGT_0.
    destruct (Rle_lt_dec t PI).
    - assert (cos t < cos 0) by (apply cos_decreasing_1; lra). rewrite cos_0 in *. lra.
    - assert (cos t < cos (2 * PI)) by (apply cos_increasing_1; lra). rewrite cos_2PI in *. lra. }
  lra.
Qed.

(** Documented contract of nearest_neighbour_distance: entry i is the minimum of the
    distances to the *other* elements. *)
Definition so2_nn_contract (grid : list R) (out : list R) : Prop :=
  length out = length grid /\
  forall i a d, nth_error grid i = Some a -> nth_error out i = Some d ->
    (forall j b, j <> i -> nth_error grid j = Some b -> d <= so2_geodesic_distance a b so2_eps) /\
    (exists j b, j <> i /\ nth_error grid j = Some b /\ d = so2_geodesic_distance a b so2_eps).

Lemma so2_nn_contract_fails grid out :
  (forall i j a b, i <> j -> nth_error grid i = Some a -> nth_error grid j = Some b ->
     acos (1 - so2_eps) < arc a b) ->
  grid <> [] ->
  so2_nearest_neighbour_distance grid = Ok out -> ~ so2_nn_contract grid out.
Proof.
  intros Hsep Hne Hout [Hlen Hc]. rewrite so2_nn_constant in Hout by assumption.
  injection Hout as <-.
  destruct grid as [|g0 rest]; [congruence|].
  destruct (Hc 0%nat g0 (acos (1 - so2_eps)) eq_refl eq_refl) as [_ (j & b & Hj & Hb & Hd)].
  rewrite so2_geodesic_arc in Hd by apply so2_eps_range.
  assert (Hs := Hsep 0%nat j g0 b (not_eq_sym Hj) eq_refl Hb).
  pose proof so2_eps_range as He.
  assert (acos (1 - so2_eps) < acos (-1 + so2_eps)).
  { apply acos_decr_lt; unfold so2_eps in *; lra. }
  unfold clamp, Rmin, Rmax in Hd.
  destruct (Rle_dec (arc g0 b) (acos (1 - so2_eps))); [lra|].
  destruct (Rle_dec (arc g0 b) (acos (-1 + so2_eps))); lra.
Qed.

Lemma acos_1_eps_lt_PI2 : acos (1 - so2_eps) < PI / 2.
Proof.
  rewrite <- acos_0. apply acos_decr_lt; unfold so2_eps; lra.
Qed.

Lemma so2_nn_refuted_grid :
  exists out, so2_nearest_neighbour_distance [0; PI] = Ok out /\ ~ so2_nn_contract [0; PI] out.
Proof.
  eexists. split; [apply so2_nn_constant; discriminate|].
  apply so2_nn_contract_fails; [|discriminate|apply so2_nn_constant; discriminate].
  pose proof PI_RGT_0 as HP. pose proof acos_1_eps_lt_PI2 as HA.
  assert (H1 : Rmod (0 - PI) (2 * PI) = PI) by (apply Rmod_unique with (k := (-1)%Z); lra).
  assert (H2 : Rmod (PI - 0) (2 * PI) = PI) by (apply Rmod_unique with (k := 0%Z); lra).
  intros i j a b Hij Hi Hj.
  assert (HM : Rmin PI (2 * PI - PI) = PI) by (unfold Rmin; destruct (Rle_dec _ _); lra).
  destruct i as [|[|i]]; destruct j as [|[|j]]; simpl in Hi, Hj; try congruence;
    try (destruct i; discriminate); try (destruct j; discriminate).
  - injection Hi as <-; injection Hj as <-. unfold arc. rewrite H1, HM. lra.
  - injection Hi as <-; injection Hj as <-. unfold arc. rewrite H2, HM. lra.
Qed.
