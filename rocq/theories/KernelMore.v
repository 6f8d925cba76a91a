(** Widths (C41), identity kernels (C59) and the spatial stage of separable kernels. *)
From Coq Require Import String Permutation.
From Verif Require Import Prelude RMath Mat Interp InterpFacts SO2 O2 SO3 O3 Repulse RepulseFacts Tensor TensorFacts SignedPerm
  Functional FunctionalFacts Kernel KernelFacts GroupKernelFacts OSplit OSplitFacts SO2Facts O2Facts SO3Facts SO3More O3Facts.
Open Scope R_scope.

(** *** shapes of the concrete kernels *)
Lemma grid_R2_shape s : has_shape (create_grid_R2 s) [s; s].
Proof. split; [reflexivity|apply wft_build]. Qed.
Lemma grid_R3_shape s : has_shape (create_grid_R3 s) [s; s; s].
Proof. split; [reflexivity|apply wft_build]. Qed.
Lemma mask_R2_shape s : has_shape (create_spherical_mask_R2 s) [s; s].
Proof. split; [reflexivity|apply wft_tmap, wft_build]. Qed.
Lemma mask_R3_shape s : has_shape (create_spherical_mask_R3 s) [s; s; s].
Proof. split; [reflexivity|apply wft_tmap, wft_build]. Qed.
Lemma square_nonzero s : (0 < s)%nat -> prodn [s; s] <> 0%nat.
Proof. intros H. rewrite !prodn_cons, prodn_nil. nia. Qed.
Lemma cube_nonzero s : (0 < s)%nat -> prodn [s; s; s] <> 0%nat.
Proof. intros H. rewrite !prodn_cons, prodn_nil. nia. Qed.
Lemma opt_mask_R2 (b : bool) s : mask_ok (if b then Some (create_spherical_mask_R2 s) else None) [s; s].
Proof. destruct b; [apply mask_R2_shape|exact I]. Qed.
Lemma opt_mask_R3 (b : bool) s : mask_ok (if b then Some (create_spherical_mask_R3 s) else None) [s; s; s].
Proof. destruct b; [apply mask_R3_shape|exact I]. Qed.

(** *** the mean of equal numbers *)
Lemma sumR_repeat c n : sumR (repeat c n) = INR n * c.
Proof.
  induction n; [simpl; ring|]. cbn [repeat]. rewrite S_INR.
  change (sumR (c :: repeat c n)) with (c + sumR (repeat c n)). rewrite IHn. ring.
Qed.
Lemma meanR_repeat c n : (0 < n)%nat -> meanR (repeat c n) = c.
Proof. intros H. unfold meanR. rewrite sumR_repeat, repeat_length. field. apply not_0_INR. lia. Qed.

(** *** widths *)
Lemma default_width_given g r : g <> 0 -> default_width g r = Ok g.
Proof. intros H. unfold default_width. destruct (Req_EM_T g 0); [contradiction|reflexivity]. Qed.
Lemma default_width_zero r : default_width 0 r = (d <- r ;; Ok (8 / 10 * meanR d)).
Proof. unfold default_width. destruct (Req_EM_T 0 0); [reflexivity|contradiction]. Qed.
Lemma so2_width_const grid : grid <> [] ->
  default_width 0 (so2_nearest_neighbour_distance grid) = Ok (8 / 10 * acos (1 - so2_eps)).
Proof.
  intros H. rewrite default_width_zero, so2_nn_constant by assumption. cbn [bind].
  rewrite meanR_repeat; [reflexivity|]. destruct grid; [congruence|simpl; lia].
Qed.
Lemma so2_width_empty : default_width 0 (so2_nearest_neighbour_distance []) = Err IndexError.
Proof. rewrite default_width_zero. reflexivity. Qed.

Lemma flat_geodesic_trace a b : flat_geodesic (o3_flat a) (o3_flat b) so3_eps
  = acos (clamp (Rabs (o3c a * o3c b + trace3 (mul3 (tr3 (o3r a)) (o3r b)))) (-1 + so3_eps) (1 - so3_eps)).
Proof.
  unfold flat_geodesic. f_equal. f_equal. f_equal. unfold o3_flat, dotl, trace3, mul3, tr3. simpl. ring.
Qed.
Lemma flat_short q : (List.length q < 2)%nat -> so3_nearest_neighbour_distance_flat q = Err IndexError.
Proof.
  intros H. unfold so3_nearest_neighbour_distance_flat. destruct (Nat.ltb_spec (List.length q) 2); [reflexivity|lia].
Qed.
(** For two elements whose inner product is at least 1 - eps everything is clipped. *)
Lemma clamp_ge x lo hi : lo <= hi -> hi <= x -> clamp x lo hi = hi.
Proof. intros. apply clamp_hi; assumption. Qed.
Lemma mapM_repeat {A B} (f : A -> result B) c l : (forall a, In a l -> f a = Ok c) -> mapM f l = Ok (repeat c (List.length l)).
Proof. apply mapM_const. Qed.
Lemma flat_clipped q : (2 <= List.length q)%nat ->
  (forall a b, In a q -> In b q -> 1 - so3_eps <= Rabs (dotl a b)) ->
  so3_nearest_neighbour_distance_flat q = Ok (repeat (acos (1 - so3_eps)) (List.length q)).
Proof.
  intros Hl H. unfold so3_nearest_neighbour_distance_flat. destruct (Nat.ltb_spec (List.length q) 2); [lia|].
  apply mapM_const. intros a Ha.
  assert (map (fun b => flat_geodesic a b so3_eps) q = repeat (acos (1 - so3_eps)) (List.length q)) as ->.
  { transitivity (map (fun _ : list R => acos (1 - so3_eps)) q).
    - apply map_ext_in. intros b Hb. unfold flat_geodesic. rewrite clamp_ge; [reflexivity| |auto].
      pose proof so3_eps_range. lra.
    - clear. induction q; simpl; congruence. }
  destruct (nth_error (sortR (repeat (acos (1 - so3_eps)) (List.length q))) 1) as [m|] eqn:E.
  - simpl. f_equal. apply nth_error_In in E. apply (Permutation_in _ (Permutation_sym (sortR_perm _))) in E.
    apply repeat_spec in E. assumption.
  - exfalso. apply nth_error_None in E. rewrite <- (Permutation_length (sortR_perm _)), repeat_length in E. lia.
Qed.

(** *** one axis fractional, the other any coordinate whose two cells are inside *)
Lemma linear_big_2_masked s : (4 <= s)%nat -> exists im, List.length im = (s * s)%nat /\
  at_ (create_spherical_mask_R2 s) [1; s / 2]%nat = 1 /\
  gs2 true GsBorder [s; s] im (at_ (create_grid_R2 s) [1; s / 2]%nat) <> at_ (mkT [s; s] im) [s / 2; 1]%nat.
Proof.
  intros Hs. set (j := (s / 2)%nat).
  assert (j < s)%nat as Hj by (apply Nat.div_lt; lia).
  exists (data (build [s; s] (fun idx => if Nat.eqb (nth 1 idx 0%nat) 0 then 1 else 0))).
  set (f := fun idx : list nat => if Nat.eqb (nth 1 idx 0%nat) 0 then 1 else 0).
  split; [|split].
  - pose proof (wft_build [s; s] f) as Hw. unfold wft in Hw. rewrite Hw. cbn [shape build].
    rewrite !prodn_cons, prodn_nil. lia.
  - rewrite mask_R2_at by (repeat apply valid_cons; try lia; apply valid_nil).
    rewrite grid_R2_at by lia. apply lt_float_1. unfold norm2, dot2; cbn [v2x v2y].
    pose proof (half_small s ltac:(lia)) as Hh. fold j in Hh. set (x := lin s j) in *.
    pose proof (lin_le_mid s 1 ltac:(lia) eq_refl). assert (x * x <= / 9) by nra. apply sqrt_lt_sq; lra.
  - change (mkT [s; s] (data (build [s; s] f))) with (build [s; s] f).
    rewrite at_build by (repeat apply valid_cons; try lia; apply valid_nil).
    rewrite grid_R2_at by lia. unfold gs2, axis2, gs_linear. cbn [v2x v2y map2].
    pose proof (linear_coord_big s Hs) as Hc. cbv zeta in Hc. set (c := gs_coord GsBorder s (lin s 1)) in *.
    assert (exists d, gs_coord GsBorder s (lin s j) = d /\ IZR (Z.of_nat j) <= d < IZR (Z.of_nat j) + 1 /\ (j + 1 < s)%nat) as (d & Ed & Hd & Hj1).
    { eexists; split; [reflexivity|]. assert (0 < j < s - 1)%nat as Hj2.
      { unfold j. pose proof (Nat.div_mod s 2 ltac:(lia)). pose proof (Nat.mod_upper_bound s 2 ltac:(lia)). lia. }
      rewrite coord_mid by lia. rewrite <- INR_IZR_INZ. split; [|lia].
      assert (1 / 2 <= INR j / INR (s - 1)) as Hhalf.
      { pose proof (half_small s ltac:(lia)) as Hh. fold j in Hh. unfold lin in Hh. lra. }
      pose proof (frac_strict s j ltac:(lia) ltac:(lia)). lra. }
    rewrite Ed. cbn [gs_corners]. rewrite (Int_part_unique d (Z.of_nat j)) by assumption.
    rewrite (Int_part_unique c 0) by (simpl; lra). cbn [rev app].
    change (0 + 1)%Z with 1%Z.
    replace (Z.of_nat j + 1)%Z with (Z.of_nat (j + 1)) by lia.
    change [Z.of_nat j; 0%Z] with (map Z.of_nat [j; 0%nat]).
    change [Z.of_nat j; 1%Z] with (map Z.of_nat [j; 1%nat]).
    change [Z.of_nat (j + 1); 0%Z] with (map Z.of_nat [(j + 1)%nat; 0%nat]).
    change [Z.of_nat (j + 1); 1%Z] with (map Z.of_nat [(j + 1)%nat; 1%nat]).
    rewrite !gs_read_nat by (repeat apply valid_cons; try lia; apply valid_nil).
    change (mkT [s; s] (data (build [s; s] f))) with (build [s; s] f).
    rewrite !at_build by (repeat apply valid_cons; try lia; apply valid_nil).
    unfold f. cbn [nth Nat.eqb]. rewrite !Nat2Z.inj_add, !plus_IZR. simpl (IZR (Z.of_nat 1)). nra.
Qed.

(** *** The spatial stage of separable kernels alone *)
Section SpatialStage.
  Context {G P : Type} {D : Dflt P} (k : gkernel G P).
  Definition spatial_stage (weight : tensor R) (out_H : list G) : result (tensor R) :=
    smp <- op_sample_Rn (k_ops k) ;;
    w <- grid_sample smp (repeat_interleave0 (List.length out_H) weight) (repeat0 (k_out k) (product_Rn k out_H)) ;;
    w <- view (k_out k :: List.length out_H :: 1%nat :: k_size k) w ;;
    w <- apply_mask (k_mask k) w ;;
    apply_det (op_det (k_ops k)) out_H (List.length (k_size k)) w.
  Lemma separable_split weight_H weight in_H out_H :
    separable_kernel_forward k weight_H weight in_H out_H =
    (wh <- sample_group k weight_H in_H out_H ;;
     wh <- view (List.length in_H :: List.length out_H :: k_cin k :: k_out k :: repeat 1%nat (List.length (k_size k))) wh ;;
     w <- spatial_stage weight out_H ;;
     Ok (transpose 1 3 (transpose 0 3 wh), w)).
  Proof.
    unfold separable_kernel_forward, spatial_stage.
    destruct (sample_group k weight_H in_H out_H); [|reflexivity]. cbn [bind].
    destruct (view _ a); [|reflexivity]. cbn [bind].
    destruct (op_sample_Rn (k_ops k)); [|reflexivity]. cbn [bind].
    destruct (grid_sample _ _ _); [|reflexivity]. cbn [bind].
    destruct (view _ _); [|reflexivity]. cbn [bind].
    destruct (apply_mask _ _); [|reflexivity]. cbn [bind].
    destruct (apply_det _ _ _ _); reflexivity.
  Qed.
  Context (inv : G -> G) (mul : G -> G -> G) (act : G -> P -> P) (det : option (G -> R)).
  Hypothesis Hops : gops_ok (k_ops k) inv mul act det.
  Hypothesis Hgrid : has_shape (k_grid_Rn k) (k_size k).
  Hypothesis Hmask : mask_ok (k_mask k) (k_size k).
  Hypothesis Hks : prodn (k_size k) <> 0%nat.
  Lemma spatial_stage_ok smp weight out_H :
    op_sample_Rn (k_ops k) = Ok smp -> has_shape weight (separable_weight_shape k) ->
    exists W, spatial_stage weight out_H = Ok W.
  Proof.
    intros Hsmp Hw. unfold spatial_stage. rewrite Hsmp. cbn [bind].
    destruct (spatial_spec k inv mul act det Hops Hgrid Hks smp weight 1 out_H Hw) as (v & Ev & Hshv & Av).
    rewrite Ev. cbn [bind].
    destruct (has_shape_view v _ (k_out k :: List.length out_H :: 1%nat :: k_size k) Hshv) as [Ev1 Hv1].
    { rewrite !prodn_cons. lia. }
    rewrite Ev1. cbn [bind].
    destruct (apply_mask_spec (k_mask k) (k_size k) [k_out k; List.length out_H; 1%nat] _ Hmask Hv1) as (v2 & E2 & H2 & A2).
    rewrite E2. cbn [bind].
    destruct (apply_det_spec (op_det (k_ops k)) det out_H (List.length (k_size k)) (k_out k) (1%nat :: k_size k) v2) as (v3 & E3 & _).
    { apply (ok_det _ _ _ _ _ Hops). } { reflexivity. } { exact H2. }
    exists v3. assumption.
  Qed.
  (** Moving in_H and out_H by the same element keeps the group weights. *)
  Lemma separable_moved smp g weight_H weight in_H out_H WH W :
    (forall a b, In a out_H -> In b in_H -> mul (inv (mul g a)) (mul g b) = mul (inv a) b) ->
    op_sample_Rn (k_ops k) = Ok smp -> has_shape weight (separable_weight_shape k) ->
    separable_kernel_forward k weight_H weight in_H out_H = Ok (WH, W) ->
    exists W', separable_kernel_forward k weight_H weight (map (mul g) in_H) (map (mul g) out_H) = Ok (WH, W').
  Proof.
    intros Hrel Hsmp Hw H. rewrite separable_split in *.
    rewrite (sample_group_relatives k inv mul act det weight_H (map (mul g) in_H) (map (mul g) out_H) in_H out_H Hops)
      by (apply relatives_moved; assumption).
    destruct (sample_group k weight_H in_H out_H) as [w0|]; [|discriminate]. cbn [bind] in *.
    rewrite !map_length. destruct (view _ w0) as [w1|]; [|discriminate]. cbn [bind] in *.
    destruct (spatial_stage weight out_H) as [w2|]; [|discriminate]. cbn [bind] in H. injection H as <- <-.
    destruct (spatial_stage_ok smp weight (map (mul g) out_H) Hsmp Hw) as (W' & ->). exists W'. reflexivity.
  Qed.
  Lemma subgroup_moved g weight in_H out_H :
    (forall a b, In a out_H -> In b in_H -> mul (inv (mul g a)) (mul g b) = mul (inv a) b) ->
    subgroup_kernel_forward k weight (map (mul g) in_H) (map (mul g) out_H) = subgroup_kernel_forward k weight in_H out_H.
  Proof.
    intros Hrel. unfold subgroup_kernel_forward.
    rewrite (sample_group_relatives k inv mul act det weight (map (mul g) in_H) (map (mul g) out_H) in_H out_H Hops)
      by (apply relatives_moved; assumption).
    rewrite !map_length. reflexivity.
  Qed.
End SpatialStage.

(** matrices: the relative element needs g to be orthogonal. *)
Lemma mul3_relative g a b : mul3 (tr3 g) g = I3 ->
  mul3 (so3_matrix_inverse (mul3 g a)) (mul3 g b) = mul3 (so3_matrix_inverse a) b.
Proof.
  intros H. unfold so3_matrix_inverse.
  assert (mul3 (tr3 (mul3 g a)) (mul3 g b) = mul3 (tr3 a) (mul3 (mul3 (tr3 g) g) b)) as ->.
  { destruct g, a, b. unfold mul3, tr3. cbn. mext; ring. }
  rewrite H. f_equal. destruct b; unfold mul3, I3; cbn; mext; ring.
Qed.
Lemma o3_relative g a b : (o3c g = 1 \/ o3c g = -1) -> mul3 (tr3 (o3r g)) (o3r g) = I3 ->
  o3_left_apply_O3 (o3_inverse (o3_left_apply_O3 g a)) (o3_left_apply_O3 g b) = o3_left_apply_O3 (o3_inverse a) b.
Proof.
  intros Hc H. unfold o3_left_apply_O3, o3_inverse. cbn [o3c o3r]. f_equal.
  - destruct Hc as [-> | ->]; ring.
  - apply mul3_relative. assumption.
Qed.

(** *** Inversion: what must have succeeded when a forward returns *)
Section Inversion.
  Context {G P : Type} {D : Dflt P} (k : gkernel G P).
  Context (inv : G -> G) (mul : G -> G -> G) (act : G -> P -> P) (det : option (G -> R)).
  Hypothesis Hops : gops_ok (k_ops k) inv mul act det.

  Lemma sample_group_inv rest weight in_H out_H w :
    has_shape weight (k_gdim k :: rest) -> sample_group k weight in_H out_H = Ok w ->
    k_gdim k <> 0%nat /\ exists rows, op_sample_H (k_ops k) (prodn rest) (relatives inv mul in_H out_H)
      (param_rows (k_gdim k) rest weight) (k_grid_H k) = Ok rows.
  Proof.
    intros Hw H. unfold sample_group in H.
    assert (k_gdim k <> 0%nat) as Hd.
    { intros E. unfold view_trail in H. rewrite E in H. simpl in H. discriminate. }
    split; [assumption|].
    rewrite (view_trail_ok (k_gdim k) (prodn rest)) in H by (try assumption; destruct Hw as [-> _]; apply prodn_cons).
    cbn [bind shape nth] in H. rewrite (to_rows_param weight (k_gdim k) rest Hw) in H.
    rewrite (ok_inverse _ _ _ _ _ Hops), (ok_apply_H _ _ _ _ _ Hops), map_map in H.
    change (concat (map (fun x => map (mul (inv x)) in_H) out_H)) with (relatives inv mul in_H out_H) in H.
    destruct (op_sample_H _ _ _ _ _) as [rows|]; [|discriminate]. exists rows. reflexivity.
  Qed.
  Lemma full_inv weight in_H out_H W :
    has_shape weight (full_weight_shape k) -> full_kernel_forward k weight in_H out_H = Ok W ->
    k_gdim k <> 0%nat /\ exists smp rows, op_sample_Rn (k_ops k) = Ok smp /\
      op_sample_H (k_ops k) (prodn (k_out k :: k_cin k :: k_size k)) (relatives inv mul in_H out_H)
        (param_rows (k_gdim k) (k_out k :: k_cin k :: k_size k) weight) (k_grid_H k) = Ok rows.
  Proof.
    intros Hw H. unfold full_kernel_forward in H.
    destruct (sample_group k weight in_H out_H) as [w|] eqn:E; [|discriminate]. cbn [bind] in H.
    destruct (view _ w); [|discriminate]. cbn [bind] in H.
    destruct (op_sample_Rn (k_ops k)) as [smp|]; [|discriminate].
    destruct (sample_group_inv _ weight in_H out_H w Hw E) as (Hd & rows & Hr).
    split; [assumption|]. exists smp, rows. auto.
  Qed.
  Lemma separable_inv weight_H weight in_H out_H W :
    has_shape weight_H (group_weight_shape k) -> separable_kernel_forward k weight_H weight in_H out_H = Ok W ->
    k_gdim k <> 0%nat /\ exists smp rows, op_sample_Rn (k_ops k) = Ok smp /\
      op_sample_H (k_ops k) (prodn [k_out k; k_cin k]) (relatives inv mul in_H out_H)
        (param_rows (k_gdim k) [k_out k; k_cin k] weight_H) (k_grid_H k) = Ok rows.
  Proof.
    intros Hw H. rewrite separable_split in H.
    destruct (sample_group k weight_H in_H out_H) as [w|] eqn:E; [|discriminate]. cbn [bind] in H.
    destruct (view _ w); [|discriminate]. cbn [bind] in H. unfold spatial_stage in H.
    destruct (op_sample_Rn (k_ops k)) as [smp|]; [|discriminate].
    destruct (sample_group_inv _ weight_H in_H out_H w Hw E) as (Hd & rows & Hr).
    split; [assumption|]. exists smp, rows. auto.
  Qed.
  Lemma subgroup_inv weight in_H out_H W :
    has_shape weight (group_weight_shape k) -> subgroup_kernel_forward k weight in_H out_H = Ok W ->
    k_gdim k <> 0%nat /\ exists rows,
      op_sample_H (k_ops k) (prodn [k_out k; k_cin k]) (relatives inv mul in_H out_H)
        (param_rows (k_gdim k) [k_out k; k_cin k] weight) (k_grid_H k) = Ok rows.
  Proof.
    intros Hw H. unfold subgroup_kernel_forward in H.
    destruct (sample_group k weight in_H out_H) as [w|] eqn:E; [|discriminate].
    apply (sample_group_inv _ weight in_H out_H w Hw E).
  Qed.
End Inversion.

(** nearest group sampling always answers on a non-empty grid. *)
Lemma so2_nearest_total T (HT : torch_ok T) w S q sig grid : grid <> [] -> List.length sig = List.length grid ->
  exists rows, so2_grid_sample T "nearest" w S q sig grid = Ok rows.
Proof.
  intros Hg Hl. unfold so2_grid_sample. simpl.
  destruct (NN_spec T HT (fun a b => so2_geodesic_distance a b so2_eps) q grid sig Hg Hl) as (out & H & _). eauto.
Qed.
Lemma so3_nearest_total T (HT : torch_ok T) w S q sig grid : grid <> [] -> List.length sig = List.length grid ->
  exists rows, so3_grid_sample_matrix T "nearest" w S q sig grid = Ok rows.
Proof.
  intros Hg Hl. unfold so3_grid_sample_matrix, so3_grid_sample. simpl.
  destruct (NN_spec T HT (fun a b => so3_geodesic_distance a b so3_eps) (map so3_matrix_to_quat q) (map so3_matrix_to_quat grid) sig) as (out & H & _); eauto.
  - destruct grid; [congruence|discriminate].
  - rewrite map_length. assumption.
Qed.

(** *** channel relabelling *)
Lemma relabel_exists out cin o c : (o < out)%nat -> (c < cin)%nat ->
  exists o' c', (o' < out)%nat /\ (c' < cin)%nat /\ (o' * cin + c' = c * out + o)%nat.
Proof.
  intros Ho Hc. exists ((c * out + o) / cin)%nat, ((c * out + o) mod cin)%nat.
  split; [|split].
  - apply Nat.div_lt_upper_bound; [lia|]. nia.
  - apply Nat.mod_upper_bound. lia.
  - pose proof (Nat.div_mod (c * out + o) cin ltac:(lia)). lia.
Qed.
Lemma relabel_identity out cin : (0 < out)%nat -> (0 < cin)%nat ->
  (forall o c, (o < out)%nat -> (c < cin)%nat -> (o * cin + c = c * out + o)%nat) <-> (out = 1 \/ cin = 1)%nat.
Proof.
  intros Ho Hc. split.
  - intros H. destruct (Nat.eq_dec out 1); [auto|]. destruct (Nat.eq_dec cin 1); [auto|].
    specialize (H 0%nat 1%nat ltac:(lia) ltac:(lia)). lia.
  - intros [->| ->] o c H1 H2; [assert (o = 0)%nat by lia|assert (c = 0)%nat by lia]; subst; lia.
Qed.
