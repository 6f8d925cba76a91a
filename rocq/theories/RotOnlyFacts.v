(** Proofs for C101: E(n) layers on rotations are SE(n) layers. *)
From Coq Require Import String ZArith Lra.
From Verif Require Import Prelude RMath Mat Interp InterpFacts SO2 SO2Facts O2 O2Facts SO3 SO3Facts O3 O3Facts OSplit OSplitFacts Repulse Tensor TensorFacts
  Functional FunctionalFacts Kernel KernelFacts GroupKernelFacts KernelMore Conv Public LiveFacts RotOnlySpec.
Open Scope R_scope.

Lemma apply_det_one {G} (d : G -> R) (H : list G) wd o rest w :
  List.length rest = S wd -> has_shape w (o :: List.length H :: rest) -> (forall h, In h H -> d h = 1) ->
  apply_det (Some (map d)) H wd w = Ok w.
Proof.
  intros Hl Hw H1.
  destruct (apply_det_spec (Some (map d)) (Some d) H wd o rest w) as (w' & E & S' & A); [intros K; reflexivity|assumption|assumption|].
  rewrite E. f_equal. apply (has_shape_ext w' w _ S' Hw). intros i V.
  destruct i as [|a [|b x]]; [inversion V|inversion V; subst; match goal with K : Forall2 _ [] _ |- _ => inversion K end|].
  inversion V as [|? ? ? ? Ha V']; subst. inversion V' as [|? ? ? ? Hb V'']; subst.
  destruct (nth_error H b) as [g|] eqn:Eg; [|apply nth_error_None in Eg; lia].
  rewrite (A a b g x Ha Eg V''). unfold detf. rewrite (H1 g) by (eapply nth_error_In; eassumption). field.
Qed.

(** ** Two kernels that differ in the names of the elements and a division by 1 *)
Section Sim.
  Context {G G' P : Type} {D : Dflt P} (k : gkernel G P) (k' : gkernel G' P) (f : G' -> G) (d : G -> R).
  Hypothesis Hout : k_out k = k_out k'.
  Hypothesis Hcin : k_cin k = k_cin k'.
  Hypothesis Hsize : k_size k = k_size k'.
  Hypothesis Hmask : k_mask k = k_mask k'.
  Hypothesis Hprod : forall H, product_Rn k (map f H) = product_Rn k' H.
  Hypothesis Hsmp : op_sample_Rn (k_ops k) = op_sample_Rn (k_ops k').
  Hypothesis Hdet : op_det (k_ops k) = Some (map d).
  Hypothesis Hdet' : op_det (k_ops k') = None.
  Hypothesis Hone : forall h, d (f h) = 1.

  Lemma all_one H h : In h (map f H) -> d h = 1.
  Proof using Hone. intros Hi. apply in_map_iff in Hi. destruct Hi as (x & <- & _). apply Hone. Qed.

  Lemma lifting_steps w H :
    lifting_kernel_forward k w (map f H) =
    (t <- lifting_kernel_forward k' w H ;; apply_det (Some (map d)) (map f H) (List.length (shape w) - 2) t).
  Proof using Hout Hcin Hsize Hmask Hprod Hsmp Hdet Hdet'.
    unfold lifting_kernel_forward. rewrite Hsmp, Hprod, Hout, Hcin, Hsize, Hmask, Hdet, Hdet', !map_length.
    destruct (op_sample_Rn (k_ops k')) as [smp|]; [|reflexivity]. cbn [bind].
    destruct (grid_sample smp _ _) as [t1|]; [|reflexivity]. cbn [bind].
    destruct (view _ t1) as [t2|]; [|reflexivity]. cbn [bind].
    destruct (apply_mask _ t2) as [t3|]; reflexivity.
  Qed.

  Lemma full_steps W W' in_H out_H s :
    sample_group k W (map f in_H) (map f out_H) = Ok s -> sample_group k' W' in_H out_H = Ok s ->
    full_kernel_forward k W (map f in_H) (map f out_H) =
    (t <- full_kernel_forward k' W' in_H out_H ;; apply_det (Some (map d)) (map f out_H) (List.length (shape W) - 2) t).
  Proof using Hout Hcin Hsize Hmask Hprod Hsmp Hdet Hdet'.
    intros E E'. unfold full_kernel_forward. rewrite E, E'. cbn [bind]. rewrite Hsmp, Hprod, Hout, Hcin, Hsize, Hmask, Hdet, Hdet', !map_length.
    destruct (view _ s) as [t0|]; [|reflexivity]. cbn [bind].
    destruct (op_sample_Rn (k_ops k')) as [smp|]; [|reflexivity]. cbn [bind].
    destruct (grid_sample smp _ _) as [t1|]; [|reflexivity]. cbn [bind].
    destruct (view _ t1) as [t2|]; [|reflexivity]. cbn [bind].
    destruct (apply_mask _ _) as [t3|]; reflexivity.
  Qed.

  Lemma spatial_steps w H :
    spatial_stage k w (map f H) =
    (t <- spatial_stage k' w H ;; apply_det (Some (map d)) (map f H) (List.length (k_size k')) t).
  Proof using Hout Hcin Hsize Hmask Hprod Hsmp Hdet Hdet'.
    unfold spatial_stage. rewrite Hsmp, Hprod, Hout, Hsize, Hmask, Hdet, Hdet', !map_length.
    destruct (op_sample_Rn (k_ops k')) as [smp|]; [|reflexivity]. cbn [bind].
    destruct (grid_sample smp _ _) as [t1|]; [|reflexivity]. cbn [bind].
    destruct (view _ t1) as [t2|]; [|reflexivity]. cbn [bind].
    destruct (apply_mask _ t2) as [t3|]; reflexivity.
  Qed.

  Context (inv : G' -> G') (mul : G' -> G' -> G') (act : G' -> P -> P).
  Hypothesis Hops : gops_ok (k_ops k') inv mul act None.
  Hypothesis Hgrid : has_shape (k_grid_Rn k') (k_size k').
  Hypothesis Hmk : mask_ok (k_mask k') (k_size k').
  Hypothesis Hks : prodn (k_size k') <> 0%nat.

  Lemma lifting_sim w H : has_shape w (lifting_weight_shape k') ->
    lifting_kernel_forward k w (map f H) = lifting_kernel_forward k' w H.
  Proof using All.
    intros Hw. rewrite lifting_steps. destruct (op_sample_Rn (k_ops k')) as [smp|e] eqn:Es.
    2:{ unfold lifting_kernel_forward. rewrite Es. reflexivity. }
    destruct (lifting_formula k' inv mul act None Hops Hgrid Hmk Hks smp w H Es Hw) as (t & E & S' & _).
    rewrite E. cbn [bind]. destruct Hw as [Hws _]. rewrite Hws. unfold lifting_weight_shape.
    apply (apply_det_one d (map f H) _ (k_out k') (k_cin k' :: k_size k')).
    - cbn [List.length]. lia.
    - rewrite map_length. exact S'.
    - apply all_one.
  Qed.

  Lemma full_sim W W' in_H out_H s V t :
    sample_group k W (map f in_H) (map f out_H) = Ok s -> sample_group k' W' in_H out_H = Ok s ->
    k_gdim k' <> 0%nat -> List.length (shape W) = List.length (full_weight_shape k') -> has_shape W' (full_weight_shape k') ->
    sampled k' inv mul (k_out k' :: k_cin k' :: k_size k') W' in_H out_H V ->
    full_kernel_forward k W (map f in_H) (map f out_H) = Ok t -> full_kernel_forward k' W' in_H out_H = Ok t.
  Proof using All.
    intros E E' Hd Hl Hw' Hs. rewrite (full_steps W W' in_H out_H s E E').
    destruct (op_sample_Rn (k_ops k')) as [smp|e] eqn:Es.
    2:{ unfold full_kernel_forward. rewrite E'. cbn [bind]. destruct (view _ s); [|discriminate]. cbn [bind]. rewrite Es. discriminate. }
    destruct (full_formula k' inv mul act None Hops Hgrid Hmk Hks Hd smp W' in_H out_H V Es Hw' Hs) as (t' & E2 & S' & _).
    rewrite E2. cbn [bind]. rewrite Hl.
    rewrite (apply_det_one d (map f out_H) _ (k_out k') (k_cin k' :: List.length in_H :: k_size k')); [auto| | |apply all_one].
    - unfold full_weight_shape. cbn [List.length]. lia.
    - rewrite map_length. exact S'.
  Qed.

  Lemma separable_sim WH WH' w in_H out_H s V t :
    sample_group k WH (map f in_H) (map f out_H) = Ok s -> sample_group k' WH' in_H out_H = Ok s ->
    k_gdim k' <> 0%nat -> has_shape WH' (group_weight_shape k') -> has_shape w (separable_weight_shape k') ->
    sampled k' inv mul [k_out k'; k_cin k'] WH' in_H out_H V ->
    separable_kernel_forward k WH w (map f in_H) (map f out_H) = Ok t -> separable_kernel_forward k' WH' w in_H out_H = Ok t.
  Proof using All.
    intros E E' Hd HwH Hw Hs. rewrite !separable_split, E, E'. cbn [bind]. rewrite Hout, Hcin, Hsize, !map_length.
    destruct (view _ s) as [v|] eqn:Ev; [|discriminate]. cbn [bind]. rewrite spatial_steps.
    destruct (op_sample_Rn (k_ops k')) as [smp|e] eqn:Es.
    2:{ unfold spatial_stage. rewrite Es. discriminate. }
    destruct (separable_formula k' inv mul act None Hops Hgrid Hmk Hks Hd smp WH' w in_H out_H V Es HwH Hw Hs) as (A & B & E2 & _ & S' & _).
    rewrite separable_split, E' in E2. cbn [bind] in E2. rewrite Ev in E2. cbn [bind] in E2.
    destruct (spatial_stage k' w out_H) as [b|]; [|discriminate]. cbn [bind] in *. injection E2 as E3 E4. subst b.
    rewrite (apply_det_one d (map f out_H) _ (k_out k') (1%nat :: k_size k')); [auto|reflexivity| |apply all_one].
    rewrite map_length. exact S'.
  Qed.
End Sim.

(** ** Sampling the rotation half *)
Lemma filter_all {A} (p : A -> bool) l : (forall x, In x l -> p x = true) -> filter p l = l.
Proof.
  induction l as [|x l IH]; intros H; [reflexivity|]. cbn [filter]. rewrite (H x (or_introl eq_refl)), IH; [reflexivity|].
  intros y Hy. apply H. right. exact Hy.
Qed.

Lemma split_rotations {E G Row} (coeff : E -> R) (part : E -> G) sr sf grid (signal : list Row) signal_grid n m out :
  rowwise sr -> rowwise sf -> (forall e, In e grid -> coeff e = 1) -> n <> 0%nat -> (n + m)%nat = List.length signal ->
  split_sample coeff part sr sf grid signal signal_grid n m = Ok out ->
  sr (map part grid) (firstn n signal) (map part (firstn n signal_grid)) = Ok out.
Proof.
  intros Rr Rf H1 Hn Hl H.
  assert (forall e, In e grid -> coeff e = 1 \/ coeff e = -1) as Hc by (intros; left; auto).
  pose proof (split_sample_rows coeff part sr sf Rr Rf grid signal signal_grid n m Hc Hl out H) as [Lo Ro].
  unfold split_sample in H. rewrite !take_idx_where in H. destruct (Nat.eqb_spec n 0) as [|_]; [contradiction|]. cbn [bind] in H.
  rewrite filter_all in H by (intros e He; rewrite (H1 e He); destruct (Req_EM_T 1 1); [reflexivity|lra]).
  destruct (sr (map part grid) (firstn n signal) (map part (firstn n signal_grid))) as [ro|] eqn:Er; [|discriminate].
  f_equal. destruct (Rr _ _ _ _ Er) as [Lr Rr']. rewrite map_length in Lr.
  apply nth_error_len_ext; [congruence|]. intros i x Hx.
  assert (exists e, nth_error grid i = Some e) as [e Ee].
  { destruct (nth_error grid i) eqn:Q'; [eauto|]. apply nth_error_None in Q'. apply nth_error_Some_lt in Hx. lia. }
  destruct (Ro i e Ee) as (row & E1 & [(_ & _ & E2)|(Hm & _)]); [|rewrite (H1 e) in Hm by (eapply nth_error_In; eassumption); lra].
  destruct (Rr' i (part e)) as (row' & E3 & E4); [rewrite nth_error_map, Ee; reflexivity|]. rewrite E4 in E2. injection E2 as <-. congruence.
Qed.

(** ** The group samplers *)
Lemma sample_group_eval {G P} {D : Dflt P} (k : gkernel G P) inv mul act det rest weight in_H out_H :
  gops_ok (k_ops k) inv mul act det -> k_gdim k <> 0%nat -> has_shape weight (k_gdim k :: rest) ->
  sample_group k weight in_H out_H =
  (rows <- op_sample_H (k_ops k) (prodn rest) (relatives inv mul in_H out_H) (param_rows (k_gdim k) rest weight) (k_grid_H k) ;;
   Ok (mkT [List.length rows; prodn rest] (concat rows))).
Proof.
  intros Hops Hd Hw. unfold sample_group.
  rewrite (view_trail_ok (k_gdim k) (prodn rest)) by (try assumption; destruct Hw as [-> _]; apply prodn_cons).
  cbn [bind shape nth]. rewrite (to_rows_param weight (k_gdim k) rest Hw).
  rewrite (ok_inverse _ _ _ _ _ Hops), (ok_apply_H _ _ _ _ _ Hops), map_map. reflexivity.
Qed.

Lemma firstn_param_rows n m rest W W' : first_slices n rest W W' ->
  firstn n (param_rows (n + m) rest W) = param_rows n rest W'.
Proof.
  intros [_ A]. unfold param_rows. rewrite firstn_map, seq_app, firstn_app, seq_length, Nat.sub_diag. cbn [firstn]. rewrite app_nil_r.
  rewrite firstn_all2 by (rewrite seq_length; lia). apply map_ext_in. intros j Hj. apply in_seq in Hj. apply map_ext_in. intros x Hx.
  symmetry. apply A; [lia|]. apply in_indices. exact Hx.
Qed.

Lemma relatives_as {G G'} (f : G' -> G) inv mul inv' mul' in_H out_H :
  (forall g h, mul (inv (f g)) (f h) = f (mul' (inv' g) h)) ->
  relatives inv mul (map f in_H) (map f out_H) = map f (relatives inv' mul' in_H out_H).
Proof.
  intros Hf. unfold relatives. rewrite concat_map, !map_map. f_equal. apply map_ext. intros g. rewrite !map_map. apply map_ext. intros h. apply Hf.
Qed.

Lemma as_o2_relative g h : o2_left_apply_angle (o2_inverse (as_o2 g)) (as_o2 h) = as_o2 (so2_left_apply_angle (so2_inverse_angle g) h).
Proof.
  unfold o2_left_apply_angle, o2_inverse, as_o2, so2_left_apply_angle, so2_inverse_angle. cbn [o2c o2a].
  f_equal; [ring|]. f_equal. ring.
Qed.
Lemma as_o3_relative g h : o3_left_apply_O3 (o3_inverse (as_o3 g)) (as_o3 h) = as_o3 (mul3 (so3_matrix_inverse g) h).
Proof. unfold o3_left_apply_O3, o3_inverse, as_o3, so3_matrix_inverse. cbn [o3c o3r]. f_equal. ring. Qed.

Lemma map_o2a_as l : map o2a (map as_o2 l) = l.
Proof. rewrite map_map. apply map_id. Qed.
Lemma map_o3r_as l : map o3r (map as_o3 l) = l.
Proof. rewrite map_map. apply map_id. Qed.

Lemma so3_width_nearest T w w' S q s g : so3_grid_sample_matrix T "nearest" w S q s g = so3_grid_sample_matrix T "nearest" w' S q s g.
Proof. reflexivity. Qed.

Section Samplers.
  Context (T : torch_env) (gmode : string) (n m : nat) (rest : list nat) (W W' : tensor R).
  Hypothesis Hn : n <> 0%nat.
  Hypothesis HW : has_shape W ((n + m)%nat :: rest).
  Hypothesis HW' : first_slices n rest W W'.

  Lemma sample_rot_E2 (kE : gkernel O2 V2) (kS : gkernel R V2) rw fw mode pm mode' pm' in_H out_H s :
    k_ops kE = ops_E2 T gmode rw fw n m mode pm -> k_ops kS = ops_SE2 T gmode rw mode' pm' ->
    k_gdim kE = (n + m)%nat -> k_gdim kS = n -> firstn n (k_grid_H kE) = map as_o2 (k_grid_H kS) ->
    sample_group kE W (map as_o2 in_H) (map as_o2 out_H) = Ok s ->
    sample_group kS W' in_H out_H = Ok s /\ exists V, sampled kS so2_inverse_angle so2_left_apply_angle rest W' in_H out_H V.
  Proof using Hn HW HW'.
    intros OE OS DE DS Hg H.
    rewrite (sample_group_eval kE o2_inverse o2_left_apply_angle act1_E2 (Some o2_det) rest) in H;
      [|rewrite OE; apply gops_ok_E2|lia|rewrite DE; exact HW].
    rewrite (sample_group_eval kS so2_inverse_angle so2_left_apply_angle act1_SE2 None rest);
      [|rewrite OS; apply gops_ok_SE2|lia|rewrite DS; exact (proj1 HW')].
    rewrite (relatives_as as_o2 _ _ so2_inverse_angle so2_left_apply_angle in_H out_H as_o2_relative), DE in H.
    destruct (op_sample_H (k_ops kE) _ _ _ _) as [rows|] eqn:E; [|discriminate]. cbn [bind] in H.
    rewrite OE in E. cbn [op_sample_H ops_E2] in E. unfold o2_grid_sample in E.
    apply split_rotations in E; try apply so2_grid_sample_rowwise; try assumption;
      [|intros e He; apply in_map_iff in He; destruct He as (x & <- & _); reflexivity|rewrite param_rows_count; reflexivity].
    rewrite (firstn_param_rows n m rest W W' HW'), Hg, !map_o2a_as in E.
    assert (op_sample_H (k_ops kS) (prodn rest) (relatives so2_inverse_angle so2_left_apply_angle in_H out_H)
              (param_rows (k_gdim kS) rest W') (k_grid_H kS) = Ok rows) as E'.
    { rewrite OS, DS. cbn [op_sample_H ops_SE2]. exact E. }
    rewrite E'. split; [exact H|]. rewrite OS in E'. cbn [op_sample_H ops_SE2] in E'.
    eexists. exact (sampled_SE2 kS T gmode rw mode' pm' rest W' in_H out_H rows OS E').
  Qed.

  Lemma sample_rot_E3 (kE : gkernel O3 V3) (kS : gkernel M3 V3) rw fw w mode pm mode' pm' in_H out_H s :
    k_ops kE = ops_E3 T gmode rw fw n m mode pm -> k_ops kS = ops_SE3 T gmode w mode' pm' -> gmode = "nearest"%string \/ w = rw ->
    k_gdim kE = (n + m)%nat -> k_gdim kS = n -> firstn n (k_grid_H kE) = map as_o3 (k_grid_H kS) ->
    sample_group kE W (map as_o3 in_H) (map as_o3 out_H) = Ok s ->
    sample_group kS W' in_H out_H = Ok s /\ exists V, sampled kS so3_matrix_inverse mul3 rest W' in_H out_H V.
  Proof using Hn HW HW'.
    intros OE OS Hwid DE DS Hg H.
    rewrite (sample_group_eval kE o3_inverse o3_left_apply_O3 act1_E3 (Some o3_det) rest) in H;
      [|rewrite OE; apply gops_ok_E3|lia|rewrite DE; exact HW].
    rewrite (sample_group_eval kS so3_matrix_inverse mul3 act1_SE3 None rest);
      [|rewrite OS; apply gops_ok_SE3|lia|rewrite DS; exact (proj1 HW')].
    rewrite (relatives_as as_o3 _ _ so3_matrix_inverse mul3 in_H out_H as_o3_relative), DE in H.
    destruct (op_sample_H (k_ops kE) _ _ _ _) as [rows|] eqn:E; [|discriminate]. cbn [bind] in H.
    rewrite OE in E. cbn [op_sample_H ops_E3] in E. unfold o3_grid_sample in E.
    apply split_rotations in E; try apply so3_sample_rowwise; try assumption;
      [|intros e He; apply in_map_iff in He; destruct He as (x & <- & _); reflexivity|rewrite param_rows_count; reflexivity].
    rewrite (firstn_param_rows n m rest W W' HW'), Hg, !map_o3r_as in E.
    assert (op_sample_H (k_ops kS) (prodn rest) (relatives so3_matrix_inverse mul3 in_H out_H)
              (param_rows (k_gdim kS) rest W') (k_grid_H kS) = Ok rows) as E'.
    { rewrite OS, DS. cbn [op_sample_H ops_SE3]. destruct Hwid as [Hq| ->]; [|exact E].
      rewrite Hq in *. rewrite (so3_width_nearest T w rw). exact E. }
    rewrite E'. split; [exact H|]. rewrite OS in E'. cbn [op_sample_H ops_SE3] in E'.
    eexists. exact (sampled_SE3 kS T gmode w mode' pm' rest W' in_H out_H rows OS E').
  Qed.
End Samplers.

(** ** The moved spatial grids *)
Lemma product_rot_2 (kE : gkernel O2 V2) (kS : gkernel R V2) T gmode rw fw n m mode pm T' gmode' w' mode' pm' :
  k_ops kE = ops_E2 T gmode rw fw n m mode pm -> k_ops kS = ops_SE2 T' gmode' w' mode' pm' -> k_grid_Rn kE = k_grid_Rn kS ->
  forall H, product_Rn kE (map as_o2 H) = product_Rn kS H.
Proof.
  intros OE OS Hg H. unfold product_Rn. rewrite Hg, map_length. f_equal. f_equal.
  rewrite (ok_apply_Rn _ _ _ _ _ (eq_rect_r (fun o => gops_ok o _ _ _ _) (gops_ok_E2 T gmode rw fw n m mode pm) OE)).
  rewrite (ok_apply_Rn _ _ _ _ _ (eq_rect_r (fun o => gops_ok o _ _ _ _) (gops_ok_SE2 T' gmode' w' mode' pm') OS)).
  rewrite OE, OS. cbn [op_inverse ops_E2 ops_SE2]. rewrite !map_map. apply map_ext. intros a. apply map_ext. intros v.
  unfold act1_E2, act1_SE2, o2_inverse, as_o2, so2_inverse_angle. cbn [o2c o2a]. replace (a * -1) with (- a) by ring.
  unfold scalv2. destruct (app2 _ v) as [p q]. cbn [v2x v2y]. f_equal; ring.
Qed.
Lemma product_rot_3 (kE : gkernel O3 V3) (kS : gkernel M3 V3) T gmode rw fw n m mode pm T' gmode' w' mode' pm' :
  k_ops kE = ops_E3 T gmode rw fw n m mode pm -> k_ops kS = ops_SE3 T' gmode' w' mode' pm' -> k_grid_Rn kE = k_grid_Rn kS ->
  forall H, product_Rn kE (map as_o3 H) = product_Rn kS H.
Proof.
  intros OE OS Hg H. unfold product_Rn. rewrite Hg, map_length. f_equal. f_equal.
  rewrite (ok_apply_Rn _ _ _ _ _ (eq_rect_r (fun o => gops_ok o _ _ _ _) (gops_ok_E3 T gmode rw fw n m mode pm) OE)).
  rewrite (ok_apply_Rn _ _ _ _ _ (eq_rect_r (fun o => gops_ok o _ _ _ _) (gops_ok_SE3 T' gmode' w' mode' pm') OS)).
  rewrite OE, OS. cbn [op_inverse ops_E3 ops_SE3]. rewrite !map_map. apply map_ext. intros a. apply map_ext. intros v.
  unfold act1_E3, act1_SE3, o3_inverse, as_o3, so3_matrix_inverse. cbn [o3c o3r].
  unfold scalv3. destruct (app3 _ v) as [p q s]. cbn [vx vy vz]. f_equal; ring.
Qed.

(** ** Layers *)
Definition same_conv {G G' P} (L : gconv G P) (L' : gconv G' P) : Prop :=
  l_in L = l_in L' /\ l_out L = l_out L' /\ l_ks L = l_ks L' /\ l_groups L = l_groups L' /\ l_stride L = l_stride L' /\
  l_padding L = l_padding L' /\ l_dil L = l_dil L' /\ l_mode L = l_mode L' /\ l_rev L = l_rev L' /\ l_bias L = l_bias L'.

Lemma init_same {G G' P} md cin cout ks gks gks' (k : gkernel G P) (k' : gkernel G' P) groups st p dil pm bias L L' :
  gconv_init md cin cout ks gks k groups st p dil pm bias = Ok L ->
  gconv_init md cin cout ks gks' k' groups st p dil pm bias = Ok L' -> k_size k = k_size k' ->
  same_conv L L' /\ l_kernel L = k /\ l_kernel L' = k' /\ l_in L' = cin /\ l_out L' = cout /\ l_groups L' = Z.to_nat groups.
Proof.
  unfold gconv_init. destruct (check_config gks _ _ _ _ _ _); [|discriminate]. destruct (check_config gks' _ _ _ _ _ _); [|discriminate]. cbn [bind].
  intros H H' Hk. destruct (if String.eqb md "2d" then _ else _) as [dd|]; [|discriminate]. cbn [bind] in *.
  injection H as <-. injection H' as <-. unfold same_conv. cbn [l_kernel l_in l_out l_ks l_groups l_stride l_padding l_dil l_mode l_rev l_bias].
  rewrite Hk. repeat split.
Qed.

Section LayerSim.
  Context {G G' P : Type} {D : Dflt P} (f : G' -> G) (L : gconv G P) (L' : gconv G' P).
  Hypothesis HL : same_conv L L'.

  Lemma conv_same x w g : conv_forward L x w g = conv_forward L' x w g.
  Proof using HL.
    destruct HL as (H1 & H2 & H3 & H4 & H5 & H6 & H7 & H8 & H9 & H10).
    unfold conv_forward, conv_batched. rewrite H5, H6, H7, H8, H9. reflexivity.
  Qed.
  Lemma bias_same x : add_bias L x = add_bias L' x.
  Proof using HL. destruct HL as (H1 & H2 & H3 & H4 & H5 & H6 & H7 & H8 & H9 & H10). unfold add_bias. rewrite H10. reflexivity. Qed.

  Lemma lifting_layer_sim w X H :
    lifting_kernel_forward (l_kernel L) w (map f H) = lifting_kernel_forward (l_kernel L') w H ->
    lifting_forward L w X (map f H) = renamed f (lifting_forward L' w X H).
  Proof using HL.
    intros E. unfold lifting_forward. rewrite E. destruct HL as (H1 & H2 & H3 & H4 & _). rewrite H1, H2, H3, H4, map_length.
    destruct (lifting_kernel_forward (l_kernel L') w H) as [t|]; [|reflexivity]. cbn [bind].
    destruct (view_lead _ t) as [t1|]; [|reflexivity]. cbn [bind]. rewrite conv_same.
    destruct (conv_forward L' _ _ _) as [t2|]; [|reflexivity]. cbn [bind].
    destruct (view _ t2) as [t3|]; [|reflexivity]. cbn [bind]. rewrite bias_same.
    destruct (add_bias L' t3) as [t4|]; reflexivity.
  Qed.

  Lemma group_layer_sim kf kf' X in_H out_H Y HH :
    (forall t, kf (map f in_H) (map f out_H) = Ok t -> kf' in_H out_H = Ok t) ->
    group_forward_with L kf X (map f in_H) (map f out_H) = Ok (Y, HH) ->
    HH = map f out_H /\ group_forward_with L' kf' X in_H out_H = Ok (Y, out_H).
  Proof using HL.
    intros E. unfold group_forward_with. destruct (shape X) as [|N [|c [|h dims]]]; try discriminate.
    rewrite !map_length. destruct HL as (H1 & H2 & H3 & H4 & _). rewrite H1, H2, H3, H4.
    destruct (kf (map f in_H) (map f out_H)) as [t|]; [|discriminate]. rewrite (E t eq_refl). cbn [bind].
    destruct (view _ X) as [t1|]; [|discriminate]. cbn [bind]. destruct (view _ t) as [t2|]; [|discriminate]. cbn [bind]. rewrite conv_same.
    destruct (conv_forward L' _ _ _) as [t3|]; [|discriminate]. cbn [bind].
    destruct (view _ t3) as [t4|]; [|discriminate]. cbn [bind]. rewrite bias_same.
    destruct (add_bias L' t4) as [t5|]; [|discriminate]. cbn [bind]. intros E'. injection E' as <- <-. auto.
  Qed.

  Lemma separable_layer_sim WH WH' w X in_H out_H Y HH :
    (forall t, separable_kernel_forward (l_kernel L) WH w (map f in_H) (map f out_H) = Ok t ->
       separable_kernel_forward (l_kernel L') WH' w in_H out_H = Ok t) ->
    separable_forward L WH w X (map f in_H) (map f out_H) = Ok (Y, HH) ->
    HH = map f out_H /\ separable_forward L' WH' w X in_H out_H = Ok (Y, out_H).
  Proof using HL.
    intros E. unfold separable_forward. destruct (shape X) as [|N [|c [|h dims]]]; try discriminate.
    rewrite !map_length. destruct HL as (H1 & H2 & H3 & H4 & _). rewrite H1, H2, H3, H4.
    destruct (separable_kernel_forward (l_kernel L) WH w (map f in_H) (map f out_H)) as [t|]; [|discriminate]. rewrite (E t eq_refl). cbn [bind].
    destruct (view _ X) as [t1|]; [|discriminate]. cbn [bind]. destruct (view _ (fst t)) as [t2|]; [|discriminate]. cbn [bind]. rewrite conv_same.
    destruct (conv_forward L' _ _ _) as [t3|]; [|discriminate]. cbn [bind].
    destruct (view _ (snd t)) as [t4|]; [|discriminate]. cbn [bind]. rewrite conv_same.
    destruct (conv_forward L' _ _ _) as [t5|]; [|discriminate]. cbn [bind].
    destruct (view _ t5) as [t6|]; [|discriminate]. cbn [bind]. rewrite bias_same.
    destruct (add_bias L' t6) as [t7|]; [|discriminate]. cbn [bind]. intros E'. injection E' as <- <-. auto.
  Qed.
End LayerSim.
