(** Concrete layers: a checkpoint loaded into a layer with another construction grid (used by Prop_Checkpoint.v). *)
From Coq Require Import String ZArith.
From Verif Require Import Prelude RMath Mat Interp InterpFacts InterpExample SO3 SO3Facts SO3More Repulse GridTables GridCache GridCacheFacts
  Tensor TensorFacts Functional FunctionalFacts Kernel KernelFacts GroupKernelFacts KernelMore Conv ConvSpec ConvInit PublicFacts Public Checkpoint CheckpointFacts
  Prop_Kernel Prop_Conv.
Open Scope R_scope.

(** ** distances between rotation matrices *)
Definition mdist (a b : M3) : R := so3_geodesic_distance (so3_matrix_to_quat a) (so3_matrix_to_quat b) so3_eps.
Lemma qdot_trace p q : unitq p -> unitq q ->
  4 * (qdot p q * qdot p q) = 1 + trace3 (mul3 (tr3 (so3_quat_to_matrix p)) (so3_quat_to_matrix q)).
Proof.
  destruct p as [w x y z], q as [w' x' y' z']. unfold unitq, qdot, so3_quat_to_matrix, trace3, mul3, tr3. cbn.
  intros H H'.
  assert (E : (w * w + x * x + y * y + z * z) * (w' * w' + x' * x' + y' * y' + z' * z') = 1) by (rewrite H, H'; ring).
  rewrite <- E. ring.
Qed.
Lemma mdist_of a b c : isSO3 a -> isSO3 b -> 0 <= c <= 1 - so3_eps -> 1 + trace3 (mul3 (tr3 a) b) = 4 * (c * c) -> mdist a b = acos c.
Proof.
  intros Ha Hb Hc Ht. unfold mdist, so3_geodesic_distance.
  pose proof (qdot_trace _ _ (m2q_unit a Ha) (m2q_unit b Hb)) as Q. rewrite (m2q_right_inv a Ha), (m2q_right_inv b Hb), Ht in Q.
  assert (Rabs (qdot (so3_matrix_to_quat a) (so3_matrix_to_quat b)) = c) as ->.
  { rewrite <- (Rabs_pos_eq c) by lra. apply Rsqr_eq_abs_0. unfold Rsqr. lra. }
  f_equal. unfold clamp. assert (0 < so3_eps < 1) by (unfold so3_eps; lra).
  rewrite Rmax_left by lra. apply Rmin_left. lra.
Qed.

Definition mB : M3 := mkM3 0 0 1 1 0 0 0 1 0.          (* cycles the axes *)
Definition mX : M3 := mkM3 1 0 0 0 (-1) 0 0 0 (-1).    (* half turn about the first axis *)
Definition mQ : M3 := mkM3 0 (-1) 0 (-1) 0 0 0 0 (-1). (* half turn about (1, -1, 0) *)
Lemma mI_SO3 : isSO3 I3. Proof. split; [split; apply M3_ext; unfold I3; cbn; ring|unfold det3, I3, mB, mX, mQ; cbn; ring]. Qed.
Lemma mB_SO3 : isSO3 mB. Proof. split; [split; apply M3_ext; unfold mB, I3; cbn; ring|unfold det3, I3, mB, mX, mQ; cbn; ring]. Qed.
Lemma mX_SO3 : isSO3 mX. Proof. split; [split; apply M3_ext; unfold mX, I3; cbn; ring|unfold det3, I3, mB, mX, mQ; cbn; ring]. Qed.
Lemma mQ_SO3 : isSO3 mQ. Proof. split; [split; apply M3_ext; unfold mQ, I3; cbn; ring|unfold det3, I3, mB, mX, mQ; cbn; ring]. Qed.
Lemma eps_small : 0 < so3_eps < 1 / 10. Proof. unfold so3_eps. lra. Qed.

Definition dlt : R := acos (1 - so3_eps).
Lemma dist_self a : isSO3 a -> mdist a a = dlt.
Proof. intros H. unfold mdist. pose proof eps_small. apply geo_self; [apply m2q_unit; exact H|lra]. Qed.
Lemma dist_IB : mdist I3 mB = PI / 3 /\ mdist mB I3 = PI / 3.
Proof.
  pose proof eps_small as E. replace (PI / 3) with (acos (1 / 2)).
  - split; apply mdist_of; try apply mI_SO3; try apply mB_SO3; try lra; unfold mB, I3, trace3, mul3, tr3; cbn; lra.
  - rewrite <- cos_PI3. apply acos_cos. pose proof PI_RGT_0. lra.
Qed.
Lemma dist_IX : mdist I3 mX = PI / 2 /\ mdist mX I3 = PI / 2.
Proof.
  pose proof eps_small as E. rewrite <- acos_0. split; apply mdist_of; try apply mI_SO3; try apply mX_SO3; try lra; unfold mX, I3, trace3, mul3, tr3; cbn; lra.
Qed.
Lemma dist_Q : mdist mQ I3 = PI / 2 /\ mdist mQ mB = PI / 2.
Proof.
  pose proof eps_small as E. rewrite <- acos_0. split; apply mdist_of; try apply mI_SO3; try apply mB_SO3; try apply mQ_SO3; try lra; unfold mB, mQ, I3, trace3, mul3, tr3; cbn; lra.
Qed.
Lemma dlt_bounds : 0 < dlt < PI / 3.
Proof.
  pose proof eps_small as E. unfold dlt. split.
  - rewrite <- acos_1. apply acos_decr_lt; lra.
  - replace (PI / 3) with (acos (1 / 2)) by (rewrite <- cos_PI3; apply acos_cos; pose proof PI_RGT_0; lra). apply acos_decr_lt; lra.
Qed.

(** ** bandwidths *)
Lemma width_pair b d : mdist I3 b = d -> mdist b I3 = d -> isSO3 b -> dlt < d -> width_SE3 0 [I3; b] = Ok (8 / 10 * d).
Proof.
  intros H1 H2 Hb Hd. unfold width_SE3. rewrite default_width_zero. unfold so3_nearest_neighbour_distance_matrix, so3_nearest_neighbour_distance.
  pose proof (dist_self I3 mI_SO3) as S1. pose proof (dist_self b Hb) as S2. unfold mdist in *.
  cbn [map List.length Nat.ltb Nat.leb mapM]. rewrite H1, H2, S1, S2. unfold sortR. cbn [fold_right insertR].
  destruct (Rle_dec dlt d) as [_|N]; [|lra]. destruct (Rle_dec d dlt) as [N|_]; [lra|].
  cbn [nth_error of_option bind]. f_equal. unfold meanR. cbn. field.
Qed.
Definition wB : R := 8 / 10 * (PI / 3).
Definition wX : R := 8 / 10 * (PI / 2).
Lemma width_B : width_SE3 0 [I3; mB] = Ok wB.
Proof. pose proof dlt_bounds. apply width_pair; try apply dist_IB; [apply mB_SO3|lra]. Qed.
Lemma width_X : width_SE3 0 [I3; mX] = Ok wX.
Proof. pose proof dlt_bounds. apply width_pair; try apply dist_IX; [apply mX_SO3|pose proof PI_RGT_0; lra]. Qed.
Lemma widths_differ : 0 < wB < wX. Proof. unfold wB, wX. pose proof PI_RGT_0. lra. Qed.

(** ** the interpolated value *)
Lemma pair_nonsingular a b : 0 < b < a -> nonsingular 2 [[a; b]; [b; a]].
Proof.
  intros Hr. split.
  - split; [reflexivity|]. intros q [<-|[<-|[]]]; reflexivity.
  - intros s r [Hb Hb']. destruct r as [|b1 [|b2 [|]]]; try discriminate.
    assert (L1 : List.length b1 = s) by (apply Hb'; left; reflexivity).
    assert (L2 : List.length b2 = s) by (apply Hb'; right; left; reflexivity).
    set (d := a * a - b * b). assert (Hd : d <> 0) by (unfold d; nra).
    set (x1 := map (fun j => (a * nth j b1 0 - b * nth j b2 0) / d) (seq 0 s)).
    set (x2 := map (fun j => (a * nth j b2 0 - b * nth j b1 0) / d) (seq 0 s)).
    assert (Hn : forall (f : nat -> R) j, (j < s)%nat -> nth j (map f (seq 0 s)) 0 = f j).
    { intros f j Hj. apply nth_error_nth. rewrite nth_error_map, nth_error_seq by assumption. reflexivity. }
    assert (Hl : forall (v : list R), List.length v = s -> map (fun j => nth j v 0) (seq 0 s) = v).
    { intros v Hv. rewrite <- Hv. clear. induction v as [|z v IH] using rev_ind; [reflexivity|].
      rewrite app_length. simpl. rewrite Nat.add_1_r, seq_S, map_app. simpl.
      rewrite app_nth2 by lia. rewrite Nat.sub_diag. simpl. f_equal.
      rewrite <- IH at 2. apply map_ext_in. intros j Hj. apply in_seq in Hj. apply app_nth1. lia. }
    exists [x1; x2]. split; [|split].
    + split; [reflexivity|]. intros q [<-|[<-|[]]]; unfold x1, x2; rewrite map_length, seq_length; reflexivity.
    + unfold matmul, rowmul, col, dotl. simpl.
      rewrite <- (Hl b1 L1) at 1. rewrite <- (Hl b2 L2) at 1.
      f_equal; [|f_equal]; apply map_ext_in; intros j Hj; apply in_seq in Hj;
        unfold x1, x2; rewrite !Hn by lia; unfold d; field; exact Hd.
    + intros y [Hy Hy'] E. destruct y as [|y1 [|y2 [|]]]; try discriminate.
      assert (M1 : List.length y1 = s) by (apply Hy'; left; reflexivity).
      assert (M2 : List.length y2 = s) by (apply Hy'; right; left; reflexivity).
      unfold matmul, rowmul, col, dotl in E. simpl in E. injection E as E1 E2.
      rewrite <- (Hl y1 M1), <- (Hl y2 M2). unfold x1, x2.
      f_equal; [|f_equal]; apply map_ext_in; intros j Hj; apply in_seq in Hj;
        rewrite <- E1, <- E2, !Hn by lia; unfold d; field; exact Hd.
Qed.

Definition val (w : R) : R := RBF_gauss (PI / 2) w / (RBF_gauss dlt w + RBF_gauss (PI / 3) w).
Lemma rbf_pos x w : 0 < RBF_gauss x w. Proof. apply exp_pos. Qed.
Lemma sample_value w : 0 < w ->
  so3_grid_sample_matrix ex_env "rbf" w 1 [mQ] [[1]; [0]] [I3; mB] = Ok [[val w]].
Proof.
  intros Hw. unfold so3_grid_sample_matrix, so3_grid_sample, interpolate_RBF. cbn [String.eqb Ascii.eqb Bool.eqb map].
  pose proof (dist_self I3 mI_SO3) as S1. pose proof (dist_self mB mB_SO3) as S2. destruct dist_IB as [D1 D2]. destruct dist_Q as [Q1 Q2].
  unfold mdist in *. rewrite S1, S2, D1, D2, Q1, Q2.
  set (a := RBF_gauss dlt w). set (b := RBF_gauss (PI / 3) w).
  assert (Hab : 0 < b < a).
  { split; [apply rbf_pos|]. unfold a, b, RBF_gauss. apply exp_increasing. pose proof dlt_bounds.
    assert (0 < / (w ^ 2 / ln2_lit)).
    { apply Rinv_0_lt_compat. unfold ln2_lit. apply Rdiv_lt_0_compat; [nra|lra]. }
    unfold Rdiv at 1 3. apply Ropp_lt_contravar. apply Rmult_lt_compat_r; [assumption|]. nra. }
  assert (Hwf : wfm 2 1 [[1]; [0]]) by (split; [reflexivity|]; intros q [<-|[<-|[]]]; reflexivity).
  destruct (ex_solve_succeeds 2 1 _ _ (pair_nonsingular a b Hab) Hwf) as [x Hx].
  destruct (ok_solve _ ex_env_ok 2 1 [[a; b]; [b; a]] [[1]; [0]] x) as (Hxw & Hm & _).
  - split; [reflexivity|]. intros q [<-|[<-|[]]]; reflexivity.
  - exact Hwf.
  - exact Hx.
  - cbn [ex_env te_solve]. rewrite Hx. cbn [bind]. destruct Hxw as [Hl Hr]. destruct x as [|x1 [|x2 [|]]]; try discriminate.
    unfold matmul, rowmul, col, dotl in *. cbn [map seq combine fold_right fst snd] in *. injection Hm as M1 M2.
    do 3 f_equal. unfold val. fold a b. set (p := RBF_gauss (PI / 2) w). set (u := nth 0 x1 0) in *. set (v := nth 0 x2 0) in *.
    assert (E : (a + b) * (u + v) = 1) by lra. assert (a + b <> 0) by lra.
    replace (u + v) with (1 / (a + b)) in * by (field_simplify_eq; lra).
    replace (p * u + (p * v + 0)) with (p * (u + v)) by ring. replace (u + v) with (1 / (a + b)).
    + field. assumption.
    + field_simplify_eq; [|assumption]. lra.
Qed.

Lemma val_inv w : 0 < w -> / val w = exp (((PI / 2) ^ 2 - dlt ^ 2) * (ln2_lit / w ^ 2)) + exp (((PI / 2) ^ 2 - (PI / 3) ^ 2) * (ln2_lit / w ^ 2)).
Proof.
  intros Hw. unfold val, Rdiv at 1. rewrite Rinv_mult, Rinv_inv.
  assert (G : forall x, RBF_gauss x w = exp (- (x ^ 2 * (ln2_lit / w ^ 2)))).
  { intros x. unfold RBF_gauss. f_equal. f_equal. unfold ln2_lit. field. lra. }
  rewrite !G, <- exp_Ropp, Rmult_plus_distr_l, <- !exp_plus. f_equal; f_equal; ring.
Qed.
Lemma val_pos w : 0 < val w. Proof. unfold val. apply Rdiv_lt_0_compat; [apply rbf_pos|]. pose proof (rbf_pos dlt w). pose proof (rbf_pos (PI / 3) w). lra. Qed.
Lemma val_increasing w w' : 0 < w < w' -> val w < val w'.
Proof.
  intros H. pose proof (val_pos w). pose proof (val_pos w').
  assert (K : ln2_lit / w' ^ 2 < ln2_lit / w ^ 2).
  { unfold Rdiv. apply Rmult_lt_compat_l; [unfold ln2_lit; lra|]. apply Rinv_lt_contravar; [apply Rmult_lt_0_compat; apply pow_lt; lra|]. assert (0 < (w' - w) * (w' + w)) by (apply Rmult_lt_0_compat; lra). lra. }
  assert (I : / val w' < / val w).
  { rewrite !val_inv by lra. pose proof dlt_bounds. pose proof PI_RGT_0.
    assert (0 < (PI / 2 - dlt) * (PI / 2 + dlt)) by (apply Rmult_lt_0_compat; lra).
    assert (0 < (PI / 2 - PI / 3) * (PI / 2 + PI / 3)) by (apply Rmult_lt_0_compat; lra).
    apply Rplus_lt_compat; apply exp_increasing; apply Rmult_lt_compat_l; try assumption; lra. }
  destruct (Rlt_le_dec (val w) (val w')) as [|Hle]; [assumption|].
  exfalso. apply Rinv_le_contravar in Hle; lra.
Qed.

(** ** the layer *)
Definition exA : args :=
  mkArgs ex_env 1 1 1 2 1%Z 1 (PInt 0) 1 "zeros" false false "rbf" 0 "bilinear" "border" false.
Definition exf (i : list nat) : R := match i with (0 :: _)%nat => 1 | _ => 0 end.
Definition exX : tensor R := build [1; 1; 1; 1; 1; 1]%nat (fun _ => 1).
Definition exW : tensor R := build [2; 1; 1; 1; 1; 1]%nat exf.

Lemma one_voxel v x : gs3 true GsBorder [1; 1; 1]%nat [x] v = x.
Proof.
  unfold gs3, gs_linear, axis3. cbn [map2]. 
  assert (C : forall u, gs_coord GsBorder 1 u = 0).
  { intros u. unfold gs_coord, gs_place, clamp. replace (INR 1 - 1) with 0 by (simpl; ring). unfold Rmin. destruct (Rle_dec _ 0) as [H|]; [|reflexivity].
    pose proof (Rmax_r (gs_unnormalize 1 u) 0). lra. }
  rewrite !C. cbn [gs_corners]. replace (Int_part 0) with 0%Z by (symmetry; apply Int_part_unique; lra).
  cbn [rev app Z.add]. unfold gs_read. cbn. lra.
Qed.

Lemma forward_value w : 0 < w -> exists out,
  full_forward (gm_layer (shell KFull exA [I3; mB] w None)) exW exX [mQ] [I3] = Ok (out, [I3]) /\ at_ out [0; 0; 0; 0; 0; 0]%nat = val w.
Proof.
  intros Hw. set (L := gm_layer (shell KFull exA [I3; mB] w None)). set (k := l_kernel L).
  assert (HL : constructed 3 L 1 1 [1; 1; 1]%nat k 1 [1; 1; 1]%nat (PInt 0) [1; 1; 1]%nat Zeros None).
  { exists "3d"%string, (GkInt 2), "zeros"%string. split; [right; auto|]. split; [reflexivity|]. split; [reflexivity|].
    split; [|split; [exact I|lia]].
    split; [reflexivity|]. split; [reflexivity|]. split; [reflexivity|]. split; [reflexivity|]. split; [exact I|].
    repeat split; intros x [<-|[<-|[<-|[]]]]; lia. }
  assert (HW : has_shape exW (full_weight_shape k)) by (split; [reflexivity|apply wft_build]).
  assert (Hp : param_rows (k_gdim k) [1; 1; 1; 1; 1]%nat exW = [[1]; [0]]) by reflexivity.
  assert (Hrel : relatives so3_matrix_inverse mul3 [mQ] [I3] = [mQ]).
  { unfold relatives. cbn [map concat app]. f_equal. apply M3_ext; unfold so3_matrix_inverse, mul3, tr3, I3, mQ; cbn; ring. }
  pose proof (sample_value w Hw) as Hsv.
  pose proof (sampled_SE3 k ex_env "rbf" w "bilinear" "border" [1; 1; 1; 1; 1]%nat exW [mQ] [I3] [[val w]] eq_refl) as Hs.
  rewrite Hrel, Hp in Hs. specialize (Hs Hsv). 
  destruct (full_formula k _ _ _ _ (gops_ok_SE3 ex_env "rbf" w "bilinear" "border") (grid_R3_shape 1) I
    (cube_nonzero 1 ltac:(lia)) ltac:(discriminate) (gs3 true GsBorder) exW [mQ] [I3] _ eq_refl HW Hs) as (W & EW & HsW & AW).
  destruct (C46_group_convolution _ _ _ 3 L 1 1 [1; 1; 1]%nat k 1 [1; 1; 1]%nat (PInt 0) [1; 1; 1]%nat Zeros None exW W [mQ] [I3] exX 1%nat [1; 1; 1]%nat HL) as [F _].
  - discriminate.
  - exact EW.
  - exact HsW.
  - split; [reflexivity|apply wft_build].
  - reflexivity.
  - destruct F as (out & Eo & _ & Ho).
    + intros j Hj. cbn [List.length] in Hj. split; [|exact I]. destruct j as [|[|[|j]]]; try lia; vm_compute; lia.
    + exists out. split; [exact Eo|]. rewrite (Ho 0%nat 0%nat 0%nat [0; 0; 0]%nat); try lia.
      2: { cbn. lia. }
      2: { repeat apply valid_cons; try apply valid_nil; vm_compute; lia. }
      assert (AW0 : at_ W [0; 0; 0; 0; 0; 0; 0]%nat = val w).
      { rewrite (AW 0%nat 0%nat I3 0%nat 0%nat mQ [0; 0; 0]%nat 0%nat 0%nat).
        - change (k_size k) with [1; 1; 1]%nat. change (k_out k) with 1%nat. change (k_cin k) with 1%nat.
          change (k_gdim k) with 2%nat in *. change (k_grid_H k) with [I3; mB].
          assert (Em : mul3 (so3_matrix_inverse I3) mQ = mQ).
          { apply M3_ext; unfold so3_matrix_inverse, mul3, tr3, I3, mQ; cbn; ring. }
          rewrite Em. unfold value_SE3. change (prodn [1; 1; 1; 1; 1]%nat) with 1%nat. rewrite Hsv. cbn [one_row].
          change (image_of 1 1 [1; 1; 1]%nat [val w] 0 0) with [val w]. rewrite one_voxel. unfold detf. cbn [maskf].
          unfold k, L, maskf. cbn. lra.
        - apply Nat.lt_0_1.
        - reflexivity.
        - apply Nat.lt_0_1.
        - reflexivity.
        - repeat apply valid_cons; try apply valid_nil; apply Nat.lt_0_1.
        - apply Nat.lt_0_1.
        - apply Nat.lt_0_1.
        - reflexivity. }
      change (seq 0 (1 / 1)) with [0%nat]. change (seq 0 (List.length [mQ])) with [0%nat]. change (indices [1; 1; 1]%nat) with [[0; 0; 0]%nat].
      cbn [map]. rewrite AW0.
      assert (EX : forall v, image_at Zeros exX [1; 1; 1]%nat [0; 0 / (1 / 1) * (1 / 1) + 0; 0]%nat v = 1 -> True) by trivial. clear EX.
      match goal with |- context [image_at ?a ?b ?c ?d ?e] => assert (EX : image_at a b c d e = 1) end.
      { change ([0; 0 / (1 / 1) * (1 / 1) + 0; 0]%nat) with ([0; 0; 0]%nat).
        unfold image_at. match goal with |- match sequence ?z with _ => _ end = _ => change z with [Some 0%nat; Some 0%nat; Some 0%nat] end. reflexivity. }
      rewrite EX. unfold sumR. cbn [fold_right bias_value]. lra.
Qed.

(** ** two programs *)
Definition exO : oracle := mkO 0 0 (fun x => x) (fun _ => []) [].
Definition noR (_ : list nat) : R := 0.
Definition exops (g : list M3) : list op := [OTensor (TMat g); ONew KFull exA (Some 48%nat) exO noR exf noR].
Definition exy (g : list M3) (w : R) : layer := mkLayer KFull exA (shell KFull exA g w None) 48 49 None None 50 None.
Definition exheap (g : list M3) : list tens :=
  gs_heap ginit ++ [TMat g; TSpace (create_grid_R3 1); TReal exW].

Lemma attributes_ex g w fb : width_SE3 0 g = Ok w -> attributes KFull exA g fb = Ok (shell KFull exA g w None).
Proof.
  intros Hw. unfold attributes, group_SE3, pick_grid, kernel_SE3. cbn [bind exA a_width a_groups a_in]. rewrite Hw. reflexivity.
Qed.
Lemma heap_length : List.length (gs_heap ginit) = 48%nat. Proof. reflexivity. Qed.
Lemma run_ex a b w : width_SE3 0 [a; b] = Ok w ->
  run (exops [a; b]) = mkW (mkG (exheap [a; b]) (gs_quat ginit) (gs_matrix ginit)) [exy [a; b] w].
Proof.
  intros Hw. unfold run, exops. cbn [fold_left do start w_mem w_layers]. unfold alloc at 1. cbn [fst].
  unfold new_layer.
  assert (Hg : get (mkG (gs_heap ginit ++ [TMat [a; b]]) (gs_quat ginit) (gs_matrix ginit)) 48 = TMat [a; b]).
  { unfold get. cbn [gs_heap]. rewrite app_nth2 by (rewrite heap_length; lia). rewrite heap_length. reflexivity. }
  cbn [bind]. rewrite Hg. cbn [as_grid bind].
  rewrite (attributes_ex _ _ _ Hw). cbn [bind].
  unfold alloc. cbn [fst snd alloc_opt shell exA a_mask gm_layer l_kernel k_mask option_map l_bias gs_heap gs_quat gs_matrix k_grid_Rn].
  rewrite !app_length, heap_length. unfold exheap. rewrite <- !app_assoc. reflexivity.
Qed.

Definition exq : Q4 := mkQ 1 0 0 0.
Lemma call_of s y q X in_H H M weight : module_at s y = Ok M -> as_real (get s (y_weight y)) = Ok weight -> y_kind y = KFull ->
  call s y q X in_H H = full_SE3_call M q weight X in_H H.
Proof. intros E1 E2 E3. unfold call. rewrite E1, E2, E3. reflexivity. Qed.
Lemma call_ex s y a b w : y_kind y = KFull -> y_attr y = shell KFull exA [a; b] w None -> 0 < w ->
  saved s y = [("kernel.weight"%string, TReal exW); ("kernel.grid_H"%string, TMat [I3; mB]); ("kernel.grid_Rn"%string, TSpace (create_grid_R3 1))] ->
  exists out, call s y exq exX [mQ] (Some [I3]) = Ok (out, [I3]) /\ at_ out [0; 0; 0; 0; 0; 0]%nat = val w.
Proof.
  intros Ek Ea Hw Es. destruct (forward_value w Hw) as (out & Eo & Ho). exists out. split; [|exact Ho].
  assert (E : get s (y_weight y) = TReal exW /\ get s (y_grid_H y) = TMat [I3; mB] /\ get s (y_grid_Rn y) = TSpace (create_grid_R3 1) /\ y_mask y = None /\ y_bias y = None).
  { revert Es. unfold saved, state_dict. destruct (y_bias y), (y_weight_H y), (y_mask y); cbn; intros H; try discriminate; injection H; auto. }
  destruct E as (E1 & E2 & E3 & E4 & E5).
  rewrite (call_of s y exq exX [mQ] (Some [I3]) (shell KFull exA [I3; mB] w None) exW); [exact Eo| | |exact Ek].
  - unfold module_at. rewrite E2, E3, E4, E5, Ea. reflexivity.
  - rewrite E1. reflexivity.
Qed.
