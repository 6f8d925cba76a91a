(** Facts about the o3 model and about sampling on so3/o3 grids (C11-C13, C62-C64). *)
From Coq Require Import String Psatz.
From Verif Require Import Prelude RMath Mat Interp InterpFacts SO3 SO3Facts SO3More OSplit OSplitFacts O3.
Open Scope R_scope.

(** A legal o3 element: coefficient 1 or -1 and a rotation. *)
Definition o3_wf (h : O3) : Prop := (o3c h = 1 \/ o3c h = -1) /\ isSO3 (o3r h).

(** Specification: the 3x3 matrix an element stands for. *)
Definition o3_as_matrix (h : O3) : M3 := scal3 (o3c h) (o3r h).

Lemma app3_scal c A v : app3 (scal3 c A) v = scalv3 c (app3 A v).
Proof. mext; ring. Qed.

Lemma o3_product h1 h2 :
  o3_as_matrix (o3_left_apply_O3 h1 h2) = mul3 (o3_as_matrix h1) (o3_as_matrix h2).
Proof. unfold o3_as_matrix, o3_left_apply_O3; cbn. rewrite scal3_mul. reflexivity. Qed.

Lemma o3_product_wf h1 h2 : o3_wf h1 -> o3_wf h2 -> o3_wf (o3_left_apply_O3 h1 h2).
Proof.
  intros [[E1|E1] H1] [[E2|E2] H2]; (split; cbn; [rewrite E1, E2|apply isSO3_mul; assumption]);
  solve [left; ring | right; ring].
Qed.

Lemma o3_inverse_wf h : o3_wf h -> o3_wf (o3_inverse h).
Proof. intros [H1 H2]. split; cbn; [assumption|apply isSO3_tr; assumption]. Qed.

Lemma pm_sq c : c = 1 \/ c = -1 -> c * c = 1.
Proof. intros [->| ->]; ring. Qed.

Lemma o3_inverse_spec h : o3_wf h ->
  mul3 (o3_as_matrix (o3_inverse h)) (o3_as_matrix h) = I3 /\
  mul3 (o3_as_matrix h) (o3_as_matrix (o3_inverse h)) = I3.
Proof.
  intros [Hc [[H1 H2] _]]. unfold o3_as_matrix, o3_inverse; cbn.
  rewrite !scal3_mul, pm_sq, !scal3_1 by assumption. split; assumption.
Qed.

Lemma o3_det_spec h : o3_wf h -> det3 (o3_as_matrix h) = o3_det h.
Proof.
  intros [Hc [_ HD]]. unfold o3_as_matrix, o3_det. rewrite det3_scal, HD.
  destruct Hc as [->| ->]; ring.
Qed.

Lemma o3_as_matrix_O3 h : o3_wf h -> isO3 (o3_as_matrix h).
Proof.
  intros [Hc [[H1 H2] _]]. unfold o3_as_matrix.
  assert (E : tr3 (scal3 (o3c h) (o3r h)) = scal3 (o3c h) (tr3 (o3r h))) by (mext; ring).
  split; rewrite E, scal3_mul, pm_sq, scal3_1 by assumption; assumption.
Qed.

(** Every orthogonal matrix is the matrix of exactly one legal element. *)
Lemma o3_as_matrix_onto A : isO3 A -> exists h, o3_wf h /\ o3_as_matrix h = A.
Proof.
  intros [H1 H2].
  assert (HD : det3 A * det3 A = 1).
  { rewrite <- (det3_tr A) at 1. rewrite <- det3_mul, H1. apply det3_I. }
  assert (D : det3 A = 1 \/ det3 A = -1).
  { assert (E : (det3 A - 1) * (det3 A + 1) = 0) by lra. apply Rmult_integral in E.
    destruct E; [left|right]; lra. }
  exists (mkO3 (det3 A) (scal3 (det3 A) A)).
  assert (ET : tr3 (scal3 (det3 A) A) = scal3 (det3 A) (tr3 A)) by (mext; ring).
  split.
  - split; [exact D|]. cbn. split.
    + split; rewrite ET, scal3_mul, HD, scal3_1; assumption.
    + rewrite det3_scal. destruct D as [->| ->]; ring.
  - unfold o3_as_matrix. cbn.
    replace (scal3 (det3 A) (scal3 (det3 A) A)) with (scal3 (det3 A * det3 A) A) by (mext; ring).
    rewrite HD. apply scal3_1.
Qed.

Lemma o3_as_matrix_inj h1 h2 : o3_wf h1 -> o3_wf h2 -> o3_as_matrix h1 = o3_as_matrix h2 -> h1 = h2.
Proof.
  intros W1 W2 E.
  assert (C : o3c h1 = o3c h2).
  { pose proof (o3_det_spec h1 W1) as D1. pose proof (o3_det_spec h2 W2) as D2.
    rewrite E in D1. unfold o3_det in *. congruence. }
  destruct h1 as [c1 r1], h2 as [c2 r2]. cbn in *. subst c2. f_equal.
  destruct W1 as [Hc _]. cbn in Hc.
  apply (f_equal (scal3 c1)) in E. unfold o3_as_matrix in E. cbn in E.
  assert (K : forall A, scal3 c1 (scal3 c1 A) = A).
  { intros A. transitivity (scal3 (c1 * c1) A); [mext; ring|]. rewrite pm_sq by assumption. apply scal3_1. }
  rewrite !K in E. assumption.
Qed.

Lemma o3_pairwise A B :
  List.length (o3_left_apply_to_O3 A B) = List.length A /\
  forall n m a b, nth_error A n = Some a -> nth_error B m = Some b ->
    exists row, nth_error (o3_left_apply_to_O3 A B) n = Some row /\
                List.length row = List.length B /\
                nth_error row m = Some (o3_left_apply_O3 a b).
Proof.
  unfold o3_left_apply_to_O3. split; [apply map_length|]. intros n m a b Ha Hb.
  eexists. split; [rewrite nth_error_map, Ha; reflexivity|].
  split; [apply map_length|]. rewrite nth_error_map, Hb. reflexivity.
Qed.

Lemma so3_pairwise A B :
  List.length (so3_left_apply_to_matrix A B) = List.length A /\
  forall n m a b, nth_error A n = Some a -> nth_error B m = Some b ->
    exists row, nth_error (so3_left_apply_to_matrix A B) n = Some row /\
                List.length row = List.length B /\
                nth_error row m = Some (mul3 a b).
Proof.
  unfold so3_left_apply_to_matrix. split; [apply map_length|]. intros n m a b Ha Hb.
  eexists. split; [rewrite nth_error_map, Ha; reflexivity|].
  split; [apply map_length|]. rewrite nth_error_map, Hb. reflexivity.
Qed.

(** ** action on R3 (C13) *)
Definition grid3_at (g : grid3) (i j k : nat) : option V3 :=
  match nth_error g i with
  | Some p => match nth_error p j with Some r => nth_error r k | None => None end
  | None => None
  end.

Lemma grid3_at_map f g i j k : grid3_at (map (map (map f)) g) i j k = option_map f (grid3_at g i j k).
Proof.
  unfold grid3_at. rewrite nth_error_map. destruct (nth_error g i) as [p|]; [cbn|reflexivity].
  rewrite nth_error_map. destruct (nth_error p j) as [r|]; [cbn|reflexivity].
  apply nth_error_map.
Qed.

Lemma so3_action_entry Rs g n r : nth_error Rs n = Some r ->
  exists out, nth_error (so3_left_apply_to_R3 Rs g) n = Some out /\
    forall i j k, grid3_at out i j k = option_map (app3 r) (grid3_at g i j k).
Proof.
  intros H. eexists. split; [unfold so3_left_apply_to_R3; rewrite nth_error_map, H; reflexivity|].
  intros i j k. apply grid3_at_map.
Qed.

Lemma o3_action_entry H g n h : nth_error H n = Some h ->
  exists out, nth_error (o3_left_apply_to_R3 H g) n = Some out /\
    forall i j k, grid3_at out i j k = option_map (app3 (o3_as_matrix h)) (grid3_at g i j k).
Proof.
  intros Hn. eexists. split; [unfold o3_left_apply_to_R3; rewrite nth_error_map, Hn; reflexivity|].
  intros i j k. rewrite grid3_at_map. destruct (grid3_at g i j k); cbn; [|reflexivity].
  f_equal. unfold o3_as_matrix. symmetry. apply app3_scal.
Qed.

Lemma grid3_map_ext (f g : V3 -> V3) (G : grid3) : (forall v, f v = g v) -> map (map (map f)) G = map (map (map g)) G.
Proof. intros E. apply map_ext; intros p. apply map_ext; intros r. apply map_ext; intros v. apply E. Qed.

Lemma grid3_map_map (f g : V3 -> V3) (G : grid3) : map (map (map f)) (map (map (map g)) G) = map (map (map (fun v => f (g v)))) G.
Proof.
  rewrite map_map. apply map_ext; intros p. rewrite map_map. apply map_ext; intros r. apply map_map.
Qed.

Lemma so3_action_compose a b g :
  so3_left_apply_to_R3 [so3_left_apply_matrix a b] g =
  match so3_left_apply_to_R3 [b] g with [gb] => so3_left_apply_to_R3 [a] gb | _ => [] end.
Proof.
  cbn. f_equal. rewrite grid3_map_map. apply grid3_map_ext. intros v.
  unfold so3_left_apply_matrix. apply app3_mul.
Qed.

Lemma so3_action_id g : so3_left_apply_to_R3 [I3] g = [g].
Proof.
  cbn. f_equal. rewrite (grid3_map_ext _ (fun v => v)) by apply app3_I.
  rewrite (map_ext _ (fun p => p)); [apply map_id|]. intros p.
  rewrite (map_ext _ (fun r => r)); [apply map_id|]. intros r. apply map_id.
Qed.

Lemma o3_action_compose a b g :
  o3_left_apply_to_R3 [o3_left_apply_O3 a b] g =
  match o3_left_apply_to_R3 [b] g with [gb] => o3_left_apply_to_R3 [a] gb | _ => [] end.
Proof.
  cbn. f_equal. rewrite grid3_map_map. apply grid3_map_ext. intros v. cbn. mext; ring.
Qed.

Lemma o3_action_id g : o3_left_apply_to_R3 [mkO3 1 I3] g = [g].
Proof.
  cbn. f_equal. rewrite (grid3_map_ext _ (fun v => v)) by (intros v; mext; ring).
  rewrite (map_ext _ (fun p => p)); [apply map_id|]. intros p.
  rewrite (map_ext _ (fun r => r)); [apply map_id|]. intros r. apply map_id.
Qed.

Lemma o3_action_isometry h u v : o3_wf h ->
  dot3 (app3 (o3_as_matrix h) u) (app3 (o3_as_matrix h) v) = dot3 u v.
Proof. intros W. apply isO3_isometry. apply o3_as_matrix_O3. assumption. Qed.

(** ** sampling on so3 *)
Lemma so3_dist_left g a b eps : isSO3 g -> isSO3 a -> isSO3 b ->
  so3_geodesic_distance (so3_matrix_to_quat (mul3 g a)) (so3_matrix_to_quat (mul3 g b)) eps =
  so3_geodesic_distance (so3_matrix_to_quat a) (so3_matrix_to_quat b) eps.
Proof.
  intros Hg Ha Hb.
  rewrite <- (geo_left (so3_matrix_to_quat a) (so3_matrix_to_quat b) (so3_matrix_to_quat g)) by (apply m2q_unit; assumption).
  assert (U : forall x, isSO3 x -> unitq (qmul (so3_matrix_to_quat g) (so3_matrix_to_quat x))).
  { intros x Hx. unfold unitq. rewrite qdot_qmul_norm.
    rewrite (m2q_unit g Hg), (m2q_unit x Hx). ring. }
  apply geo_rotations;
    try (apply m2q_unit; apply isSO3_mul; assumption); try (apply U; assumption);
    (rewrite q2m_mul, !m2q_right_inv; [reflexivity|..]);
    try (apply isSO3_mul); assumption.
Qed.

Lemma so3_dist_right g a b eps : isSO3 g -> isSO3 a -> isSO3 b ->
  so3_geodesic_distance (so3_matrix_to_quat (mul3 a g)) (so3_matrix_to_quat (mul3 b g)) eps =
  so3_geodesic_distance (so3_matrix_to_quat a) (so3_matrix_to_quat b) eps.
Proof.
  intros Hg Ha Hb.
  rewrite <- (geo_right (so3_matrix_to_quat a) (so3_matrix_to_quat b) (so3_matrix_to_quat g)) by (apply m2q_unit; assumption).
  assert (U : forall x, isSO3 x -> unitq (qmul (so3_matrix_to_quat x) (so3_matrix_to_quat g))).
  { intros x Hx. unfold unitq. rewrite qdot_qmul_norm.
    rewrite (m2q_unit g Hg), (m2q_unit x Hx). ring. }
  apply geo_rotations;
    try (apply m2q_unit; apply isSO3_mul; assumption); try (apply U; assumption);
    (rewrite q2m_mul, !m2q_right_inv; [reflexivity|..]);
    try (apply isSO3_mul); assumption.
Qed.

Lemma NN_dist_ext {G G' Row} T (dist : G -> G -> R) (dist' : G' -> G' -> R)
    nodes nodes' grid grid' (signal : list Row) :
  List.length grid' = List.length grid ->
  map (fun a => map (fun b => dist' a b) grid') nodes' = map (fun a => map (fun b => dist a b) grid) nodes ->
  interpolate_NN T dist' nodes' grid' signal = interpolate_NN T dist nodes grid signal.
Proof.
  intros L E. unfold interpolate_NN. destruct grid as [|g0 gr], grid' as [|g0' gr']; try discriminate; [reflexivity|].
  revert E. generalize (g0 :: gr) (g0' :: gr'). clear. intros grid grid' E.
  assert (M : forall A B (f : A -> B) (h : B -> result Row) l, mapM (fun a => h (f a)) l = mapM h (map f l)).
  { intros A B f h l. rewrite mapM_map. reflexivity. }
  rewrite (M _ _ (fun a => map (fun b => dist' a b) grid') (fun ds => of_option RuntimeError (nth_error signal (te_argmin T ds)))).
  rewrite (M _ _ (fun a => map (fun b => dist a b) grid) (fun ds => of_option RuntimeError (nth_error signal (te_argmin T ds)))).
  rewrite E. reflexivity.
Qed.

(** Moving queries and grid by a distance-preserving map of rotations changes nothing. *)
Lemma so3_sample_moved T mode width S f grid signal signal_grid :
  (forall a b, isSO3 a -> isSO3 b ->
     so3_geodesic_distance (so3_matrix_to_quat (f a)) (so3_matrix_to_quat (f b)) so3_eps =
     so3_geodesic_distance (so3_matrix_to_quat a) (so3_matrix_to_quat b) so3_eps) ->
  Forall isSO3 grid -> Forall isSO3 signal_grid ->
  so3_grid_sample_matrix T mode width S (map f grid) signal (map f signal_grid) =
  so3_grid_sample_matrix T mode width S grid signal signal_grid.
Proof.
  intros Hf HG HS. unfold so3_grid_sample_matrix, so3_grid_sample.
  assert (E : forall l, Forall isSO3 l ->
    map (fun a => map (fun b => so3_geodesic_distance a b so3_eps) (map so3_matrix_to_quat (map f signal_grid)))
        (map so3_matrix_to_quat (map f l)) =
    map (fun a => map (fun b => so3_geodesic_distance a b so3_eps) (map so3_matrix_to_quat signal_grid))
        (map so3_matrix_to_quat l)).
  { intros l Hl. rewrite !map_map. apply map_ext_in. intros a Ha. rewrite !map_map.
    apply map_ext_in. intros b Hb. rewrite Forall_forall in Hl, HS. apply Hf; auto. }
  destruct (String.eqb mode "nearest").
  - apply NN_dist_ext; [rewrite !map_length; reflexivity|]. apply E; assumption.
  - destruct (String.eqb mode "rbf"); [|reflexivity]. apply RBF_dist_ext; apply E; assumption.
Qed.

Lemma so3_sample_left_invariant T mode width S g grid signal signal_grid :
  isSO3 g -> Forall isSO3 grid -> Forall isSO3 signal_grid ->
  so3_grid_sample_matrix T mode width S (map (mul3 g) grid) signal (map (mul3 g) signal_grid) =
  so3_grid_sample_matrix T mode width S grid signal signal_grid.
Proof. intros Hg. apply so3_sample_moved. intros; apply so3_dist_left; assumption. Qed.

Lemma so3_sample_right_invariant T mode width S g grid signal signal_grid :
  isSO3 g -> Forall isSO3 grid -> Forall isSO3 signal_grid ->
  so3_grid_sample_matrix T mode width S (map (fun a => mul3 a g) grid) signal (map (fun a => mul3 a g) signal_grid) =
  so3_grid_sample_matrix T mode width S grid signal signal_grid.
Proof. intros Hg. apply so3_sample_moved. intros; apply so3_dist_right; assumption. Qed.

(** rbf sampling at a grid rotation returns its signal *)
Lemma so3_sample_rbf_reproduces T (HT : torch_ok T) width S grid signal signal_grid out k i r :
  wfm (List.length signal_grid) S signal ->
  so3_grid_sample_matrix T "rbf" width S grid signal signal_grid = Ok out ->
  nth_error grid k = Some r -> nth_error signal_grid i = Some r ->
  nth_error out k = nth_error signal i.
Proof.
  intros Hw H Hk Hi. unfold so3_grid_sample_matrix, so3_grid_sample in H.
  rewrite (proj2 (String.eqb_neq "rbf" "nearest")) in H by discriminate.
  rewrite String.eqb_refl in H.
  eapply (RBF_reproduces T HT); [|exact H| |].
  - rewrite map_length. exact Hw.
  - rewrite nth_error_map, Hk. reflexivity.
  - rewrite nth_error_map, Hi. reflexivity.
Qed.

(** nearest sampling picks a closest grid rotation *)
Lemma so3_sample_nearest T (HT : torch_ok T) width S grid signal signal_grid :
  signal_grid <> [] -> List.length signal = List.length signal_grid ->
  exists out, so3_grid_sample_matrix T "nearest" width S grid signal signal_grid = Ok out /\
    forall k r, nth_error grid k = Some r ->
      exists i s row, nth_error signal_grid i = Some s /\ nth_error signal i = Some row /\
        nth_error out k = Some row /\
        forall s', In s' signal_grid ->
          so3_geodesic_distance (so3_matrix_to_quat r) (so3_matrix_to_quat s) so3_eps <=
          so3_geodesic_distance (so3_matrix_to_quat r) (so3_matrix_to_quat s') so3_eps.
Proof.
  intros Hne Hl. unfold so3_grid_sample_matrix, so3_grid_sample. rewrite String.eqb_refl.
  destruct (NN_spec T HT (fun a b => so3_geodesic_distance a b so3_eps) (map so3_matrix_to_quat grid)
    (map so3_matrix_to_quat signal_grid) signal) as (out & Ho & _ & Hout).
  - destruct signal_grid; [congruence|discriminate].
  - rewrite map_length. assumption.
  - exists out. split; [exact Ho|]. intros k r Hk.
    destruct (Hout k (so3_matrix_to_quat r)) as (i & b & row & Hi & Hs & Hr & Hm & _).
    { rewrite nth_error_map, Hk. reflexivity. }
    apply nth_error_map_inv in Hi. destruct Hi as (s & Hi & ->).
    exists i, s, row. repeat split; auto.
    intros s' Hs'. apply Hm. apply in_map. assumption.
Qed.

(** ** o3.grid_sample (C11) *)
Lemma so3_sample_rowwise T mode width S :
  rowwise (fun q s g => so3_grid_sample_matrix T mode width S q s g).
Proof.
  intros q s g out H. unfold so3_grid_sample_matrix, so3_grid_sample in *.
  assert (K : List.length out = List.length (map so3_matrix_to_quat q) /\
    forall k a, nth_error (map so3_matrix_to_quat q) k = Some a -> exists row, nth_error out k = Some row /\
      so3_grid_sample T mode width S [a] s (map so3_matrix_to_quat g) = Ok [row]).
  { unfold so3_grid_sample. destruct (String.eqb mode "nearest").
    - exact (NN_rows _ _ _ _ _ _ H).
    - destruct (String.eqb mode "rbf"); [|discriminate].
      destruct (RBF_rows _ _ _ _ _ _ _ _ _ H) as (H1 & _ & H2). auto. }
  rewrite map_length in K. destruct K as [K1 K2]. split; [assumption|].
  intros k a Hk. apply (K2 k (so3_matrix_to_quat a)). rewrite nth_error_map, Hk. reflexivity.
Qed.

Lemma o3_grid_sample_rows T mode rw fw S grid signal signal_grid n_rot n_ref out :
  (forall e, In e grid -> o3c e = 1 \/ o3c e = -1) -> (n_rot + n_ref)%nat = List.length signal ->
  o3_grid_sample T mode rw fw S grid signal signal_grid n_rot n_ref = Ok out ->
  List.length out = List.length grid /\
  forall i e, nth_error grid i = Some e ->
    exists row, nth_error out i = Some row /\
      ((o3c e = 1 /\ n_rot <> 0%nat /\
        so3_grid_sample_matrix T mode rw S [o3r e] (firstn n_rot signal) (map o3r (firstn n_rot signal_grid))
        = Ok [row]) \/
       (o3c e = -1 /\ n_ref <> 0%nat /\
        so3_grid_sample_matrix T mode fw S [o3r e] (skipn n_rot signal) (map o3r (skipn n_rot signal_grid))
        = Ok [row])).
Proof.
  intros Hw Hs H.
  exact (split_sample_rows o3c o3r _ _ (so3_sample_rowwise T mode rw S)
    (so3_sample_rowwise T mode fw S) grid signal signal_grid n_rot n_ref Hw Hs out H).
Qed.

Definition o3_matrices_with (c : R) (grid : list O3) : list M3 :=
  map o3r (filter (fun e => if Req_EM_T (o3c e) c then true else false) grid).

Lemma o3_grid_sample_missing T mode rw fw S grid signal signal_grid n_rot n_ref e other :
  (forall e, In e grid -> o3c e = 1 \/ o3c e = -1) -> (n_rot + n_ref)%nat = List.length signal ->
  In e grid ->
  (o3c e = 1 /\ n_rot = 0%nat /\
   (n_ref <> 0%nat -> so3_grid_sample_matrix T mode fw S (o3_matrices_with (-1) grid) signal (map o3r signal_grid) = Ok other))
  \/ (o3c e = -1 /\ n_ref = 0%nat /\
   (n_rot <> 0%nat -> so3_grid_sample_matrix T mode rw S (o3_matrices_with 1 grid) signal (map o3r (firstn n_rot signal_grid)) = Ok other)) ->
  o3_grid_sample T mode rw fw S grid signal signal_grid n_rot n_ref = Err IndexError.
Proof.
  intros Hw Hs He [(Hc & Hn & Ho)|(Hc & Hn & Ho)].
  - exact (split_sample_missing_rot o3c o3r _ _ (so3_sample_rowwise T mode fw S)
      grid signal signal_grid n_rot n_ref Hw Hs e other Hn He Hc Ho).
  - exact (split_sample_missing_ref o3c o3r _ _ (so3_sample_rowwise T mode rw S)
      grid signal signal_grid n_rot n_ref Hw Hs e other Hn He Hc Ho).
Qed.

Lemma o3_grid_sample_total T mode rw fw S grid signal signal_grid n_rot n_ref ro re :
  (forall e, In e grid -> o3c e = 1 \/ o3c e = -1) -> (n_rot + n_ref)%nat = List.length signal ->
  (n_rot = 0%nat -> forall e, In e grid -> o3c e <> 1) ->
  (n_ref = 0%nat -> forall e, In e grid -> o3c e <> -1) ->
  (n_rot <> 0%nat -> so3_grid_sample_matrix T mode rw S (o3_matrices_with 1 grid) (firstn n_rot signal)
                       (map o3r (firstn n_rot signal_grid)) = Ok ro) ->
  (n_ref <> 0%nat -> so3_grid_sample_matrix T mode fw S (o3_matrices_with (-1) grid) (skipn n_rot signal)
                       (map o3r (skipn n_rot signal_grid)) = Ok re) ->
  exists out, o3_grid_sample T mode rw fw S grid signal signal_grid n_rot n_ref = Ok out.
Proof.
  intros Hw Hs.
  exact (split_sample_total o3c o3r _ _ (so3_sample_rowwise T mode rw S)
    (so3_sample_rowwise T mode fw S) grid signal signal_grid n_rot n_ref Hw Hs ro re).
Qed.

Lemma o3_random_wf u draw : 0 < qdot draw draw -> o3_wf (o3_random u draw).
Proof.
  intros H. split; cbn.
  - destruct (Rlt_dec (1 / 2) u); [left|right]; ring.
  - apply (proj2 (so3_random_ok draw H)).
Qed.

(** A concrete run: reflection query first, rotation query second, one signal row each. *)
Lemma o3_sample_example T (HT : torch_ok T) A B :
  o3_grid_sample T "nearest" (1/2) (1/2) 1 [mkO3 (-1) A; mkO3 1 B] [[10]; [20]]
    [mkO3 1 I3; mkO3 (-1) I3] 1 1 = Ok [[20]; [10]].
Proof.
  assert (Hone : forall x : R, te_argmin T [x] = 0%nat).
  { intros x. destruct (ok_argmin T HT [x]) as (v & Hv & _); [discriminate|].
    destruct (te_argmin T [x]) as [|k]; [reflexivity|]. destruct k; discriminate. }
  assert (Hw1 : where_eq 1 [-1; 1] = [1%nat]).
  { unfold where_eq. simpl. destruct (Req_EM_T (-1) 1); [lra|]. destruct (Req_EM_T 1 1); [reflexivity|lra]. }
  assert (Hw2 : where_eq (-1) [-1; 1] = [0%nat]).
  { unfold where_eq. simpl. destruct (Req_EM_T (-1) (-1)); [|lra]. destruct (Req_EM_T 1 (-1)); [lra|reflexivity]. }
  unfold o3_grid_sample, split_sample. cbn [map o3c o3r firstn skipn]. rewrite Hw1, Hw2.
  unfold take_idx, so3_grid_sample_matrix, so3_grid_sample.
  cbn -[te_argmin so3_geodesic_distance so3_matrix_to_quat]. rewrite !Hone. reflexivity.
Qed.
