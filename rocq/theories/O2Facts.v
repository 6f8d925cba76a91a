(** Proofs about the o2 model. *)
From Coq Require Import String.
From Verif Require Import Prelude RMath Mat Interp InterpFacts SO2 SO2Facts OSplit OSplitFacts O2.
Open Scope R_scope.

(** Specification: the coefficient is a sign; the matrix by which an element acts on R2. *)
Definition o2_wf (r : O2) : Prop := o2c r = 1 \/ o2c r = -1.
Definition o2_acting_matrix (r : O2) : M2 := scal2 (o2c r) (so2_angle_to_matrix (o2a r)).

Lemma o2_assoc a b c :
  o2_left_apply_angle a (o2_left_apply_angle b c)
  = o2_left_apply_angle (o2_left_apply_angle a b) c.
Proof.
  unfold o2_left_apply_angle. cbn [o2c o2a]. f_equal; [ring|].
  exact (so2_assoc (o2a a) (o2a b) (o2a c)).
Qed.

Lemma o2_comm a b : o2_left_apply_angle a b = o2_left_apply_angle b a.
Proof. unfold o2_left_apply_angle. f_equal; [ring|]. f_equal; ring. Qed.

Lemma o2_neutral a : o2_left_apply_angle (mkO2 1 0) a = mkO2 (o2c a) (Rmod (o2a a) (2 * PI)).
Proof. unfold o2_left_apply_angle. cbn [o2c o2a]. f_equal; [ring|]. f_equal; ring. Qed.

Lemma o2_inv_l a : o2_wf a -> o2_left_apply_angle (o2_inverse a) a = mkO2 1 0.
Proof.
  intros H. unfold o2_left_apply_angle, o2_inverse. cbn [o2c o2a]. f_equal.
  - destruct H as [-> | ->]; ring.
  - replace (o2a a * -1 + o2a a) with 0 by ring. apply Rmod_0.
Qed.

Lemma o2_inv_r a : o2_wf a -> o2_left_apply_angle a (o2_inverse a) = mkO2 1 0.
Proof. intros H. rewrite o2_comm. apply o2_inv_l; assumption. Qed.

Lemma o2_wf_mul a b : o2_wf a -> o2_wf b -> o2_wf (o2_left_apply_angle a b).
Proof.
  unfold o2_wf, o2_left_apply_angle; cbn [o2c]. intros [-> | ->] [-> | ->]; [left|right|right|left]; ring.
Qed.

Lemma o2_wf_inv a : o2_wf a -> o2_wf (o2_inverse a).
Proof. exact (fun H => H). Qed.

Lemma o2_det_mul a b : o2_det (o2_left_apply_angle a b) = o2_det a * o2_det b.
Proof. reflexivity. Qed.

Lemma o2_pairwise A B :
  length (o2_left_apply_to_angle A B) = length A /\
  forall n m a b, nth_error A n = Some a -> nth_error B m = Some b ->
    exists row, nth_error (o2_left_apply_to_angle A B) n = Some row /\
                length row = length B /\
                nth_error row m = Some (o2_left_apply_angle a b).
Proof.
  unfold o2_left_apply_to_angle. split; [apply map_length|].
  intros n m a b Ha Hb. eexists. rewrite nth_error_map, Ha. simpl. split; [reflexivity|].
  rewrite map_length. split; [reflexivity|]. rewrite nth_error_map, Hb. reflexivity.
Qed.

(** relative elements *)
Lemma o2_relative g a b : o2_wf g ->
  o2_left_apply_angle (o2_inverse (o2_left_apply_angle g a)) (o2_left_apply_angle g b)
  = o2_left_apply_angle (o2_inverse a) b.
Proof.
  intros Hg. unfold o2_left_apply_angle, o2_inverse. cbn [o2c o2a]. f_equal.
  - destruct Hg as [-> | ->]; ring.
  - pose proof (so2_relative (o2a g) (o2a a) (o2a b)) as H.
    unfold so2_left_apply_angle, so2_inverse_angle in H.
    replace (Rmod (o2a g + o2a a) (2 * PI) * -1) with (- Rmod (o2a g + o2a a) (2 * PI)) by ring.
    rewrite H. f_equal. ring.
Qed.

(** ** action *)
Lemma combine_nth_error {A B} (l : list A) (m : list B) i x y :
  nth_error l i = Some x -> nth_error m i = Some y -> nth_error (combine l m) i = Some (x, y).
Proof.
  revert m i; induction l as [|a l IH]; intros m i Hx Hy; [destruct i; discriminate|].
  destruct m as [|b m]; [destruct i; discriminate|]. destruct i as [|i]; simpl in *; [congruence|].
  apply IH; assumption.
Qed.

Lemma o2_action_spec Rs grid :
  length (o2_left_apply_to_R2 Rs grid) = length Rs /\
  forall n w h r row v,
  nth_error Rs n = Some r -> nth_error grid w = Some row -> nth_error row h = Some v ->
  exists G row', nth_error (o2_left_apply_to_R2 Rs grid) n = Some G /\
    nth_error G w = Some row' /\
    nth_error row' h = Some (app2 (o2_acting_matrix r) v).
Proof.
  unfold o2_left_apply_to_R2. split.
  { rewrite map_length, combine_length, map_length.
    destruct (so2_action_shape (map o2a Rs) grid) as [-> _]. rewrite map_length. lia. }
  intros n w h r row v Hr Hw Hh.
  assert (Ha : nth_error (map o2a Rs) n = Some (o2a r)) by (rewrite nth_error_map, Hr; reflexivity).
  destruct (so2_action_spec (map o2a Rs) grid n w h _ _ _ Ha Hw Hh) as (G & row' & H1 & H2 & H3).
  assert (Hc : nth_error (map o2c Rs) n = Some (o2c r)) by (rewrite nth_error_map, Hr; reflexivity).
  exists (map (map (scalv2 (o2c r))) G), (map (scalv2 (o2c r)) row').
  rewrite nth_error_map, (combine_nth_error _ _ _ _ _ Hc H1). split; [reflexivity|].
  rewrite nth_error_map, H2. split; [reflexivity|]. rewrite nth_error_map, H3. simpl. f_equal.
  unfold o2_acting_matrix. mext; ring.
Qed.

Lemma o2_matrix_mul a b :
  o2_acting_matrix (o2_left_apply_angle a b) = mul2 (o2_acting_matrix a) (o2_acting_matrix b).
Proof.
  unfold o2_acting_matrix, o2_left_apply_angle. cbn [o2c o2a].
  pose proof (so2_matrix_mul (o2a a) (o2a b)) as H. unfold so2_left_apply_angle in H. rewrite H.
  mext; ring.
Qed.

Lemma o2_action_compose a b v :
  app2 (o2_acting_matrix a) (app2 (o2_acting_matrix b) v)
  = app2 (o2_acting_matrix (o2_left_apply_angle a b)) v.
Proof. rewrite o2_matrix_mul, app2_mul. reflexivity. Qed.

Lemma o2_action_id v : app2 (o2_acting_matrix (mkO2 1 0)) v = v.
Proof.
  unfold o2_acting_matrix, so2_angle_to_matrix. cbn [o2c o2a]. rewrite cos_0, sin_0. mext; ring.
Qed.

Lemma o2_action_isometry a u v : o2_wf a ->
  dot2 (app2 (o2_acting_matrix a) u) (app2 (o2_acting_matrix a) v) = dot2 u v.
Proof.
  intros H. rewrite <- (so2_action_isometry (o2a a) u v). unfold o2_acting_matrix, dot2, app2, scal2.
  cbn. destruct H as [-> | ->]; ring.
Qed.

(** A coefficient -1 element acts as the rotation by pi more. *)
Lemma o2_reflection_is_rotation t :
  o2_acting_matrix (mkO2 (-1) t) = o2_acting_matrix (mkO2 1 (t + PI)).
Proof.
  unfold o2_acting_matrix, so2_angle_to_matrix. cbn [o2c o2a]. rewrite neg_cos, neg_sin. mext; ring.
Qed.

Lemma o2_acting_det a : o2_wf a -> det2 (o2_acting_matrix a) = 1.
Proof.
  intros H. pose proof (sc1 (o2a a)) as Hs. unfold o2_acting_matrix, det2, so2_angle_to_matrix, scal2.
  cbn. destruct H as [-> | ->]; lra.
Qed.

Lemma o2_det_mismatch a : o2c a = -1 -> o2_det a <> det2 (o2_acting_matrix a).
Proof.
  intros H. rewrite o2_acting_det by (right; assumption). unfold o2_det. rewrite H. lra.
Qed.

(** A mirror reflection: an orthogonal matrix of determinant -1. *)
Definition isReflection2 (A : M2) : Prop := mul2 (tr2 A) A = I2 /\ det2 A = -1.

Lemma o2_no_mirror a : o2_wf a -> ~ isReflection2 (o2_acting_matrix a).
Proof. intros H [_ Hd]. rewrite o2_acting_det in Hd by assumption. lra. Qed.

(** O(2) is not commutative, so the o2 product cannot be its product. *)
Lemma O2_not_commutative : exists A B : M2,
  isSO2 A /\ isReflection2 B /\ mul2 A B <> mul2 B A.
Proof.
  exists (mkM2 0 (-1) 1 0), (mkM2 1 0 0 (-1)). split; [|split].
  - repeat split; try (mext; ring). unfold det2; simpl; ring.
  - repeat split; try (mext; ring). unfold det2; simpl; ring.
  - intros H. unfold mul2 in H; simpl in H. injection H as H1 H2 H3 H4. lra.
Qed.

(** ** uniform grid *)
Lemma nth_error_repeat {A} (x : A) n i : (i < n)%nat -> nth_error (repeat x n) i = Some x.
Proof. revert i; induction n as [|n IH]; intros i Hi; [lia|]. destruct i; simpl; [reflexivity|apply IH; lia]. Qed.

Lemma o2_uniform_layout n m :
  length (o2_uniform_grid n m) = (n + m)%nat /\
  (forall i, (i < n)%nat ->
     nth_error (o2_uniform_grid n m) i = Some (mkO2 1 (2 * PI * INR i / INR n))) /\
  (forall j, (j < m)%nat ->
     nth_error (o2_uniform_grid n m) (n + j) = Some (mkO2 (-1) (2 * PI * INR j / INR m))).
Proof.
  unfold o2_uniform_grid. repeat split.
  - rewrite map_length, combine_length, !app_length, !repeat_length, !so2_uniform_grid_length. lia.
  - intros i Hi. rewrite nth_error_map.
    rewrite (combine_nth_error _ _ i 1 (2 * PI * INR i / INR n)).
    + reflexivity.
    + rewrite nth_error_app1 by (rewrite repeat_length; assumption). apply nth_error_repeat; assumption.
    + rewrite nth_error_app1 by (rewrite so2_uniform_grid_length; assumption).
      apply so2_uniform_grid_nth; assumption.
  - intros j Hj. rewrite nth_error_map.
    rewrite (combine_nth_error _ _ (n + j) (- (1)) (2 * PI * INR j / INR m)).
    + reflexivity.
    + rewrite nth_error_app2 by (rewrite repeat_length; lia). rewrite repeat_length.
      replace (n + j - n)%nat with j by lia. apply nth_error_repeat; assumption.
    + rewrite nth_error_app2 by (rewrite so2_uniform_grid_length; lia).
      rewrite so2_uniform_grid_length. replace (n + j - n)%nat with j by lia.
      apply so2_uniform_grid_nth; assumption.
Qed.

Lemma o2_uniform_In n m e : In e (o2_uniform_grid n m) <->
  (o2c e = 1 /\ In (o2a e) (so2_uniform_grid n)) \/ (o2c e = -1 /\ In (o2a e) (so2_uniform_grid m)).
Proof.
  destruct (o2_uniform_layout n m) as (Hl & H1 & H2). split.
  - intros H. apply In_nth_error in H as [i Hi].
    pose proof (nth_error_Some_lt _ _ _ Hi) as Hlt. rewrite Hl in Hlt.
    destruct (Nat.lt_ge_cases i n) as [Hin|Hge].
    + left. rewrite H1 in Hi by assumption. injection Hi as <-. cbn. split; [reflexivity|].
      apply nth_error_In with i. apply so2_uniform_grid_nth; assumption.
    + right. replace i with (n + (i - n))%nat in Hi by lia. rewrite H2 in Hi by lia.
      injection Hi as <-. cbn. split; [reflexivity|].
      apply nth_error_In with (i - n)%nat. apply so2_uniform_grid_nth; lia.
  - destruct e as [c a]; cbn. intros [[-> H]|[-> H]]; apply In_nth_error in H as [i Hi];
      pose proof (nth_error_Some_lt _ _ _ Hi) as Hlt; rewrite so2_uniform_grid_length in Hlt;
      rewrite so2_uniform_grid_nth in Hi by assumption; injection Hi as <-.
    + apply nth_error_In with i. apply H1; assumption.
    + apply nth_error_In with (n + i)%nat. apply H2; assumption.
Qed.

Lemma o2_uniform_closed n a b :
  In a (o2_uniform_grid n n) -> In b (o2_uniform_grid n n) ->
  In (o2_left_apply_angle a b) (o2_uniform_grid n n) /\
  In (mkO2 (o2c (o2_inverse a)) (Rmod (o2a (o2_inverse a)) (2 * PI))) (o2_uniform_grid n n).
Proof.
  destruct (so2_uniform_grid_group n) as (_ & _ & _ & _ & Hmul & Hinv).
  assert (HM : forall x y, In x (so2_uniform_grid n) -> In y (so2_uniform_grid n) ->
            In (so2_left_apply_angle x y) (so2_uniform_grid n)).
  { intros x y Hx Hy. apply In_nth_error in Hx as [i Hi]. apply In_nth_error in Hy as [j Hj].
    eapply nth_error_In. apply (Hmul i j); assumption. }
  assert (HI : forall x, In x (so2_uniform_grid n) -> In (Rmod (so2_inverse_angle x) (2 * PI)) (so2_uniform_grid n)).
  { intros x Hx. apply In_nth_error in Hx as [i Hi]. eapply nth_error_In. apply (Hinv i); assumption. }
  rewrite !o2_uniform_In. intros Ha Hb. split.
  - unfold o2_left_apply_angle; cbn [o2c o2a].
    destruct Ha as [[-> Ha]|[-> Ha]], Hb as [[-> Hb]|[-> Hb]]; [left|right|right|left];
      (split; [ring|apply HM; assumption]).
  - cbn [o2_inverse o2c o2a]. replace (o2a a * -1) with (so2_inverse_angle (o2a a))
      by (unfold so2_inverse_angle; ring).
    destruct Ha as [[-> Ha]|[-> Ha]]; [left|right]; (split; [reflexivity|apply HI; assumption]).
Qed.

(** ** grid_sample *)
Lemma so2_grid_sample_rowwise T mode width S :
  rowwise (fun q s g => so2_grid_sample T mode width S q s g).
Proof.
  intros q s g out H. unfold so2_grid_sample in *.
  destruct (String.eqb mode "rbf").
  - destruct (RBF_rows _ _ _ _ _ _ _ _ _ H) as (H1 & _ & H2). auto.
  - destruct (String.eqb mode "nearest"); [|discriminate].
    exact (NN_rows _ _ _ _ _ _ H).
Qed.

Lemma o2_grid_sample_rows T mode rw fw S grid signal signal_grid n_rot n_ref out :
  (forall e, In e grid -> o2_wf e) -> (n_rot + n_ref)%nat = List.length signal ->
  o2_grid_sample T mode rw fw S grid signal signal_grid n_rot n_ref = Ok out ->
  List.length out = List.length grid /\
  forall i e, nth_error grid i = Some e ->
    exists row, nth_error out i = Some row /\
      ((o2c e = 1 /\ n_rot <> 0%nat /\
        so2_grid_sample T mode rw S [o2a e] (firstn n_rot signal) (map o2a (firstn n_rot signal_grid))
        = Ok [row]) \/
       (o2c e = -1 /\ n_ref <> 0%nat /\
        so2_grid_sample T mode fw S [o2a e] (skipn n_rot signal) (map o2a (skipn n_rot signal_grid))
        = Ok [row])).
Proof.
  intros Hw Hs H.
  exact (split_sample_rows o2c o2a _ _ (so2_grid_sample_rowwise T mode rw S)
    (so2_grid_sample_rowwise T mode fw S) grid signal signal_grid n_rot n_ref Hw Hs out H).
Qed.

(** The angles of the elements with a given coefficient, in order. *)
Definition o2_angles_with (c : R) (grid : list O2) : list R :=
  map o2a (filter (fun e => if Req_EM_T (o2c e) c then true else false) grid).

Lemma o2_grid_sample_missing T mode rw fw S grid signal signal_grid n_rot n_ref e other :
  (forall e, In e grid -> o2_wf e) -> (n_rot + n_ref)%nat = List.length signal ->
  In e grid ->
  (o2c e = 1 /\ n_rot = 0%nat /\
   (n_ref <> 0%nat -> so2_grid_sample T mode fw S (o2_angles_with (-1) grid) signal (map o2a signal_grid) = Ok other))
  \/ (o2c e = -1 /\ n_ref = 0%nat /\
   (n_rot <> 0%nat -> so2_grid_sample T mode rw S (o2_angles_with 1 grid) signal (map o2a (firstn n_rot signal_grid)) = Ok other)) ->
  o2_grid_sample T mode rw fw S grid signal signal_grid n_rot n_ref = Err IndexError.
Proof.
  intros Hw Hs He [(Hc & Hn & Ho)|(Hc & Hn & Ho)].
  - exact (split_sample_missing_rot o2c o2a _ _ (so2_grid_sample_rowwise T mode fw S)
      grid signal signal_grid n_rot n_ref Hw Hs e other Hn He Hc Ho).
  - exact (split_sample_missing_ref o2c o2a _ _ (so2_grid_sample_rowwise T mode rw S)
      grid signal signal_grid n_rot n_ref Hw Hs e other Hn He Hc Ho).
Qed.

Lemma o2_grid_sample_total T mode rw fw S grid signal signal_grid n_rot n_ref ro re :
  (forall e, In e grid -> o2_wf e) -> (n_rot + n_ref)%nat = List.length signal ->
  (n_rot = 0%nat -> forall e, In e grid -> o2c e <> 1) ->
  (n_ref = 0%nat -> forall e, In e grid -> o2c e <> -1) ->
  (n_rot <> 0%nat -> so2_grid_sample T mode rw S (o2_angles_with 1 grid) (firstn n_rot signal)
                       (map o2a (firstn n_rot signal_grid)) = Ok ro) ->
  (n_ref <> 0%nat -> so2_grid_sample T mode fw S (o2_angles_with (-1) grid) (skipn n_rot signal)
                       (map o2a (skipn n_rot signal_grid)) = Ok re) ->
  exists out, o2_grid_sample T mode rw fw S grid signal signal_grid n_rot n_ref = Ok out.
Proof.
  intros Hw Hs.
  exact (split_sample_total o2c o2a _ _ (so2_grid_sample_rowwise T mode rw S)
    (so2_grid_sample_rowwise T mode fw S) grid signal signal_grid n_rot n_ref Hw Hs ro re).
Qed.

(** A concrete run: reflection query first, rotation query second, one signal row each. *)
Lemma o2_sample_example T (HT : torch_ok T) :
  o2_grid_sample T "nearest" (1/2) (1/2) 1 [mkO2 (-1) 3; mkO2 1 4] [[10]; [20]]
    (o2_uniform_grid 1 1) 1 1 = Ok [[20]; [10]].
Proof.
  assert (Hone : forall x : R, te_argmin T [x] = 0%nat).
  { intros x. destruct (ok_argmin T HT [x]) as (v & Hv & _); [discriminate|].
    destruct (te_argmin T [x]) as [|k]; [reflexivity|]. destruct k; discriminate. }
  assert (Hg : o2_uniform_grid 1 1 = [mkO2 1 (2 * PI * INR 0 / INR 1); mkO2 (-1) (2 * PI * INR 0 / INR 1)]).
  { destruct (o2_uniform_layout 1 1) as (Hl & H1 & H2).
    apply nth_error_ext. intros i. destruct i as [|[|i]].
    - rewrite (H1 0%nat) by lia. reflexivity.
    - change 1%nat with (1 + 0)%nat at 3; rewrite (H2 0%nat) by lia. reflexivity.
    - transitivity (@None O2); [apply nth_error_None; rewrite Hl; lia|].
      destruct i; reflexivity. }
  rewrite Hg.
  assert (Hw1 : where_eq 1 [-1; 1] = [1%nat]).
  { unfold where_eq. simpl. destruct (Req_EM_T (-1) 1); [lra|]. destruct (Req_EM_T 1 1); [reflexivity|lra]. }
  assert (Hw2 : where_eq (-1) [-1; 1] = [0%nat]).
  { unfold where_eq. simpl. destruct (Req_EM_T (-1) (-1)); [|lra]. destruct (Req_EM_T 1 (-1)); [lra|reflexivity]. }
  unfold o2_grid_sample, split_sample. cbn [map o2c o2a firstn skipn]. rewrite Hw1, Hw2.
  unfold take_idx, so2_grid_sample. cbn -[te_argmin INR so2_geodesic_distance]. rewrite !Hone. reflexivity.
Qed.
