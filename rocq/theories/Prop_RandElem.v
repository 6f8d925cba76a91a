(** Property theorems C107: how uniform the random group elements are.
    Reading guide (RandomSpec.v): a random quantity is the list of its equally likely values; [rand_values N] are the values k / N of torch.rand (N = 2^24 in single precision);
    [independent law n]: n independent rows; [both]: two independent quantities; [same_law]: equally distributed.  [normals] stands for the law of the rows of torch.randn. *)
From Coq Require Import String ZArith Permutation.
From Verif Require Import Prelude RMath Mat Interp SO2 SO2Facts O2 O2Facts SO3 SO3Facts SO3More O3 O3Facts Repulse RepulseFacts S2 S2Facts RandomSpec RandomFacts RandElem RandElemFacts.
Open Scope R_scope.

(** so2.random_grid(n): every list of n of the N angles 2 pi k / N is returned by exactly one of the N^n draws.
    So the law is that of n independent uniform elements: turning (from either side) and inverting change nothing. *)
Theorem C107_SO2 : forall (N n : nat), (0 < N)%nat ->
  let law := map so2_random_grid (independent (rand_values N) n) in
  let step (j : Z) := 2 * PI * (IZR j / INR N) in
  NoDup law /\ List.length law = (N ^ n)%nat /\
  (forall g : list R, In g law <-> List.length g = n /\ Forall (fun a => exists k, (k < N)%nat /\ a = 2 * PI * (INR k / INR N)) g) /\
  (forall j, same_law (map (map (so2_left_apply_angle (step j))) law) law) /\
  (forall j, same_law (map (map (fun a => so2_left_apply_angle a (step j))) law) law) /\
  (forall j, same_law (map (map (fun a => so2_left_apply_angle (step j) (so2_inverse_angle a))) law) law).
Proof.
  intros N n HN law step. unfold law. rewrite so2_grid_law. split; [apply NoDup_independent, angles_NoDup|].
  split. { rewrite independent_length. unfold angles. rewrite map_length, seq_length. reflexivity. }
  split. { intros g. rewrite in_independent. split; intros [L F]; (split; [exact L|]); eapply Forall_impl; try exact F; intros a; apply in_angles. }
  split; [intros j; apply independent_perm, angles_turned; exact HN|]. split; [|intros j; apply independent_perm, (angles_inverted N j); exact HN].
  intros j. apply independent_perm. rewrite (map_ext _ (so2_left_apply_angle (step j))); [apply angles_turned; exact HN|]. intros a. unfold so2_left_apply_angle. f_equal. ring.
Qed.
Print Assumptions C107_SO2.

(** o2.random_grid(n): n independent rows; in each the angle is uniform, and of the N draws of the coefficient (N - 1) / 2 (rounded down) give 1, the others -1. *)
Theorem C107_O2 : forall (N n : nat), (0 < N)%nat ->
  let law := map (fun d => o2_random_grid (fst d) (snd d)) (both (independent (rand_values N) n) (independent (rand_values N) n)) in
  same_law law (independent (map (fun p => mkO2 (fst p) (snd p)) (both (repeat 1 ((N - 1) / 2) ++ repeat (-1) (N / 2 + 1)) (map (fun k => 2 * PI * (INR k / INR N)) (seq 0 N)))) n) /\
  (forall j, same_law (map (map (o2_left_apply_angle (mkO2 1 (2 * PI * (IZR j / INR N))))) law) law).
Proof.
  intros N n HN law. assert (Permutation law (independent (map (fun p => mkO2 (fst p) (snd p)) (both (repeat 1 ((N - 1) / 2) ++ repeat (-1) (N / 2 + 1)) (angles N))) n)) as H.
  { unfold law. rewrite o2_grid_law. apply independent_same. apply o2_one_law. exact HN. }
  split; [exact H|]. intros j. unfold same_law. rewrite H. apply independent_perm. apply o2_turned. exact HN.
Qed.
Print Assumptions C107_O2.

(** So the mean of the determinant of each row is -2 / N for even N (negative for every N) and not 0, and multiplying the rows by any element of determinant -1 changes the law:
    o2.random_grid is not uniform on O(2), only its rotation part is. *)
Theorem C107_O2_determinant_defect : forall (N n : nat), (0 < N)%nat ->
  let law := map (fun d => o2_random_grid (fst d) (snd d)) (both (independent (rand_values N) n) (independent (rand_values N) n)) in
  (forall i, (i < n)%nat -> meanR (map (fun g => o2_det (nth i g (mkO2 1 0))) law) < 0 /\
    (Nat.even N = true -> meanR (map (fun g => o2_det (nth i g (mkO2 1 0))) law) = - (2 / INR N))) /\
  (forall x : O2, (0 < n)%nat -> o2c x = -1 -> ~ same_law (map (map (o2_left_apply_angle x)) law) law).
Proof.
  intros N n HN law. split.
  - intros i Hi. unfold law. rewrite o2_det_mean by assumption. split; [apply coin_mean_neg; exact HN|apply coin_mean_even; exact HN].
  - intros x Hn Hx. exact (o2_not_reflected N n x HN Hn Hx).
Qed.
Print Assumptions C107_O2_determinant_defect.

(** On the plane a random O(2) element acts (coefficient times rotation) as a uniform random rotation, and never as a reflection (N even). *)
Theorem C107_O2_on_the_plane : forall (N n : nat), (0 < N)%nat -> Nat.even N = true ->
  let law := map (fun d => o2_random_grid (fst d) (snd d)) (both (independent (rand_values N) n) (independent (rand_values N) n)) in
  same_law (map (map o2_acting_matrix) law) (independent (map (fun p => so2_angle_to_matrix (snd p)) (both (seq 0 N) (map (fun k => 2 * PI * (INR k / INR N)) (seq 0 N)))) n) /\
  (forall g x, In g law -> In x g -> isSO2 (o2_acting_matrix x)).
Proof.
  intros N n HN HE law. assert (same_law (map (map o2_acting_matrix) law) (independent (map (fun p => so2_angle_to_matrix (snd p)) (both (seq 0 N) (angles N))) n)) as H.
  { unfold same_law, law. rewrite o2_grid_law, (independent_same _ _ n (o2_one_law N HN)), <- independent_map. apply independent_same.
    rewrite o2_acting_law by (try assumption; apply Forall_forall; intros c Hc; apply in_app_or in Hc as [Hc|Hc]; apply repeat_spec in Hc; auto).
    unfold both. rewrite map_flat_map. rewrite (flat_map_ext _ (fun _ : nat => map so2_angle_to_matrix (angles N))).
    2:{ intros a. rewrite map_map. reflexivity. }
    assert (forall (A : Type) (l : list A), flat_map (fun _ : A => map so2_angle_to_matrix (angles N)) l = concat (repeat (map so2_angle_to_matrix (angles N)) (List.length l))) as F.
    { intros A l. induction l as [|a l IH]; cbn [flat_map List.length repeat concat]; [reflexivity|]. rewrite IH. reflexivity. }
    rewrite !F. rewrite seq_length. replace (List.length (repeat 1 ((N - 1) / 2) ++ repeat (-1) (N / 2 + 1))) with N; [reflexivity|].
    rewrite (Permutation_length (Permutation_app_comm _ _)), <- coins by exact HN. rewrite map_length. unfold rand_values. rewrite map_length, seq_length. reflexivity. }
  split; [exact H|]. intros g x Hg Hx. assert (In (map o2_acting_matrix g) (independent (map (fun p => so2_angle_to_matrix (snd p)) (both (seq 0 N) (angles N))) n)) as Hin.
  { eapply Permutation_in; [exact H|]. apply in_map. exact Hg. }
  apply in_independent in Hin as [_ F]. rewrite Forall_forall in F. specialize (F _ (in_map o2_acting_matrix g x Hx)). apply in_map_iff in F as (p & <- & _). apply so2_matrix_SO2.
Qed.
Print Assumptions C107_O2_on_the_plane.

(** so3.random_quat(n), so3.random_matrix(n): for every law of the normal draws that multiplication by the unit quaternion p from the left (from the right; inversion) leaves unchanged,
    multiplying all n rows by p (by its rotation; inverting them) leaves the law of the result unchanged. *)
Theorem C107_SO3 : forall (normals : list Q4) (n : nat) (p : Q4), unitq p ->
  let quats := map so3_random_quats (independent normals n) in
  let matrices := map so3_random_matrices (independent normals n) in
  (same_law (map (qmul p) normals) normals -> same_law (map (map (qmul p)) quats) quats /\ same_law (map (map (mul3 (so3_quat_to_matrix p))) matrices) matrices) /\
  (same_law (map (fun x => qmul x p) normals) normals -> same_law (map (map (fun r => mul3 r (so3_quat_to_matrix p))) matrices) matrices) /\
  (same_law (map so3_quat_inverse normals) normals -> same_law (map (map so3_matrix_inverse) matrices) matrices).
Proof.
  intros normals n p Hp quats matrices. unfold matrices. rewrite so3_grid_law. split; [|split].
  - intros H. split; [exact (so3_quat_law p normals n Hp H)|]. apply independent_perm. apply so3_left_law; assumption.
  - intros H. apply independent_perm. apply so3_right_law; assumption.
  - intros H. apply independent_perm. apply so3_inverse_law. exact H.
Qed.
Print Assumptions C107_SO3.

(** o3.random_grid(n): n independent rows of a coefficient ((N - 1) / 2 of the N draws give 1) and a random rotation; turning from either side changes nothing. *)
Theorem C107_O3 : forall (normals : list Q4) (N n : nat), (0 < N)%nat ->
  let law := map (fun d => o3_random_grid (fst d) (snd d)) (both (independent normals n) (independent (rand_values N) n)) in
  same_law law (independent (map (fun p => mkO3 (fst p) (snd p)) (both (repeat 1 ((N - 1) / 2) ++ repeat (-1) (N / 2 + 1)) (map so3_random_matrix normals))) n) /\
  (forall p, unitq p ->
    (same_law (map (qmul p) normals) normals -> same_law (map (map (o3_left_apply_O3 (mkO3 1 (so3_quat_to_matrix p)))) law) law) /\
    (same_law (map (fun x => qmul x p) normals) normals -> same_law (map (map (fun h => o3_left_apply_O3 h (mkO3 1 (so3_quat_to_matrix p)))) law) law)).
Proof.
  intros normals N n HN law. assert (Permutation law (independent (map o3_one (both normals (rand_values N))) n)) as H by apply o3_grid_law.
  split; [unfold same_law; rewrite H; apply independent_same, o3_one_law; exact HN|].
  intros p Hp. split; intros HL; unfold same_law; rewrite H; apply independent_perm; [apply o3_left_law|apply o3_right_law]; assumption.
Qed.
Print Assumptions C107_O3.

(** Its mean determinant is -2 / N (N even), and multiplying by the inversion of space, or any element of determinant -1, changes the law. *)
Theorem C107_O3_determinant_defect : forall (normals : list Q4) (N n : nat), (0 < N)%nat -> normals <> [] ->
  let law := map (fun d => o3_random_grid (fst d) (snd d)) (both (independent normals n) (independent (rand_values N) n)) in
  (forall i, (i < n)%nat -> meanR (map (fun g => o3c (nth i g (mkO3 1 I3))) law) < 0 /\
    (Nat.even N = true -> meanR (map (fun g => o3c (nth i g (mkO3 1 I3))) law) = - (2 / INR N))) /\
  (forall x : O3, (0 < n)%nat -> o3c x = -1 -> ~ same_law (map (map (o3_left_apply_O3 x)) law) law).
Proof.
  intros normals N n HN HQ law. split.
  - intros i Hi. unfold law. rewrite o3_det_mean by assumption. split; [apply coin_mean_neg; exact HN|apply coin_mean_even; exact HN].
  - intros x Hn Hx. exact (o3_not_inverted N normals n x HN Hn HQ Hx).
Qed.
Print Assumptions C107_O3_determinant_defect.

(** s2.random_s2((n,)): for every law of non-zero normal draws that the orthogonal matrix A leaves unchanged, applying A to all points leaves their law unchanged. *)
Theorem C107_S2 : forall (normals : list V3) (n : nat) (A : M3), isO3 A -> Forall (fun d => 0 < dot3 d d) normals -> same_law (map (app3 A) normals) normals ->
  let law := map (fun ds => map s2_spherical_to_euclid (s2_random_grid ds)) (independent normals n) in
  same_law (map (map (app3 A)) law) law.
Proof.
  intros normals n A HA HD H law.
  replace law with (map (map (fun d => s2_spherical_to_euclid (s2_random d))) (independent normals n)) by (unfold law; apply map_ext; intros ds; unfold s2_random_grid; rewrite map_map; reflexivity).
  rewrite <- independent_map. apply independent_perm. apply s2_law; assumption.
Qed.
Print Assumptions C107_S2.

(** Non-vacuity: torch.rand in single precision, and laws of draws that quarter turns leave unchanged. *)
Example C107_nonvacuous : let N := (2 ^ 24)%nat in
  (0 < N)%nat /\ Nat.even N = true /\ INR N = 16777216 /\
  (let law := [mkV3 1 0 0; mkV3 (-1) 0 0; mkV3 0 1 0; mkV3 0 (-1) 0; mkV3 0 0 3] in let A := mkM3 0 (-1) 0 1 0 0 0 0 1 in
   isO3 A /\ Forall (fun d => 0 < dot3 d d) law /\ same_law (map (app3 A) law) law /\ A <> I3) /\
  (let law := [mkQ 2 0 0 0; mkQ 0 2 0 0; mkQ (-2) 0 0 0; mkQ 0 (-2) 0 0] in let p := mkQ 0 1 0 0 in
   unitq p /\ same_law (map (qmul p) law) law /\ same_law (map (fun x => qmul x p) law) law /\ same_law (map so3_quat_inverse law) law).
Proof.
  intros N. assert (Z.of_nat N = 16777216)%Z as EN. { unfold N. rewrite Nat2Z.inj_pow. reflexivity. }
  clearbody N. split; [lia|]. split; [apply Nat.even_spec; exists (Z.to_nat 8388608); lia|]. split; [rewrite INR_IZR_INZ, EN; reflexivity|]. split.
  - intros law A. split; [split; [unfold isO3, A, mul3, tr3, I3; cbn; f_equal; ring|]|].
    all: try (unfold A, mul3, tr3, I3; cbn; f_equal; ring).
    split; [repeat constructor; unfold dot3; cbn; lra|]. split.
    + assert (map (app3 A) law = [mkV3 0 1 0; mkV3 0 (-1) 0; mkV3 (-1) 0 0; mkV3 1 0 0; mkV3 0 0 3]) as ->.
      { unfold law, A, app3. cbn [map a00 a01 a02 a10 a11 a12 a20 a21 a22 vx vy vz]. repeat (apply f_equal2; [f_equal; ring|]); reflexivity. }
      unfold same_law, law. apply (perm_trans (l' := [mkV3 0 1 0; mkV3 0 (-1) 0; mkV3 1 0 0; mkV3 (-1) 0 0; mkV3 0 0 3])); [do 2 apply perm_skip; apply perm_swap|].
      change (Permutation ([mkV3 0 1 0; mkV3 0 (-1) 0] ++ [mkV3 1 0 0; mkV3 (-1) 0 0] ++ [mkV3 0 0 3]) ([mkV3 1 0 0; mkV3 (-1) 0 0] ++ [mkV3 0 1 0; mkV3 0 (-1) 0] ++ [mkV3 0 0 3])).
      rewrite !app_assoc. apply Permutation_app_tail. apply Permutation_app_comm.
    + unfold A, I3. intros E. injection E. intros. lra.
  - intros law p. split; [unfold unitq, qdot; cbn; lra|].
    assert (map (qmul p) law = [mkQ 0 2 0 0; mkQ (-2) 0 0 0; mkQ 0 (-2) 0 0; mkQ 2 0 0 0]) as ->.
    { unfold law, p, qmul. cbn [map qw qx qy qz]. repeat (apply f_equal2; [f_equal; ring|]); reflexivity. }
    assert (map (fun x => qmul x p) law = [mkQ 0 2 0 0; mkQ (-2) 0 0 0; mkQ 0 (-2) 0 0; mkQ 2 0 0 0]) as ->.
    { unfold law, p, qmul. cbn [map qw qx qy qz]. repeat (apply f_equal2; [f_equal; ring|]); reflexivity. }
    assert (map so3_quat_inverse law = [mkQ 2 0 0 0; mkQ 0 (-2) 0 0; mkQ (-2) 0 0 0; mkQ 0 2 0 0]) as ->.
    { unfold law, so3_quat_inverse. cbn [map qw qx qy qz]. repeat (apply f_equal2; [f_equal; ring|]); reflexivity. }
    unfold same_law, law. split; [|split].
    1,2: exact (Permutation_app_comm [mkQ 0 2 0 0; mkQ (-2) 0 0 0; mkQ 0 (-2) 0 0] [mkQ 2 0 0 0]).
    apply perm_skip. exact (perm_trans (perm_skip _ (perm_swap _ _ _)) (perm_trans (perm_swap _ _ _) (perm_trans (perm_skip _ (perm_swap _ _ _)) (perm_trans (perm_swap _ _ _) (perm_swap _ _ _))))).
Qed.
