(** Sampling on SO(2), O(2) and O(3) (C71), and what random draws can return (C63). *)
From Coq Require Import String ZArith.
From Verif Require Import Prelude RMath Mat Interp InterpFacts SO2 SO2Facts O2 O2Facts SO3 SO3Facts SO3More O3 O3Facts S2.
Open Scope R_scope.

(** Two angles name the same rotation. *)
Definition same_angle (a b : R) : Prop := exists k : Z, a = b + 2 * PI * IZR k.

Lemma same_angle_dist a b c : same_angle a b -> so2_geodesic_distance a c so2_eps = so2_geodesic_distance b c so2_eps.
Proof.
  intros [k ->]. rewrite <- (so2_geodesic_period b c k 0 so2_eps). f_equal. simpl. ring.
Qed.

Lemma so2_sample_rbf_reproduces T (HT : torch_ok T) width S grid signal signal_grid out k i a b :
  wfm (List.length signal_grid) S signal ->
  so2_grid_sample T "rbf" width S grid signal signal_grid = Ok out ->
  nth_error grid k = Some a -> nth_error signal_grid i = Some b -> same_angle a b ->
  nth_error out k = nth_error signal i.
Proof.
  intros Hs H Hk Hi Hab. unfold so2_grid_sample in H. simpl in H. unfold interpolate_RBF in H.
  set (m := map (fun a => map (fun b => RBF_gauss (so2_geodesic_distance a b so2_eps) width) signal_grid) signal_grid) in *.
  destruct (te_solve T m signal) as [x|] eqn:Hx; [|discriminate]. simpl in H. injection H as <-.
  destruct (ok_solve T HT _ _ _ _ _
    (wfm_gram (fun a b => RBF_gauss (so2_geodesic_distance a b so2_eps) width) signal_grid signal_grid) Hs Hx) as (_ & Hm & _).
  rewrite <- Hm. unfold matmul, m. rewrite !nth_error_map, Hk, Hi. simpl. do 2 f_equal.
  apply map_ext. intros c. rewrite (same_angle_dist a b c Hab). reflexivity.
Qed.

Lemma so2_sample_nearest T (HT : torch_ok T) width S grid signal signal_grid :
  signal_grid <> [] -> List.length signal = List.length signal_grid ->
  exists out, so2_grid_sample T "nearest" width S grid signal signal_grid = Ok out /\
    List.length out = List.length grid /\
    forall k a, nth_error grid k = Some a ->
      exists i b row, nth_error signal_grid i = Some b /\ nth_error signal i = Some row /\
        nth_error out k = Some row /\
        forall b', In b' signal_grid -> so2_geodesic_distance a b so2_eps <= so2_geodesic_distance a b' so2_eps.
Proof.
  intros Hne Hl.
  destruct (NN_spec T HT (fun a b => so2_geodesic_distance a b so2_eps) grid signal_grid signal Hne Hl) as (out & H & Hlen & Hout).
  exists out. split; [exact H|]. split; [exact Hlen|]. intros k a Hk. destruct (Hout k a Hk) as (i & b & row & H1 & H2 & H3 & H4 & _).
  exists i, b, row. auto.
Qed.

(** At an angle of the grid that is at least 2e-6 away from every other one nearest sampling is exact. *)
Lemma acos_so2_eps_small : acos (1 - so2_eps) < 2 / 10 ^ 6.
Proof.
  rewrite <- (acos_cos (2 / 10 ^ 6)).
  2:{ pose proof PI_RGT_0. pose proof PI2_1. simpl. split; [lra|]. unfold PI2 in *. lra. }
  assert (cos (2 / 10 ^ 6) < 1 - so2_eps).
  { pose proof (cos_bound (2 / 10 ^ 6) 0) as Hc.
    destruct Hc as [_ Hc].
    - pose proof PI2_1. pose proof PI_RGT_0. unfold PI2 in *. simpl. lra.
    - pose proof PI2_1. unfold PI2 in *. simpl. lra.
    - eapply Rle_lt_trans; [exact Hc|]. unfold cos_approx, cos_term, so2_eps. simpl. lra. }
  unfold so2_eps in *. apply acos_decr_lt; simpl in *.
  - pose proof (COS_bound (2 / (10 * (10 * (10 * (10 * (10 * (10 * 1)))))))). lra.
  - lra.
  - lra.
Qed.

Lemma so2_dist_arc_close a b b' :
  so2_geodesic_distance a b so2_eps <= so2_geodesic_distance a b' so2_eps -> arc a b <= arc a b' + 2 / 10 ^ 6.
Proof.
  rewrite !so2_geodesic_arc by apply so2_eps_range. intros H.
  pose proof acos_so2_eps_small as Hs. pose proof (arc_bounds a b) as Hb1. pose proof (arc_bounds a b') as Hb2.
  assert (Hhi : acos (-1 + so2_eps) = PI - acos (1 - so2_eps)).
  { replace (-1 + so2_eps) with (- (1 - so2_eps)) by ring. apply acos_opp. }
  pose proof (acos_bound (1 - so2_eps)). pose proof acos_1_eps_lt_PI2.
  assert (Hle : acos (1 - so2_eps) <= acos (-1 + so2_eps)) by (pose proof so2_eps_range; apply acos_decr_le; unfold so2_eps; simpl; lra).
  rewrite Hhi in *. set (s := acos (1 - so2_eps)) in *.
  destruct (Rle_lt_dec (arc a b) (PI - s)) as [Hz|Hz].
  - assert (arc a b <= clamp (arc a b) s (PI - s)).
    { destruct (Rle_lt_dec (arc a b) s); [rewrite clamp_lo by lra; lra|rewrite clamp_id by lra; lra]. }
    assert (clamp (arc a b') s (PI - s) <= arc a b' + s).
    { destruct (Rle_lt_dec (arc a b') s); [rewrite clamp_lo by lra; lra|].
      destruct (Rle_lt_dec (PI - s) (arc a b')); [rewrite clamp_hi by lra; lra|rewrite clamp_id by lra; lra]. }
    lra.
  - rewrite clamp_hi in H by lra.
    destruct (Rle_lt_dec (PI - s) (arc a b')) as [H2|H2]; [lra|].
    destruct (Rle_lt_dec (arc a b') s); [rewrite clamp_lo in H by lra; lra|rewrite clamp_id in H by lra; lra].
Qed.

(** Nearest sampling on angles, stated with the arc between two directions only. *)
Lemma so2_sample_nearest_arc T (HT : torch_ok T) width S grid signal signal_grid :
  signal_grid <> [] -> List.length signal = List.length signal_grid ->
  exists out, so2_grid_sample T "nearest" width S grid signal signal_grid = Ok out /\
    List.length out = List.length grid /\
    forall k a, nth_error grid k = Some a ->
      exists i b row, nth_error signal_grid i = Some b /\ nth_error signal i = Some row /\
        nth_error out k = Some row /\
        forall b', In b' signal_grid -> arc a b <= arc a b' + 2 / 10 ^ 6.
Proof.
  intros Hne Hl. destruct (so2_sample_nearest T HT width S grid signal signal_grid Hne Hl) as (out & H1 & H2 & H3).
  exists out. split; [exact H1|]. split; [exact H2|]. intros k a Hk.
  destruct (H3 k a Hk) as (i & b & row & Hi & Hr & Ho & Hm). exists i, b, row. repeat split; auto.
  intros b' Hb'. apply so2_dist_arc_close. apply Hm. assumption.
Qed.

Lemma arc_same a b : same_angle a b -> arc a b = 0.
Proof.
  intros [k ->]. unfold arc. replace (b + 2 * PI * IZR k - b) with (0 + 2 * PI * IZR k) by ring.
  rewrite Rmod_shift, Rmod_0 by apply two_PI_pos. rewrite Rmin_left; [reflexivity|]. pose proof two_PI_pos. lra.
Qed.

Lemma so2_sample_nearest_exact T (HT : torch_ok T) width S grid signal signal_grid out k i a b :
  List.length signal = List.length signal_grid ->
  so2_grid_sample T "nearest" width S grid signal signal_grid = Ok out ->
  nth_error grid k = Some a -> nth_error signal_grid i = Some b -> same_angle a b ->
  (forall j b', nth_error signal_grid j = Some b' -> j <> i -> 2 / 10 ^ 6 <= arc a b') ->
  nth_error out k = nth_error signal i.
Proof.
  intros Hl Ho Hk Hi Hab Hsep.
  refine (NN_unique T HT (fun a b => so2_geodesic_distance a b so2_eps) grid signal_grid signal out k a i b Hl Ho Hk Hi _).
  intros j b' Hj Hne. pose proof (Hsep j b' Hj Hne) as Hs.
  destruct (Rlt_le_dec (so2_geodesic_distance a b so2_eps) (so2_geodesic_distance a b' so2_eps)) as [|Hc]; [assumption|exfalso].
  rewrite !so2_geodesic_arc in Hc by apply so2_eps_range. rewrite (arc_same a b Hab) in Hc.
  pose proof acos_so2_eps_small as Hsm. pose proof (arc_bounds a b').
  assert (Hhi : acos (-1 + so2_eps) = PI - acos (1 - so2_eps)).
  { replace (-1 + so2_eps) with (- (1 - so2_eps)) by ring. apply acos_opp. }
  pose proof (acos_bound (1 - so2_eps)). pose proof acos_1_eps_lt_PI2. rewrite Hhi in *. set (s := acos (1 - so2_eps)) in *.
  rewrite (clamp_lo 0) in Hc by lra.
  destruct (Rle_lt_dec (PI - s) (arc a b')); [rewrite clamp_hi in Hc by lra; lra|rewrite clamp_id in Hc by lra; lra].
Qed.

(** Only relative angles matter. *)
Lemma so2_sample_invariant T mode width S g grid signal signal_grid :
  so2_grid_sample T mode width S (map (so2_left_apply_angle g) grid) signal (map (so2_left_apply_angle g) signal_grid)
  = so2_grid_sample T mode width S grid signal signal_grid.
Proof.
  unfold so2_grid_sample. destruct (String.eqb mode "rbf").
  - apply RBF_isometry. intros. apply so2_geodesic_invariant.
  - destruct (String.eqb mode "nearest"); [|reflexivity]. apply NN_isometry. intros. apply so2_geodesic_invariant.
Qed.

Lemma so2_sample_unknown T mode width S grid signal signal_grid :
  mode <> "rbf"%string -> mode <> "nearest"%string -> so2_grid_sample T mode width S grid signal signal_grid = Err ValueError.
Proof.
  intros H1 H2. unfold so2_grid_sample. rewrite (proj2 (String.eqb_neq _ _) H1), (proj2 (String.eqb_neq _ _) H2). reflexivity.
Qed.
Lemma so3_sample_unknown T mode width S grid signal signal_grid :
  mode <> "rbf"%string -> mode <> "nearest"%string -> so3_grid_sample_matrix T mode width S grid signal signal_grid = Err ValueError.
Proof.
  intros H1 H2. unfold so3_grid_sample_matrix, so3_grid_sample. rewrite (proj2 (String.eqb_neq _ _) H1), (proj2 (String.eqb_neq _ _) H2). reflexivity.
Qed.

(** ** O(2), O(3) *)
Lemma wfm_firstn n m S x : wfm (n + m) S x -> wfm n S (firstn n x).
Proof.
  intros [L F]. split; [rewrite firstn_length; lia|]. intros r Hr. apply F. rewrite <- (firstn_skipn n x); apply in_or_app; auto.
Qed.
Lemma wfm_skipn n m S x : wfm (n + m) S x -> wfm m S (skipn n x).
Proof.
  intros [L F]. split; [rewrite skipn_length; lia|]. intros r Hr. apply F. rewrite <- (firstn_skipn n x); apply in_or_app; auto.
Qed.

(** A signal grid of an orthogonal group: [n_rot] rotations, then [n_ref] reflections. *)
Definition split_layout {E} (coeff : E -> R) (n_rot n_ref : nat) (g : list E) : Prop :=
  List.length g = (n_rot + n_ref)%nat /\
  forall i e, nth_error g i = Some e -> coeff e = if (i <? n_rot)%nat then 1 else -1.

Lemma nth_error_firstn_lt {A} n (l : list A) i : (i < n)%nat -> nth_error (firstn n l) i = nth_error l i.
Proof. revert l i. induction n as [|n IH]; intros [|x l] [|i] H; try lia; try reflexivity. simpl. apply IH. lia. Qed.
Lemma nth_error_skipn_add {A} n (l : list A) i : nth_error (skipn n l) i = nth_error l (n + i).
Proof. revert l. induction n as [|n IH]; intros l; [reflexivity|]. destruct l as [|x l]; [destruct i; reflexivity|]. simpl. apply IH. Qed.

Lemma o2_sample_rbf_reproduces T (HT : torch_ok T) rw fw S grid signal signal_grid n_rot n_ref out k i e e' :
  (forall x, In x grid -> o2_wf x) -> split_layout o2c n_rot n_ref signal_grid -> wfm (n_rot + n_ref) S signal ->
  o2_grid_sample T "rbf" rw fw S grid signal signal_grid n_rot n_ref = Ok out ->
  nth_error grid k = Some e -> nth_error signal_grid i = Some e' -> o2c e = o2c e' -> same_angle (o2a e) (o2a e') ->
  nth_error out k = nth_error signal i.
Proof.
  intros Hw [Hlen Hlay] Hs H Hk Hi Hc Ha.
  destruct (o2_grid_sample_rows T _ rw fw S grid signal signal_grid n_rot n_ref out Hw (eq_sym (proj1 Hs)) H) as [_ Hr].
  destruct (Hr k e Hk) as (row & Ho & Hrow). rewrite Ho. symmetry. pose proof (Hlay i e' Hi) as Hl.
  assert (Hii : (i < n_rot + n_ref)%nat) by (rewrite <- Hlen; apply nth_error_Some; congruence).
  destruct (i <? n_rot)%nat eqn:Hlt.
  - apply Nat.ltb_lt in Hlt. destruct Hrow as [(H1 & _ & Hq)|(H1 & _)]; [|lra].
    rewrite <- (nth_error_firstn_lt n_rot signal i Hlt). symmetry.
    refine (so2_sample_rbf_reproduces T HT rw S [o2a e] _ _ [row] 0 i (o2a e) (o2a e') _ Hq eq_refl _ Ha).
    + rewrite map_length, firstn_length, Hlen, Nat.min_l by lia. eapply wfm_firstn; eassumption.
    + rewrite nth_error_map, nth_error_firstn_lt, Hi by assumption. reflexivity.
  - apply Nat.ltb_ge in Hlt. destruct Hrow as [(H1 & _)|(H1 & _ & Hq)]; [lra|].
    replace i with (n_rot + (i - n_rot))%nat by lia. rewrite <- nth_error_skipn_add. symmetry.
    refine (so2_sample_rbf_reproduces T HT fw S [o2a e] _ _ [row] 0 (i - n_rot) (o2a e) (o2a e') _ Hq eq_refl _ Ha).
    + rewrite map_length, skipn_length, Hlen, Nat.add_comm, Nat.add_sub. eapply wfm_skipn; eassumption.
    + rewrite nth_error_map, nth_error_skipn_add. replace (n_rot + (i - n_rot))%nat with i by lia. rewrite Hi. reflexivity.
Qed.

Lemma o3_sample_rbf_reproduces T (HT : torch_ok T) rw fw S grid signal signal_grid n_rot n_ref out k i e :
  (forall x, In x grid -> o3c x = 1 \/ o3c x = -1) -> split_layout o3c n_rot n_ref signal_grid -> wfm (n_rot + n_ref) S signal ->
  o3_grid_sample T "rbf" rw fw S grid signal signal_grid n_rot n_ref = Ok out ->
  nth_error grid k = Some e -> nth_error signal_grid i = Some e ->
  nth_error out k = nth_error signal i.
Proof.
  intros Hw [Hlen Hlay] Hs H Hk Hi.
  destruct (o3_grid_sample_rows T _ rw fw S grid signal signal_grid n_rot n_ref out Hw (eq_sym (proj1 Hs)) H) as [_ Hr].
  destruct (Hr k e Hk) as (row & Ho & Hrow). rewrite Ho. symmetry. pose proof (Hlay i e Hi) as Hl.
  assert (Hii : (i < n_rot + n_ref)%nat) by (rewrite <- Hlen; apply nth_error_Some; congruence).
  destruct (i <? n_rot)%nat eqn:Hlt.
  - apply Nat.ltb_lt in Hlt. destruct Hrow as [(H1 & _ & Hq)|(H1 & _)]; [|lra].
    rewrite <- (nth_error_firstn_lt n_rot signal i Hlt). symmetry.
    refine (so3_sample_rbf_reproduces T HT rw S [o3r e] _ _ [row] 0 i (o3r e) _ Hq eq_refl _).
    + rewrite map_length, firstn_length, Hlen, Nat.min_l by lia. eapply wfm_firstn; eassumption.
    + rewrite nth_error_map, nth_error_firstn_lt, Hi by assumption. reflexivity.
  - apply Nat.ltb_ge in Hlt. destruct Hrow as [(H1 & _)|(H1 & _ & Hq)]; [lra|].
    replace i with (n_rot + (i - n_rot))%nat by lia. rewrite <- nth_error_skipn_add. symmetry.
    refine (so3_sample_rbf_reproduces T HT fw S [o3r e] _ _ [row] 0 (i - n_rot) (o3r e) _ Hq eq_refl _).
    + rewrite map_length, skipn_length, Hlen, Nat.add_comm, Nat.add_sub. eapply wfm_skipn; eassumption.
    + rewrite nth_error_map, nth_error_skipn_add. replace (n_rot + (i - n_rot))%nat with i by lia. rewrite Hi. reflexivity.
Qed.

(** Nearest sampling: the chosen element has the same determinant and, among those, a closest rotation part. *)
Lemma o2_sample_nearest T (HT : torch_ok T) rw fw S grid signal signal_grid n_rot n_ref out k e :
  (forall x, In x grid -> o2_wf x) -> split_layout o2c n_rot n_ref signal_grid -> List.length signal = (n_rot + n_ref)%nat ->
  o2_grid_sample T "nearest" rw fw S grid signal signal_grid n_rot n_ref = Ok out ->
  nth_error grid k = Some e ->
  exists i e', nth_error signal_grid i = Some e' /\ nth_error out k = nth_error signal i /\ o2c e' = o2c e /\
    forall j e'', nth_error signal_grid j = Some e'' -> o2c e'' = o2c e -> arc (o2a e) (o2a e') <= arc (o2a e) (o2a e'') + 2 / 10 ^ 6.
Proof.
  intros Hw [Hlen Hlay] Hs H Hk.
  destruct (o2_grid_sample_rows T _ rw fw S grid signal signal_grid n_rot n_ref out Hw (eq_sym Hs) H) as [_ Hr].
  destruct (Hr k e Hk) as (row & Ho & [(Hc & Hn & Hq)|(Hc & Hn & Hq)]).
  - assert (Hl1 : List.length (map o2a (firstn n_rot signal_grid)) = n_rot) by (rewrite map_length, firstn_length; lia).
    destruct (so2_sample_nearest_arc T HT rw S [o2a e] (firstn n_rot signal) (map o2a (firstn n_rot signal_grid))) as (o' & Ho' & _ & Hx).
    { intros E. rewrite E in Hl1. simpl in Hl1. congruence. }
    { rewrite Hl1, firstn_length. lia. }
    rewrite Hq in Ho'. injection Ho' as <-. destruct (Hx 0%nat (o2a e) eq_refl) as (i & b & row' & Hi & Hsi & Hr' & Hm).
    injection Hr' as <-. rewrite nth_error_map in Hi. destruct (nth_error (firstn n_rot signal_grid) i) as [e'|] eqn:Hi'; [|discriminate].
    injection Hi as <-.
    assert (Hin : (i < n_rot)%nat). { rewrite <- Hl1, map_length. apply nth_error_Some. congruence. }
    rewrite nth_error_firstn_lt in Hi' by assumption. rewrite nth_error_firstn_lt in Hsi by assumption.
    exists i, e'. split; [assumption|]. split; [congruence|]. rewrite (Hlay i e' Hi'), (proj2 (Nat.ltb_lt _ _) Hin), Hc. split; [reflexivity|].
    intros j e'' Hj Hcj. apply Hm. apply in_map. apply nth_error_In with j. rewrite nth_error_firstn_lt; [assumption|].
    pose proof (Hlay j e'' Hj) as Hlj. destruct (j <? n_rot)%nat eqn:E; [apply Nat.ltb_lt; assumption|lra].
  - assert (Hl1 : List.length (map o2a (skipn n_rot signal_grid)) = n_ref) by (rewrite map_length, skipn_length; lia).
    destruct (so2_sample_nearest_arc T HT fw S [o2a e] (skipn n_rot signal) (map o2a (skipn n_rot signal_grid))) as (o' & Ho' & _ & Hx).
    { intros E. rewrite E in Hl1. simpl in Hl1. congruence. }
    { rewrite Hl1, skipn_length. lia. }
    rewrite Hq in Ho'. injection Ho' as <-. destruct (Hx 0%nat (o2a e) eq_refl) as (i & b & row' & Hi & Hsi & Hr' & Hm).
    injection Hr' as <-. rewrite nth_error_map in Hi. destruct (nth_error (skipn n_rot signal_grid) i) as [e'|] eqn:Hi'; [|discriminate].
    injection Hi as <-. rewrite nth_error_skipn_add in Hi'. rewrite nth_error_skipn_add in Hsi.
    exists (n_rot + i)%nat, e'. split; [assumption|]. split; [congruence|].
    rewrite (Hlay _ e' Hi'), (proj2 (Nat.ltb_ge _ _)), Hc by lia. split; [reflexivity|].
    intros j e'' Hj Hcj. apply Hm. apply in_map. pose proof (Hlay j e'' Hj) as Hlj. destruct (j <? n_rot)%nat eqn:E; [lra|]. apply Nat.ltb_ge in E.
    apply nth_error_In with (j - n_rot)%nat. rewrite nth_error_skipn_add. replace (n_rot + (j - n_rot))%nat with j by lia. assumption.
Qed.

Lemma o3_sample_nearest T (HT : torch_ok T) rw fw S grid signal signal_grid n_rot n_ref out k e :
  (forall x, In x grid -> o3c x = 1 \/ o3c x = -1) -> split_layout o3c n_rot n_ref signal_grid -> List.length signal = (n_rot + n_ref)%nat ->
  o3_grid_sample T "nearest" rw fw S grid signal signal_grid n_rot n_ref = Ok out ->
  nth_error grid k = Some e ->
  exists i e', nth_error signal_grid i = Some e' /\ nth_error out k = nth_error signal i /\ o3c e' = o3c e /\
    forall j e'', nth_error signal_grid j = Some e'' -> o3c e'' = o3c e ->
      so3_geodesic_distance (so3_matrix_to_quat (o3r e)) (so3_matrix_to_quat (o3r e')) so3_eps
      <= so3_geodesic_distance (so3_matrix_to_quat (o3r e)) (so3_matrix_to_quat (o3r e'')) so3_eps.
Proof.
  intros Hw [Hlen Hlay] Hs H Hk.
  destruct (o3_grid_sample_rows T _ rw fw S grid signal signal_grid n_rot n_ref out Hw (eq_sym Hs) H) as [_ Hr].
  destruct (Hr k e Hk) as (row & Ho & [(Hc & Hn & Hq)|(Hc & Hn & Hq)]).
  - assert (Hl1 : List.length (map o3r (firstn n_rot signal_grid)) = n_rot) by (rewrite map_length, firstn_length; lia).
    destruct (so3_sample_nearest T HT rw S [o3r e] (firstn n_rot signal) (map o3r (firstn n_rot signal_grid))) as (o' & Ho' & Hx).
    { intros E. rewrite E in Hl1. simpl in Hl1. congruence. }
    { rewrite Hl1, firstn_length. lia. }
    rewrite Hq in Ho'. injection Ho' as <-. destruct (Hx 0%nat (o3r e) eq_refl) as (i & b & row' & Hi & Hsi & Hr' & Hm).
    injection Hr' as <-. rewrite nth_error_map in Hi. destruct (nth_error (firstn n_rot signal_grid) i) as [e'|] eqn:Hi'; [|discriminate].
    injection Hi as <-.
    assert (Hin : (i < n_rot)%nat). { rewrite <- Hl1, map_length. apply nth_error_Some. congruence. }
    rewrite nth_error_firstn_lt in Hi' by assumption. rewrite nth_error_firstn_lt in Hsi by assumption.
    exists i, e'. split; [assumption|]. split; [congruence|]. rewrite (Hlay i e' Hi'), (proj2 (Nat.ltb_lt _ _) Hin), Hc. split; [reflexivity|].
    intros j e'' Hj Hcj. apply Hm. apply in_map. apply nth_error_In with j. rewrite nth_error_firstn_lt; [assumption|].
    pose proof (Hlay j e'' Hj) as Hlj. destruct (j <? n_rot)%nat eqn:E; [apply Nat.ltb_lt; assumption|lra].
  - assert (Hl1 : List.length (map o3r (skipn n_rot signal_grid)) = n_ref) by (rewrite map_length, skipn_length; lia).
    destruct (so3_sample_nearest T HT fw S [o3r e] (skipn n_rot signal) (map o3r (skipn n_rot signal_grid))) as (o' & Ho' & Hx).
    { intros E. rewrite E in Hl1. simpl in Hl1. congruence. }
    { rewrite Hl1, skipn_length. lia. }
    rewrite Hq in Ho'. injection Ho' as <-. destruct (Hx 0%nat (o3r e) eq_refl) as (i & b & row' & Hi & Hsi & Hr' & Hm).
    injection Hr' as <-. rewrite nth_error_map in Hi. destruct (nth_error (skipn n_rot signal_grid) i) as [e'|] eqn:Hi'; [|discriminate].
    injection Hi as <-. rewrite nth_error_skipn_add in Hi'. rewrite nth_error_skipn_add in Hsi.
    exists (n_rot + i)%nat, e'. split; [assumption|]. split; [congruence|].
    rewrite (Hlay _ e' Hi'), (proj2 (Nat.ltb_ge _ _)), Hc by lia. split; [reflexivity|].
    intros j e'' Hj Hcj. apply Hm. apply in_map. pose proof (Hlay j e'' Hj) as Hlj. destruct (j <? n_rot)%nat eqn:E; [lra|]. apply Nat.ltb_ge in E.
    apply nth_error_In with (j - n_rot)%nat. rewrite nth_error_skipn_add. replace (n_rot + (j - n_rot))%nat with j by lia. assumption.
Qed.

(** ** random elements *)
Lemma so2_random_valid us : (forall u, In u us -> 0 <= u < 1) ->
  List.length (so2_random_grid us) = List.length us /\ forall a, In a (so2_random_grid us) -> 0 <= a < 2 * PI.
Proof.
  intros H. unfold so2_random_grid. split; [apply map_length|]. intros a Ha. apply in_map_iff in Ha as (u & <- & Hu).
  specialize (H u Hu). pose proof two_PI_pos. split; [apply Rmult_le_pos; lra|]. rewrite <- (Rmult_1_r (2 * PI)) at 2. apply Rmult_lt_compat_l; lra.
Qed.
Lemma so2_random_onto a : 0 <= a < 2 * PI -> exists u, 0 <= u < 1 /\ so2_random_grid [u] = [a].
Proof.
  intros H. pose proof two_PI_pos. exists (a / (2 * PI)). split.
  - split; [apply Rmult_le_pos; [lra|]; left; apply Rinv_0_lt_compat; lra|].
    apply Rmult_lt_reg_r with (2 * PI); [lra|]. unfold Rdiv. rewrite Rmult_assoc, Rinv_l, !Rmult_1_r, Rmult_1_l by lra. lra.
  - unfold so2_random_grid. simpl. f_equal. field. apply PI_neq0.
Qed.
(** Every interval of angles is hit exactly when the draw lies in the proportional interval. *)
Lemma so2_random_interval u x y : 0 <= u < 1 -> 0 <= x -> x <= y -> y <= 2 * PI ->
  ((exists a, so2_random_grid [u] = [a] /\ x <= a < y) <-> x / (2 * PI) <= u < y / (2 * PI)).
Proof.
  intros Hu Hx Hxy Hy. pose proof two_PI_pos as P. unfold so2_random_grid. simpl.
  assert (E : forall z, z = 2 * PI * (z / (2 * PI))) by (intros z; field; apply PI_neq0).
  split.
  - intros (a & Ha & H). injection Ha as <-. rewrite (E x) in H. rewrite (E y) in H. destruct H as [H1 H2].
    split; [apply Rmult_le_reg_l in H1; lra|apply Rmult_lt_reg_l in H2; lra].
  - intros [H1 H2]. exists (2 * PI * u). split; [reflexivity|]. rewrite (E x), (E y).
    split; [apply Rmult_le_compat_l; lra|apply Rmult_lt_compat_l; lra].
Qed.

Lemma o2_random_spec u c : 0 <= u < 1 ->
  exists e, o2_random_grid [u] [c] = [e] /\ o2_wf e /\ 0 <= o2a e < 2 * PI /\ o2a e = 2 * PI * u /\ (o2c e = 1 <-> 1 / 2 < c).
Proof.
  intros Hu. unfold o2_random_grid, so2_random_grid. simpl. eexists. split; [reflexivity|]. unfold o2_wf. cbn [o2c o2a].
  destruct (so2_random_valid [u]) as [_ Hv]. { intros x [<-|[]]. assumption. }
  split; [destruct (Rlt_dec (1/2) c); [left|right]; ring|]. split; [apply Hv; left; reflexivity|]. split; [reflexivity|].
  destruct (Rlt_dec (1/2) c); split; intros; try lra.
Qed.
Lemma o2_random_onto e : o2_wf e -> 0 <= o2a e < 2 * PI ->
  exists u c, 0 <= u < 1 /\ 0 <= c < 1 /\ o2_random_grid [u] [c] = [e].
Proof.
  intros He Ha. destruct (so2_random_onto _ Ha) as (u & Hu & E). unfold o2_random_grid.
  destruct He as [H|H]; [exists u, (3/4)|exists u, (1/4)]; (split; [assumption|]; split; [lra|]; rewrite E; simpl;
    destruct (Rlt_dec _ _); try lra; destruct e as [c a]; cbn [o2c o2a] in *; f_equal; f_equal; lra).
Qed.

Lemma qnormalize_id q : unitq q -> so3_random_quat q = q.
Proof.
  intros U. unfold so3_random_quat. rewrite qnormalize_scal. unfold qnorm. unfold unitq in U. rewrite U, sqrt_1.
  unfold qscal. destruct q; cbn. f_equal; field.
Qed.
Lemma so3_random_onto r : isSO3 r -> exists draw, 0 < qdot draw draw /\ so3_random_matrix draw = r.
Proof.
  intros H. exists (so3_matrix_to_quat r). pose proof (m2q_unit r H) as U. split; [unfold unitq in U; rewrite U; lra|].
  unfold so3_random_matrix. rewrite qnormalize_id by assumption. apply m2q_right_inv. assumption.
Qed.
Lemma o3_random_onto h : o3_wf h -> exists u draw, 0 <= u < 1 /\ 0 < qdot draw draw /\ o3_random u draw = h.
Proof.
  intros [Hc Hr]. destruct (so3_random_onto _ Hr) as (d & Hd & E). unfold o3_random.
  destruct Hc as [H|H]; [exists (3/4), d|exists (1/4), d]; (split; [lra|]; split; [assumption|]; rewrite E;
    destruct (Rlt_dec _ _); try lra; destruct h as [c0 r0]; cbn [o3c o3r] in *; f_equal; lra).
Qed.
(** The draw's length does not matter. *)
Lemma so3_random_scale draw t : 0 < t -> so3_random_quat (mkQ (t * qw draw) (t * qx draw) (t * qy draw) (t * qz draw)) = so3_random_quat draw.
Proof.
  intros Ht. unfold so3_random_quat. rewrite !qnormalize_scal.
  assert (E : qnorm (mkQ (t * qw draw) (t * qx draw) (t * qy draw) (t * qz draw)) = t * qnorm draw).
  { unfold qnorm. transitivity (sqrt (Rsqr t) * sqrt (qdot draw draw)); [|rewrite sqrt_Rsqr by lra; reflexivity]. rewrite <- sqrt_mult_alt by apply Rle_0_sqr. f_equal. unfold qdot, Rsqr. cbn. ring. }
  rewrite E. unfold qscal. destruct (Req_dec (qnorm draw) 0) as [Z|Z]; cbn -[qnorm].
  - rewrite Z, Rmult_0_r, !RIneq.Rinv_0. f_equal; ring.
  - f_equal; field; split; lra.
Qed.
