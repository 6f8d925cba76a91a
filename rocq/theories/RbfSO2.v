(** The Gaussian RBF matrices of SO(2) grids with the default width 0.8 * acos (1 - 1e-12): nearly diagonal on grids of separated angles. *)
From Coq Require Import Lia Lra Psatz.
From Verif Require Import Prelude RMath Mat Interp InterpFacts SO2 SO2Facts Repulse Kernel LinAlg SolveSpec RbfSpec RbfSound RbfGrid.
Open Scope R_scope.

Definition so2_default_width : R := 8 / 10 * acos (1 - so2_eps).

Lemma cos_upper t : 0 <= t <= 2 -> cos t <= 1 - t * t / 2 + t * t * t * t / 24.
Proof.
  intros H. destruct (pre_cos_bound t 0) as [_ K]; [lra|lra|]. eapply Rle_trans; [exact K|]. right.
  unfold cos_approx. cbn [Nat.add Nat.mul sum_f_R0]. unfold cos_term. cbn [Nat.mul Nat.add fact pow INR]. field.
Qed.
Lemma cos_lower t : 1 - t * t / 2 <= cos t.
Proof.
  pose proof (cos_2a_sin (t / 2)) as E. replace (2 * (t / 2)) with t in E by field.
  assert (Rabs (sin (t / 2)) <= Rabs (t / 2)) as K.
  { destruct (Rle_dec 0 (t / 2)) as [P|P].
    - rewrite (Rabs_right (t / 2)) by lra. destruct P as [P|P].
      + destruct (Rle_dec (t / 2) 1) as [Q|Q].
        * rewrite Rabs_right; [left; apply sin_lt_x; exact P|]. apply Rle_ge, sin_ge_0; pose proof PI2_3_2; lra.
        * apply Rabs_le. pose proof (SIN_bound (t / 2)). lra.
      + rewrite <- P, sin_0, Rabs_R0. lra.
    - rewrite (Rabs_left (t / 2)) by lra. set (u := - (t / 2)). assert (t / 2 = - u) as -> by (unfold u; ring). assert (0 < u) by (unfold u; lra). rewrite sin_neg, Rabs_Ropp.
      destruct (Rle_dec u 1) as [Q|Q].
      + rewrite Rabs_right; [left; apply sin_lt_x; assumption|]. apply Rle_ge, sin_ge_0; pose proof PI2_3_2; lra.
      + apply Rabs_le. pose proof (SIN_bound u). lra. }
  apply Rsqr_le_abs_1 in K. unfold Rsqr in K. nra.
Qed.
Lemma acos_low x : 0 <= x <= 1 -> 2 * x <= acos (1 - x) * acos (1 - x).
Proof. intros H. pose proof (cos_lower (acos (1 - x))) as K. rewrite cos_acos in K by lra. lra. Qed.
Lemma acos_high x : 0 <= x <= 1 / 4 -> 9 / 20 * (acos (1 - x) * acos (1 - x)) <= x.
Proof.
  intros H. set (t := acos (1 - x)). assert (0 <= t) as P by apply acos_bound.
  assert (cos t = 1 - x) as E by (apply cos_acos; lra).
  assert (t <= 1) as Q.
  { destruct (Rle_dec t 1) as [Q|Q]; [exact Q|exfalso]. assert (cos t <= cos 1).
    { left. apply cos_decreasing_1; try lra; first [apply acos_bound | pose proof PI2_3_2; lra]. }
    pose proof (cos_upper 1 ltac:(lra)). lra. }
  pose proof (cos_upper t ltac:(lra)) as K. rewrite E in K. assert (t * t <= 1) by nra. assert (0 <= t * t) by nra.
  assert (t * t * t * t <= t * t) by nra. nra.
Qed.

Lemma eps_small : so2_eps = / 1000000000000.
Proof. unfold so2_eps. f_equal. ring. Qed.
Lemma width_pos : 0 < so2_default_width.
Proof.
  unfold so2_default_width. pose proof (acos_low so2_eps) as K. rewrite eps_small in *. specialize (K ltac:(lra)). pose proof (proj1 (acos_bound (1 - / 1000000000000))).
  assert (acos (1 - / 1000000000000) <> 0) as N by (intros E; rewrite E in K; lra). lra.
Qed.
Lemma so2_distance a b : so2_geodesic_distance a b so2_eps = acos (clamp (cos (a - b)) (-1 + so2_eps) (1 - so2_eps)).
Proof. unfold so2_geodesic_distance, so2_geodesic_distance_euclid, so2_angle_to_euclid. cbn [v2x v2y]. rewrite cos_minus. reflexivity. Qed.

Lemma exp_big u : 100 <= u -> exp (- u) <= / 1000000000.
Proof.
  intros H. rewrite exp_Ropp. apply Rinv_le_contravar; [lra|].
  assert (1 + u / 8 <= exp (u / 8)) as K by (apply Rlt_le, exp_ineq1; lra).
  assert (exp u = (exp (u / 8)) ^ 8) as ->. { cbn [pow]. rewrite Rmult_1_r, <- !exp_plus. f_equal. field. }
  assert (27 / 2 <= exp (u / 8)) as K2 by lra. apply Rle_trans with ((27 / 2) ^ 8); [lra|]. apply pow_incr. lra.
Qed.
Lemma exp_diag : / 9 <= exp (- (ln2_lit / (64 / 100))).
Proof.
  rewrite exp_Ropp. apply Rinv_le_contravar; [apply exp_pos|]. pose proof exp_le_3 as E3. pose proof (exp_pos 1).
  apply Rle_trans with (exp 2); [|replace 2 with (1 + 1) by ring; rewrite exp_plus; nra].
  destruct (Rlt_dec (ln2_lit / (64 / 100)) 2) as [Q|Q]; [left; apply exp_increasing; exact Q|]. unfold ln2_lit in Q. lra.
Qed.

Lemma gauss_diag : RBF_gauss (acos (1 - so2_eps)) so2_default_width = exp (- (ln2_lit / (64 / 100))).
Proof.
  pose proof width_pos as P. unfold RBF_gauss. f_equal. f_equal. unfold so2_default_width in *. unfold ln2_lit. set (d := acos (1 - so2_eps)) in *.
  assert (0 < d) by lra. field. lra.
Qed.
Lemma gauss_off a b : cos (a - b) <= 1 - / 10 ^ 9 -> 0 <= RBF_gauss (so2_geodesic_distance a b so2_eps) so2_default_width <= / 1000000000.
Proof.
  intros H. split; [left; apply exp_pos|]. unfold RBF_gauss. apply exp_big. rewrite so2_distance.
  assert (/ 10 ^ 9 = / 1000000000) as E9 by (f_equal; ring). rewrite E9 in H. pose proof (COS_bound (a - b)) as B.
  set (y := clamp (cos (a - b)) (-1 + so2_eps) (1 - so2_eps)).
  assert (-1 <= y <= 1 - / 1000000000) as Hy.
  { unfold y, clamp. rewrite eps_small. split.
    - apply Rmin_glb; [|lra]. eapply Rle_trans; [|apply Rmax_l]. lra.
    - eapply Rle_trans; [apply Rmin_l|]. apply Rmax_lub; lra. }
  assert (2 * / 1000000000 <= acos y * acos y) as D.
  { pose proof (acos_low (/ 1000000000) ltac:(lra)) as K. assert (acos (1 - / 1000000000) <= acos y) as M by (apply acos_decr_le; lra).
    pose proof (proj1 (acos_bound (1 - / 1000000000))). nra. }
  pose proof (acos_high so2_eps) as W. rewrite eps_small in W. specialize (W ltac:(lra)). pose proof width_pos as P. unfold so2_default_width in *. rewrite eps_small in P |- *.
  set (d0 := acos (1 - / 1000000000000)) in *. assert (0 < d0) by lra. set (D2 := acos y * acos y) in *.
  replace (acos y ^ 2) with D2 by (unfold D2; ring).
  replace (D2 / ((8 / 10 * d0) ^ 2 / ln2_lit)) with (D2 * (ln2_lit / (64 / 100)) / (d0 * d0)) by (unfold ln2_lit; field; lra).
  assert (0 < d0 * d0) as P2 by nra. apply Rmult_le_reg_r with (d0 * d0); [exact P2|].
  replace (D2 * (ln2_lit / (64 / 100)) / (d0 * d0) * (d0 * d0)) with (D2 * (ln2_lit / (64 / 100))) by (field; lra). unfold ln2_lit. lra.
Qed.

Lemma sm_indicator n i (c : R) f : (i < n)%nat -> sm n (fun k => (if Nat.eqb k i then c else 0) * f k) = c * f i.
Proof.
  revert i f. induction n as [|n IH]; intros i f Hi; [lia|]. cbn [sm]. destruct i as [|i].
  - cbn [Nat.eqb]. rewrite (sm_zero n); [ring|]. intros k _. cbn [Nat.eqb]. ring.
  - cbn [Nat.eqb]. rewrite (IH i (fun k => f (S k))) by lia. ring.
Qed.
Lemma separated_nonsingular grid : (1 <= length grid)%nat -> (Z.of_nat (length grid) <= 100000)%Z -> separated grid -> nonsingular (length grid) (so2_rbf_matrix so2_default_width grid) /\
  bounded_system (length grid) (so2_rbf_matrix so2_default_width grid) 18.
Proof.
  intros Hn Hn2 Hsep. set (n := length grid) in *. set (c := exp (- (ln2_lit / (64 / 100)))). pose proof exp_diag as Hc. fold c in Hc.
  assert (wfm n n (so2_rbf_matrix so2_default_width grid)) as Wf.
  { split; [apply map_length|]. intros r Hr. apply in_map_iff in Hr. destruct Hr as (a & <- & _). apply map_length. }
  assert (forall i j, (i < n)%nat -> (j < n)%nat -> ent (so2_rbf_matrix so2_default_width grid) i j = RBF_gauss (so2_geodesic_distance (nth i grid 0) (nth j grid 0) so2_eps) so2_default_width) as Ent.
  { intros i j Hi Hj. unfold ent, so2_rbf_matrix. rewrite (nth_indep _ [] (map (fun b => RBF_gauss (so2_geodesic_distance 0 b so2_eps) so2_default_width) grid)) by (rewrite map_length; exact Hi).
    rewrite (map_nth (fun a => map (fun b => RBF_gauss (so2_geodesic_distance a b so2_eps) so2_default_width) grid)). apply (nth_map0 (fun b => RBF_gauss (so2_geodesic_distance (nth i grid 0) b so2_eps) so2_default_width)). exact Hj. }
  assert (forall i, (i < n)%nat -> ent (so2_rbf_matrix so2_default_width grid) i i = c) as Diag.
  { intros i Hi. rewrite Ent by assumption. rewrite so2_distance, Rminus_diag_eq by reflexivity. rewrite cos_0, clamp_hi by (rewrite eps_small; lra). apply gauss_diag. }
  assert (forall i j, (i < n)%nat -> (j < n)%nat -> i <> j -> 0 <= ent (so2_rbf_matrix so2_default_width grid) i j <= / 1000000000) as Off.
  { intros i j Hi Hj Hij. rewrite Ent by assumption. apply gauss_off. apply (Hsep i j); [exact Hij| |]; apply nth_error_nth'; assumption. }
  assert ((forall i, (i < n)%nat -> sm n (fun j => Rabs (delta i j - sm n (fun k => (if Nat.eqb k i then / c else 0) * ent (so2_rbf_matrix so2_default_width grid) k j))) <= 1 / 2) /\
    (forall i, (i < n)%nat -> sm n (fun k => Rabs (if Nat.eqb k i then / c else 0)) <= 9)) as [B1 B2].
  2: { split.
    - apply trivial_kernel_nonsingular; [exact Wf|]. apply (approximate_inverse n _ (fun i k => if Nat.eqb k i then / c else 0) (1 / 2) 9); [lra|lra|exact B1|exact B2].
    - intros x y e S He Hy j Hj. replace 18 with (9 / (1 - 1 / 2)) by lra.
      exact (bounded_below n _ (fun i k => if Nat.eqb k i then / c else 0) (1 / 2) 9 ltac:(lra) ltac:(lra) B1 B2 x y e S He Hy j Hj). }
  split.
  - intros i Hi. set (A := ent (so2_rbf_matrix so2_default_width grid)) in *.
    eapply Rle_trans; [apply (sm_le n _ (fun _ => 9 * / 1000000000))|].
    + intros j Hj. rewrite (sm_indicator n i (/ c) (fun k => A k j) Hi). unfold delta. destruct (Nat.eqb_spec j i) as [->|Hij].
      * rewrite (Diag i Hi), Rinv_l by lra. rewrite Rminus_diag_eq by reflexivity. rewrite Rabs_R0. lra.
      * destruct (Off i j Hi Hj (not_eq_sym Hij)) as [O1 O2]. rewrite Rminus_0_l, Rabs_Ropp. assert (0 < / c) as Pc by (apply Rinv_0_lt_compat; lra).
        rewrite Rabs_right by (apply Rle_ge, Rmult_le_pos; lra). apply Rmult_le_compat; try lra. rewrite <- (Rinv_inv 9). apply Rinv_le_contravar; lra.
    + rewrite sm_constant. assert (IZR (Z.of_nat n) <= 100000); [|lra]. apply IZR_le. exact Hn2.
  - intros i Hi. rewrite (sm_ext n _ (fun k => (if Nat.eqb k i then / c else 0) * 1)).
    2: { intros k _. rewrite Rmult_1_r. destruct (Nat.eqb k i); [|apply Rabs_R0]. apply Rabs_right. left. apply Rinv_0_lt_compat. lra. }
    rewrite sm_indicator by exact Hi. rewrite Rmult_1_r. rewrite <- (Rinv_inv 9). apply Rinv_le_contravar; lra.
Qed.

Lemma cos_far k n : (1 <= k)%nat -> (k < n)%nat -> (Z.of_nat n <= 100000)%Z -> cos (2 * PI * INR k / INR n) <= 1 - / 10 ^ 9.
Proof.
  assert (/ 10 ^ 9 = / 1000000000) as E9 by (f_equal; ring). rewrite E9.
  assert (forall t, 3 / 50000 <= t -> t <= PI -> cos t <= 1 - / 1000000000) as K.
  { intros t H1 H2. destruct (Rle_dec t 1) as [Q|Q].
    - pose proof (cos_upper t ltac:(lra)). assert (9 / 2500000000 <= t * t) by nra. assert (t * t <= 1) by nra. assert (t * t * t * t <= t * t) by nra. lra.
    - assert (cos t <= cos 1). { left. apply cos_decreasing_1; try lra; pose proof PI2_3_2; lra. } pose proof (cos_upper 1 ltac:(lra)). lra. }
  intros H1 H2 H3. pose proof PI2_3_2 as P3. assert (0 < INR n) as Pn by (apply lt_0_INR; lia).
  assert (1 <= INR k) as Ck by (apply (le_INR 1); lia). assert (INR k + 1 <= INR n) as Ckn by (rewrite <- S_INR; apply le_INR; lia).
  assert (INR n <= 100000) as Cn by (rewrite INR_IZR_INZ; apply IZR_le; exact H3).
  assert (forall x, 1 <= x -> 3 / 50000 <= 2 * PI * x / INR n) as Lo.
  { intros x Hx. apply Rmult_le_reg_r with (INR n); [exact Pn|]. replace (2 * PI * x / INR n * INR n) with (2 * PI * x) by (field; lra). nra. }
  destruct (Rle_dec (2 * PI * INR k / INR n) PI) as [Q|Q]; [apply K; [apply Lo; exact Ck|exact Q]|].
  rewrite <- cos_neg. rewrite <- (cos_period _ 1). 
  replace (- (2 * PI * INR k / INR n) + 2 * INR 1 * PI) with (2 * PI * (INR n - INR k) / INR n) by (cbn [INR]; field; lra).
  apply K; [apply Lo; lra|]. apply Rnot_le_lt in Q. replace (2 * PI * (INR n - INR k) / INR n) with (2 * PI - 2 * PI * INR k / INR n) by (field; lra). lra.
Qed.
Lemma uniform_separated n : (Z.of_nat n <= 100000)%Z -> separated (so2_uniform_grid n).
Proof.
  intros Hn i j a b Hij Ha Hb.
  assert (i < n)%nat as Hi by (rewrite <- (so2_uniform_grid_length n); apply nth_error_Some; congruence).
  assert (j < n)%nat as Hj by (rewrite <- (so2_uniform_grid_length n); apply nth_error_Some; congruence).
  rewrite so2_uniform_grid_nth in Ha, Hb by assumption. injection Ha as <-. injection Hb as <-.
  assert (0 < INR n) as Pn by (apply lt_0_INR; lia).
  destruct (le_lt_dec i j) as [L|L].
  - rewrite <- cos_neg. replace (- (2 * PI * INR i / INR n - 2 * PI * INR j / INR n)) with (2 * PI * INR (j - i) / INR n) by (rewrite minus_INR by lia; field; lra). apply cos_far; lia.
  - replace (2 * PI * INR i / INR n - 2 * PI * INR j / INR n) with (2 * PI * INR (i - j) / INR n) by (rewrite minus_INR by lia; field; lra). apply cos_far; lia.
Qed.
