(** Facts about the backward pass on the sphere. *)
From Verif Require Import Prelude RMath Mat Repulse RepulseFacts S2 S2Facts SepProduct RepulseGrad RepulseGradSpec.
Open Scope R_scope.

(** ** Calculus *)
Lemma derivable_pt_lim_local (f g : R -> R) x l d : 0 < d -> (forall y, Rabs (y - x) < d -> f y = g y) ->
  derivable_pt_lim g x l -> derivable_pt_lim f x l.
Proof.
  intros Hd E H eps He. destruct (H eps He) as [del K]. assert (0 < Rmin del d) as Hm by (apply Rmin_pos; [apply cond_pos|exact Hd]).
  exists (mkposreal _ Hm). intros h Hh Hs. cbn [pos] in Hs.
  rewrite !E; [apply K; [exact Hh|]| |].
  - eapply Rlt_le_trans; [exact Hs|apply Rmin_l].
  - unfold Rminus. rewrite Rplus_opp_r, Rabs_R0. exact Hd.
  - replace (x + h - x) with h by ring. eapply Rlt_le_trans; [exact Hs|apply Rmin_r].
Qed.
Lemma derivable_pt_lim_eq (f : R -> R) x l l' : l = l' -> derivable_pt_lim f x l -> derivable_pt_lim f x l'.
Proof. intros ->. exact (fun H => H). Qed.
Lemma derivable_pt_lim_fext (f g : R -> R) x l : (forall y, f y = g y) -> derivable_pt_lim g x l -> derivable_pt_lim f x l.
Proof. intros E. apply (derivable_pt_lim_local f g x l 1); [lra|]. intros y _. apply E. Qed.
Lemma derivable_sum {A} (f : A -> R -> R) (f' : A -> R) (l : list A) x :
  (forall a, In a l -> derivable_pt_lim (f a) x (f' a)) ->
  derivable_pt_lim (fun t => sumR (map (fun a => f a t) l)) x (sumR (map f' l)).
Proof.
  induction l as [|a l IH]; intros H; cbn [map sumR]; [apply derivable_pt_lim_const|].
  apply (derivable_pt_lim_plus (f a) (fun t => sumR (map (fun a => f a t) l))); [apply H; left; reflexivity|apply IH; intros; apply H; right; assumption].
Qed.
Lemma descent (f : R -> R) l : derivable_pt_lim f 0 l -> l < 0 -> exists d, 0 < d /\ forall t, 0 < t < d -> f t < f 0.
Proof.
  intros H Hl. destruct (H (- l)) as [del K]; [lra|]. exists del. split; [apply cond_pos|]. intros t [T1 T2].
  specialize (K t ltac:(lra) ltac:(rewrite Rabs_right; lra)). rewrite Rplus_0_l in K.
  apply Rabs_def2 in K. destruct K as [K _]. assert ((f t - f 0) / t < 0) as Q by lra.
  assert (f t - f 0 = (f t - f 0) / t * t) as E by (field; lra). clear -Q E T1. nra.
Qed.
Lemma derivable_acos x : -1 < x < 1 -> derivable_pt_lim acos x (acos_backward x).
Proof.
  intros H. pose proof (derive_pt_acos x H) as E. apply derive_pt_eq in E. revert E. apply derivable_pt_lim_eq.
  unfold acos_backward, Rsqr. unfold Rdiv. ring.
Qed.
Lemma derivable_columb k d : 0 < d -> derivable_pt_lim (columb_energy k) d (columb_backward k d).
Proof.
  intros H. unfold columb_energy. assert (d ^ k <> 0) as Hk by (apply pow_nonzero; lra).
  apply derivable_pt_lim_fext with (g := ((fun _ => 1) / (fun d => d ^ k))%F); [intros y; unfold div_fct; unfold Rdiv; ring|].
  eapply derivable_pt_lim_eq; [|apply (derivable_pt_lim_div (fun _ => 1) (fun d => d ^ k)); [apply derivable_pt_lim_const|apply derivable_pt_lim_pow|exact Hk]].
  unfold columb_backward, Rsqr. destruct k as [|k]; [cbn [pred pow INR]; field; lra|]. cbn [pred]. generalize (INR (S k)). intros r.
  cbn [pow] in *. field. split; [apply pow_nonzero; lra|lra].
Qed.

(** ** One pair *)
Definition lo7 : R := -1 + / 10 ^ 7.
Definition hi7 : R := 1 - / 10 ^ 7.
Lemma seven : 0 < / 10 ^ 7 < / 2.
Proof. split; [apply Rinv_0_lt_compat, pow_lt; lra|]. apply Rinv_lt_contravar; [|simpl; lra]. apply Rmult_lt_0_compat; [lra|apply pow_lt; lra]. Qed.
Definition pair_energy (k : nat) (c : R) : R := columb_energy k (acos (clamp c lo7 hi7) / PI).
Definition pair_backward (k : nat) (c : R) : R :=
  columb_backward k (acos (clamp c lo7 hi7) / PI) / PI * acos_backward (clamp c lo7 hi7) * clamp_backward c lo7 hi7.
Lemma acos_pos_lt c : -1 <= c < 1 -> 0 < acos c.
Proof.
  intros H. destruct (acos_bound c) as [B _]. destruct B as [B|B]; [exact B|]. exfalso. pose proof (cos_acos c ltac:(lra)) as E. rewrite <- B, cos_0 in E. lra.
Qed.
Lemma derivable_pair k c : c <> lo7 -> c <> hi7 -> derivable_pt_lim (pair_energy k) c (pair_backward k c).
Proof.
  intros Hl Hh. pose proof seven as S7. pose proof PI_RGT_0 as HP. unfold pair_backward, clamp_backward.
  assert (lo7 < hi7) as LH by (unfold lo7, hi7; lra).
  destruct (Rle_dec lo7 c) as [L|L]; [destruct (Rle_dec c hi7) as [U|U]|].
  - assert (clamp c lo7 hi7 = c) as -> by (apply clamp_id; lra). rewrite Rmult_1_r.
    apply derivable_pt_lim_local with (g := fun c => columb_energy k (acos c / PI)) (d := Rmin (c - lo7) (hi7 - c)).
    + apply Rmin_pos; lra.
    + intros y Hy. unfold pair_energy. rewrite clamp_id; [reflexivity|]. apply Rabs_def2 in Hy. pose proof (Rmin_l (c - lo7) (hi7 - c)). pose proof (Rmin_r (c - lo7) (hi7 - c)). lra.
    + apply derivable_pt_lim_eq with (l := columb_backward k (acos c / PI) * (/ PI * acos_backward c)); [unfold Rdiv; ring|].
      apply (derivable_pt_lim_comp (fun c => acos c / PI) (columb_energy k)).
      * apply derivable_pt_lim_fext with (g := mult_real_fct (/ PI) acos); [intros y; unfold mult_real_fct, Rdiv; ring|].
        apply derivable_pt_lim_scal. apply derivable_acos. unfold lo7, hi7 in *. lra.
      * apply derivable_columb. apply Rdiv_lt_0_compat; [|exact HP]. apply acos_pos_lt. unfold lo7, hi7 in *. lra.
  - rewrite Rmult_0_r. apply derivable_pt_lim_local with (g := fun _ => columb_energy k (acos hi7 / PI)) (d := c - hi7); [lra| |apply derivable_pt_lim_const].
    intros y Hy. unfold pair_energy. rewrite clamp_hi; [reflexivity|lra|]. apply Rabs_def2 in Hy. lra.
  - rewrite Rmult_0_r. apply derivable_pt_lim_local with (g := fun _ => columb_energy k (acos lo7 / PI)) (d := lo7 - c); [lra| |apply derivable_pt_lim_const].
    intros y Hy. unfold pair_energy. rewrite clamp_lo; [reflexivity|lra|]. apply Rabs_def2 in Hy. lra.
Qed.

(** ** Moving points *)
Lemma derivable_aff b u : derivable_pt_lim (fun t => b + t * u) 0 u.
Proof.
  eapply derivable_pt_lim_eq; [|apply (derivable_pt_lim_plus (fun _ => b) (fun t => t * u)); [apply derivable_pt_lim_const|]].
  - apply Rplus_0_l.
  - apply derivable_pt_lim_fext with (g := mult_real_fct u id); [intros y; unfold mult_real_fct, id; ring|].
    apply derivable_pt_lim_eq with (l := u * 1); [ring|]. apply derivable_pt_lim_scal, derivable_pt_lim_id.
Qed.
Lemma derivable_sin_aff b u : derivable_pt_lim (fun t => sin (b + t * u)) 0 (cos b * u).
Proof.
  apply (derivable_pt_lim_comp (fun t => b + t * u) sin); [apply derivable_aff|]. rewrite Rmult_0_l, Rplus_0_r. apply derivable_pt_lim_sin.
Qed.
Lemma derivable_cos_aff b u : derivable_pt_lim (fun t => cos (b + t * u)) 0 (- sin b * u).
Proof.
  apply (derivable_pt_lim_comp (fun t => b + t * u) cos); [apply derivable_aff|]. rewrite Rmult_0_l, Rplus_0_r. apply derivable_pt_lim_cos.
Qed.
(** The unit vector at (b, g), and its velocity when b and g move with speeds u and w. *)
Definition dir (b g : R) : V3 := s2_spherical_to_euclid (mkV2 b g).
Definition vel (b g u w : R) : V3 := mkV3 (cos b * u * cos g + sin b * (- sin g * w)) (cos b * u * sin g + sin b * (cos g * w)) (- sin b * u).
Definition dot3 (p q : V3) : R := vx p * vx q + vy p * vy q + vz p * vz q.
Lemma derivable_prod (f g : R -> R) x f' g' F G : derivable_pt_lim f x f' -> derivable_pt_lim g x g' -> f x = F -> g x = G ->
  derivable_pt_lim (fun t => f t * g t) x (f' * G + F * g').
Proof. intros Hf Hg <- <-. apply (derivable_pt_lim_mult f g); assumption. Qed.
Lemma derivable_vx b g u w : derivable_pt_lim (fun t => vx (dir (b + t * u) (g + t * w))) 0 (vx (vel b g u w)).
Proof. cbn [dir s2_spherical_to_euclid v2x v2y vx vel]. apply derivable_prod; [apply derivable_sin_aff|apply derivable_cos_aff| |]; rewrite Rmult_0_l, Rplus_0_r; reflexivity. Qed.
Lemma derivable_vy b g u w : derivable_pt_lim (fun t => vy (dir (b + t * u) (g + t * w))) 0 (vy (vel b g u w)).
Proof. cbn [dir s2_spherical_to_euclid v2x v2y vy vel]. apply derivable_prod; [apply derivable_sin_aff|apply derivable_sin_aff| |]; rewrite Rmult_0_l, Rplus_0_r; reflexivity. Qed.
Lemma derivable_vz b g u w : derivable_pt_lim (fun t => vz (dir (b + t * u) (g + t * w))) 0 (vz (vel b g u w)).
Proof. cbn [dir s2_spherical_to_euclid v2x v2y vz vel]. apply derivable_cos_aff. Qed.
Lemma derivable_dot b g u w b' g' u' w' :
  derivable_pt_lim (fun t => dot3 (dir (b + t * u) (g + t * w)) (dir (b' + t * u') (g' + t * w'))) 0
    (dot3 (vel b g u w) (dir b' g') + dot3 (dir b g) (vel b' g' u' w')).
Proof.
  unfold dot3.
  apply derivable_pt_lim_eq with (l := (vx (vel b g u w) * vx (dir b' g') + vx (dir b g) * vx (vel b' g' u' w')) +
    (vy (vel b g u w) * vy (dir b' g') + vy (dir b g) * vy (vel b' g' u' w')) + (vz (vel b g u w) * vz (dir b' g') + vz (dir b g) * vz (vel b' g' u' w'))); [ring|].
  refine (derivable_pt_lim_plus (fun t => vx (dir (b + t * u) (g + t * w)) * vx (dir (b' + t * u') (g' + t * w')) + vy (dir (b + t * u) (g + t * w)) * vy (dir (b' + t * u') (g' + t * w')))
    (fun t => vz (dir (b + t * u) (g + t * w)) * vz (dir (b' + t * u') (g' + t * w'))) 0 _ _ _ _).
  1: refine (derivable_pt_lim_plus (fun t => vx (dir (b + t * u) (g + t * w)) * vx (dir (b' + t * u') (g' + t * w')))
       (fun t => vy (dir (b + t * u) (g + t * w)) * vy (dir (b' + t * u') (g' + t * w'))) 0 _ _ _ _).
  - apply derivable_prod; [apply derivable_vx|apply derivable_vx| |]; rewrite !Rmult_0_l, !Rplus_0_r; reflexivity.
  - apply derivable_prod; [apply derivable_vy|apply derivable_vy| |]; rewrite !Rmult_0_l, !Rplus_0_r; reflexivity.
  - apply derivable_prod; [apply derivable_vz|apply derivable_vz| |]; rewrite !Rmult_0_l, !Rplus_0_r; reflexivity.
Qed.

(** ** Sums over pairs *)
Lemma sum_filter {A} (p : A -> bool) (f : A -> R) l : sumR (map f (filter p l)) = sumR (map (fun a => if p a then f a else 0) l).
Proof. induction l as [|a l IH]; cbn [filter map sumR]; [reflexivity|]. destruct (p a); cbn [map sumR]; rewrite IH; [reflexivity|ring]. Qed.
Lemma sum_pairs_swap n (f : nat -> nat -> R) :
  sumR (map (fun i => sumR (map (fun j => f i j) (others n i))) (seq 0 n)) = sumR (map (fun i => sumR (map (fun j => f j i) (others n i))) (seq 0 n)).
Proof.
  unfold others.
  rewrite (sumR_ext _ (fun i => sumR (map (fun j => if negb (Nat.eqb j i) then f i j else 0) (seq 0 n)))) by (intros i _; apply sum_filter).
  rewrite (sumR_ext (fun i => sumR (map (fun j => f j i) _)) (fun i => sumR (map (fun j => if negb (Nat.eqb j i) then f j i else 0) (seq 0 n)))) by (intros i _; apply sum_filter).
  rewrite sumR_swap. apply sumR_ext. intros i _. apply sumR_ext. intros j _. rewrite Nat.eqb_sym. reflexivity.
Qed.
Lemma others_In n i j : In j (others n i) -> (j < n)%nat /\ j <> i.
Proof. unfold others. intros H. apply filter_In in H as [H1 H2]. apply in_seq in H1. destruct (Nat.eqb_spec j i); [discriminate|]. split; [lia|assumption]. Qed.

(** ** The energy along a direction *)
Lemma nth_map_seq {B} (f : nat -> B) n i d : (i < n)%nat -> nth i (map f (seq 0 n)) d = f i.
Proof. intros H. rewrite (nth_indep _ d (f 0%nat)) by (rewrite map_length, seq_length; exact H). rewrite map_nth, seq_nth by exact H. reflexivity. Qed.
Lemma energy_pairs k n x : length x = n ->
  sphere_energy k x = sumR (map (fun i => sumR (map (fun j =>
    pair_energy k (dot3 (dir (number x i 0) (number x i 1)) (dir (number x j 0) (number x j 1)))) (others n i))) (seq 0 n)) / INR (n * (n - 1)).
Proof.
  intros Hn. unfold sphere_energy.
  pose proof (mean_energy_pairs s2_spherical_to_euclid (fun a b => s2_geodesic_distance a b (/ 10 ^ 7)) (columb_energy k) PI (sph_of_rows x) (mkV2 (number x n 0) (number x n 1))) as E.
  cbv zeta in E. rewrite E. clear E. 2:{ intros a b _ _. apply s2_self_minimal. pose proof seven. lra. }
  assert (length (sph_of_rows x) = n) as -> by (unfold sph_of_rows; rewrite map_length; exact Hn).
  f_equal. apply sumR_ext. intros i Hi. apply in_seq in Hi. apply sumR_ext. intros j Hj. apply others_In in Hj as [Hj _]. unfold sph_of_rows.
  assert (forall i, (i < n)%nat -> nth i (map (fun r => mkV2 (nth 0 r 0) (nth 1 r 0)) x) (mkV2 (number x n 0) (number x n 1)) = mkV2 (number x i 0) (number x i 1)) as K.
  { intros l Hl. rewrite (nth_indep _ _ ((fun r => mkV2 (nth 0 r 0) (nth 1 r 0)) [])) by (rewrite map_length; lia). rewrite (map_nth (fun r => mkV2 (nth 0 r 0) (nth 1 r 0))). reflexivity. }
  rewrite !K by lia. reflexivity.
Qed.
Lemma moved_number n x v t i : (i < n)%nat -> number (moved n 2 x v t) i 0 = number x i 0 + t * number v i 0 /\ number (moved n 2 x v t) i 1 = number x i 1 + t * number v i 1.
Proof. intros H. unfold moved. split; unfold number at 1; rewrite nth_map_seq by exact H; reflexivity. Qed.
Lemma cos_angle_dot x i j : cos_angle x i j = dot3 (dir (number x i 0) (number x i 1)) (dir (number x j 0) (number x j 1)).
Proof. unfold cos_angle, dot3, dir. cbn [s2_spherical_to_euclid v2x v2y vx vy vz]. rewrite cos_minus. ring. Qed.
Lemma energy_derivative k n x v : length x = n -> off_guard n x ->
  let p i := dir (number x i 0) (number x i 1) in
  let q i := vel (number x i 0) (number x i 1) (number v i 0) (number v i 1) in
  derivable_pt_lim (fun t => sphere_energy k (moved n 2 x v t)) 0
    (/ INR (n * (n - 1)) * sumR (map (fun i => sumR (map (fun j => pair_backward k (dot3 (p i) (p j)) * (dot3 (q i) (p j) + dot3 (p i) (q j))) (others n i))) (seq 0 n))).
Proof.
  intros Hn Hg p q.
  set (P := fun i t => dir (number x i 0 + t * number v i 0) (number x i 1 + t * number v i 1)).
  apply derivable_pt_lim_fext with (g := mult_real_fct (/ INR (n * (n - 1))) (fun t => sumR (map (fun i => sumR (map (fun j => pair_energy k (dot3 (P i t) (P j t))) (others n i))) (seq 0 n)))).
  { intros t. rewrite (energy_pairs k n) by (unfold moved; rewrite map_length, seq_length; reflexivity).
    unfold mult_real_fct, Rdiv. rewrite Rmult_comm. f_equal. apply sumR_ext. intros i Hi. apply in_seq in Hi. apply sumR_ext. intros j Hj. apply others_In in Hj as [Hj _].
    destruct (moved_number n x v t i) as [-> ->]; [lia|]. destruct (moved_number n x v t j) as [-> ->]; [lia|]. reflexivity. }
  apply derivable_pt_lim_scal. apply derivable_sum. intros i Hi. apply in_seq in Hi.
  apply (derivable_sum (fun j t => pair_energy k (dot3 (P i t) (P j t)))). intros j Hj. apply others_In in Hj as [Hj Hne].
  assert (dot3 (P i 0) (P j 0) = dot3 (p i) (p j)) as E0 by (unfold P, p; rewrite !Rmult_0_l, !Rplus_0_r; reflexivity).
  apply (derivable_pt_lim_comp (fun t => dot3 (P i t) (P j t)) (pair_energy k)); [apply derivable_dot|]. rewrite E0.
  specialize (Hg i j ltac:(lia) ltac:(lia) ltac:(congruence)). rewrite cos_angle_dot in Hg. fold (p i) (p j) in Hg. pose proof seven as S7.
  apply derivable_pair; intros E; apply Hg; rewrite E; unfold lo7, hi7; [rewrite Rabs_left|rewrite Rabs_right]; lra.
Qed.

(** ** The backward pass *)
Lemma dot3_sum (c : nat -> R) (p : nat -> V3) (v : V3) js :
  dot3 (mkV3 (sumR (map (fun j => c j * vx (p j)) js)) (sumR (map (fun j => c j * vy (p j)) js)) (sumR (map (fun j => c j * vz (p j)) js))) v
  = sumR (map (fun j => c j * dot3 v (p j)) js).
Proof. unfold dot3. cbn [vx vy vz]. induction js as [|j js IH]; cbn [map sumR]; [ring|]. rewrite <- IH. ring. Qed.
Lemma backward_along k n x v : length x = n ->
  let p i := dir (number x i 0) (number x i 1) in
  let q i := vel (number x i 0) (number x i 1) (number v i 0) (number v i 1) in
  along n 2 (s2_backward k x) v =
  sumR (map (fun i => sumR (map (fun j => (s2_inner_grad k x i j + s2_inner_grad k x j i) * dot3 (q i) (p j)) (others n i))) (seq 0 n)).
Proof.
  intros Hn p q. unfold along. apply sumR_ext. intros i Hi. apply in_seq in Hi.
  change (seq 0 2) with [0%nat; 1%nat]. cbn [map sumR].
  assert (forall c, number (s2_backward k x) i c = nth c (s2_row_grad k x i) 0) as -> by (intros c; unfold number, s2_backward; rewrite Hn, nth_map_seq by lia; reflexivity).
  assert (forall c, number (s2_backward k x) i c = nth c (s2_row_grad k x i) 0) as -> by (intros c; unfold number, s2_backward; rewrite Hn, nth_map_seq by lia; reflexivity).
  transitivity (dot3 (s2_point_grad k x i) (q i)).
  - unfold s2_row_grad, q, vel, dot3. cbn [nth vx vy vz]. unfold number. ring.
  - unfold s2_point_grad. rewrite Hn. fold (others n i). apply (dot3_sum (fun j => s2_inner_grad k x i j + s2_inner_grad k x j i) p (q i)).
Qed.
Lemma inner_grad_pair k n x i j : length x = n ->
  s2_inner_grad k x i j = / INR (n * (n - 1)) * pair_backward k (dot3 (dir (number x i 0) (number x i 1)) (dir (number x j 0) (number x j 1))).
Proof. intros Hn. unfold s2_inner_grad, pair_backward. rewrite Hn. change (s2_inner x i j) with (dot3 (dir (number x i 0) (number x i 1)) (dir (number x j 0) (number x j 1))). fold lo7 hi7. unfold Rdiv. ring. Qed.
Lemma backward_table k x : table (length x) 2 (s2_backward k x).
Proof. split; [unfold s2_backward; rewrite map_length, seq_length; reflexivity|]. intros i Hi. unfold s2_backward. rewrite nth_map_seq by exact Hi. reflexivity. Qed.
Lemma backward_gradient k n x : table n 2 x -> off_guard n x -> is_gradient n 2 (sphere_energy k) x (s2_backward k x).
Proof.
  intros [Hn Hr] Hg. split; [rewrite <- Hn; apply backward_table|]. intros v _.
  eapply derivable_pt_lim_eq; [|apply energy_derivative; assumption]. rewrite backward_along by exact Hn.
  set (p := fun i => dir (number x i 0) (number x i 1)). set (q := fun i => vel (number x i 0) (number x i 1) (number v i 0) (number v i 1)).
  set (g := s2_inner_grad k x).
  transitivity (sumR (map (fun i => sumR (map (fun j => g i j * dot3 (q i) (p j) + g i j * dot3 (p i) (q j)) (others n i))) (seq 0 n))).
  { rewrite <- sumR_scale. apply sumR_ext. intros i _. rewrite <- sumR_scale. apply sumR_ext. intros j _. unfold g. rewrite (inner_grad_pair k n) by exact Hn. fold (p i) (p j). fold (q i) (q j). ring. }
  transitivity (sumR (map (fun i => sumR (map (fun j => g i j * dot3 (q i) (p j)) (others n i))) (seq 0 n)) + sumR (map (fun i => sumR (map (fun j => g i j * dot3 (p i) (q j)) (others n i))) (seq 0 n))).
  { rewrite <- sumR_plus. apply sumR_ext. intros i _. apply sumR_plus. }
  rewrite (sum_pairs_swap n (fun i j => g i j * dot3 (p i) (q j))). rewrite <- sumR_plus. apply sumR_ext. intros i _. rewrite <- sumR_plus. apply sumR_ext. intros j _.
  unfold g, p, q, dot3. ring.
Qed.

(** ** Steps *)
Lemma table_shaped n d x : table n d x <-> shaped n d x.
Proof.
  split; intros [Hn H]; (split; [exact Hn|]).
  - intros r Hr. destruct (In_nth x r [] Hr) as (i & Hi & <-). apply H. lia.
  - intros i Hi. apply H, nth_In. lia.
Qed.
Lemma table_moved n d x v t : table n d (moved n d x v t).
Proof. split; [unfold moved; rewrite map_length, seq_length; reflexivity|]. intros i Hi. unfold moved. rewrite nth_map_seq by exact Hi. rewrite map_length, seq_length. reflexivity. Qed.
Lemma moved_entry n d x v t i c : (i < n)%nat -> (c < d)%nat -> number (moved n d x v t) i c = number x i c + t * number v i c.
Proof. intros Hi Hc. unfold moved. unfold number at 1. rewrite nth_map_seq by exact Hi. rewrite nth_map_seq by exact Hc. reflexivity. Qed.
Lemma table_eq n d x y : table n d x -> table n d y -> (forall i c, (i < n)%nat -> (c < d)%nat -> number x i c = number y i c) -> x = y.
Proof.
  intros [Hx Rx] [Hy Ry] H. apply (nth_ext _ _ [] []); [congruence|]. intros i Hi. rewrite Hx in Hi. specialize (Rx i Hi). specialize (Ry i Hi).
  apply (nth_ext _ _ 0 0); [congruence|]. intros c Hc. apply H; [exact Hi|congruence].
Qed.
Lemma epoch_number n d steps lr alpha grad noise e x i c : table n d x -> table n d (grad x) -> table n d (noise e) -> (i < n)%nat -> (c < d)%nat ->
  number (repulse_epoch steps lr alpha grad noise e x) i c =
  number x i c - lr * (number (grad x) i c + (INR steps - INR e) / INR steps * alpha * number (noise e) i c).
Proof.
  rewrite !table_shaped. intros Hx Hg Hz Hi Hc. change number with entry. unfold repulse_epoch, t_sub, t_add.
  rewrite (entry_zip Rminus n d); [|exact Hx|apply shaped_scale, shaped_zip; [exact Hg|apply shaped_scale, Hz]|exact Hi|exact Hc].
  rewrite (entry_scale lr n d); [|apply shaped_zip; [exact Hg|apply shaped_scale, Hz]|exact Hi|exact Hc].
  rewrite (entry_zip Rplus n d); [|exact Hg|apply shaped_scale, Hz|exact Hi|exact Hc].
  rewrite (entry_scale _ n d); [|exact Hz|exact Hi|exact Hc]. reflexivity.
Qed.
Lemma epoch_table n d steps lr alpha grad noise e x : table n d x -> table n d (grad x) -> table n d (noise e) -> table n d (repulse_epoch steps lr alpha grad noise e x).
Proof. rewrite !table_shaped. intros Hx Hg Hz. unfold repulse_epoch, t_sub, t_add. apply shaped_zip; [exact Hx|]. apply shaped_scale, shaped_zip; [exact Hg|]. apply shaped_scale, Hz. Qed.
Lemma epoch_moved n d steps lr alpha grad noise e x : table n d x -> table n d (grad x) -> table n d (noise e) ->
  repulse_epoch steps lr alpha grad noise e x = moved n d x (moved n d (grad x) (noise e) ((INR steps - INR e) / INR steps * alpha)) (- lr).
Proof.
  intros Hx Hg Hz. apply (table_eq n d); [apply epoch_table; assumption|apply table_moved|]. intros i c Hi Hc.
  rewrite !moved_entry by assumption. rewrite (epoch_number n d) by assumption. ring.
Qed.
Lemma moved_0 n d x v : table n d x -> moved n d x v 0 = x.
Proof. intros H. apply (table_eq n d); [apply table_moved|exact H|]. intros i c Hi Hc. rewrite moved_entry by assumption. ring. Qed.
(** Whatever the energy: steps against its gradient. *)
Lemma gradient_step n d (E : rows -> R) grad steps alpha noise e x : table n d x -> is_gradient n d E x (grad x) -> table n d (noise e) ->
  0 < along n d (grad x) (moved n d (grad x) (noise e) ((INR steps - INR e) / INR steps * alpha)) ->
  exists lr0, 0 < lr0 /\ forall lr, 0 < lr < lr0 -> E (repulse_epoch steps lr alpha grad noise e x) < E x.
Proof.
  intros Hx [Hb D] Hz Hpos. set (v := moved n d (grad x) (noise e) _) in *.
  specialize (D v (table_moved _ _ _ _ _)).
  assert (derivable_pt_lim (fun t => E (moved n d x v (- t))) 0 (- along n d (grad x) v)) as D'.
  { apply derivable_pt_lim_eq with (l := along n d (grad x) v * -1); [ring|].
    apply (derivable_pt_lim_comp (fun t => - t) (fun t => E (moved n d x v t))).
    - apply derivable_pt_lim_opp, derivable_pt_lim_id.
    - rewrite Ropp_0. exact D. }
  destruct (descent _ _ D' ltac:(lra)) as (r & Hr & K). exists r. split; [exact Hr|]. intros lr Hlr.
  rewrite (epoch_moved n d) by assumption. fold v. specialize (K lr Hlr). cbv beta in K. rewrite Ropp_0, moved_0 in K by exact Hx. exact K.
Qed.
Lemma along_self n d g : (exists i c, (i < n)%nat /\ (c < d)%nat /\ number g i c <> 0) -> 0 < along n d g g.
Proof.
  intros (i & c & Hi & Hc & Hne). unfold along.
  assert (forall (f : nat -> R) l, (forall a, In a l -> 0 <= f a) -> 0 <= sumR (map f l)) as NN.
  { intros f l. induction l as [|a l IH]; cbn [map sumR]; intros H; [lra|]. pose proof (H a (or_introl eq_refl)). specialize (IH (fun b Hb => H b (or_intror Hb))). lra. }
  assert (forall (f : nat -> R) l a, (forall a, In a l -> 0 <= f a) -> In a l -> 0 < f a -> 0 < sumR (map f l)) as PP.
  { intros f l a H Ha P. induction l as [|b l IH]; [destruct Ha|]. cbn [map sumR]. pose proof (H b (or_introl eq_refl)) as Hb. pose proof (NN f l (fun b Hb => H b (or_intror Hb))) as Hl.
    destruct Ha as [->|Ha]; [lra|]. specialize (IH (fun b Hb => H b (or_intror Hb)) Ha). lra. }
  assert (forall r : R, 0 <= r * r) as SQ by (intros r; nra).
  apply (PP _ _ i); [intros a _; apply NN; intros; apply SQ|apply in_seq; lia|].
  apply (PP _ _ c); [intros; apply SQ|apply in_seq; lia|]. clear -Hne. nra.
Qed.
Lemma step_descends k n steps alpha noise e x : table n 2 x -> off_guard n x -> table n 2 (noise e) ->
  0 < along n 2 (s2_backward k x) (moved n 2 (s2_backward k x) (noise e) ((INR steps - INR e) / INR steps * alpha)) ->
  exists lr0, 0 < lr0 /\ forall lr, 0 < lr < lr0 -> sphere_energy k (repulse_epoch steps lr alpha (s2_backward k) noise e x) < sphere_energy k x.
Proof. intros Hx Hg Hz. apply (gradient_step n 2); [exact Hx|apply backward_gradient; assumption|exact Hz]. Qed.

(** ** Guarded pairs *)
Lemma guarded_pair k c : hi7 < Rabs c -> pair_backward k c = 0.
Proof.
  intros H. unfold pair_backward, clamp_backward. destruct (Rle_dec lo7 c) as [L|L]; [destruct (Rle_dec c hi7) as [U|U]|]; try ring.
  exfalso. unfold lo7, hi7 in *. destruct (Rcase_abs c); [rewrite Rabs_left in H by lra|rewrite Rabs_right in H by lra]; lra.
Qed.
Lemma guarded_grad k x i j : hi7 < Rabs (cos_angle x i j) -> s2_inner_grad k x i j = 0.
Proof. intros H. rewrite (inner_grad_pair k (length x)) by reflexivity. rewrite <- cos_angle_dot, guarded_pair by exact H. ring. Qed.
Lemma cos_angle_sym x i j : cos_angle x i j = cos_angle x j i.
Proof. rewrite !cos_angle_dot. unfold dot3. ring. Qed.
Lemma cos_angle_self x i : cos_angle x i i = 1.
Proof. unfold cos_angle. rewrite Rminus_diag_eq by reflexivity. rewrite cos_0. pose proof (sin2_cos2 (number x i 0)) as E. unfold Rsqr in E. lra. Qed.
Lemma stuck_point k n x i : length x = n -> (i < n)%nat -> (forall j, (j < n)%nat -> j <> i -> hi7 < Rabs (cos_angle x i j)) -> s2_row_grad k x i = [0; 0].
Proof.
  intros Hn Hi H. assert (s2_point_grad k x i = mkV3 0 0 0) as E.
  { unfold s2_point_grad. rewrite Hn. fold (others n i). f_equal; apply sumR_zero; intros j Hj; apply others_In in Hj as [Hj Hne];
      rewrite (guarded_grad k x i j) by (apply H; assumption); rewrite (guarded_grad k x j i) by (rewrite cos_angle_sym; apply H; assumption); ring. }
  unfold s2_row_grad. rewrite E. cbn [vx vy vz]. f_equal; [ring|]. f_equal. ring.
Qed.

(** ** Twins *)
Lemma inner_grad_twin k x i j l : nth i x [] = nth j x [] -> s2_inner_grad k x i l = s2_inner_grad k x j l /\ s2_inner_grad k x l i = s2_inner_grad k x l j.
Proof. intros H. rewrite !(inner_grad_pair k (length x)) by reflexivity. unfold number. rewrite H. split; reflexivity. Qed.
Lemma twin_grad k n x i j : length x = n -> (i < n)%nat -> (j < n)%nat -> nth i x [] = nth j x [] -> s2_row_grad k x i = s2_row_grad k x j.
Proof.
  intros Hn Hi Hj H. pose proof seven as S7.
  assert (forall a b, (a = i \/ a = j) -> (b = i \/ b = j) -> s2_inner_grad k x a b = 0) as Z.
  { intros a b Ha Hb. apply guarded_grad. assert (cos_angle x a b = cos_angle x i i) as -> by (unfold cos_angle, number; destruct Ha as [->| ->], Hb as [->| ->]; rewrite ?H; reflexivity).
    rewrite cos_angle_self, Rabs_R1. unfold hi7. lra. }
  assert (forall coord : V3 -> R, sumR (map (fun l => (s2_inner_grad k x i l + s2_inner_grad k x l i) * coord (dir (number x l 0) (number x l 1))) (others n i)) =
    sumR (map (fun l => (s2_inner_grad k x j l + s2_inner_grad k x l j) * coord (dir (number x l 0) (number x l 1))) (others n j))) as E.
  { intros coord. unfold others. rewrite !sum_filter. apply sumR_ext. intros l _. destruct (inner_grad_twin k x i j l H) as [<- <-].
    destruct (Nat.eqb_spec l i) as [Ei|Ni], (Nat.eqb_spec l j) as [Ej|Nj]; cbn [negb]; try reflexivity; rewrite !Z by auto; ring. }
  unfold s2_row_grad. assert (s2_point_grad k x i = s2_point_grad k x j) as ->.
  { unfold s2_point_grad. rewrite Hn. unfold others in E. f_equal; [apply (E vx)|apply (E vy)|apply (E vz)]. }
  rewrite H. reflexivity.
Qed.
Lemma row_numbers n x i : table n 2 x -> (i < n)%nat -> nth i x [] = [number x i 0; number x i 1].
Proof. intros [_ R] Hi. specialize (R i Hi). unfold number. destruct (nth i x []) as [|a [|b [|? ?]]]; try discriminate. reflexivity. Qed.
Lemma backward_row k n x i : length x = n -> (i < n)%nat -> nth i (s2_backward k x) [] = s2_row_grad k x i.
Proof. intros Hn Hi. unfold s2_backward. rewrite Hn. apply nth_map_seq, Hi. Qed.
Lemma twin_epoch k n steps lr alpha noise e x i j : table n 2 x -> table n 2 (noise e) -> (i < n)%nat -> (j < n)%nat -> nth i x [] = nth j x [] ->
  alpha = 0 \/ nth i (noise e) [] = nth j (noise e) [] ->
  let y := repulse_epoch steps lr alpha (s2_backward k) noise e x in nth i y [] = nth j y [].
Proof.
  intros Hx Hz Hi Hj H Hn y. assert (table n 2 (s2_backward k x)) as Hb by (destruct Hx as [<- _]; apply backward_table).
  assert (table n 2 y) as Hy by (apply epoch_table; assumption). rewrite !(row_numbers n y) by assumption.
  unfold y. rewrite !(epoch_number n 2) by (assumption || lia).
  assert (forall c, number x i c = number x j c) as -> by (intros c; unfold number; rewrite H; reflexivity).
  assert (forall c, number (s2_backward k x) i c = number (s2_backward k x) j c) as G.
  { intros c. unfold number. rewrite !(backward_row k n) by (assumption || apply Hx). rewrite (twin_grad k n x i j) by (assumption || apply Hx). reflexivity. }
  rewrite !G. destruct Hn as [->|Hn]; [f_equal; [|f_equal]; try ring|].
  - assert (forall c, number x i c = number x j c) as -> by (intros c; unfold number; rewrite H; reflexivity). ring.
  - assert (forall c, number (noise e) i c = number (noise e) j c) as -> by (intros c; unfold number; rewrite Hn; reflexivity).
    assert (forall c, number (noise e) i c = number (noise e) j c) as -> by (intros c; unfold number; rewrite Hn; reflexivity).
    assert (forall c, number x i c = number x j c) as -> by (intros c; unfold number; rewrite H; reflexivity). reflexivity.
Qed.

(** ** Two points *)
Lemma pair_energy_lt k c c' : (1 <= k)%nat -> clamp c lo7 hi7 < clamp c' lo7 hi7 -> pair_energy k c < pair_energy k c'.
Proof.
  intros Hk H. pose proof seven as S7. pose proof PI_RGT_0 as HP. assert (lo7 <= hi7) as LH by (unfold lo7, hi7; lra).
  destruct (clamp_bounds c lo7 hi7 LH) as [B1 B2]. destruct (clamp_bounds c' lo7 hi7 LH) as [B1' B2']. unfold pair_energy, columb_energy.
  set (a := clamp c lo7 hi7) in *. set (a' := clamp c' lo7 hi7) in *. clearbody a a'. unfold lo7, hi7 in *.
  assert (0 < acos a') as P' by (apply acos_pos_lt; lra).
  assert (acos a' < acos a) as L.
  { destruct (acos_bound a), (acos_bound a'). apply Rnot_le_lt. intros K. assert (cos (acos a') <= cos (acos a)) as Q by (apply cos_decr_1; lra).
    rewrite !cos_acos in Q by lra. lra. }
  assert (0 < acos a' / PI) by (apply Rdiv_lt_0_compat; lra).
  assert (acos a' / PI < acos a / PI) as L' by (apply Rmult_lt_compat_r; [apply Rinv_0_lt_compat; lra|exact L]).
  apply Rinv_lt_contravar; [apply Rmult_lt_0_compat; apply pow_lt; lra|].
  clear -H0 L' Hk. induction Hk as [|k Hk IH]; [rewrite !pow_1; exact L'|]. cbn [pow]. assert (0 < (acos a' / PI) ^ k) by (apply pow_lt; lra).
  apply Rmult_gt_0_lt_compat; lra.
Qed.
Lemma pair_energy_le k c c' : (1 <= k)%nat -> c <= c' -> pair_energy k c <= pair_energy k c'.
Proof.
  intros Hk H. destruct (clamp_mono c c' lo7 hi7 H) as [L|E]; [left; apply pair_energy_lt; assumption|]. unfold pair_energy. rewrite E. right. reflexivity.
Qed.
Lemma two_energy k x : length x = 2%nat -> sphere_energy k x = pair_energy k (cos_angle x 0 1).
Proof.
  intros H. rewrite (energy_pairs k 2) by exact H. cbn [seq map others filter Nat.eqb negb sumR Nat.mul Nat.add Nat.sub].
  rewrite <- !cos_angle_dot, (cos_angle_sym x 1 0). simpl INR. lra.
Qed.
Lemma columb_backward_neq k d : (1 <= k)%nat -> 0 < d -> columb_backward k d <> 0.
Proof.
  intros Hk Hd. unfold columb_backward. assert (0 < INR k) by (apply lt_0_INR; lia). assert (0 < / d ^ S k) by (apply Rinv_0_lt_compat, pow_lt; exact Hd).
  clear -H H0. nra.
Qed.
Lemma pair_backward_neq k c : (1 <= k)%nat -> Rabs c < hi7 -> pair_backward k c <> 0.
Proof.
  intros Hk Hc. apply Rabs_def2 in Hc. unfold pair_backward, clamp_backward. pose proof seven as S7. pose proof PI_RGT_0 as HP.
  assert (lo7 <= c <= hi7) as B by (unfold lo7, hi7 in *; lra). rewrite (clamp_id c) by exact B.
  destruct (Rle_dec lo7 c); [|lra]. destruct (Rle_dec c hi7); [|lra]. rewrite Rmult_1_r.
  apply Rmult_integral_contrapositive_currified; [apply Rmult_integral_contrapositive_currified|].
  - apply columb_backward_neq; [exact Hk|]. apply Rdiv_lt_0_compat; [|exact HP]. apply acos_pos_lt. unfold lo7, hi7 in *. lra.
  - apply Rinv_neq_0_compat. lra.
  - unfold acos_backward. apply Ropp_neq_0_compat, Rinv_neq_0_compat. assert (0 < sqrt (1 - c * c)); [|lra]. apply sqrt_lt_R0. unfold lo7, hi7 in *. clear -B S7 Hc. nra.
Qed.
Lemma two_rows k x : length x = 2%nat ->
  let b := number x 0 0 in let g := number x 0 1 in let b' := number x 1 0 in let g' := number x 1 1 in
  let G := pair_backward k (cos_angle x 0 1) in
  s2_row_grad k x 0 = [G * (cos b * sin b' * cos (g - g') - sin b * cos b'); - (G * (sin b * sin b' * sin (g - g')))] /\
  s2_row_grad k x 1 = [G * (sin b * cos b' * cos (g - g') - cos b * sin b'); G * (sin b * sin b' * sin (g - g'))].
Proof.
  intros H b g b' g' G. unfold s2_row_grad, s2_point_grad. rewrite H. cbn [seq filter Nat.eqb negb map sumR].
  rewrite !(inner_grad_pair k 2) by exact H. rewrite <- !cos_angle_dot, (cos_angle_sym x 1 0). fold G.
  change (nth 0 (nth 0 x []) 0) with b. change (nth 1 (nth 0 x []) 0) with g. change (nth 0 (nth 1 x []) 0) with b'. change (nth 1 (nth 1 x []) 0) with g'.
  cbn [vx vy vz s2_spherical_to_euclid v2x v2y]. rewrite cos_minus, sin_minus.
  replace (/ INR (2 * (2 - 1))) with (/ 2) by (cbn [Nat.mul Nat.add Nat.sub]; simpl INR; reflexivity).
  split; (f_equal; [field|f_equal; field]).
Qed.
Lemma two_gradient_pos k x : (1 <= k)%nat -> table 2 2 x -> Rabs (cos_angle x 0 1) < hi7 -> 0 < along 2 2 (s2_backward k x) (s2_backward k x).
Proof.
  intros Hk [Hn _] Hc. destruct (two_rows k x Hn) as [R0 R1]. pose proof (pair_backward_neq k _ Hk Hc) as HG. pose proof seven as S7.
  unfold along. cbn [seq map sumR]. unfold number at 1 2 3 4 5 6 7 8. rewrite !(backward_row k 2) by (assumption || lia). rewrite R0, R1. cbn [nth]. clear R0 R1.
  set (G := pair_backward k (cos_angle x 0 1)) in *. clearbody G. unfold cos_angle in Hc.
  set (b := number x 0 0) in *. set (b' := number x 1 0) in *. set (d := number x 0 1 - number x 1 1) in *. clearbody b b' d.
  pose proof (sin2_cos2 b) as Tb. pose proof (sin2_cos2 b') as Tb'. pose proof (sin2_cos2 d) as Td. unfold Rsqr in *.
  set (s := sin b) in *. set (c := cos b) in *. set (s' := sin b') in *. set (c' := cos b') in *. set (m := cos d) in *. set (z := sin d) in *. clearbody s c s' c' m z.
  assert ((s * s' * m + c * c') * (s * s' * m + c * c') < 1) as Hlt by (unfold hi7 in Hc; apply Rabs_def2 in Hc; clear -Hc S7; nra).
  set (A := c * s' * m - s * c'). set (B := s * c' * m - c * s'). set (C := s * s' * z).
  assert ((s * s' * m + c * c') * (s * s' * m + c * c') + A * A = 1 - (s' * z) * (s' * z)) as E1.
  { unfold A. replace ((s * s' * m + c * c') * (s * s' * m + c * c') + (c * s' * m - s * c') * (c * s' * m - s * c')) with ((s * s + c * c) * (s' * s' * (m * m) + c' * c')) by ring.
    rewrite Tb. replace (m * m) with (1 - z * z) by lra. replace (c' * c') with (1 - s' * s') by lra. ring. }
  assert ((s * s' * m + c * c') * (s * s' * m + c * c') + B * B = 1 - (s * z) * (s * z)) as E2.
  { unfold B. replace ((s * s' * m + c * c') * (s * s' * m + c * c') + (s * c' * m - c * s') * (s * c' * m - c * s')) with ((s' * s' + c' * c') * (s * s * (m * m) + c * c)) by ring.
    rewrite Tb'. replace (m * m) with (1 - z * z) by lra. replace (c * c) with (1 - s * s) by lra. ring. }
  replace (G * A * (G * A) + (- (G * C) * - (G * C) + 0) + (G * B * (G * B) + (G * C * (G * C) + 0) + 0)) with (G * G * (A * A + B * B + 2 * (C * C))) by ring.
  apply Rmult_lt_0_compat; [clear -HG; nra|].
  destruct (Req_dec (A * A + B * B + 2 * (C * C)) 0) as [Z|Z]; [exfalso|clear -Z; nra].
  assert (A = 0) as ZA by (clear -Z; nra). assert (B = 0) as ZB by (clear -Z; nra). assert (C = 0) as ZC by (clear -Z; nra).
  rewrite ZA in E1. rewrite ZB in E2. unfold C in ZC.
  apply Rmult_integral in ZC. destruct ZC as [ZC|ZC]; [apply Rmult_integral in ZC; destruct ZC as [ZC|ZC]|]; rewrite ZC in *; lra.
Qed.

(** ** A step that is too long *)
Lemma PI_rough : 28 / 10 < PI < 35 / 10.
Proof.
  destruct (PI_ineq 1) as [L U]. cbn [Nat.mul Nat.add sum_f_R0] in L, U. unfold tg_alt, PI_tg in *. simpl in *. lra.
Qed.
Definition close_pair : rows := [[PI / 2; 0]; [PI / 2; 9 / 10]].
Definition no_noise (n : nat) : rows := repeat [0; 0] n.
Lemma close_pair_cos : 0 < cos (9 / 10) < hi7.
Proof.
  pose proof PI_rough as P. split; [apply cos_gt_0; lra|]. assert (cos (9 / 10) < cos (PI / 6)) as L by (apply cos_decreasing_1; lra).
  rewrite cos_PI6 in L. assert (sqrt 3 < 18 / 10).
  { apply Rsqr_incrst_0; [unfold Rsqr; rewrite sqrt_sqrt by lra; lra|apply sqrt_pos|lra]. }
  unfold hi7. assert (/ 10 ^ 7 < / 20) by (apply Rinv_lt_contravar; simpl; lra). lra.
Qed.
Lemma close_pair_angle : cos_angle close_pair 0 1 = cos (9 / 10).
Proof. unfold cos_angle, number, close_pair. cbn [nth]. rewrite sin_PI2, cos_PI2. replace (0 - 9 / 10) with (- (9 / 10)) by lra. rewrite cos_neg. ring. Qed.
Lemma close_pair_backward : pair_backward 2 (cos (9 / 10)) * sin (9 / 10) = 2 * PI ^ 2 / (9 / 10) ^ 3.
Proof.
  pose proof close_pair_cos as [C0 C1]. pose proof PI_rough as P. pose proof seven as S7. unfold pair_backward, clamp_backward.
  rewrite (clamp_id (cos (9 / 10))) by (unfold lo7, hi7 in *; lra).
  destruct (Rle_dec lo7 (cos (9 / 10))); [|unfold lo7, hi7 in *; lra]. destruct (Rle_dec (cos (9 / 10)) hi7); [|lra].
  rewrite acos_cos by lra. unfold columb_backward, acos_backward.
  assert (0 < sin (9 / 10)) as HS by (apply sin_gt_0; lra).
  assert (sqrt (1 - cos (9 / 10) * cos (9 / 10)) = sin (9 / 10)) as ->.
  { replace (1 - cos (9 / 10) * cos (9 / 10)) with (sin (9 / 10) * sin (9 / 10)) by (pose proof (sin2_cos2 (9 / 10)) as E; unfold Rsqr in E; lra). apply sqrt_square. lra. }
  simpl INR. simpl pow. field. split; lra.
Qed.
Lemma close_pair_step (noise : nat -> rows) (e steps : nat) alpha : noise e = no_noise 2 ->
  sphere_energy 2 close_pair < sphere_energy 2 (repulse_epoch steps (/ 10) alpha (s2_backward 2) noise e close_pair).
Proof.
  intros Hz. pose proof PI_rough as P. pose proof close_pair_cos as [C0 C1]. pose proof seven as S7.
  assert (table 2 2 close_pair) as Ht by (split; [reflexivity|intros [|[|i]] Hi; [reflexivity|reflexivity|lia]]).
  assert (table 2 2 (noise e)) as Hn by (rewrite Hz; split; [reflexivity|intros [|[|i]] Hi; [reflexivity|reflexivity|lia]]).
  assert (table 2 2 (s2_backward 2 close_pair)) as Hb by apply (backward_table 2 close_pair).
  rewrite !two_energy; [|apply (epoch_table 2 2); assumption|reflexivity]. apply pair_energy_lt; [lia|]. rewrite close_pair_angle.
  rewrite (clamp_id (cos (9 / 10))) by (unfold lo7, hi7 in *; lra).
  destruct (two_rows 2 close_pair eq_refl) as [R0 R1]. rewrite close_pair_angle in R0, R1.
  unfold cos_angle. rewrite !(epoch_number 2 2) by (assumption || lia).
  assert (forall i c, (i < 2)%nat -> number (s2_backward 2 close_pair) i c = nth c (s2_row_grad 2 close_pair i) 0) as G by (intros i c Hi; unfold number; rewrite (backward_row 2 2) by (reflexivity || exact Hi); reflexivity).
  rewrite !G by lia. rewrite R0, R1, Hz. unfold number, close_pair, no_noise. cbn [nth repeat]. rewrite sin_PI2, cos_PI2.
  replace (sin (0 - 9 / 10)) with (- sin (9 / 10)) by (replace (0 - 9 / 10) with (- (9 / 10)) by lra; rewrite sin_neg; reflexivity).
  pose proof close_pair_backward as EB. set (G2 := pair_backward 2 (cos (9 / 10))) in *. clearbody G2.
  match goal with |- _ < clamp (sin ?b * sin ?b' * cos ?d + cos ?b * cos ?b') _ _ =>
    replace b with (PI / 2) by ring; replace b' with (PI / 2) by ring; replace d with (- (9 / 10 + 4 * / 10 * (PI ^ 2 / (9 / 10) ^ 3))) end.
  2:{ transitivity (- (9 / 10) - 2 * / 10 * (G2 * sin (9 / 10))); [rewrite EB|]; unfold Rdiv; ring. }
  rewrite sin_PI2, cos_PI2, cos_neg. set (th := 9 / 10 + 4 * / 10 * (PI ^ 2 / (9 / 10) ^ 3)).
  replace (1 * 1 * cos th + 0 * 0) with (cos th) by ring.
  assert (cos (9 / 10) < cos th) as L.
  { replace (cos th) with (cos (th - 2 * PI)) by (rewrite <- (cos_period (th - 2 * PI) 1); simpl INR; f_equal; ring).
    assert (- (9 / 10) < th - 2 * PI < 9 / 10) as B.
    { unfold th. replace (4 * / 10 * (PI ^ 2 / (9 / 10) ^ 3)) with (400 / 729 * (PI * PI)) by (simpl; field). clear -P. nra. }
    destruct (Rle_dec 0 (th - 2 * PI)); [apply cos_decreasing_1; lra|]. rewrite <- (cos_neg (th - 2 * PI)). apply cos_decreasing_1; lra. }
  destruct (Rle_dec (cos th) hi7); [rewrite clamp_id; [exact L|unfold lo7, hi7 in *; lra]|rewrite clamp_hi; [exact C1|unfold lo7, hi7 in *; lra|lra]].
Qed.
