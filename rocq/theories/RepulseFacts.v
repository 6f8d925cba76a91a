From Coq Require Import Psatz Permutation.
From Verif Require Import Prelude RMath Mat SO3 SO3Facts SO3More Repulse.
From Coq Require Import Sorting.Sorted.
Open Scope R_scope.

Lemma upd_length {V} (h : heap V) l v : length (upd h l v) = length h.
Proof. revert l; induction h as [|x h IH]; intros [|l]; simpl; auto. Qed.
Lemma upd_same {V} (h : heap V) l v d : (l < length h)%nat -> nth l (upd h l v) d = v.
Proof. revert l; induction h as [|x h IH]; intros [|l] H; simpl in *; try lia; auto. apply IH; lia. Qed.
Lemma upd_other {V} (h : heap V) l l' v d : l <> l' -> nth l' (upd h l v) d = nth l' h d.
Proof.
  revert l l'; induction h as [|x h IH]; intros [|l] [|l'] H; simpl; auto; try congruence.
Qed.
Lemma upd_nth_error_other {V} (h : heap V) l l' v : l <> l' -> nth_error (upd h l v) l' = nth_error h l'.
Proof.
  revert l l'; induction h as [|x h IH]; intros [|l] [|l'] H; simpl; auto; try congruence.
Qed.
Lemma upd_nth_error_same {V} (h : heap V) l v : (l < length h)%nat -> nth_error (upd h l v) l = Some v.
Proof. revert l; induction h as [|x h IH]; intros [|l] H; simpl in *; try lia; auto. apply IH; lia. Qed.

Definition final steps lr alpha grad noise (x : rows) : rows :=
  fold_left (fun x e => repulse_epoch steps lr alpha grad noise e x) (seq 0 steps) x.

Lemma loop_spec_gen steps lr alpha grad noise es h l : (l < length h)%nat ->
  let h' := fold_left (fun h e => upd h l (repulse_epoch steps lr alpha grad noise e (nth l h []))) es h in
  length h' = length h /\
  nth_error h' l = Some (fold_left (fun x e => repulse_epoch steps lr alpha grad noise e x) es (nth l h [])) /\
  forall l', l' <> l -> nth_error h' l' = nth_error h l'.
Proof.
  revert h; induction es as [|e es IH]; intros h Hl; simpl.
  - repeat split; auto. apply nth_error_nth'. assumption.
  - destruct (IH (upd h l (repulse_epoch steps lr alpha grad noise e (nth l h [])))) as (H1 & H2 & H3).
    { rewrite upd_length. assumption. }
    rewrite upd_length in H1. rewrite upd_same in H2 by assumption.
    split; [|split]; auto.
    intros l' Hl'. rewrite H3 by assumption. apply upd_nth_error_other. congruence.
Qed.

Lemma repulse_spec steps lr alpha grad noise in_place h l x :
  nth_error h l = Some x ->
  let '(h', r) := repulse steps lr alpha grad noise in_place h l in
  nth_error h' r = Some (final steps lr alpha grad noise x) /\
  (r = if in_place then l else length h) /\
  forall l', (l' < length h)%nat -> l' <> r -> nth_error h' l' = nth_error h l'.
Proof.
  intros Hx. pose proof (nth_error_Some_lt _ _ _ Hx) as Hl.
  assert (En : nth l h [] = x) by (apply nth_error_nth; assumption).
  unfold repulse, repulse_loop. destruct in_place.
  - destruct (loop_spec_gen steps lr alpha grad noise (seq 0 steps) h l Hl) as (H1 & H2 & H3).
    split; [rewrite <- En; exact H2|split; [reflexivity|]].
    intros l' Hl' Hn. apply H3. assumption.
  - set (h0 := h ++ [nth l h []]).
    assert (Hl0 : (length h < length h0)%nat) by (unfold h0; rewrite app_length; simpl; lia).
    destruct (loop_spec_gen steps lr alpha grad noise (seq 0 steps) h0 (length h) Hl0) as (H1 & H2 & H3).
    assert (E0 : nth (length h) h0 [] = x).
    { unfold h0. rewrite app_nth2, Nat.sub_diag by lia. simpl. assumption. }
    split; [rewrite <- E0; exact H2|split; [reflexivity|]].
    intros l' Hl' Hn. rewrite H3 by assumption. unfold h0. apply nth_error_app1. assumption.
Qed.

(** ** shapes and entries *)
Definition shaped (n d : nat) (x : rows) : Prop := length x = n /\ forall r, In r x -> length r = d.
(** Entry (i,j) of an (N,D) tensor. *)
Definition entry (x : rows) (i j : nat) : R := nth j (nth i x []) 0.

Lemma zip2_length {A B C} (f : A -> B -> C) l1 l2 :
  length l1 = length l2 -> length (zip2 f l1 l2) = length l1.
Proof. intros H. unfold zip2. rewrite map_length, combine_length. lia. Qed.

Lemma zip2_nth {A B C} (f : A -> B -> C) l1 l2 i a b c :
  length l1 = length l2 -> (i < length l1)%nat -> nth i (zip2 f l1 l2) c = f (nth i l1 a) (nth i l2 b).
Proof.
  revert l2 i; induction l1 as [|x l1 IH]; intros [|y l2] i H Hi; simpl in *; try lia.
  destruct i as [|i]; [reflexivity|]. apply IH; lia.
Qed.

Lemma zip2_In {A B C} (f : A -> B -> C) l1 l2 c :
  In c (zip2 f l1 l2) -> exists a b, In a l1 /\ In b l2 /\ c = f a b.
Proof.
  unfold zip2. intros H. apply in_map_iff in H as [[a b] [<- H]].
  exists a, b. split; [eapply in_combine_l; eauto|split; [eapply in_combine_r; eauto|reflexivity]].
Qed.

Lemma shaped_zip f n d x y : shaped n d x -> shaped n d y -> shaped n d (zip2 (zip2 f) x y).
Proof.
  intros [Hx1 Hx2] [Hy1 Hy2]. split.
  - rewrite zip2_length; congruence.
  - intros r Hr. apply zip2_In in Hr as (a & b & Ha & Hb & ->).
    rewrite zip2_length; [auto|]. rewrite Hx2, Hy2; auto.
Qed.

Lemma entry_zip f n d x y i j : shaped n d x -> shaped n d y -> (i < n)%nat -> (j < d)%nat ->
  entry (zip2 (zip2 f) x y) i j = f (entry x i j) (entry y i j).
Proof.
  intros [Hx1 Hx2] [Hy1 Hy2] Hi Hj. unfold entry.
  rewrite (zip2_nth _ x y i [] []) by lia.
  rewrite (zip2_nth _ _ _ j 0 0); [reflexivity| |].
  - rewrite Hx2, Hy2; auto; apply nth_In; lia.
  - rewrite Hx2; [assumption|apply nth_In; lia].
Qed.

Lemma shaped_scale c n d x : shaped n d x -> shaped n d (t_scale c x).
Proof.
  intros [H1 H2]. split; [unfold t_scale; rewrite map_length; assumption|].
  intros r Hr. apply in_map_iff in Hr as [r' [<- Hr]]. rewrite map_length. auto.
Qed.

Lemma entry_scale c n d x i j : shaped n d x -> (i < n)%nat -> (j < d)%nat ->
  entry (t_scale c x) i j = c * entry x i j.
Proof.
  intros [H1 H2] Hi Hj. unfold entry, t_scale.
  change ([] : list R) with (map (Rmult c) []). rewrite map_nth.
  rewrite (nth_indep _ 0 (c * 0)); [apply (map_nth (Rmult c))|].
  rewrite map_length, H2; [assumption|apply nth_In; lia].
Qed.

Section Traj.
Variables (n d steps : nat) (lr alpha : R) (grad : rows -> rows) (noise : nat -> rows) (x0 : rows).
Hypothesis Hx0 : shaped n d x0.
Hypothesis Hgrad : forall x, shaped n d x -> shaped n d (grad x).
Hypothesis Hnoise : forall e, shaped n d (noise e).

Definition traj (k : nat) : rows :=
  fold_left (fun x e => repulse_epoch steps lr alpha grad noise e x) (seq 0 k) x0.

Lemma traj_S k : traj (S k) = repulse_epoch steps lr alpha grad noise k (traj k).
Proof. unfold traj. rewrite seq_S, fold_left_app. reflexivity. Qed.

Lemma traj_shaped k : shaped n d (traj k).
Proof.
  induction k as [|k IH]; [exact Hx0|].
  rewrite traj_S. unfold repulse_epoch, t_sub, t_add.
  apply shaped_zip; [assumption|]. apply shaped_scale, shaped_zip; auto. apply shaped_scale; auto.
Qed.

Lemma traj_entry k i j : (i < n)%nat -> (j < d)%nat ->
  entry (traj (S k)) i j =
  entry (traj k) i j - lr * (entry (grad (traj k)) i j
     + (INR steps - INR k) / INR steps * alpha * entry (noise k) i j).
Proof.
  intros Hi Hj. pose proof (traj_shaped k) as Hs.
  rewrite traj_S. unfold repulse_epoch, t_sub, t_add.
  rewrite (entry_zip Rminus n d); auto.
  2:{ apply shaped_scale, shaped_zip; auto. apply shaped_scale; auto. }
  rewrite (entry_scale lr n d); auto. 2:{ apply shaped_zip; auto. apply shaped_scale; auto. }
  rewrite (entry_zip Rplus n d); auto. 2:{ apply shaped_scale; auto. }
  rewrite (entry_scale _ n d); auto.
Qed.
End Traj.

Lemma repulse_trajectory n d steps lr alpha grad noise in_place h l x :
  nth_error h l = Some x -> shaped n d x ->
  (forall y, shaped n d y -> shaped n d (grad y)) -> (forall e, shaped n d (noise e)) ->
  exists t : nat -> rows,
    t 0%nat = x /\ (forall k, shaped n d (t k)) /\
    (forall k i j, (k < steps)%nat -> (i < n)%nat -> (j < d)%nat ->
       entry (t (S k)) i j = entry (t k) i j
         - lr * (entry (grad (t k)) i j + (INR steps - INR k) / INR steps * alpha * entry (noise k) i j)) /\
    let '(h', r) := repulse steps lr alpha grad noise in_place h l in nth_error h' r = Some (t steps).
Proof.
  intros Hx Hs Hg Hn. exists (traj steps lr alpha grad noise x).
  split; [reflexivity|]. split; [apply traj_shaped; auto|]. split.
  - intros. apply (traj_entry n d); auto.
  - pose proof (repulse_spec steps lr alpha grad noise in_place h l x Hx) as H.
    destruct (repulse steps lr alpha grad noise in_place h l) as [h' r]. apply H.
Qed.

Lemma noise_schedule steps alpha : (0 < steps)%nat -> 0 < alpha ->
  noise_coeff steps alpha 0 = alpha /\
  noise_coeff steps alpha (steps - 1) = alpha / INR steps /\
  forall e, (S e < steps)%nat -> 0 < noise_coeff steps alpha (S e) < noise_coeff steps alpha e.
Proof.
  intros Hs Ha. assert (H0 : 0 < INR steps) by (apply lt_0_INR; assumption).
  unfold noise_coeff. split; [|split].
  - simpl. field. lra.
  - rewrite minus_INR by lia. simpl. field. lra.
  - intros e He. assert (H1 : INR (S e) < INR steps) by (apply lt_INR; assumption).
    rewrite S_INR in *. 
    assert (Hi : 0 < / INR steps) by (apply Rinv_0_lt_compat; assumption).
    unfold Rdiv. split; [repeat apply Rmult_lt_0_compat; lra|].
    apply Rmult_lt_compat_r; [assumption|]. apply Rmult_lt_compat_r; [assumption|lra].
Qed.

(** ** the energy *)
Lemma sumR_perm l1 l2 : Permutation l1 l2 -> sumR l1 = sumR l2.
Proof. induction 1; simpl; try lra. Qed.
Lemma meanR_perm l1 l2 : Permutation l1 l2 -> meanR l1 = meanR l2.
Proof. intros H. unfold meanR. rewrite (sumR_perm _ _ H), (Permutation_length H). reflexivity. Qed.

Lemma sort_tail l1 d l2 : (forall x, In x (l1 ++ l2) -> d <= x) ->
  Permutation (tl (sortR (l1 ++ d :: l2))) (l1 ++ l2).
Proof.
  intros Hd. pose proof (sortR_perm (l1 ++ d :: l2)) as HP.
  pose proof (sortR_sorted (l1 ++ d :: l2)) as HS.
  destruct (sortR (l1 ++ d :: l2)) as [|m t].
  - apply Permutation_length in HP. rewrite app_length in HP; simpl in HP; lia.
  - simpl. inversion HS as [|? ? HS1 HS2]; subst. rewrite Forall_forall in HS2.
    assert (E : m = d).
    { assert (H1 : In m (l1 ++ d :: l2)) by (eapply Permutation_in; [symmetry; exact HP|left; reflexivity]).
      assert (H2 : In d (m :: t)) by (eapply Permutation_in; [exact HP|apply in_elt]).
      assert (d <= m).
      { apply in_app_or in H1 as [H1|[H1|H1]]; [apply Hd, in_or_app; auto|lra|apply Hd, in_or_app; auto]. }
      assert (m <= d) by (destruct H2 as [H2|H2]; [lra|auto]).
      lra. }
    subst m. apply (Permutation_cons_inv (a := d)).
    etransitivity; [symmetry; exact HP|]. symmetry. apply Permutation_middle.
Qed.

Lemma sumR_app l1 l2 : sumR (l1 ++ l2) = sumR l1 + sumR l2.
Proof. induction l1; simpl; lra. Qed.
Lemma sumR_concat ls : sumR (concat ls) = sumR (map sumR ls).
Proof. induction ls as [|l ls IH]; simpl; [reflexivity|]. rewrite sumR_app, IH. reflexivity. Qed.
Lemma concat_length_const {A} (ls : list (list A)) k :
  (forall l, In l ls -> length l = k) -> length (concat ls) = (length ls * k)%nat.
Proof.
  induction ls as [|l ls IH]; intros H; simpl; [reflexivity|].
  rewrite app_length, (H l) by (left; reflexivity). rewrite IH; [reflexivity|]. intros; apply H; right; auto.
Qed.

(** The pairs (i,j) with i <> j. *)
Definition others (n i : nat) : list nat := filter (fun j => negb (Nat.eqb j i)) (seq 0 n).

Lemma filter_all {A} (f : A -> bool) l : (forall x, In x l -> f x = true) -> filter f l = l.
Proof.
  induction l as [|a l IH]; intros H; simpl; [reflexivity|].
  rewrite (H a) by (left; reflexivity). f_equal. apply IH. intros; apply H; right; assumption.
Qed.

Lemma others_split n i : (i < n)%nat -> others n i = seq 0 i ++ seq (S i) (n - S i).
Proof.
  intros Hi. unfold others. replace n with (i + S (n - S i))%nat at 1 by lia.
  rewrite seq_app, filter_app. cbn [seq filter]. simpl (0 + i)%nat. rewrite Nat.eqb_refl. cbn [negb].
  rewrite !filter_all; [reflexivity| |].
  - intros x Hx. apply in_seq in Hx. destruct (Nat.eqb_spec x i); [lia|reflexivity].
  - intros x Hx. apply in_seq in Hx. destruct (Nat.eqb_spec x i); [lia|reflexivity].
Qed.

Lemma map_nth_seq {A} (l : list A) d : map (fun i => nth i l d) (seq 0 (length l)) = l.
Proof.
  induction l as [|a l IH]; [reflexivity|].
  cbn [length seq map nth]. f_equal. rewrite <- seq_shift, map_map. exact IH.
Qed.

Lemma map_as_seq {A B} (f : A -> B) (l : list A) d :
  map f l = map (fun i => f (nth i l d)) (seq 0 (length l)).
Proof. rewrite <- (map_nth_seq l d) at 1. rewrite map_map. reflexivity. Qed.

Lemma seq_split i n : (i < n)%nat -> seq 0 n = seq 0 i ++ i :: seq (S i) (n - S i).
Proof. intros H. replace n with (i + S (n - S i))%nat at 1 by lia. rewrite seq_app. reflexivity. Qed.

Lemma repulse_dists_row {P Q} (transform : P -> Q) (metric : Q -> Q -> R) grid (p0 : P) i :
  (forall a b, In a grid -> In b grid -> metric (transform a) (transform a) <= metric (transform a) (transform b)) ->
  (i < length grid)%nat ->
  exists row, nth_error (repulse_dists transform metric grid) i = Some row /\
   Permutation row (map (fun j => metric (transform (nth i grid p0)) (transform (nth j grid p0)))
                        (others (length grid) i)).
Proof.
  intros Hm Hi. unfold repulse_dists.
  set (g := map transform grid). set (q0 := transform p0).
  assert (Hg : length g = length grid) by (unfold g; apply map_length).
  assert (Hn : forall j, nth j g q0 = transform (nth j grid p0)) by (intros; unfold g, q0; apply map_nth).
  rewrite nth_error_map, (nth_error_nth' g q0) by lia. cbn [option_map].
  eexists; split; [reflexivity|].
  rewrite Hn. rewrite (map_as_seq _ g q0), Hg, (seq_split i) by assumption.
  rewrite map_app. cbn [map]. rewrite Hn.
  rewrite others_split by assumption.
  erewrite (map_ext_in (fun j => metric (transform (nth i grid p0)) (transform (nth j grid p0)))).
  2:{ intros j _. rewrite <- (Hn j). reflexivity. }
  rewrite map_app. apply sort_tail. intros x Hx. 
  rewrite <- map_app in Hx. apply in_map_iff in Hx as [j [<- Hj]].
  rewrite Hn. apply Hm; apply nth_In; [assumption|].
  apply in_app_or in Hj as [Hj|Hj]; apply in_seq in Hj; lia.
Qed.

Lemma nth_error_ext' {A} (l1 l2 : list A) : (forall i, nth_error l1 i = nth_error l2 i) -> l1 = l2.
Proof.
  revert l2; induction l1 as [|a l1 IH]; intros [|b l2] H.
  - reflexivity.
  - discriminate (H 0%nat).
  - discriminate (H 0%nat).
  - f_equal; [specialize (H 0%nat); simpl in H; congruence|].
    apply IH. intros i. exact (H (S i)).
Qed.

Lemma mean_energy_pairs {P Q} (transform : P -> Q) (metric : Q -> Q -> R) energy c grid (p0 : P) :
  (forall a b, In a grid -> In b grid -> metric (transform a) (transform a) <= metric (transform a) (transform b)) ->
  let n := length grid in
  repulse_mean_energy transform metric energy c grid =
  sumR (map (fun i => sumR (map (fun j =>
      energy (metric (transform (nth i grid p0)) (transform (nth j grid p0)) / c)) (others n i))) (seq 0 n))
  / INR (n * (n - 1)).
Proof.
  intros Hm n. unfold repulse_mean_energy, meanR.
  assert (Hlen : length (repulse_dists transform metric grid) = n).
  { unfold repulse_dists. rewrite !map_length. reflexivity. }
  assert (Hol : forall i, (i < n)%nat -> length (others n i) = (n - 1)%nat).
  { intros i Hi. rewrite others_split by assumption. rewrite app_length, !seq_length. lia. }
  f_equal.
  - rewrite concat_map, sumR_concat, map_map. f_equal.
    apply nth_error_ext'. intros i. rewrite !nth_error_map.
    destruct (lt_dec i n) as [Hi|Hi].
    + destruct (repulse_dists_row transform metric grid p0 i Hm Hi) as (row & -> & HP).
      rewrite nth_error_seq by assumption. cbn [option_map]. f_equal.
      apply sumR_perm. simpl.
      etransitivity; [apply Permutation_map; exact HP|]. rewrite map_map. reflexivity.
    + rewrite (proj2 (nth_error_None _ i)) by lia.
      rewrite (proj2 (nth_error_None (seq 0 n) i)) by (rewrite seq_length; lia). reflexivity.
  - f_equal. rewrite map_length. rewrite (concat_length_const _ (n - 1)%nat).
    + rewrite Hlen. reflexivity.
    + intros row Hr. apply In_nth_error in Hr as [i Hr].
      pose proof (nth_error_Some_lt _ _ _ Hr) as Hi. rewrite Hlen in Hi.
      destruct (repulse_dists_row transform metric grid p0 i Hm Hi) as (row' & E & HP).
      rewrite E in Hr. injection Hr as <-. apply Permutation_length in HP.
      rewrite HP, map_length. apply Hol. assumption.
Qed.


(** The two metrics the library optimises. *)
Lemma m2q_unit_any r : unitq (so3_matrix_to_quat r).
Proof.
  apply qnormalize_unit. pose proof (m2q_p_ge1 r) as H.
  set (i := argmax4 _ _ _ _) in *.
  assert (K : forall q c, 1 <= c -> c = qw q \/ c = qx q \/ c = qy q \/ c = qz q -> 0 < qdot q q).
  { intros q c Hc Hq. unfold qdot.
    assert (1 <= c * c) by nra.
    pose proof (Rle_0_sqr (qw q)) as P1. pose proof (Rle_0_sqr (qx q)) as P2.
    pose proof (Rle_0_sqr (qy q)) as P3. pose proof (Rle_0_sqr (qz q)) as P4. unfold Rsqr in *.
    destruct Hq as [->|[->|[->| ->]]]; lra. }
  apply (K _ (m2q_p i r) H). unfold m2q_p, so3_m2q_pivot.
  destruct i as [|[|[|n]]]; cbn [qw qx qy qz]; auto.
Qed.

Lemma so3_self_minimal x y e :
  so3_geodesic_distance (so3_euler_to_quat x e) (so3_euler_to_quat x e) so3_eps
  <= so3_geodesic_distance (so3_euler_to_quat x e) (so3_euler_to_quat y e) so3_eps.
Proof.
  rewrite geo_self by (try apply m2q_unit_any; apply so3_eps_range).
  apply geo_range; try apply m2q_unit_any. apply so3_eps_range.
Qed.
