(** C93: in single precision the guard of the SO(2) and O(2) distances does nothing.  The claim is about float32 tensors (torch's default), the real
    number model used elsewhere cannot see it. *)
From Coq Require Import ZArith Bool List Reals Lra Lia.
From Flocq Require Import Core IEEE754.BinarySingleNaN.
From Verif Require Import Float32 Float32Facts.
Import ListNotations.
Open Scope R_scope.

(** clamp(x, -1 + 1e-12, 1 - 1e-12) returns every float32 number x of [-1, 1] unchanged, 1 included; so acos is applied to 1 itself. *)
Theorem C93_so2_guard_is_void : forall x : f32,
  is_finite x = true -> -1 <= B2R x <= 1 -> guarded x eps12 = x.
Proof. exact guard12_id. Qed.
Print Assumptions C93_so2_guard_is_void.

(** With the eps = 1e-7 of SO(3), S2 and geodesic_distance_euclid the guard works: anything that is not NaN, infinities included, is moved into
    [-(1 - 2^-23), 1 - 2^-23]. *)
Theorem C93_so3_guard_works : forall x : f32,
  is_nan x = false -> is_finite (guarded x eps7) = true /\ Rabs (B2R (guarded x eps7)) <= 1 - / 2 ^ 23.
Proof.
  intros x H. destruct (guard7_range x H) as [F B]. split; [exact F|]. apply Rabs_le. unfold below_one in B. replace (/ 2 ^ 23) with (1 / 8388608) by (simpl; field). lra.
Qed.
Print Assumptions C93_so3_guard_works.

(** The inner products themselves, of elements with coordinates in [-1, 1]: finite, and within 2^-21 (SO(2)), 2^-20 (SO(3)) of the exact ones. *)
Definition coordinate (c : f32) : Prop := is_finite c = true /\ Rabs (B2R c) <= 1.
Theorem C93_so2_inner_product : forall a b c d : f32,
  coordinate a -> coordinate b -> coordinate c -> coordinate d ->
  is_finite (dot32 (a, b) (c, d)) = true /\ Rabs (B2R (dot32 (a, b) (c, d)) - (B2R a * B2R c + B2R b * B2R d)) <= / 2 ^ 21.
Proof.
  intros a b c d Ha Hb Hc Hd. destruct (dot32_error (a, b) (c, d)) as [F E]; [intros x [<-|[<-|[<-|[<-|[]]]]]; assumption|].
  split; [exact F|]. cbn [fst snd] in E. eapply Rle_trans; [exact E|]. unfold u24. simpl. lra.
Qed.
Print Assumptions C93_so2_inner_product.
Theorem C93_so3_inner_product : forall a b c d a' b' c' d' : f32,
  Forall coordinate [a; b; c; d; a'; b'; c'; d'] ->
  is_finite (dot4 (a, b, (c, d)) (a', b', (c', d'))) = true /\
  Rabs (B2R (dot4 (a, b, (c, d)) (a', b', (c', d'))) - (B2R a * B2R a' + B2R b * B2R b' + B2R c * B2R c' + B2R d * B2R d')) <= / 2 ^ 20.
Proof.
  intros a b c d a' b' c' d' H. rewrite Forall_forall in H. destruct (dot4_error (a, b, (c, d)) (a', b', (c', d'))) as [F E]; [exact H|].
  split; [exact F|]. cbn [fst snd] in E. eapply Rle_trans; [exact E|]. unfold u24. simpl. lra.
Qed.
Print Assumptions C93_so3_inner_product.

(** Hence every float32 SO(3) distance is positive, whatever the (non NaN) inner product, if the platform's acos is positive there. *)
Theorem C93_so3_distance_positive : forall (L : libm) (p q : f32 * f32 * (f32 * f32)),
  (forall x : f32, is_finite x = true -> Rabs (B2R x) <= 1 - / 2 ^ 23 -> 0 < B2R (acos32 L x)) ->
  is_nan (dot4 p q) = false -> 0 < B2R (so3_dist32 L p q).
Proof.
  intros L p q HL N. unfold so3_dist32. destruct (C93_so3_guard_works (abs32 (dot4 p q))) as [F B]; [unfold abs32; rewrite is_nan_Babs; exact N|]. apply HL; assumption.
Qed.
Print Assumptions C93_so3_distance_positive.

(** But for SO(2): if, in float32, the squared coordinates of each grid element add up to at least 1 (as they do for instance when one of the
    coordinates is rounded to 1 or -1), every distance of an element to itself is 0, so are all "nearest neighbour distances" (each is the minimum
    over a row including the element itself) and the default width, and every diagonal entry of the matrix of the RBF interpolation is NaN (0/0). *)
Theorem C93_default_width_zero : forall (L : libm) (grid : list f32),
  libm_ok L -> grid <> [] ->
  (forall a, In a grid -> is_finite a = true /\ 1 <= B2R (dot32 (euclid32 L a) (euclid32 L a))) ->
  (forall a, In a grid -> dist32 L a a = zero32) /\
  nearest32 L grid = repeat zero32 (length grid) /\
  default_width32 L grid = zero32 /\
  forall i, (i < length grid)%nat -> nth i (nth i (matrix32 L (default_width32 L grid) grid) []) zero32 = nan32.
Proof.
  intros L grid HL Hne Hg. assert (Forall (long L) grid) as F by (apply Forall_forall; exact Hg).
  split; [intros a Ha; apply dist_self; [exact HL|apply Hg, Ha|apply Hg, Ha]|]. split; [apply nearest_zero; assumption|].
  pose proof (width_zero L grid HL Hne F) as W. split; [exact W|]. rewrite W. intros i Hi. unfold matrix32.
  rewrite (nth_indep _ [] ((fun a => map (fun b => gauss32 L (dist32 L a b) zero32) grid) zero32)) by (rewrite map_length; exact Hi).
  rewrite (map_nth (fun a => map (fun b => gauss32 L (dist32 L a b) zero32) grid)). set (a := nth i grid zero32).
  rewrite (nth_indep _ zero32 ((fun b => gauss32 L (dist32 L a b) zero32) zero32)) by (rewrite map_length; exact Hi).
  rewrite (map_nth (fun b => gauss32 L (dist32 L a b) zero32)). fold a. assert (In a grid) as Ha by (apply nth_In, Hi).
  rewrite dist_self; [apply gauss_zero, HL|exact HL|apply Hg, Ha|apply Hg, Ha].
Qed.
Print Assumptions C93_default_width_zero.

(** The quarter turns are such a grid: it suffices that the platform rounds one coordinate of each element to 1 or -1. *)
Theorem C93_quarter_turns : forall (L : libm) (grid : list f32),
  libm_ok L -> grid <> [] ->
  (forall a, In a grid -> is_finite a = true /\ (Rabs (B2R (cos32 L a)) = 1 \/ Rabs (B2R (sin32 L a)) = 1)) ->
  default_width32 L grid = zero32 /\
  forall i, (i < length grid)%nat -> nth i (nth i (matrix32 L (default_width32 L grid) grid) []) zero32 = nan32.
Proof.
  intros L grid HL Hne Hg. apply (C93_default_width_zero L grid HL Hne). intros a Ha. destruct (Hg a Ha) as [F X].
  apply (axis_long L a HL F). unfold on_axis. cbn [euclid32 fst snd]. destruct (ok_cos L HL a F) as [_ C]. destruct (ok_sin L HL a F) as [_ S]. destruct X as [X|X]; [left|right]; split; assumption.
Qed.
Print Assumptions C93_quarter_turns.

(** Non-vacuity.  The four float32 angles of uniform_grid(4), and a platform with the values that IEEE libraries return for them. *)
Definition q0 : f32 := zero32.
Definition q1 : f32 := div32 (of_Z32 13176795) (of_Z32 8388608).
Definition q2 : f32 := div32 (of_Z32 13176795) (of_Z32 4194304).
Definition q3 : f32 := div32 (of_Z32 9882596) (of_Z32 2097152).
Definition tiny : f32 := div32 (of_Z32 (-1)) (of_Z32 16777216).
Definition ex_libm : libm :=
  mkLibm (fun a => if Beqb a q0 then one32 else if Beqb a q2 then opp32 one32 else tiny)
         (fun a => if Beqb a q0 then zero32 else if Beqb a q1 then one32 else if Beqb a q3 then opp32 one32 else tiny)
         (fun x => if Beqb x one32 then zero32 else one32)
         (fun x => if is_nan x then nan32 else one32).
Lemma tiny_value : is_finite tiny = true /\ Rabs (B2R tiny) <= 1.
Proof. split; [vm_compute; reflexivity|]. assert (B2R tiny = - (1 / 16777216)) as -> by (vm_compute; lra). rewrite Rabs_Ropp, Rabs_right; lra. Qed.
Lemma one_bound : is_finite one32 = true /\ Rabs (B2R one32) <= 1.
Proof. destruct one_value as (-> & -> & _). split; [reflexivity|]. rewrite Rabs_right; lra. Qed.
Lemma minus_bound : is_finite (opp32 one32) = true /\ Rabs (B2R (opp32 one32)) <= 1.
Proof. destruct minus_one_value as (-> & ->). split; [reflexivity|]. rewrite Rabs_left; lra. Qed.
Lemma zero_bound : is_finite zero32 = true /\ Rabs (B2R zero32) <= 1.
Proof. split; [reflexivity|]. cbn [zero32 B2R]. rewrite Rabs_R0. lra. Qed.
Lemma ex_libm_ok : libm_ok ex_libm.
Proof.
  constructor; cbn [ex_libm cos32 sin32 acos32 exp32].
  - intros a _. destruct (Beqb a q0); [exact one_bound|]. destruct (Beqb a q2); [exact minus_bound|exact tiny_value].
  - intros a _. destruct (Beqb a q0); [exact zero_bound|]. destruct (Beqb a q1); [exact one_bound|]. destruct (Beqb a q3); [exact minus_bound|exact tiny_value].
  - intros x _ _. destruct (Beqb x one32); [split; reflexivity|]. destruct one_value as (_ & F & S). split; assumption.
  - assert (Beqb one32 one32 = true) as -> by (vm_compute; reflexivity). reflexivity.
  - reflexivity.
Qed.
Example C93_coordinates : coordinate one32 /\ coordinate (opp32 one32) /\ coordinate tiny.
Proof. split; [exact one_bound|]. split; [exact minus_bound|exact tiny_value]. Qed.
Example C93_example : default_width32 ex_libm [q0; q1; q2; q3] = zero32.
Proof.
  refine (proj1 (C93_quarter_turns ex_libm [q0; q1; q2; q3] ex_libm_ok _ _)); [discriminate|].
  assert (B2R (opp32 one32) = -1) as M by apply minus_one_value. assert (B2R one32 = 1) as O by apply one_value.
  intros a [<-|[<-|[<-|[<-|[]]]]]; (split; [vm_compute; reflexivity|]).
  - left. assert (cos32 ex_libm q0 = one32) as -> by (apply B2SF_eq; vm_compute; reflexivity). rewrite O, Rabs_right; lra.
  - right. assert (sin32 ex_libm q1 = one32) as -> by (apply B2SF_eq; vm_compute; reflexivity). rewrite O, Rabs_right; lra.
  - left. assert (cos32 ex_libm q2 = opp32 one32) as -> by (apply B2SF_eq; vm_compute; reflexivity). rewrite M, Rabs_left; lra.
  - right. assert (sin32 ex_libm q3 = opp32 one32) as -> by (apply B2SF_eq; vm_compute; reflexivity). rewrite M, Rabs_left; lra.
Qed.
