(** Real-number side of the torch / Python primitives used by the geometry code. *)
From Coq Require Export Reals Lra.
From Verif Require Import Prelude.
Open Scope R_scope.

(** Python / torch [x % m] for a positive float modulus: the result has the sign of [m].
    Models the [% (2 * math.pi)] of so2.py:116,131 and o2.py:103,121 over the reals. *)
Definition Rmod (x m : R) : R := x - m * IZR (Int_part (x / m)).

(** torch.clamp(x, lo, hi) = min(max(x, lo), hi). *)
Definition clamp (x lo hi : R) : R := Rmin (Rmax x lo) hi.

(** torch.linspace(a, b, steps): [steps] equally spaced values; steps = 1 gives [a]. *)
Definition linspace (a b : R) (steps : nat) : list R :=
  map (fun i => a + INR i * ((b - a) / INR (steps - 1))) (seq 0 steps).

(** torch.atan2 over the reals (torch.atan2(0,0) = 0). *)
Definition atan2 (y x : R) : R :=
  if Rlt_dec 0 x then atan (y / x)
  else if Rlt_dec x 0 then
    (if Rle_dec 0 y then atan (y / x) + PI else atan (y / x) - PI)
  else if Rlt_dec 0 y then PI / 2
  else if Rlt_dec y 0 then - PI / 2
  else 0.

(** ** Rmod *)
Lemma Rmod_bounds x m : 0 < m -> 0 <= Rmod x m < m.
Proof.
  intros Hm. unfold Rmod. destruct (base_Int_part (x / m)) as [H1 H2].
  set (k := IZR (Int_part (x / m))) in *.
  assert (Hx : x = m * (x / m)) by (field; lra).
  split.
  - assert (m * k <= m * (x / m)) by (apply Rmult_le_compat_l; lra). lra.
  - assert (m * (x / m - k) < m * 1) by (apply Rmult_lt_compat_l; lra). lra.
Qed.

Lemma Rmod_decomp x m : exists k : Z, x = Rmod x m + m * IZR k.
Proof. exists (Int_part (x / m)). unfold Rmod. ring. Qed.

Lemma Rmod_unique x m r k :
  0 < m -> x = r + m * IZR k -> 0 <= r < m -> Rmod x m = r.
Proof.
  intros Hm Hx Hr.
  assert (Hk : Int_part (x / m) = k).
  { symmetry. unfold Int_part.
    assert (Hd : x / m = r / m + IZR k) by (rewrite Hx; field; lra).
    assert (0 <= r / m).
    { apply Rmult_le_reg_r with m; [lra|]. unfold Rdiv. rewrite Rmult_assoc, Rinv_l by lra. lra. }
    assert (r / m < 1).
    { apply Rmult_lt_reg_r with m; [lra|]. unfold Rdiv. rewrite Rmult_assoc, Rinv_l by lra. lra. }
    assert (Hup : (k + 1)%Z = up (x / m)).
    { apply tech_up; rewrite plus_IZR; rewrite Hd; lra. }
    lia. }
  unfold Rmod. rewrite Hk. lra.
Qed.

Lemma Rmod_shift x m k : 0 < m -> Rmod (x + m * IZR k) m = Rmod x m.
Proof.
  intros Hm. destruct (Rmod_decomp x m) as [j Hj].
  apply Rmod_unique with (k := (j + k)%Z); [assumption| |apply Rmod_bounds; assumption].
  rewrite plus_IZR. lra.
Qed.

Lemma Rmod_small x m : 0 <= x < m -> Rmod x m = x.
Proof. intros H. apply Rmod_unique with (k := 0%Z); simpl; lra. Qed.

Lemma Rmod_congr x y m k : 0 < m -> x = y + m * IZR k -> Rmod x m = Rmod y m.
Proof. intros Hm ->. apply Rmod_shift; assumption. Qed.

Lemma Rmod_add_l x y m : 0 < m -> Rmod (Rmod x m + y) m = Rmod (x + y) m.
Proof.
  intros Hm. destruct (Rmod_decomp x m) as [k Hk]. symmetry.
  apply Rmod_congr with (k := k); [assumption|lra].
Qed.

Lemma Rmod_add_r x y m : 0 < m -> Rmod (x + Rmod y m) m = Rmod (x + y) m.
Proof. intros Hm. rewrite Rplus_comm, Rmod_add_l by assumption. f_equal; ring. Qed.

Lemma Rmod_opp x m : 0 < m -> Rmod (- Rmod x m) m = Rmod (- x) m.
Proof.
  intros Hm. destruct (Rmod_decomp x m) as [k Hk].
  apply Rmod_congr with (k := k); [assumption|lra].
Qed.

Lemma two_PI_pos : 0 < 2 * PI.
Proof. pose proof PI_RGT_0. lra. Qed.

Lemma cos_shift x k : cos (x + 2 * PI * IZR k) = cos x.
Proof.
  destruct k as [|p|p].
  - f_equal. simpl. ring.
  - rewrite <- (cos_period x (Pos.to_nat p)). f_equal. rewrite INR_IZR_INZ, positive_nat_Z. ring.
  - rewrite <- (cos_period (x + 2 * PI * IZR (Z.neg p)) (Pos.to_nat p)). f_equal.
    rewrite INR_IZR_INZ, positive_nat_Z. change (Z.neg p) with (- Z.pos p)%Z.
    rewrite opp_IZR. ring.
Qed.

Lemma sin_shift x k : sin (x + 2 * PI * IZR k) = sin x.
Proof.
  destruct k as [|p|p].
  - f_equal. simpl. ring.
  - rewrite <- (sin_period x (Pos.to_nat p)). f_equal. rewrite INR_IZR_INZ, positive_nat_Z. ring.
  - rewrite <- (sin_period (x + 2 * PI * IZR (Z.neg p)) (Pos.to_nat p)). f_equal.
    rewrite INR_IZR_INZ, positive_nat_Z. change (Z.neg p) with (- Z.pos p)%Z.
    rewrite opp_IZR. ring.
Qed.

Lemma cos_Rmod x : cos (Rmod x (2 * PI)) = cos x.
Proof. destruct (Rmod_decomp x (2 * PI)) as [k Hk]. rewrite Hk at 2. symmetry; apply cos_shift. Qed.

Lemma sin_Rmod x : sin (Rmod x (2 * PI)) = sin x.
Proof. destruct (Rmod_decomp x (2 * PI)) as [k Hk]. rewrite Hk at 2. symmetry; apply sin_shift. Qed.

Lemma sc1 x : sin x * sin x + cos x * cos x = 1.
Proof. exact (sin2_cos2 x). Qed.

(** ** clamp *)
Lemma clamp_bounds x lo hi : lo <= hi -> lo <= clamp x lo hi <= hi.
Proof.
  intros H. unfold clamp, Rmin, Rmax.
  destruct (Rle_dec x lo), (Rle_dec lo hi), (Rle_dec x hi); lra.
Qed.

Lemma clamp_id x lo hi : lo <= x <= hi -> clamp x lo hi = x.
Proof.
  intros H. unfold clamp, Rmin, Rmax. destruct (Rle_dec x lo).
  - destruct (Rle_dec lo hi); lra.
  - destruct (Rle_dec x hi); lra.
Qed.

Lemma clamp_hi x lo hi : lo <= hi -> hi <= x -> clamp x lo hi = hi.
Proof.
  intros H H1. unfold clamp, Rmin, Rmax. destruct (Rle_dec x lo).
  - destruct (Rle_dec lo hi); lra.
  - destruct (Rle_dec x hi); lra.
Qed.

Lemma clamp_lo x lo hi : lo <= hi -> x <= lo -> clamp x lo hi = lo.
Proof.
  intros H H1. unfold clamp, Rmin, Rmax. destruct (Rle_dec x lo); [|lra].
  destruct (Rle_dec lo hi); lra.
Qed.

Lemma clamp_mono x y lo hi : x <= y -> clamp x lo hi <= clamp y lo hi.
Proof.
  intros H. unfold clamp, Rmin, Rmax.
  destruct (Rle_dec x lo), (Rle_dec y lo), (Rle_dec lo hi), (Rle_dec x hi), (Rle_dec y hi); lra.
Qed.

(** ** acos *)
Lemma acos_decr_lt x y : -1 <= x -> x < y -> y <= 1 -> acos y < acos x.
Proof.
  intros Hx Hxy Hy.
  destruct (Rlt_le_dec (acos y) (acos x)) as [H|H]; [assumption|exfalso].
  pose proof (acos_bound x). pose proof (acos_bound y).
  assert (cos (acos y) <= cos (acos x)) by (apply cos_decr_1; lra).
  rewrite !cos_acos in * by lra. lra.
Qed.

Lemma acos_decr_le x y : -1 <= x -> x <= y -> y <= 1 -> acos y <= acos x.
Proof.
  intros Hx [Hxy|Hxy] Hy.
  - left. apply acos_decr_lt; assumption.
  - subst. lra.
Qed.

Lemma acos_inj x y : -1 <= x <= 1 -> -1 <= y <= 1 -> acos x = acos y -> x = y.
Proof. intros Hx Hy H. rewrite <- (cos_acos x), <- (cos_acos y), H by lra. reflexivity. Qed.

(** ** atan2: polar coordinates *)
Lemma cos_atan_pos t : 0 < cos (atan t).
Proof. pose proof (atan_bound t). apply cos_gt_0; lra. Qed.

Lemma atan2_polar y x :
  let r := sqrt (x * x + y * y) in
  r * cos (atan2 y x) = x /\ r * sin (atan2 y x) = y.
Proof.
  intros r.
  assert (Hbase : forall a b, 0 < a -> sqrt (a * a + b * b) * cos (atan (b / a)) = a /\
                          sqrt (a * a + b * b) * sin (atan (b / a)) = b).
  { intros a b Ha.
    pose proof (cos_atan_pos (b / a)) as Hc.
    assert (Ht : sin (atan (b / a)) = b / a * cos (atan (b / a))).
    { rewrite <- (tan_atan (b / a)) at 2. unfold tan. field. lra. }
    assert (Hs : sqrt (a * a + b * b) * cos (atan (b / a)) = a).
    { rewrite <- (sqrt_square (cos (atan (b / a)))) at 1 by lra.
      rewrite <- sqrt_mult by nra.
      assert (E : (a * a + b * b) * (cos (atan (b / a)) * cos (atan (b / a))) = a * a).
      { pose proof (sc1 (atan (b / a))) as H1. rewrite Ht in H1.
        replace (a * a) with (a * a * 1) at 2 by ring. rewrite <- H1. field. lra. }
      rewrite E. apply sqrt_square; lra. }
    split; [exact Hs|].
    rewrite Ht. transitivity ((b / a) * (sqrt (a * a + b * b) * cos (atan (b / a)))); [ring|].
    rewrite Hs. field. lra. }
  unfold atan2, r; clear r.
  destruct (Rlt_dec 0 x) as [Hx|Hx]; [apply Hbase; assumption|].
  destruct (Rlt_dec x 0) as [Hx'|Hx'].
  - assert (Hn : 0 < - x) by lra. destruct (Hbase (- x) (- y) Hn) as [H1 H2].
    replace (- x * - x + - y * - y) with (x * x + y * y) in * by ring.
    replace (- y / - x) with (y / x) in * by (field; lra).
    destruct (Rle_dec 0 y).
    + rewrite neg_cos, neg_sin. lra.
    + replace (atan (y / x) - PI) with (atan (y / x) + PI + 2 * PI * IZR (-1)) by (simpl; ring).
      rewrite cos_shift, sin_shift, neg_cos, neg_sin. lra.
  - assert (x = 0) by lra. subst x.
    replace (0 * 0 + y * y) with (y * y) by ring.
    destruct (Rlt_dec 0 y).
    + rewrite cos_PI2, sin_PI2, sqrt_square by lra. lra.
    + destruct (Rlt_dec y 0).
      * replace (- PI / 2) with (- (PI / 2)) by field.
        rewrite cos_neg, sin_neg, cos_PI2, sin_PI2.
        replace (y * y) with (- y * - y) by ring. rewrite sqrt_square by lra. lra.
      * assert (y = 0) by lra. subst y. rewrite Rmult_0_l, sqrt_0. lra.
Qed.

Lemma atan2_bounds y x : - PI < atan2 y x <= PI.
Proof.
  pose proof PI_RGT_0. unfold atan2. pose proof (atan_bound (y / x)) as Hb.
  destruct (Rlt_dec 0 x); [lra|].
  destruct (Rlt_dec x 0) as [Hx|Hx].
  - destruct (Rle_dec 0 y) as [Hy|Hy].
    + split; [lra|].
      assert (atan (y / x) <= 0).
      { rewrite <- atan_0. 
        assert (Hd : y / x <= 0).
        { unfold Rdiv. assert (/ x < 0) by (apply Rinv_lt_0_compat; assumption). nra. }
        destruct Hd as [Hd|Hd]; [left; apply atan_increasing; assumption|rewrite Hd; lra]. }
      lra.
    + split; [|lra].
      assert (0 < atan (y / x)).
      { rewrite <- atan_0. apply atan_increasing.
        unfold Rdiv. assert (/ x < 0) by (apply Rinv_lt_0_compat; assumption). nra. }
      lra.
  - destruct (Rlt_dec 0 y); [lra|]. destruct (Rlt_dec y 0); lra.
Qed.

(** Uniqueness of polar angles. *)
Lemma cos_sin_inj a b :
  - PI < a <= PI -> - PI < b <= PI -> cos a = cos b -> sin a = sin b -> a = b.
Proof.
  intros Ha Hb Hc Hs. pose proof PI_RGT_0 as HP.
  assert (H1 : cos (a - b) = 1).
  { rewrite cos_minus, Hc, Hs. pose proof (sc1 b). lra. }
  assert (Hr : cos (Rabs (a - b)) = 1).
  { unfold Rabs. destruct (Rcase_abs (a - b)); [rewrite cos_neg|]; assumption. }
  assert (Hlt : Rabs (a - b) < 2 * PI) by (apply Rabs_def1; lra).
  pose proof (Rabs_pos (a - b)) as Hp.
  destruct Hp as [Hp|Hp].
  - exfalso. destruct (Rle_lt_dec (Rabs (a - b)) PI) as [Hle|Hgt].
    + assert (cos (Rabs (a - b)) < cos 0) by (apply cos_decreasing_1; lra).
      rewrite cos_0 in *. lra.
    + assert (cos (Rabs (a - b)) < cos (2 * PI)) by (apply cos_increasing_1; lra).
      rewrite cos_2PI in *. lra.
  - symmetry in Hp. destruct (Req_dec (a - b) 0); [lra|].
    exfalso. apply (Rabs_no_R0 (a - b)); assumption.
Qed.

Lemma atan2_of_polar r t : 0 < r -> - PI < t <= PI -> atan2 (r * sin t) (r * cos t) = t.
Proof.
  intros Hr Ht. destruct (atan2_polar (r * sin t) (r * cos t)) as [H1 H2].
  assert (E : sqrt (r * cos t * (r * cos t) + r * sin t * (r * sin t)) = r).
  { replace (r * cos t * (r * cos t) + r * sin t * (r * sin t))
      with (r * r * (sin t * sin t + cos t * cos t)) by ring.
    rewrite sc1, Rmult_1_r. apply sqrt_square; lra. }
  rewrite E in H1, H2.
  apply cos_sin_inj; [apply atan2_bounds|assumption| |]; apply Rmult_eq_reg_l with r; lra.
Qed.

(** ** linspace *)
Lemma linspace_length a b n : length (linspace a b n) = n.
Proof. unfold linspace. rewrite map_length, seq_length. reflexivity. Qed.

Lemma linspace_nth a b n i :
  (i < n)%nat -> nth_error (linspace a b n) i = Some (a + INR i * ((b - a) / INR (n - 1))).
Proof.
  intros Hi. unfold linspace. rewrite nth_error_map, nth_error_seq by assumption. reflexivity.
Qed.
