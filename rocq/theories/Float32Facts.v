(** Facts about the single precision model. *)
From Coq Require Import ZArith Bool List Reals Lra Lia.
From Flocq Require Import Core IEEE754.BinarySingleNaN Relative.
From Verif Require Import Float32.
Import ListNotations.
Open Scope R_scope.

Lemma one_value : B2R one32 = 1 /\ is_finite one32 = true /\ Bsign one32 = false.
Proof. split; [|split; reflexivity]. vm_compute. lra. Qed.
Lemma minus_one_value : B2R (opp32 one32) = -1 /\ is_finite (opp32 one32) = true.
Proof. split; [|reflexivity]. unfold opp32. rewrite B2R_Bopp. destruct one_value as [-> _]. lra. Qed.
(** The bounds that clamp really uses. *)
Definition low (eps : f64) : f32 := to32 (Bplus (prec_gt_0_ := p64) (prec_lt_emax_ := e64) mode_NE (of_Z64 (-1)) eps).
Definition high (eps : f64) : f32 := to32 (Bminus (prec_gt_0_ := p64) (prec_lt_emax_ := e64) mode_NE (of_Z64 1) eps).
Lemma B2SF_eq (x y : f32) : B2SF x = B2SF y -> x = y.
Proof. apply B2SF_inj. Qed.
Lemma high12 : high eps12 = one32. Proof. apply B2SF_eq. vm_compute. reflexivity. Qed.
Lemma low12 : low eps12 = opp32 one32. Proof. apply B2SF_eq. vm_compute. reflexivity. Qed.
Definition below_one : R := 1 - 1 / 8388608.
Lemma high7 : B2R (high eps7) = below_one /\ is_finite (high eps7) = true /\ Bsign (high eps7) = false.
Proof. split; [|split; vm_compute; reflexivity]. unfold below_one. vm_compute. lra. Qed.
Lemma low7 : B2R (low eps7) = - below_one /\ is_finite (low eps7) = true.
Proof. split; [|vm_compute; reflexivity]. unfold below_one. vm_compute. lra. Qed.

Lemma finite_not_nan (x : f32) : is_finite x = true -> is_nan x = false.
Proof. destruct x; simpl; congruence. Qed.
Lemma ltb_real (x y : f32) : is_finite x = true -> is_finite y = true -> Bltb x y = Rlt_bool (B2R x) (B2R y).
Proof. intros. apply Bltb_correct; assumption. Qed.
Lemma ltb_false (x y : f32) : is_finite x = true -> is_finite y = true -> B2R y <= B2R x -> Bltb x y = false.
Proof. intros H1 H2 H. rewrite ltb_real by assumption. apply Rlt_bool_false, H. Qed.
Lemma max_finite (x y : f32) : is_finite x = true -> is_finite y = true -> is_finite (max32 x y) = true /\ B2R (max32 x y) = Rmax (B2R x) (B2R y).
Proof.
  intros H1 H2. unfold max32. rewrite !finite_not_nan by assumption. cbn [orb]. rewrite ltb_real by assumption.
  destruct (Rlt_bool_spec (B2R x) (B2R y)); (split; [assumption|]); symmetry; [apply Rmax_right|apply Rmax_left]; lra.
Qed.
Lemma min_finite (x y : f32) : is_finite x = true -> is_finite y = true -> is_finite (min32 x y) = true /\ B2R (min32 x y) = Rmin (B2R x) (B2R y).
Proof.
  intros H1 H2. unfold min32. rewrite !finite_not_nan by assumption. cbn [orb]. rewrite ltb_real by assumption.
  destruct (Rlt_bool_spec (B2R y) (B2R x)); (split; [assumption|]); symmetry; [apply Rmin_right|apply Rmin_left]; lra.
Qed.

Lemma guard12_id (x : f32) : is_finite x = true -> -1 <= B2R x <= 1 -> guarded x eps12 = x.
Proof.
  intros F [H1 H2]. unfold guarded, clamp32. fold (low eps12) (high eps12). rewrite high12, low12.
  destruct one_value as (O1 & O2 & _). destruct minus_one_value as (M1 & M2).
  assert (max32 x (opp32 one32) = x) as ->.
  { unfold max32. rewrite !finite_not_nan by assumption. cbn [orb]. rewrite ltb_false; [reflexivity|assumption|assumption|lra]. }
  unfold min32. rewrite !finite_not_nan by assumption. cbn [orb]. rewrite ltb_false; [reflexivity|assumption|assumption|lra].
Qed.
(** Above 1 (dot products of rounded unit vectors may be) the result is exactly 1. *)
Lemma guard12_one (x : f32) : is_finite x = true -> 1 <= B2R x -> guarded x eps12 = one32.
Proof.
  intros F H. unfold guarded, clamp32. fold (low eps12) (high eps12). rewrite high12, low12.
  destruct one_value as (O1 & O2 & O3). destruct minus_one_value as (M1 & M2).
  assert (max32 x (opp32 one32) = x) as ->.
  { unfold max32. rewrite !finite_not_nan by assumption. cbn [orb]. rewrite ltb_false; [reflexivity|assumption|assumption|lra]. }
  unfold min32. rewrite !finite_not_nan by assumption. cbn [orb]. rewrite ltb_real by assumption.
  destruct (Rlt_bool_spec (B2R one32) (B2R x)) as [K|K]; [reflexivity|].
  apply B2R_Bsign_inj; [assumption|assumption|lra|]. rewrite O3.
  destruct x as [s|s| |s m e b]; simpl in *; try lra; try congruence. destruct s; [|reflexivity]. exfalso.
  pose proof (F2R_lt_0 radix2 (Float radix2 (Zneg m) e) ltac:(reflexivity)). unfold cond_Zopp in H. simpl in *. lra.
Qed.
Lemma guard12_range (x : f32) : is_finite x = true -> is_finite (guarded x eps12) = true /\ -1 <= B2R (guarded x eps12) <= 1.
Proof.
  intros F. unfold guarded, clamp32. fold (low eps12) (high eps12). rewrite high12, low12.
  destruct one_value as (O1 & O2 & _). destruct minus_one_value as (M1 & M2). destruct (max_finite x _ F M2) as [A1 A2]. destruct (min_finite _ _ A1 O2) as [B1 B2].
  split; [exact B1|]. rewrite B2, A2, O1, M1. split; [|apply Rmin_r]. apply Rmin_glb; [apply Rmax_r|lra].
Qed.
Lemma finite_or_inf (x : f32) : is_nan x = false -> is_finite x = true \/ exists s, x = B754_infinity s.
Proof. destruct x as [s|s| |s m e b]; cbn [is_nan is_finite]; intros H; [left; reflexivity|right; exists s; reflexivity|discriminate H|left; reflexivity]. Qed.
Lemma guard7_range (x : f32) : is_nan x = false -> is_finite (guarded x eps7) = true /\ - below_one <= B2R (guarded x eps7) <= below_one.
Proof.
  intros N. unfold guarded, clamp32. fold (low eps7) (high eps7). destruct high7 as (O1 & O2 & _). destruct low7 as (M1 & M2).
  assert (- below_one <= below_one) as P by (unfold below_one; lra).
  assert (is_finite x = true \/ exists s, x = B754_infinity s) as [F|[s ->]] by (apply finite_or_inf, N).
  - destruct (max_finite x _ F M2) as [A1 A2]. destruct (min_finite _ _ A1 O2) as [B1 B2].
    split; [exact B1|]. rewrite B2, A2, O1, M1. split; [|apply Rmin_r]. apply Rmin_glb; [apply Rmax_r|exact P].
  - destruct s.
    + assert (max32 (B754_infinity true) (low eps7) = low eps7) as -> by (apply B2SF_eq; vm_compute; reflexivity).
      destruct (min_finite _ _ M2 O2) as [B1 B2]. split; [exact B1|]. rewrite B2, O1, M1. split; [|apply Rmin_r]. apply Rmin_glb; lra.
    + assert (max32 (B754_infinity false) (low eps7) = B754_infinity false) as -> by (apply B2SF_eq; vm_compute; reflexivity).
      assert (min32 (B754_infinity false) (high eps7) = high eps7) as -> by (apply B2SF_eq; vm_compute; reflexivity). split; [exact O2|]. rewrite O1. lra.
Qed.

(** Products and sums of numbers of size at most 1 do not overflow. *)
Definition rnd (x : R) : R := round radix2 (SpecFloat.fexp 24 128) (round_mode mode_NE) x.
Lemma rnd_le x y : x <= y -> rnd x <= rnd y.
Proof. apply round_le; [apply fexp_correct, p32|apply valid_rnd_round_mode]. Qed.
Lemma rnd_float (x : f32) : rnd (B2R x) = B2R x.
Proof. apply round_generic; [apply valid_rnd_round_mode|apply generic_format_B2R]. Qed.
Lemma rnd_bound x c : (exists y : f32, B2R y = c) -> Rabs x <= c -> Rabs (rnd x) <= c.
Proof.
  intros [y Hy] H. apply Rabs_le_inv in H. apply Rabs_le. pose proof (rnd_float y) as E1. pose proof (rnd_float (opp32 y)) as E2.
  unfold opp32 in E2. rewrite B2R_Bopp in E2. rewrite Hy in *. split; [rewrite <- E2|rewrite <- E1]; apply rnd_le; lra.
Qed.
Lemma small_fits c : c <= 4 -> c < bpow radix2 128.
Proof. intros H. assert (bpow radix2 2 < bpow radix2 128) as K by (apply bpow_lt; reflexivity). simpl (bpow radix2 2) in K. lra. Qed.
Lemma exact_one : exists y : f32, B2R y = 1. Proof. exists one32. apply one_value. Qed.
Lemma exact_two : exists y : f32, B2R y = 2. Proof. exists (of_Z32 2). vm_compute. lra. Qed.
Lemma mul_small (x y : f32) : is_finite x = true -> is_finite y = true -> Rabs (B2R x * B2R y) <= 1 ->
  is_finite (mul32 x y) = true /\ B2R (mul32 x y) = rnd (B2R x * B2R y).
Proof.
  intros F1 F2 H. pose proof (Bmult_correct 24 128 p32 e32 mode_NE x y) as C. fold (rnd (B2R x * B2R y)) in C.
  rewrite Rlt_bool_true in C by (eapply Rle_lt_trans; [apply (rnd_bound _ 1 exact_one H)|apply small_fits; lra]).
  destruct C as (C1 & C2 & _). unfold mul32. rewrite C1, C2, F1, F2. split; reflexivity.
Qed.
Lemma add_small (x y : f32) : is_finite x = true -> is_finite y = true -> Rabs (B2R x + B2R y) <= 2 ->
  is_finite (add32 x y) = true /\ B2R (add32 x y) = rnd (B2R x + B2R y).
Proof.
  intros F1 F2 H. pose proof (Bplus_correct 24 128 p32 e32 mode_NE x y F1 F2) as C. fold (rnd (B2R x + B2R y)) in C.
  rewrite Rlt_bool_true in C by (eapply Rle_lt_trans; [apply (rnd_bound _ 2 exact_two H)|apply small_fits; lra]).
  destruct C as (C1 & C2 & _). split; assumption.
Qed.
Lemma dot_small (p q : f32 * f32) : is_finite (fst p) = true -> is_finite (snd p) = true -> is_finite (fst q) = true -> is_finite (snd q) = true ->
  Rabs (B2R (fst p) * B2R (fst q)) <= 1 -> Rabs (B2R (snd p) * B2R (snd q)) <= 1 ->
  is_finite (dot32 p q) = true /\ B2R (dot32 p q) = rnd (rnd (B2R (fst p) * B2R (fst q)) + rnd (B2R (snd p) * B2R (snd q))).
Proof.
  intros F1 F2 F3 F4 H1 H2. destruct (mul_small _ _ F1 F3 H1) as [A1 A2]. destruct (mul_small _ _ F2 F4 H2) as [B1 B2]. unfold dot32.
  rewrite <- A2, <- B2. apply add_small; [assumption|assumption|]. rewrite A2, B2.
  pose proof (rnd_bound _ 1 exact_one H1). pose proof (rnd_bound _ 1 exact_one H2). eapply Rle_trans; [apply Rabs_triang|]. lra.
Qed.

(** What is assumed of the platform's functions: ranges, signs and the exact values acos 1 = 0, exp NaN = NaN. *)
Record libm_ok (L : libm) : Prop := {
  ok_cos : forall a, is_finite a = true -> is_finite (cos32 L a) = true /\ Rabs (B2R (cos32 L a)) <= 1;
  ok_sin : forall a, is_finite a = true -> is_finite (sin32 L a) = true /\ Rabs (B2R (sin32 L a)) <= 1;
  ok_acos : forall x, is_finite x = true -> -1 <= B2R x <= 1 -> is_finite (acos32 L x) = true /\ Bsign (acos32 L x) = false;
  ok_acos_one : acos32 L one32 = zero32;
  ok_exp_nan : exp32 L nan32 = nan32 }.
Definition nonneg32 (x : f32) : Prop := is_finite x = true /\ Bsign x = false.
Lemma nonneg_value x : nonneg32 x -> 0 <= B2R x.
Proof.
  intros [F S]. destruct x as [s|s| |s m e b]; cbn [B2R Bsign is_finite] in *; try lra; try discriminate. subst s. cbn [cond_Zopp].
  apply F2R_ge_0. cbn [Fnum]. lia.
Qed.
Lemma zero_unique x : nonneg32 x -> B2R x <= 0 -> x = zero32.
Proof. intros H Hx. pose proof (nonneg_value x H). destruct H as [F S]. apply B2R_Bsign_inj; [exact F|reflexivity|cbn [zero32 B2R]; lra|exact S]. Qed.
Lemma nonneg_zero : nonneg32 zero32. Proof. split; reflexivity. Qed.
Lemma min_nonneg x y : nonneg32 x -> nonneg32 y -> nonneg32 (min32 x y).
Proof. intros [F1 S1] [F2 S2]. unfold min32. rewrite !finite_not_nan by assumption. cbn [orb]. destruct (Bltb y x); split; assumption. Qed.
Lemma min_zero_l y : nonneg32 y -> min32 zero32 y = zero32.
Proof.
  intros H. pose proof (nonneg_value y H) as P. destruct H as [F S]. unfold min32. rewrite !finite_not_nan by (assumption || reflexivity). cbn [orb].
  rewrite ltb_false; [reflexivity|exact F|reflexivity|exact P].
Qed.
Lemma min_zero_r x : nonneg32 x -> min32 x zero32 = zero32.
Proof.
  intros H. pose proof H as [F S]. unfold min32. rewrite !finite_not_nan by (assumption || reflexivity). cbn [orb]. rewrite ltb_real by (assumption || reflexivity).
  destruct (Rlt_bool_spec (B2R zero32) (B2R x)) as [K|K]; [reflexivity|]. apply zero_unique; [exact H|exact K].
Qed.
Lemma fold_min_zero r : forall d, nonneg32 d -> Forall nonneg32 r -> In zero32 (d :: r) -> fold_left min32 r d = zero32.
Proof.
  induction r as [|x r IH]; intros d Hd Hr [E|Hin]; cbn [fold_left]; try (exact E); try (destruct Hin; fail).
  - inversion Hr; subst. apply IH; [apply min_nonneg; assumption|assumption|]. left. apply min_zero_l. assumption.
  - inversion Hr; subst. apply IH; [apply min_nonneg; assumption|assumption|]. destruct Hin as [->|Hin]; [left; apply min_zero_r, Hd|right; exact Hin].
Qed.

Section Platform.
  Context (L : libm) (HL : libm_ok L).
  Lemma cross_finite a b : is_finite a = true -> is_finite b = true -> is_finite (dot32 (euclid32 L a) (euclid32 L b)) = true.
  Proof.
    intros Ha Hb. destruct (ok_cos L HL a Ha) as [C1 C2]. destruct (ok_sin L HL a Ha) as [S1 S2]. destruct (ok_cos L HL b Hb) as [C3 C4]. destruct (ok_sin L HL b Hb) as [S3 S4].
    assert (forall x y, Rabs x <= 1 -> Rabs y <= 1 -> Rabs (x * y) <= 1) as P.
    { intros x y Hx Hy. rewrite Rabs_mult. pose proof (Rabs_pos x). pose proof (Rabs_pos y). nra. }
    apply dot_small; cbn [euclid32 fst snd]; auto.
  Qed.
  Lemma dist_nonneg a b : is_finite a = true -> is_finite b = true -> nonneg32 (dist32 L a b).
  Proof. intros Ha Hb. destruct (guard12_range _ (cross_finite a b Ha Hb)) as [G1 G2]. apply (ok_acos L HL); assumption. Qed.
  Lemma dist_self a : is_finite a = true -> 1 <= B2R (dot32 (euclid32 L a) (euclid32 L a)) -> dist32 L a a = zero32.
  Proof. intros Ha H. unfold dist32. rewrite guard12_one by (try apply cross_finite; assumption). apply (ok_acos_one L HL). Qed.

  Definition long (a : f32) : Prop := is_finite a = true /\ 1 <= B2R (dot32 (euclid32 L a) (euclid32 L a)).
  Lemma row_min_zero a grid : In a grid -> Forall long grid -> row_min32 L a grid = zero32.
  Proof.
    intros Hin Hg. rewrite Forall_forall in Hg. destruct (Hg a Hin) as [Fa La].
    assert (In zero32 (map (dist32 L a) grid)) as Z. { rewrite <- (dist_self a Fa La). apply in_map, Hin. }
    assert (Forall nonneg32 (map (dist32 L a) grid)) as N.
    { apply Forall_forall. intros x Hx. apply in_map_iff in Hx. destruct Hx as (b & <- & Hb). apply dist_nonneg; [exact Fa|apply (Hg b Hb)]. }
    unfold row_min32. destruct (map (dist32 L a) grid) as [|d r]; [destruct Z|]. inversion N; subst. apply fold_min_zero; assumption.
  Qed.
  Lemma nearest_zero grid : Forall long grid -> nearest32 L grid = repeat zero32 (length grid).
  Proof.
    intros Hg. unfold nearest32. assert (forall g, incl g grid -> map (fun a => row_min32 L a grid) g = repeat zero32 (length g)) as K.
    { induction g as [|a g IH]; intros Hi; [reflexivity|]. cbn [map length repeat]. rewrite IH by (intros x Hx; apply Hi; right; exact Hx).
      rewrite row_min_zero; [reflexivity|apply Hi; left; reflexivity|exact Hg]. }
    apply K, incl_refl.
  Qed.
End Platform.
Lemma sum_zeros n : fold_left add32 (repeat zero32 n) zero32 = zero32.
Proof. induction n as [|n IH]; [reflexivity|]. cbn [repeat fold_left]. exact IH. Qed.
Lemma count_positive n : (1 <= n)%nat -> div32 zero32 (of_Z32 (Z.of_nat n)) = zero32.
Proof.
  intros Hn. set (z := Z.of_nat n). assert (1 <= z)%Z as Hz by (unfold z; lia). clearbody z.
  pose proof (binary_normalize_correct 24 128 p32 e32 mode_NE z 0 false) as C. fold (of_Z32 z) in C.
  assert (F2R (Float radix2 z 0) = IZR z) as E by (unfold F2R; cbn [Fnum Fexp bpow]; ring). rewrite E in C. fold (rnd (IZR z)) in C.
  apply IZR_le in Hz. assert (1 <= rnd (IZR z)) as P. { destruct one_value as [O _]. rewrite <- O at 1. rewrite <- rnd_float. apply rnd_le. rewrite O. exact Hz. }
  unfold rnd in P. cbv zeta in C. match type of C with if ?b then _ else _ => destruct b end.
  - destruct C as (C1 & C2 & C3). rewrite Rcompare_Gt in C3 by lra. destruct (of_Z32 z) as [s|s| |s m e b]; cbn [B2R is_finite Bsign] in *; try lra; try discriminate.
    subst s. reflexivity.
  - unfold div32. destruct (of_Z32 z) as [s|s| |s m e b]; cbn in C; try discriminate. rewrite Rlt_bool_false in C by lra. injection C as ->. reflexivity.
Qed.
Lemma repeat_same {A} (x : A) n : length (repeat x n) = n. Proof. apply repeat_length. Qed.
Lemma width_zero L grid : libm_ok L -> grid <> [] -> Forall (long L) grid -> default_width32 L grid = zero32.
Proof.
  intros HL Hne Hg. unfold default_width32, mean32. rewrite (nearest_zero L HL grid Hg), repeat_length, sum_zeros, count_positive.
  - apply B2SF_eq. vm_compute. reflexivity.
  - destruct grid; [contradiction|cbn [length]; lia].
Qed.
Lemma gauss_zero L : libm_ok L -> gauss32 L zero32 zero32 = nan32.
Proof. intros HL. unfold gauss32. match goal with |- exp32 L ?x = _ => assert (x = nan32) as -> by (apply B2SF_eq; vm_compute; reflexivity) end. apply (ok_exp_nan L HL). Qed.

(** Elements whose vector lies on an axis, up to a tiny coordinate: the quarter turns. *)
Definition on_axis (p : f32 * f32) : Prop :=
  Rabs (B2R (fst p)) = 1 /\ Rabs (B2R (snd p)) <= 1 \/ Rabs (B2R (snd p)) = 1 /\ Rabs (B2R (fst p)) <= 1.
Lemma abs_square x : Rabs x = 1 -> x * x = 1.
Proof. intros H. destruct (Rcase_abs x) as [K|K]; [rewrite Rabs_left in H by exact K|rewrite Rabs_right in H by exact K]; nra. Qed.
Lemma rnd_one : rnd 1 = 1.
Proof. destruct one_value as [O _]. rewrite <- O. apply rnd_float. Qed.
Lemma rnd_nonneg x : 0 <= x -> 0 <= rnd x.
Proof. intros H. replace 0 with (rnd 0); [apply rnd_le, H|]. unfold rnd. apply round_0. apply valid_rnd_round_mode. Qed.
Lemma axis_long L a : libm_ok L -> is_finite a = true -> on_axis (euclid32 L a) -> long L a.
Proof.
  intros HL Ha Hx. unfold on_axis in Hx. cbn [euclid32 fst snd] in Hx. split; [exact Ha|]. destruct (ok_cos L HL a Ha) as [C1 C2]. destruct (ok_sin L HL a Ha) as [S1 S2].
  assert (forall x, Rabs x <= 1 -> Rabs (x * x) <= 1) as P. { intros x Hx'. rewrite Rabs_mult. pose proof (Rabs_pos x). nra. }
  destruct (dot_small (euclid32 L a) (euclid32 L a)) as [_ ->]; cbn [euclid32 fst snd] in *; try assumption; try (apply P; assumption).
  rewrite <- rnd_one at 1. apply rnd_le. 
  assert (forall x, 0 <= x * x) as Q by (intros; nra).
  destruct Hx as [[H _]|[H _]]; rewrite (abs_square _ H), rnd_one; [pose proof (rnd_nonneg _ (Q (B2R (sin32 L a))))|pose proof (rnd_nonneg _ (Q (B2R (cos32 L a))))]; lra.
Qed.

(** ** Rounding errors of the inner products *)
Lemma Rabs_def2' a b : Rabs a <= b -> - b <= a <= b.
Proof. intros H. pose proof (Rle_abs a). pose proof (Rle_abs (- a)) as K. rewrite Rabs_Ropp in K. lra. Qed.
Definition u24 : R := / 16777216.
Lemma round32_error (x : R) : Rabs (round radix2 (SpecFloat.fexp 24 128) (round_mode mode_NE) x - x) <= Rabs x * u24 + u24 * u24.
Proof.
  destruct (error_N_FLT radix2 (-149) 24 ltac:(lia) (fun z => negb (Z.even z)) x) as (eps & eta & He & Ht & _ & Hr).
  assert (round radix2 (SpecFloat.fexp 24 128) (round_mode mode_NE) x = round radix2 (FLT_exp (-149) 24) (Znearest (fun z => negb (Z.even z))) x) as -> by reflexivity.
  rewrite Hr. replace (x * (1 + eps) + eta - x) with (x * eps + eta) by ring.
  assert (Rabs eps <= u24) as He' by (eapply Rle_trans; [exact He|]; unfold u24; cbn; lra).
  assert (Rabs eta <= u24 * u24) as Ht'.
  { eapply Rle_trans; [exact Ht|]. assert (bpow radix2 (-149) <= bpow radix2 (-48)) by (apply bpow_le; lia). unfold u24. cbn in *. lra. }
  eapply Rle_trans; [apply Rabs_triang|]. rewrite Rabs_mult. apply Rplus_le_compat; [|exact Ht']. apply Rmult_le_compat_l; [apply Rabs_pos|exact He'].
Qed.
Lemma round32_bound (x : R) : Rabs x <= 8 -> Rabs (round radix2 (SpecFloat.fexp 24 128) (round_mode mode_NE) x) < bpow radix2 128.
Proof.
  intros B. pose proof (round32_error x) as E. assert (bpow radix2 4 <= bpow radix2 128) as K by (apply bpow_le; lia). cbn in K.
  eapply Rlt_le_trans; [|exact K]. set (r := round _ _ _ x) in *.
  replace r with ((r - x) + x) by ring. eapply Rle_lt_trans; [apply Rabs_triang|]. unfold u24 in E. lra.
Qed.
Lemma add32_error (x y : f32) : is_finite x = true -> is_finite y = true -> Rabs (B2R x + B2R y) <= 8 ->
  is_finite (add32 x y) = true /\ Rabs (B2R (add32 x y) - (B2R x + B2R y)) <= Rabs (B2R x + B2R y) * u24 + u24 * u24.
Proof.
  intros Fx Fy B. pose proof (round32_error (B2R x + B2R y)) as E. pose proof (Bplus_correct 24 128 p32 e32 mode_NE x y Fx Fy) as C.
  rewrite Rlt_bool_true in C by (apply round32_bound, B). destruct C as (C1 & C2 & _). split; [exact C2|]. unfold add32. rewrite C1. exact E.
Qed.
Lemma mul32_error (x y : f32) : is_finite x = true -> is_finite y = true -> Rabs (B2R x * B2R y) <= 8 ->
  is_finite (mul32 x y) = true /\ Rabs (B2R (mul32 x y) - B2R x * B2R y) <= Rabs (B2R x * B2R y) * u24 + u24 * u24.
Proof.
  intros Fx Fy B. pose proof (round32_error (B2R x * B2R y)) as E. pose proof (Bmult_correct 24 128 p32 e32 mode_NE x y) as C.
  rewrite Rlt_bool_true in C by (apply round32_bound, B). destruct C as (C1 & C2 & _).
  split; [unfold mul32; rewrite C2, Fx, Fy; reflexivity|]. unfold mul32. rewrite C1. exact E.
Qed.
Lemma prod_unit a b : Rabs a <= 1 -> Rabs b <= 1 -> Rabs (a * b) <= 1.
Proof. intros A B. rewrite Rabs_mult. pose proof (Rabs_pos a). pose proof (Rabs_pos b). clear -A B H H0. nra. Qed.
Lemma dot32_error (p q : f32 * f32) :
  (forall c, In c [fst p; snd p; fst q; snd q] -> is_finite c = true /\ Rabs (B2R c) <= 1) ->
  is_finite (dot32 p q) = true /\ Rabs (B2R (dot32 p q) - (B2R (fst p) * B2R (fst q) + B2R (snd p) * B2R (snd q))) <= 5 * u24.
Proof.
  destruct p as [a b], q as [c d]. cbn [fst snd]. intros H.
  destruct (H a) as [Fa Ba]; [left; reflexivity|]. destruct (H b) as [Fb Bb]; [right; left; reflexivity|].
  destruct (H c) as [Fc Bc]; [do 2 right; left; reflexivity|]. destruct (H d) as [Fd Bd]; [do 3 right; left; reflexivity|].
  pose proof (prod_unit _ _ Ba Bc) as P1. pose proof (prod_unit _ _ Bb Bd) as P2.
  destruct (mul32_error a c Fa Fc) as [F1 E1]; [lra|]. destruct (mul32_error b d Fb Fd) as [F2 E2]; [lra|].
  unfold dot32. cbn [fst snd]. set (x := mul32 a c) in *. set (y := mul32 b d) in *. clearbody x y.
  set (r := B2R a * B2R c) in *. set (s := B2R b * B2R d) in *.
  assert (0 < u24 < / 1000000) as U by (unfold u24; lra).
  assert (Rabs (B2R x - r) <= u24 + u24 * u24) as E1' by (clear -E1 P1 U; nra).
  assert (Rabs (B2R y - s) <= u24 + u24 * u24) as E2' by (clear -E2 P2 U; nra).
  assert (Rabs (B2R x + B2R y) <= 2 + 3 * u24) as S.
  { apply Rabs_le. apply Rabs_def2' in E1'. apply Rabs_def2' in E2'. apply Rabs_def2' in P1. apply Rabs_def2' in P2. split; clear -E1' E2' P1 P2 U; nra. }
  destruct (add32_error x y F1 F2) as [F E]; [lra|]. split; [exact F|].
  assert (Rabs (B2R (add32 x y) - (B2R x + B2R y)) <= (2 + 3 * u24) * u24 + u24 * u24) as E' by (clear -E S U; nra).
  apply Rabs_le. apply Rabs_def2' in E1'. apply Rabs_def2' in E2'. apply Rabs_def2' in E'. split; clear -E1' E2' E' U; nra.
Qed.
Lemma dot4_error (p q : f32 * f32 * (f32 * f32)) :
  (forall c, In c [fst (fst p); snd (fst p); fst (snd p); snd (snd p); fst (fst q); snd (fst q); fst (snd q); snd (snd q)] -> is_finite c = true /\ Rabs (B2R c) <= 1) ->
  is_finite (dot4 p q) = true /\
  Rabs (B2R (dot4 p q) - (B2R (fst (fst p)) * B2R (fst (fst q)) + B2R (snd (fst p)) * B2R (snd (fst q)) +
                          B2R (fst (snd p)) * B2R (fst (snd q)) + B2R (snd (snd p)) * B2R (snd (snd q)))) <= 15 * u24.
Proof.
  intros H. destruct (dot32_error (fst p) (fst q)) as [F1 E1]; [intros c Hc; apply H; cbn [In] in *; tauto|].
  destruct (dot32_error (snd p) (snd q)) as [F2 E2]; [intros c Hc; apply H; cbn [In] in *; tauto|].
  pose proof (prod_unit _ _ (proj2 (H (fst (fst p)) ltac:(cbn [In]; tauto))) (proj2 (H (fst (fst q)) ltac:(cbn [In]; tauto)))) as P1.
  pose proof (prod_unit _ _ (proj2 (H (snd (fst p)) ltac:(cbn [In]; tauto))) (proj2 (H (snd (fst q)) ltac:(cbn [In]; tauto)))) as P2.
  pose proof (prod_unit _ _ (proj2 (H (fst (snd p)) ltac:(cbn [In]; tauto))) (proj2 (H (fst (snd q)) ltac:(cbn [In]; tauto)))) as P3.
  pose proof (prod_unit _ _ (proj2 (H (snd (snd p)) ltac:(cbn [In]; tauto))) (proj2 (H (snd (snd q)) ltac:(cbn [In]; tauto)))) as P4.
  unfold dot4. set (x := dot32 (fst p) (fst q)) in *. set (y := dot32 (snd p) (snd q)) in *. clearbody x y.
  set (r1 := _ * _) in P1. set (r2 := _ * _) in P2. set (r3 := _ * _) in P3. set (r4 := _ * _) in P4.
  fold r1 r2 in E1. fold r3 r4 in E2. fold r1 r2 r3 r4. clearbody r1 r2 r3 r4. clear H.
  assert (0 < u24 < / 1000000) as U by (unfold u24; lra).
  apply Rabs_def2' in P1. apply Rabs_def2' in P2. apply Rabs_def2' in P3. apply Rabs_def2' in P4. apply Rabs_def2' in E1. apply Rabs_def2' in E2.
  assert (Rabs (B2R x + B2R y) <= 4 + 10 * u24) as S by (apply Rabs_le; lra).
  destruct (add32_error x y F1 F2) as [F E]; [lra|]. split; [exact F|].
  assert (Rabs (B2R (add32 x y) - (B2R x + B2R y)) <= (4 + 10 * u24) * u24 + u24 * u24) as E' by (clear -E S U; nra).
  apply Rabs_def2' in E'. apply Rabs_le. split; clear -E1 E2 E' U; nra.
Qed.
