(** Facts about angles in single precision. *)
From Coq Require Import ZArith Bool List Reals Lra Lia Machin.
From Flocq Require Import Core IEEE754.BinarySingleNaN Relative.
From Verif Require Import Float32 Float32Facts Angle32.
Import ListNotations.
Open Scope R_scope.

(** ** fmod is exact *)
Lemma finite_exponent (m : positive) (e : Z) (H : SpecFloat.bounded 24 128 m e = true) : (-149 <= e)%Z /\ (Zpos m < 2 ^ 24)%Z /\ (e <= 104)%Z.
Proof.
  apply andb_prop in H as [H1 H2]. apply Z.leb_le in H2. unfold SpecFloat.canonical_mantissa in H1. apply Zeq_bool_eq in H1. unfold SpecFloat.fexp, SpecFloat.emin in H1.
  assert (Z.pos (SpecFloat.digits2_pos m) <= 24)%Z as D by lia. rewrite Digits.Zpos_digits2_pos in D. split; [lia|]. split; [|lia].
  pose proof (Digits.Zdigits_correct radix2 (Zpos m)) as [_ K]. rewrite Z.abs_eq in K by lia. eapply Z.lt_le_trans; [exact K|].
  change (2 ^ 24)%Z with (Zpower radix2 24). apply Zpower_le. exact D.
Qed.
Lemma F2R_shift (m e e' : Z) : (e' <= e)%Z -> F2R (Float radix2 m e) = F2R (Float radix2 (m * 2 ^ (e - e')) e').
Proof. intros H. rewrite (F2R_change_exp radix2 e' m e H). reflexivity. Qed.
Lemma fmod_exact (x y : f32) : is_finite x = true -> is_finite y = true -> B2R y <> 0 ->
  is_finite (fmod32 x y) = true /\ (exists k : Z, B2R x = B2R (fmod32 x y) + IZR k * B2R y) /\ Rabs (B2R (fmod32 x y)) < Rabs (B2R y) /\ Rabs (B2R (fmod32 x y)) <= Rabs (B2R x) /\ 0 <= B2R (fmod32 x y) * B2R x.
Proof.
  intros Fx Fy Hy. destruct y as [sy|sy| |sy my ey By]; try discriminate; [cbn in Hy; lra|].
  destruct x as [sx|sx| |sx mx ex Bx]; try discriminate.
  - cbn [fmod32 is_finite B2R]. split; [reflexivity|]. split; [exists 0%Z; lra|]. rewrite Rabs_R0. split; [apply Rabs_pos_lt; exact Hy|]. split; lra.
  - cbn [fmod32]. set (e := Z.min ex ey). set (a := (cond_Zopp sx (Zpos mx) * 2 ^ (ex - e))%Z). set (b := (cond_Zopp sy (Zpos my) * 2 ^ (ey - e))%Z).
    destruct (finite_exponent mx ex Bx) as (X1 & X2 & X3). destruct (finite_exponent my ey By) as (Y1 & Y2 & Y3).
    assert (Rabs (B2R (B754_finite sy my ey By)) < bpow radix2 128) as YB by apply abs_B2R_lt_emax.
    assert (B2R (B754_finite sx mx ex Bx) = F2R (Float radix2 a e)) as Ex. { unfold B2R. rewrite (F2R_shift _ ex e) by lia. reflexivity. }
    assert (B2R (B754_finite sy my ey By) = F2R (Float radix2 b e)) as Ey. { unfold B2R. rewrite (F2R_shift _ ey e) by lia. reflexivity. }
    rewrite Ex, Ey in *. assert (0 < bpow radix2 e) as P by apply bpow_gt_0. unfold F2R in *. cbn [Fnum Fexp] in *.
    assert (b <> 0)%Z as Hb. { intros Z. apply Hy. rewrite Z. ring. }
    assert (Z.abs (Z.rem a b) < 2 ^ 24)%Z as RB.
    { destruct (Z.le_gt_cases ey ex) as [L|L].
      - assert (b = cond_Zopp sy (Zpos my)) as Eb. { unfold b, e. rewrite Z.min_r by lia. rewrite Z.sub_diag, Z.mul_1_r. reflexivity. }
        pose proof (Z.rem_bound_abs a b Hb). rewrite Eb in H at 2. rewrite abs_cond_Zopp in H. lia.
      - assert (a = cond_Zopp sx (Zpos mx)) as Ea. { unfold a, e. rewrite Z.min_l by lia. rewrite Z.sub_diag, Z.mul_1_r. reflexivity. }
        assert (Z.abs (Z.rem a b) <= Z.abs a)%Z as H. { rewrite <- Z.rem_abs by exact Hb. apply Z.rem_le; lia. } rewrite Ea in H at 2. rewrite abs_cond_Zopp in H. lia. }
    assert (Rabs (IZR (Z.rem a b) * bpow radix2 e) < Rabs (IZR b * bpow radix2 e)) as LT.
    { rewrite !Rabs_mult, <- !abs_IZR. apply Rmult_lt_compat_r; [rewrite Rabs_pos_eq; lra|]. apply IZR_lt. apply Z.rem_bound_abs. exact Hb. }
    pose proof (binary_normalize_correct 24 128 p32 e32 mode_NE (Z.rem a b) e sx) as C. cbv zeta in C. unfold F2R in C. cbn [Fnum Fexp] in C.
    rewrite (round_generic radix2 (SpecFloat.fexp 24 128) (round_mode mode_NE) (IZR (Z.rem a b) * bpow radix2 e)) in C.
    2:{ apply (generic_format_FLT radix2 (-149) 24). apply (FLT_spec radix2 (-149) 24 _ (Float radix2 (Z.rem a b) e)); [reflexivity|exact RB|cbn; lia]. }
    rewrite Rlt_bool_true in C by lra. destruct C as (C1 & C2 & _). rewrite C1. split; [exact C2|].
    split; [|split; [exact LT|split]].
    + exists (Z.quot a b). pose proof (Z.quot_rem' a b) as Q. rewrite Q at 1. rewrite plus_IZR, mult_IZR. ring.
    + rewrite !Rabs_mult, <- !abs_IZR. apply Rmult_le_compat_r; [apply Rabs_pos|]. apply IZR_le. rewrite <- Z.rem_abs by exact Hb. apply Z.rem_le; lia.
    + replace (IZR (Z.rem a b) * bpow radix2 e * (IZR a * bpow radix2 e)) with (IZR (Z.rem a b * a) * (bpow radix2 e * bpow radix2 e)) by (rewrite mult_IZR; ring).
      apply Rmult_le_pos; [|apply Rmult_le_pos; lra]. apply IZR_le. pose proof (Z.rem_sign_mul a b Hb). lia.
Qed.

(** ** tau *)
Lemma tau_value : B2R tau32 = 13176795 / 2097152 /\ is_finite tau32 = true /\ Bsign tau32 = false.
Proof. split; [|split; vm_compute; reflexivity]. vm_compute. lra. Qed.
Lemma PI_tight : 3141592653 / 1000000000 < PI < 3141592654 / 1000000000.
Proof. destruct (PI_2_3_7_ineq 5) as [L U]. cbn [Nat.mul Nat.add sum_f_R0] in L, U. unfold tg_alt, PI_2_3_7_tg, Ratan_seq in *. simpl in *. lra. Qed.

(** ** sums *)
Lemma finite_zero : is_finite zero32 = true /\ B2R zero32 = 0. Proof. split; reflexivity. Qed.
Lemma rnd_0 : rnd 0 = 0.
Proof. exact (rnd_float zero32). Qed.
Lemma sum32 (x y : f32) : is_finite x = true -> is_finite y = true -> Rabs (B2R x + B2R y) <= 1000 ->
  is_finite (add32 x y) = true /\ B2R (add32 x y) = rnd (B2R x + B2R y).
Proof.
  intros Fx Fy B. pose proof (Bplus_correct 24 128 p32 e32 mode_NE x y Fx Fy) as C. rewrite Rlt_bool_true in C; [destruct C as (C1 & C2 & _); split; assumption|].
  pose proof (round32_error (B2R x + B2R y)) as E. assert (bpow radix2 11 <= bpow radix2 128) as K by (apply bpow_le; lia). cbn in K.
  eapply Rlt_le_trans; [|exact K].
  set (r := round _ _ _ _) in *. replace r with ((r - (B2R x + B2R y)) + (B2R x + B2R y)) by ring. eapply Rle_lt_trans; [apply Rabs_triang|]. unfold u24 in E. lra.
Qed.
Lemma add32_comm (x y : f32) : add32 x y = add32 y x.
Proof.
  destruct (is_finite x) eqn:Fx; [destruct (is_finite y) eqn:Fy|].
  - pose proof (Bplus_correct 24 128 p32 e32 mode_NE x y Fx Fy) as C. pose proof (Bplus_correct 24 128 p32 e32 mode_NE y x Fy Fx) as D. rewrite (Rplus_comm (B2R y) (B2R x)) in D.
    destruct (Rlt_bool _ _).
    + destruct C as (C1 & C2 & C3), D as (D1 & D2 & D3). apply B2R_Bsign_inj; [exact C2|exact D2|unfold add32; congruence|].
      unfold add32. rewrite C3, D3. destruct (Rcompare _ _); try reflexivity. apply andb_comm.
    + destruct C as (C1 & C2), D as (D1 & D2). apply B2SF_inj. unfold add32. rewrite C1, D1, C2. reflexivity.
  - destruct x as [s|s| |s m e B], y as [s'|s'| |s' m' e' B']; try discriminate; reflexivity.
  - destruct x as [s|s| |s m e B], y as [s'|s'| |s' m' e' B']; try discriminate; try reflexivity; destruct s, s'; reflexivity.
Qed.

(** ** the remainder *)
Lemma rem_spec (x : f32) : is_finite x = true -> is_finite (remainder32 x tau32) = true /\
  exists (k : Z) (rem : R), B2R x = rem + IZR k * B2R tau32 /\ 0 <= rem < B2R tau32 /\ B2R (remainder32 x tau32) = rnd rem /\ (0 <= B2R x -> rnd rem = rem).
Proof.
  intros Fx. destruct tau_value as (TV & TF & TS). assert (B2R tau32 <> 0) as Hn by lra.
  destruct (fmod_exact x tau32 Fx TF Hn) as (Fm & (k & Ek) & Hlt & _ & Hsg). set (m := fmod32 x tau32) in *.
  rewrite (Rabs_pos_eq (B2R tau32)) in Hlt by lra. apply Rabs_def2 in Hlt.
  unfold remainder32. fold m. assert (Bltb tau32 zero32 = false) as -> by (vm_compute; reflexivity). rewrite xorb_false_l.
  rewrite (Bltb_correct 24 128 m zero32 Fm eq_refl). change (B2R zero32) with 0.
  destruct (Rlt_bool_spec (B2R m) 0) as [L|L].
  - rewrite (Beqb_correct 24 128 m zero32 Fm eq_refl). change (B2R zero32) with 0. rewrite Req_bool_false by lra. cbn [negb andb].
    destruct (sum32 m tau32 Fm TF) as [F2 E2]; [apply Rabs_le; lra|]. split; [exact F2|]. exists (k - 1)%Z, (B2R m + B2R tau32). rewrite minus_IZR.
    split; [rewrite Ek at 1; ring|]. split; [lra|]. split; [exact E2|]. intros H0. exfalso. destruct (Req_dec (B2R x) 0) as [Z|Z].
    + pose proof (fmod_exact x tau32 Fx TF Hn) as (_ & _ & _ & H & _). fold m in H. rewrite Z, Rabs_R0 in H. rewrite Rabs_left in H by lra. lra.
    + nra.
  - rewrite andb_false_r. split; [exact Fm|]. exists k, (B2R m). split; [exact Ek|]. split; [lra|]. split; [symmetry; apply rnd_float|intros _; apply rnd_float].
Qed.
Lemma left_spec (a b : f32) : is_finite (add32 a b) = true -> is_finite (left_apply32 a b) = true /\
  exists (k : Z) (rem : R), B2R (add32 a b) = rem + IZR k * B2R tau32 /\ 0 <= rem < B2R tau32 /\ B2R (left_apply32 a b) = rnd rem /\ (0 <= B2R (add32 a b) -> rnd rem = rem).
Proof. exact (rem_spec (add32 a b)). Qed.
Lemma left_range (a b : f32) : is_finite (add32 a b) = true -> 0 <= B2R (left_apply32 a b) <= B2R tau32.
Proof.
  intros F. destruct (left_spec a b F) as (_ & k & rem & _ & B & E & _). rewrite E. split.
  - rewrite <- rnd_0. apply rnd_le. lra.
  - rewrite <- (rnd_float tau32). apply rnd_le. lra.
Qed.
(** Unique remainder. *)
Lemma rem_unique (k : Z) (rem x : R) : x = rem + IZR k * B2R tau32 -> 0 <= rem < B2R tau32 -> 0 <= x < B2R tau32 -> k = 0%Z /\ rem = x.
Proof.
  intros E B X. destruct tau_value as (TV & _ & _). assert (k = 0)%Z as ->; [|split; [reflexivity|lra]].
  assert (-1 < k)%Z. { apply lt_IZR. nra. } assert (k < 1)%Z. { apply lt_IZR. nra. } lia.
Qed.
Lemma left_small (a b : f32) : is_finite (add32 a b) = true -> 0 <= B2R (add32 a b) < B2R tau32 -> B2R (left_apply32 a b) = B2R (add32 a b).
Proof.
  intros F H. destruct (left_spec a b F) as (_ & k & rem & E & B & R & X). destruct (rem_unique k rem _ E B H) as [_ ->]. rewrite R. apply X. lra.
Qed.

(** ** rounding up to tau *)
Lemma binade z : 4 <= z < 8 -> exists n : Z, rnd z = IZR n / 2097152 /\ Rabs (rnd z - z) <= / 4194304.
Proof.
  intros H. assert (mag radix2 z = 3%Z :> Z) as M. { apply mag_unique. rewrite Rabs_pos_eq by lra. cbn. lra. }
  assert (SpecFloat.fexp 24 128 (mag radix2 z) = -21)%Z as FE by (rewrite M; reflexivity).
  exists (Znearest (fun n => negb (Z.even n)) (scaled_mantissa radix2 (SpecFloat.fexp 24 128) z)). split.
  - unfold rnd, round. unfold F2R. cbn [Fnum Fexp round_mode]. unfold cexp. rewrite FE. cbn. field.
  - unfold rnd. cbn [round_mode]. eapply Rle_trans; [apply error_le_half_ulp; apply fexp_correct, p32|]. rewrite ulp_neq_0 by lra. unfold cexp. rewrite FE. cbn. lra.
Qed.
Lemma rounds_to_tau z : B2R tau32 - / 4194304 < z < B2R tau32 -> rnd z = B2R tau32.
Proof.
  destruct tau_value as (TV & _ & _). rewrite TV. intros H. destruct (binade z) as (n & E & A); [lra|]. rewrite E in *. apply Rabs_def2' in A.
  assert (n = 13176795)%Z as ->; [|reflexivity]. assert (13176794 < n)%Z by (apply lt_IZR; lra). assert (n < 13176796)%Z by (apply lt_IZR; lra). lia.
Qed.
Lemma exact_below : exists y : f32, is_finite y = true /\ B2R y = B2R tau32 - / 2097152.
Proof. exists (add32 tau32 (binary_normalize 24 128 p32 e32 mode_NE (-1) (-21) false)). split; [vm_compute; reflexivity|]. rewrite (proj1 tau_value). vm_compute. lra. Qed.
Lemma rounds_below z : z <= B2R tau32 - / 2097152 -> rnd z < B2R tau32.
Proof. intros H. destruct exact_below as (y & _ & Ey). rewrite <- Ey in H. apply rnd_le in H. rewrite rnd_float, Ey in H. lra. Qed.

(** ** accuracy *)
Lemma tau_PI : 0 < B2R tau32 - 2 * PI < / 4000000.
Proof. destruct tau_value as (TV & _ & _). rewrite TV. pose proof PI_tight. lra. Qed.

Lemma random_value (u : f32) : is_finite u = true -> 0 <= B2R u < 1 -> is_finite (random32 u) = true /\ B2R (random32 u) = rnd (B2R tau32 * B2R u).
Proof.
  intros Fu Bu. destruct tau_value as (TV & TF & _). assert (Rabs (B2R tau32 * B2R u) <= 8) as H by (rewrite Rabs_pos_eq by nra; nra).
  pose proof (Bmult_correct 24 128 p32 e32 mode_NE tau32 u) as C. rewrite Rlt_bool_true in C by (apply round32_bound, H). destruct C as (C1 & C2 & _).
  unfold random32, mul32. rewrite C2, TF, Fu. split; [reflexivity|exact C1].
Qed.
(** The largest float32 below 1. *)
Definition last32 : f32 := binary_normalize 24 128 p32 e32 mode_NE 16777215 (-24) false.
Lemma last_value : B2R last32 = 1 - / 16777216 /\ is_finite last32 = true.
Proof. split; [|vm_compute; reflexivity]. vm_compute. lra. Qed.
Lemma below_one_last (u : f32) : is_finite u = true -> 0 <= B2R u < 1 -> B2R u <= B2R last32.
Proof.
  intros Fu Bu. destruct last_value as [LV _]. rewrite LV. pose proof (generic_format_B2R 24 128 u) as G.
  pose proof (@pred_ge_gt radix2 (SpecFloat.fexp 24 128) (fexp_correct 24 128 p32) (B2R u) 1 G) as K.
  assert (generic_format radix2 (SpecFloat.fexp 24 128) 1) as G1. { rewrite <- (proj1 one_value). apply generic_format_B2R. }
  specialize (K G1 ltac:(lra)). eapply Rle_trans; [exact K|]. change 1 with (bpow radix2 0). rewrite pred_bpow. cbn. lra.
Qed.
Lemma random_range (u : f32) : is_finite u = true -> 0 <= B2R u < 1 -> 0 <= B2R (random32 u) < 2 * PI.
Proof.
  intros Fu Bu. destruct (random_value u Fu Bu) as [_ E]. destruct tau_value as (TV & _ & _). rewrite E. split.
  - rewrite <- rnd_0. apply rnd_le. nra.
  - destruct exact_below as (y & _ & Ey). apply Rle_lt_trans with (B2R tau32 - / 2097152); [|rewrite TV; pose proof PI_tight; lra].
    pose proof (below_one_last u Fu Bu) as L. destruct last_value as [LV LF]. assert (rnd (B2R tau32 * B2R u) <= rnd (B2R tau32 * B2R last32)) as M by (apply rnd_le; nra).
    eapply Rle_trans; [exact M|]. destruct (random_value last32 LF) as [_ EL]; [lra|]. rewrite <- EL, TV. vm_compute. lra.
Qed.
Lemma random_error (u : f32) : is_finite u = true -> 0 <= B2R u < 1 -> Rabs (B2R (random32 u) - 2 * PI * B2R u) <= / 1048576.
Proof.
  intros Fu Bu. destruct (random_value u Fu Bu) as [_ E]. rewrite E. destruct tau_value as (TV & _ & _). pose proof tau_PI as TP.
  pose proof (round32_error (B2R tau32 * B2R u)) as R. fold (rnd (B2R tau32 * B2R u)) in R. rewrite (Rabs_pos_eq (B2R tau32 * B2R u)) in R by nra.
  replace (rnd (B2R tau32 * B2R u) - 2 * PI * B2R u) with ((rnd (B2R tau32 * B2R u) - B2R tau32 * B2R u) + (B2R tau32 - 2 * PI) * B2R u) by ring.
  eapply Rle_trans; [apply Rabs_triang|]. rewrite (Rabs_pos_eq ((B2R tau32 - 2 * PI) * B2R u)) by nra.
  assert ((B2R tau32 - 2 * PI) * B2R u <= / 4000000) by nra. assert (B2R tau32 * B2R u <= 7) by (rewrite TV; nra). unfold u24 in R. lra.
Qed.
Lemma left_error (a b : f32) : is_finite a = true -> is_finite b = true -> 0 <= B2R a <= B2R tau32 -> 0 <= B2R b <= B2R tau32 ->
  exists k : Z, Rabs (B2R (left_apply32 a b) - (B2R a + B2R b - 2 * PI * IZR k)) <= / 524288.
Proof.
  intros Fa Fb Ba Bb. destruct tau_value as (TV & TF & _). destruct (sum32 a b Fa Fb) as [F E]; [apply Rabs_le; lra|].
  destruct (left_spec a b F) as (_ & k & rem & Ek & Br & R & X). exists k. assert (0 <= B2R (add32 a b)) as P. { rewrite E, <- rnd_0. apply rnd_le. lra. }
  rewrite R, (X P). pose proof (round32_error (B2R a + B2R b)) as ER. fold (rnd (B2R a + B2R b)) in ER. rewrite <- E in ER. rewrite (Rabs_pos_eq (B2R a + B2R b)) in ER by lra.
  assert (rem = B2R (add32 a b) - IZR k * B2R tau32) as -> by lra.
  replace (B2R (add32 a b) - IZR k * B2R tau32 - (B2R a + B2R b - 2 * PI * IZR k)) with ((B2R (add32 a b) - (B2R a + B2R b)) + IZR k * (2 * PI - B2R tau32)) by ring.
  eapply Rle_trans; [apply Rabs_triang|]. rewrite Rabs_mult. pose proof tau_PI as TP. rewrite (Rabs_left (2 * PI - B2R tau32)) by lra.
  assert (B2R (add32 a b) <= 13) as U. { apply Rabs_def2' in ER. unfold u24 in ER. lra. }
  assert (0 <= k <= 2)%Z as K. { split. { assert (-1 < k)%Z; [|lia]. apply lt_IZR. nra. } assert (k < 3)%Z; [|lia]. apply lt_IZR. nra. }
  assert (0 <= IZR k <= 2) as K'. { split; [apply (IZR_le 0); lia|apply (IZR_le k 2); lia]. } rewrite (Rabs_pos_eq (IZR k)) by lra.
  assert (IZR k * - (2 * PI - B2R tau32) <= 2 * / 4000000) by nra. unfold u24 in ER. lra.
Qed.

(** ** exactly when the result is tau *)
Lemma rounds_tie : rnd (B2R tau32 - / 4194304) = B2R tau32 - / 2097152.
Proof.
  pose proof (binary_normalize_correct 24 128 p32 e32 mode_NE 26353589 (-22) false) as C.
  assert (F2R (Float radix2 26353589 (-22)) = B2R tau32 - / 4194304) as E. { rewrite (proj1 tau_value). unfold F2R. cbn. lra. }
  rewrite E in C. cbv zeta in C. rewrite Rlt_bool_true in C.
  2:{ apply round32_bound. rewrite (proj1 tau_value). apply Rabs_le. lra. }
  destruct C as [C _]. fold (rnd (B2R tau32 - / 4194304)) in C. rewrite <- C, (proj1 tau_value). vm_compute. lra.
Qed.
Lemma rounds_to_tau_iff z : 0 <= z < B2R tau32 -> (rnd z = B2R tau32 <-> B2R tau32 - / 4194304 < z).
Proof.
  intros B. split; [|intros H; apply rounds_to_tau; lra].
  intros E. destruct (Rlt_le_dec (B2R tau32 - / 4194304) z) as [L|L]; [exact L|]. apply rnd_le in L. rewrite rounds_tie in L. lra.
Qed.

(** ** long products *)
Lemma word_error (l : list f32) : forall (a : f32), is_finite a = true -> 0 <= B2R a <= B2R tau32 ->
  Forall (fun x => is_finite x = true /\ 0 <= B2R x <= B2R tau32) l ->
  let r := fold_left left_apply32 l a in
  is_finite r = true /\ 0 <= B2R r <= B2R tau32 /\
  exists k : Z, Rabs (B2R r - (B2R a + fold_right Rplus 0 (map (fun x : f32 => B2R x) l) - 2 * PI * IZR k)) <= INR (length l) * / 524288.
Proof.
  induction l as [|x l IH]; intros a Fa Ba H; cbn zeta.
  - split; [exact Fa|]. split; [exact Ba|]. exists 0%Z. change (fold_left left_apply32 [] a) with a. cbn [fold_right map length INR]. replace (_ - _) with 0 by ring. rewrite Rabs_R0. lra.
  - inversion_clear H as [|? ? [Fx Bx] Hl]. change (fold_left left_apply32 (x :: l) a) with (fold_left left_apply32 l (left_apply32 a x)).
    destruct tau_value as (TV & TF & _). destruct (sum32 a x Fa Fx) as [F E]; [apply Rabs_le; lra|].
    destruct (left_spec a x F) as (Fl & _). pose proof (left_range a x F) as Rl. destruct (left_error a x Fa Fx Ba Bx) as (k & Ek).
    destruct (IH (left_apply32 a x) Fl Rl Hl) as (I1 & I2 & k' & I3). split; [exact I1|]. split; [exact I2|]. exists (k + k')%Z. rewrite plus_IZR.
    set (r := B2R (fold_left left_apply32 l (left_apply32 a x))) in *. set (v := B2R (left_apply32 a x)) in *. cbn [map fold_right length]. rewrite S_INR. set (s := fold_right Rplus 0 (map (fun y : f32 => B2R y) l)) in *.
    replace (r - (B2R a + (B2R x + s) - 2 * PI * (IZR k + IZR k'))) with ((r - (v + s - 2 * PI * IZR k')) + (v - (B2R a + B2R x - 2 * PI * IZR k))) by ring.
    eapply Rle_trans; [apply Rabs_triang|]. lra.
Qed.

(** ** O(2) *)
Definition is_sign (c : f32) : Prop := is_finite c = true /\ (B2R c = 1 \/ B2R c = -1).
Lemma minus_one_value : B2R (of_Z32 (-1)) = -1 /\ is_finite (of_Z32 (-1)) = true.
Proof. split; [vm_compute; lra|vm_compute; reflexivity]. Qed.
Lemma mul_sign (x c : f32) : is_finite x = true -> is_sign c -> Rabs (B2R x) <= 1000 -> is_finite (mul32 x c) = true /\ B2R (mul32 x c) = B2R x * B2R c.
Proof.
  intros Fx [Fc Hc] B. pose proof (Bmult_correct 24 128 p32 e32 mode_NE x c) as C. fold (mul32 x c) in C. fold (rnd (B2R x * B2R c)) in C.
  assert (rnd (B2R x * B2R c) = B2R x * B2R c) as E.
  { destruct Hc as [-> | ->]; [rewrite Rmult_1_r; apply rnd_float|]. replace (B2R x * -1) with (B2R (opp32 x)); [apply rnd_float|]. unfold opp32. rewrite B2R_Bopp. ring. }
  rewrite E in C. rewrite Rlt_bool_true in C.
  - destruct C as (C1 & C2 & _). rewrite C2, Fx, Fc. split; [reflexivity|exact C1].
  - assert (bpow radix2 11 <= bpow radix2 128) as K by (apply bpow_le; lia). change (bpow radix2 11) with 2048 in K. eapply Rle_lt_trans with (Rabs (B2R x)); [|lra].
    rewrite Rabs_mult. destruct Hc as [-> | ->]; [rewrite Rabs_R1; lra|rewrite (Rabs_left (-1)) by lra; lra].
Qed.
Lemma sign_bound c : is_sign c -> Rabs (B2R c) <= 1000.
Proof. intros [_ [-> | ->]]; apply Rabs_le; lra. Qed.
