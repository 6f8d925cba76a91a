(** Proofs: both GELU variants are Lipschitz with constant 2. *)
From Coq Require Import Reals Lra Lia String.
From Coq Require Import MVT Ratan.
From Verif Require Import Prelude Layers LayersSpec StableSpec.
Open Scope R_scope.

Lemma lipschitz_of_derivative (f f' : R -> R) (L : R) : (forall x, derivable_pt_lim f x (f' x)) -> (forall x, Rabs (f' x) <= L) ->
  forall x y, Rabs (f x - f y) <= L * Rabs (x - y).
Proof.
  intros Hd Hb.
  assert (forall x y, x < y -> Rabs (f y - f x) <= L * Rabs (y - x)) as K.
  { intros x y Hxy. destruct (MVT_cor2 f f' x y Hxy ltac:(intros; apply Hd)) as (c & E & _). rewrite E, Rabs_mult.
    apply Rmult_le_compat_r; [apply Rabs_pos|apply Hb]. }
  intros x y. destruct (Rtotal_order x y) as [H|[->|H]].
  - rewrite Rabs_minus_sym, (Rabs_minus_sym x y). apply K. exact H.
  - unfold Rminus. rewrite !Rplus_opp_r, Rabs_R0. lra.
  - apply K. exact H.
Qed.

Lemma exp_ge_1_plus x : 1 + x <= exp x.
Proof.
  destruct (Req_dec x 0) as [->|H]; [rewrite exp_0; lra|]. pose proof (exp_ineq1 x H). lra.
Qed.

(** tanh and cosh. *)
Lemma cosh_pos x : 0 < cosh x.
Proof. unfold cosh. pose proof (exp_pos x). pose proof (exp_pos (- x)). lra. Qed.
Lemma cosh_sinh x : cosh x * cosh x - sinh x * sinh x = 1.
Proof. unfold cosh, sinh. replace 1 with (exp x * exp (- x)) by (rewrite <- exp_plus, Rplus_opp_r; apply exp_0). field. Qed.
Lemma tanh_lt_1 x : Rabs (tanh x) <= 1.
Proof.
  unfold tanh. pose proof (cosh_pos x) as H. unfold Rdiv. rewrite Rabs_mult, (Rabs_right (/ cosh x)) by (left; apply Rinv_0_lt_compat; exact H).
  apply Rmult_le_reg_r with (cosh x); [exact H|]. rewrite Rmult_assoc, Rinv_l, Rmult_1_l, Rmult_1_r by lra.
  apply Rabs_le. unfold cosh, sinh. pose proof (exp_pos x). pose proof (exp_pos (- x)). lra.
Qed.
Lemma tanh_derive x : derivable_pt_lim tanh x (1 - tanh x * tanh x).
Proof.
  pose proof (cosh_pos x) as H. unfold tanh.
  replace (1 - sinh x / cosh x * (sinh x / cosh x)) with ((cosh x * cosh x - sinh x * sinh x) / (Rsqr (cosh x))).
  - apply (derivable_pt_lim_div sinh cosh); [apply derivable_pt_lim_sinh|apply derivable_pt_lim_cosh|lra].
  - unfold Rsqr. field. lra.
Qed.
Lemma sinh_ge x : 0 <= x -> x <= sinh x.
Proof.
  intros H. destruct (Rle_lt_or_eq_dec 0 x H) as [Hx|<-]; [|rewrite sinh_0; lra].
  destruct (MVT_cor2 sinh cosh 0 x Hx ltac:(intros; apply derivable_pt_lim_sinh)) as (c & E & Hc). rewrite sinh_0, !Rminus_0_r in E. rewrite E.
  assert (1 <= cosh c); [|nra]. unfold cosh. pose proof (exp_ge_1_plus c) as A. pose proof (exp_ge_1_plus (- c)) as B. lra.
Qed.
Lemma sinh_odd x : sinh (- x) = - sinh x.
Proof. unfold sinh. rewrite Ropp_involutive. field. Qed.
Lemma sinh_sq x : x * x <= sinh x * sinh x.
Proof.
  destruct (Rle_or_lt 0 x) as [H|H]; [pose proof (sinh_ge x H); nra|].
  pose proof (sinh_ge (- x) ltac:(lra)) as A. rewrite sinh_odd in A. nra.
Qed.
(** |u| (1 - tanh^2 u) <= 1/2 *)
Lemma u_sech u : Rabs u * (1 - tanh u * tanh u) <= / 2.
Proof.
  pose proof (cosh_pos u) as H. pose proof (cosh_sinh u) as E. pose proof (sinh_sq u) as S.
  replace (1 - tanh u * tanh u) with (/ (cosh u * cosh u)) by (unfold tanh; transitivity ((cosh u * cosh u - sinh u * sinh u) / (cosh u * cosh u)); [rewrite E; field|field]; lra).
  assert (0 < cosh u * cosh u) as HC by nra.
  apply Rmult_le_reg_r with (cosh u * cosh u); [exact HC|]. rewrite Rmult_assoc, Rinv_l, Rmult_1_r by lra.
  assert (Rabs u * Rabs u = u * u) as A by (rewrite <- Rabs_mult; apply Rabs_right; nra). pose proof (pow2_ge_0 (Rabs u - 1)) as Q. cbn [pow] in Q. lra.
Qed.
Lemma sech_pos u : 0 <= 1 - tanh u * tanh u.
Proof. pose proof (tanh_lt_1 u) as H. assert (Rabs (tanh u) * Rabs (tanh u) = tanh u * tanh u) as A by (rewrite <- Rabs_mult; apply Rabs_right; nra). pose proof (Rabs_pos (tanh u)). rewrite <- A. pose proof (Rmult_le_compat _ _ _ _ H0 H0 H H). lra. Qed.

Definition gu (x : R) : R := sqrt (2 / PI) * (x + 44715 / 1000000 * x ^ 3).
Lemma gu_derive x : derivable_pt_lim gu x (sqrt (2 / PI) * (1 + 44715 / 1000000 * (3 * x ^ 2))).
Proof.
  unfold gu. apply (derivable_pt_lim_scal (fun x => x + 44715 / 1000000 * x ^ 3)).
  apply (derivable_pt_lim_plus id (fun x => 44715 / 1000000 * x ^ 3)); [apply derivable_pt_lim_id|].
  apply (derivable_pt_lim_scal (fun x => x ^ 3)). replace (3 * x ^ 2) with (INR 3 * x ^ (pred 3)) by (cbn [pred]; simpl INR; ring). apply derivable_pt_lim_pow.
Qed.
Lemma gelu_tanh_lipschitz x y : Rabs (gelu_tanh x - gelu_tanh y) <= 2 * Rabs (x - y).
Proof.
  apply (lipschitz_of_derivative gelu_tanh (fun x => / 2 * (1 + tanh (gu x)) + x / 2 * ((1 - tanh (gu x) * tanh (gu x)) * (sqrt (2 / PI) * (1 + 44715 / 1000000 * (3 * x ^ 2)))))).
  - clear x y. intros x. unfold gelu_tanh. fold (gu x).
    apply (derivable_pt_lim_mult (fun x => x / 2) (fun x => 1 + tanh (gu x))).
    + replace (/ 2) with (/ 2 * 1) by ring. apply derivable_pt_lim_ext with (fun x => / 2 * id x); [intros; unfold id, Rdiv; ring|].
      apply derivable_pt_lim_scal. apply derivable_pt_lim_id.
    + replace ((1 - tanh (gu x) * tanh (gu x)) * (sqrt (2 / PI) * (1 + 44715 / 1000000 * (3 * x ^ 2)))) with (0 + (1 - tanh (gu x) * tanh (gu x)) * (sqrt (2 / PI) * (1 + 44715 / 1000000 * (3 * x ^ 2)))) by ring.
      apply (derivable_pt_lim_plus (fun _ => 1) (fun x => tanh (gu x))); [apply derivable_pt_lim_const|].
      apply (derivable_pt_lim_comp gu tanh); [apply gu_derive|apply tanh_derive].
  - clear x y. intros x. set (t := tanh (gu x)). pose proof (tanh_lt_1 (gu x)) as Ht. fold t in Ht. pose proof (sech_pos (gu x)) as Hs. pose proof (u_sech (gu x)) as Hu. fold t in Hs, Hu.
    set (a := sqrt (2 / PI)) in *. assert (0 < a) as Ha by (apply sqrt_lt_R0; apply Rdiv_lt_0_compat; [lra|apply PI_RGT_0]).
    assert (Rabs (x * (a * (1 + 44715 / 1000000 * (3 * x ^ 2)))) <= 3 * Rabs (gu x)) as K.
    { unfold gu. fold a. replace (a * (x + 44715 / 1000000 * x ^ 3)) with (x * (a * (1 + 44715 / 1000000 * x ^ 2))) by ring.
      rewrite !(Rabs_mult x). replace (3 * (Rabs x * Rabs (a * (1 + 44715 / 1000000 * x ^ 2)))) with (Rabs x * (3 * Rabs (a * (1 + 44715 / 1000000 * x ^ 2)))) by ring.
      apply Rmult_le_compat_l; [apply Rabs_pos|]. pose proof (pow2_ge_0 x) as Hx. rewrite !Rabs_mult, (Rabs_right a) by lra. rewrite !(Rabs_right (1 + _)) by lra.
      replace (3 * (a * (1 + 44715 / 1000000 * x ^ 2))) with (a * (3 * (1 + 44715 / 1000000 * x ^ 2))) by ring. apply Rmult_le_compat_l; lra. }
    replace (x / 2 * ((1 - t * t) * (a * (1 + 44715 / 1000000 * (3 * x ^ 2))))) with (/ 2 * (1 - t * t) * (x * (a * (1 + 44715 / 1000000 * (3 * x ^ 2))))) by (field).
    eapply Rle_trans; [apply Rabs_triang|]. rewrite !Rabs_mult. rewrite (Rabs_right (/ 2)) by lra. rewrite (Rabs_right (1 - t * t)) by lra.
    assert (Rabs (1 + t) <= 2) as K1 by (eapply Rle_trans; [apply Rabs_triang|]; rewrite Rabs_R1; lra).
    rewrite <- (Rabs_mult a), <- (Rabs_mult x). set (q := Rabs (x * _)) in *. assert (/ 2 * (1 - t * t) * q <= / 2 * (1 - t * t) * (3 * Rabs (gu x))) as K2 by (apply Rmult_le_compat_l; [lra|exact K]).
    assert (/ 2 * (1 - t * t) * (3 * Rabs (gu x)) = 3 / 2 * (Rabs (gu x) * (1 - t * t))) as K3 by field. lra.
Qed.

(** ** The exact variant *)
Lemma exp_inv_bound x : exp (- (x * x)) <= / (1 + x ^ 2).
Proof.
  pose proof (exp_ge_1_plus (x * x)) as H. rewrite exp_Ropp. apply Rinv_le_contravar; nra.
Qed.
Lemma sqrt_PI_pos : 0 < sqrt PI. Proof. apply sqrt_lt_R0, PI_RGT_0. Qed.
Lemma erf_bound erf x : error_function erf -> Rabs (erf x) <= sqrt PI.
Proof.
  intros [E0 Hd].
  set (F := fun x => 2 / sqrt PI * atan x - erf x).
  pose proof sqrt_PI_pos as Hp.
  assert (forall x, derivable_pt_lim F x (2 / sqrt PI * (/ (1 + x ^ 2)) - 2 / sqrt PI * exp (- (x * x)))) as HF.
  { intros y. unfold F. apply (derivable_pt_lim_minus (fun x => 2 / sqrt PI * atan x) erf); [|apply Hd]. apply derivable_pt_lim_scal.
    apply derivable_pt_lim_atan. }
  assert (0 < 2 / sqrt PI) as Hc by (apply Rdiv_lt_0_compat; lra).
  assert (forall a b, a < b -> F a <= F b) as MF.
  { intros a b Hab. destruct (MVT_cor2 F _ a b Hab ltac:(intros; apply HF)) as (c & E & _). pose proof (exp_inv_bound c) as B.
    assert (0 <= 2 / sqrt PI * / (1 + c ^ 2) - 2 / sqrt PI * exp (- (c * c))) as P by (rewrite <- Rmult_minus_distr_l; apply Rmult_le_pos; lra). cbv beta in E. nra. }
  assert (forall a b, a < b -> erf a <= erf b) as ME.
  { intros a b Hab. destruct (MVT_cor2 erf _ a b Hab ltac:(intros; apply Hd)) as (c & E & _). cbv beta in E. pose proof (exp_pos (- (c * c))).
    assert (0 <= 2 / sqrt PI * exp (- (c * c))) by (apply Rmult_le_pos; lra). nra. }
  assert (F 0 = 0) as F0 by (unfold F; rewrite atan_0, E0; ring).
  assert (2 / sqrt PI * (PI / 2) = sqrt PI) as EP by (pose proof (sqrt_sqrt PI ltac:(pose proof PI_RGT_0; lra)) as Q; rewrite <- Q at 2; field; lra).
  pose proof (atan_bound x) as [B1 B2].
  destruct (Rtotal_order x 0) as [Hx|[->|Hx]].
  - pose proof (MF _ _ Hx) as A. pose proof (ME _ _ Hx) as B. rewrite F0 in A. rewrite E0 in B. unfold F in A.
    rewrite Rabs_left1 by exact B. rewrite <- EP. assert (2 / sqrt PI * - (PI / 2) <= 2 / sqrt PI * atan x) by (apply Rmult_le_compat_l; lra). lra.
  - rewrite E0, Rabs_R0. lra.
  - pose proof (MF _ _ Hx) as A. pose proof (ME _ _ Hx) as B. rewrite F0 in A. rewrite E0 in B. unfold F in A.
    rewrite Rabs_right by lra. rewrite <- EP. assert (2 / sqrt PI * atan x <= 2 / sqrt PI * (PI / 2)) by (apply Rmult_le_compat_l; lra). lra.
Qed.
Lemma gelu_exact_lipschitz erf x y : error_function erf -> Rabs (gelu_exact erf x - gelu_exact erf y) <= 2 * Rabs (x - y).
Proof.
  intros He. pose proof sqrt_PI_pos as Hp. assert (0 < sqrt 2) as H2 by (apply sqrt_lt_R0; lra).
  apply (lipschitz_of_derivative (gelu_exact erf) (fun x => 1 * ((1 + erf (x / sqrt 2)) / 2) + x * (/ 2 * (2 / sqrt PI * exp (- (x / sqrt 2 * (x / sqrt 2))) * / sqrt 2)))).
  - clear x y. intros x. unfold gelu_exact. apply (derivable_pt_lim_mult id (fun x => (1 + erf (x / sqrt 2)) / 2)); [apply derivable_pt_lim_id|].
    apply derivable_pt_lim_ext with (fun x => / 2 * (1 + erf (x / sqrt 2))); [intros; unfold Rdiv; ring|]. apply (derivable_pt_lim_scal (fun x => 1 + erf (x / sqrt 2))).
    rewrite <- (Rplus_0_l (2 / sqrt PI * _ * _)). apply (derivable_pt_lim_plus (fun _ => 1) (fun x => erf (x / sqrt 2))); [apply derivable_pt_lim_const|].
    apply (derivable_pt_lim_comp (fun x => x / sqrt 2) erf); [|apply He].
    apply derivable_pt_lim_ext with (fun x => / sqrt 2 * id x); [intros; unfold id, Rdiv; ring|].
    pose proof (derivable_pt_lim_scal id (/ sqrt 2) x 1 (derivable_pt_lim_id x)) as Q. rewrite Rmult_1_r in Q. exact Q.
  - clear x y. intros x. set (z := x / sqrt 2). pose proof (erf_bound erf z He) as B.
    replace (x * (/ 2 * (2 / sqrt PI * exp (- (z * z)) * / sqrt 2))) with (/ sqrt PI * (z * exp (- (z * z)))) by (unfold z; field; lra).
    assert (Rabs (z * exp (- (z * z))) <= / 2) as K.
    { rewrite Rabs_mult, (Rabs_right (exp _)) by (left; apply exp_pos). pose proof (exp_inv_bound z) as E. pose proof (Rabs_pos z).
      assert (Rabs z * Rabs z = z * z) as A by (rewrite <- Rabs_mult; apply Rabs_right; nra).
      apply Rle_trans with (Rabs z * / (1 + z ^ 2)); [apply Rmult_le_compat_l; assumption|].
      assert (0 < 1 + z ^ 2) as Hz by (pose proof (pow2_ge_0 z); lra).
      apply Rmult_le_reg_r with (1 + z ^ 2); [exact Hz|]. rewrite Rmult_assoc, Rinv_l, Rmult_1_r by lra. pose proof (pow2_ge_0 (Rabs z - 1)) as Q. cbn [pow] in *. lra. }
    assert (3 < PI) as P3 by (pose proof PI2_3_2; lra). pose proof PI_4 as P4.
    assert (sqrt PI <= 2) as S2 by (replace 2 with (sqrt (2 * 2)) by (apply sqrt_square; lra); apply sqrt_le_1_alt; lra).
    assert (3 / 2 <= sqrt PI) as S1 by (replace (3 / 2) with (sqrt (3 / 2 * (3 / 2))) by (apply sqrt_square; lra); apply sqrt_le_1_alt; lra).
    eapply Rle_trans; [apply Rabs_triang|]. rewrite Rmult_1_l. rewrite (Rabs_mult (/ sqrt PI)), (Rabs_right (/ sqrt PI)) by (left; apply Rinv_0_lt_compat; lra).
    assert (/ sqrt PI <= / (3 / 2)) as S3 by (apply Rinv_le_contravar; lra).
    assert (0 < / sqrt PI) as S4 by (apply Rinv_0_lt_compat; lra).
    assert (Rabs ((1 + erf z) / 2) <= (1 + sqrt PI) / 2) as K1.
    { unfold Rdiv. rewrite Rabs_mult, (Rabs_right (/ 2)) by lra. apply Rmult_le_compat_r; [lra|]. eapply Rle_trans; [apply Rabs_triang|]. rewrite Rabs_R1. lra. }
    assert (/ sqrt PI * Rabs (z * exp (- (z * z))) <= / (3 / 2) * / 2) as K2 by (apply Rmult_le_compat; try assumption; [lra|apply Rabs_pos]).
    assert (/ (3 / 2) * / 2 = 1 / 3) as K3 by field. lra.
Qed.

(** ** There is such a function. *)
From Coq Require Import Ranalysis5.
Lemma gauss_continuous x : continuity_pt (fun x => 2 / sqrt PI * exp (- (x * x))) x.
Proof.
  apply derivable_continuous_pt. eexists. apply derivable_pt_lim_scal. apply (derivable_pt_lim_comp (fun x => - (x * x)) exp).
  - apply (derivable_pt_lim_opp (fun x => x * x)). apply (derivable_pt_lim_mult id id); apply derivable_pt_lim_id.
  - apply derivable_pt_lim_exp.
Qed.
Lemma gauss_integrable a b : Riemann_integrable (fun x => 2 / sqrt PI * exp (- (x * x))) a b.
Proof.
  destruct (Rle_dec a b) as [H|H]; [|apply RiemannInt_P1]; apply continuity_implies_RiemannInt; try lra; intros; apply gauss_continuous.
Qed.
Lemma error_function_exists : exists erf, error_function erf.
Proof.
  exists (fun x => RiemannInt (gauss_integrable 0 x)). split; [apply RiemannInt_P9|]. intros x.
  set (a := - (Rabs x + 1)). set (b := Rabs x + 1). pose proof (Rabs_pos x) as H0. pose proof (Rle_abs x) as H1. pose proof (Rle_abs (- x)) as H2. rewrite Rabs_Ropp in H2.
  assert (a <= b) as Hab by (unfold a, b; lra).
  pose proof (RiemannInt_P28 Hab (fun y (_ : a <= y <= b) => gauss_continuous y) (x := x) ltac:(unfold a, b; lra)) as Hd. cbv beta in Hd.
  apply (derivable_pt_lim_locally_ext (fun z => primitive Hab (FTC_P1 Hab (fun y (_ : a <= y <= b) => gauss_continuous y)) z - RiemannInt (gauss_integrable a 0)) _ x a b); [unfold a, b; lra| |].
  - intros z Hz. unfold primitive. destruct (Rle_dec a z) as [r|]; [|lra]. destruct (Rle_dec z b) as [r0|]; [|lra].
    rewrite <- (RiemannInt_P26 (gauss_integrable a 0) (gauss_integrable 0 z)). ring.
  - rewrite <- (Rminus_0_r (2 / sqrt PI * _)).
    apply (derivable_pt_lim_minus (primitive Hab (FTC_P1 Hab (fun y (_ : a <= y <= b) => gauss_continuous y))) (fun _ => RiemannInt (gauss_integrable a 0))); [exact Hd|apply derivable_pt_lim_const].
Qed.
