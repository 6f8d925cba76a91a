(** What the integer checks of RbfCert.v imply about real numbers: enclosures of cos, exp, acos and of the Gaussian, of order statistics, and the
    trivial kernel of the enclosed matrix. *)
From Coq Require Import ZArith Lia Lra Psatz.
From Verif Require Import Prelude RMath Interp InterpFacts SO3 Repulse GridTables RbfCert LinAlg.
Open Scope R_scope.

Definition sc : R := IZR SC.
Definition inb (x : R) (b : box) : Prop := IZR (fst b) <= sc * x <= IZR (snd b).

Lemma sc_pos : 0 < sc.
Proof. unfold sc. apply IZR_lt. reflexivity. Qed.

Lemma dn_mul a b : (0 < b)%Z -> IZR (dn a b) * IZR b <= IZR a.
Proof. intros Hb. unfold dn. rewrite <- mult_IZR. apply IZR_le. pose proof (Z.mul_div_le a b Hb). lia. Qed.
Lemma dn_le a b : (0 < b)%Z -> IZR (dn a b) <= IZR a / IZR b.
Proof.
  intros Hb. assert (0 < IZR b) by (apply IZR_lt; exact Hb). apply Rmult_le_reg_r with (IZR b); [assumption|].
  replace (IZR a / IZR b * IZR b) with (IZR a) by (field; lra). apply dn_mul, Hb.
Qed.
Lemma up_ge a b : (0 < b)%Z -> IZR a / IZR b <= IZR (up a b).
Proof.
  intros Hb. unfold up. rewrite opp_IZR. pose proof (dn_le (- a) b Hb) as H. unfold dn in H. rewrite opp_IZR in H.
  replace (- IZR a / IZR b) with (- (IZR a / IZR b)) in H by (unfold Rdiv; ring). lra.
Qed.
Lemma shift_dn a : Z.shiftr a 24 = dn a SC.
Proof. unfold dn. rewrite Z.shiftr_div_pow2 by lia. reflexivity. Qed.
Lemma SC_pos : (0 < SC)%Z. Proof. reflexivity. Qed.
Lemma dns_le a : IZR (dns a) <= IZR a / sc.
Proof. unfold dns. rewrite shift_dn. apply dn_le. exact SC_pos. Qed.
Lemma ups_ge a : IZR a / sc <= IZR (ups a).
Proof. unfold ups. rewrite shift_dn. apply (up_ge a SC). exact SC_pos. Qed.

Lemma div_mono a b d : 0 < d -> a <= b -> a / d <= b / d.
Proof. intros Hd H. unfold Rdiv. apply Rmult_le_compat_r; [left; apply Rinv_0_lt_compat; exact Hd|exact H]. Qed.

Lemma upper_prod X V yl yh hh : 0 <= yl -> yl <= X <= yh -> V <= hh -> X * V <= (if Rlt_dec hh 0 then yl else yh) * hh.
Proof. intros H1 H2 H3. destruct (Rlt_dec hh 0); nra. Qed.
Lemma lower_prod X V yl yh hl : 0 <= yl -> yl <= X <= yh -> hl <= V -> (if Rlt_dec hl 0 then yh else yl) * hl <= X * V.
Proof. intros H1 H2 H3. destruct (Rlt_dec hl 0); nra. Qed.
Lemma ltb_Rlt a (A : Type) (x y : A) : (if Z.ltb a 0 then x else y) = (if Rlt_dec (IZR a) 0 then x else y).
Proof.
  destruct (Z.ltb_spec a 0) as [H|H]; destruct (Rlt_dec (IZR a) 0) as [K|K]; try reflexivity; exfalso.
  - apply K. apply (IZR_lt a 0 H).
  - apply (IZR_le 0 a) in H. lra.
Qed.

Lemma horner_sound x y v h d : inb x y -> (0 <= fst y)%Z -> inb v h -> (0 < d)%Z -> inb (1 - x / IZR d * v) (horner y h d).
Proof.
  intros Hx Hy Hv Hd. pose proof sc_pos as Hs. assert (0 < IZR d) as Hd' by (apply IZR_lt; exact Hd).
  apply (IZR_le 0) in Hy. unfold inb in *. destruct Hx as [X1 X2], Hv as [V1 V2].
  set (X := sc * x) in *. set (V := sc * v) in *.
  assert (sc * (1 - x / IZR d * v) = sc - X * V / sc / IZR d) as -> by (unfold X, V; field; lra).
  unfold horner. cbn [fst snd]. rewrite !minus_IZR. change (IZR SC) with sc. rewrite !ltb_Rlt. split.
  - apply Rplus_le_compat_l, Ropp_le_contravar. eapply Rle_trans; [|apply up_ge; exact Hd]. apply div_mono; [exact Hd'|].
    eapply Rle_trans; [|apply ups_ge]. apply div_mono; [exact Hs|]. rewrite mult_IZR.
    pose proof (upper_prod X V (IZR (fst y)) (IZR (snd y)) (IZR (snd h)) Hy (conj X1 X2) V2) as K.
    destruct (Rlt_dec (IZR (snd h)) 0); exact K.
  - apply Rplus_le_compat_l, Ropp_le_contravar. eapply Rle_trans; [apply dn_le; exact Hd|]. apply div_mono; [exact Hd'|].
    eapply Rle_trans; [apply dns_le|]. apply div_mono; [exact Hs|]. rewrite mult_IZR.
    pose proof (lower_prod X V (IZR (fst y)) (IZR (snd y)) (IZR (fst h)) Hy (conj X1 X2) V1) as K.
    destruct (Rlt_dec (IZR (fst h)) 0); exact K.
Qed.

Definition chain (x v : R) (ds : list Z) : R := fold_left (fun v d => 1 - x / IZR d * v) ds v.
Lemma chain_sound x y ds : inb x y -> (0 <= fst y)%Z -> Forall (fun d => (0 < d)%Z) ds -> forall v h, inb v h -> inb (chain x v ds) (fold_left (horner y) ds h).
Proof.
  intros Hx Hy Hd. induction Hd as [|d ds Hd _ IH]; intros v h Hv; [exact Hv|]. cbn [fold_left]. unfold chain. cbn [fold_left].
  apply IH. apply horner_sound; assumption.
Qed.
Lemma inb_between x a b c : inb a c -> inb b c -> a <= x <= b -> inb x c.
Proof.
  unfold inb. intros [A _] [_ B] [H1 H2]. pose proof sc_pos as Hs. split.
  - eapply Rle_trans; [exact A|]. apply Rmult_le_compat_l; lra.
  - eapply Rle_trans; [|exact B]. apply Rmult_le_compat_l; lra.
Qed.

Ltac facts := rewrite !factZ_INR; repeat match goal with |- context [IZR (factZ ?n)] => let z := eval vm_compute in (factZ n) in change (IZR (factZ n)) with (IZR z) end.
Lemma cos_sound t : (0 <= t <= 2 * SC)%Z -> inb (cos (IZR t / sc)) (cos_box t).
Proof.
  intros [H0 H2]. pose proof sc_pos as Hs. set (a := IZR t / sc).
  assert (0 <= a <= 2) as Ha.
  { unfold a. apply IZR_le in H0, H2. rewrite mult_IZR in H2. change (IZR SC) with sc in H2. split.
    - apply Rmult_le_pos; [exact H0|]. left. apply Rinv_0_lt_compat, Hs.
    - apply Rmult_le_reg_r with sc; [exact Hs|]. replace (IZR t / sc * sc) with (IZR t) by (field; lra). exact H2. }
  destruct (pre_cos_bound a 2) as [L H]; [lra|lra|].
  change (2 * 2 + 1)%nat with 5%nat in L. change (2 * (2 + 1))%nat with 6%nat in H.
  assert (cos_approx a 5 = chain (a * a) 1 [90; 56; 30; 12; 2]%Z) as E1.
  { unfold cos_approx. cbn [sum_f_R0]. unfold cos_term. facts. unfold chain. cbn [fold_left Nat.mul Nat.add pow]. field. }
  assert (cos_approx a 6 = chain (a * a) (1 - a * a / 132) [90; 56; 30; 12; 2]%Z) as E2.
  { unfold cos_approx in *. cbn [sum_f_R0] in E1 |- *. unfold chain in E1 |- *. cbn [fold_left] in E1 |- *. rewrite E1. unfold cos_term.
    facts.
    cbn [Nat.mul Nat.add pow]. field. }
  assert (inb (a * a) (dns (t * t), ups (t * t))) as Iy.
  { unfold inb. cbn [fst snd]. assert (sc * (a * a) = IZR (t * t) / sc) as ->. { rewrite mult_IZR. unfold a. field. lra. }
    split; [apply dns_le|apply ups_ge]. }
  assert (0 <= dns (t * t))%Z as Py. { unfold dns. rewrite shift_dn. unfold dn. apply Z.div_pos; [nia|exact SC_pos]. }
  assert (inb 1 (SC - up (ups (t * t)) 132, SC)%Z) as I1.
  { unfold inb. cbn [fst snd]. rewrite minus_IZR. change (IZR SC) with sc.
    pose proof (up_ge (ups (t * t)) 132 ltac:(lia)) as U1. pose proof (ups_ge (t * t)) as U2.
    assert (0 <= IZR (t * t) / sc). { apply Rmult_le_pos; [apply (IZR_le 0); nia|left; apply Rinv_0_lt_compat, Hs]. }
    assert (0 <= IZR (ups (t * t)) / 132) by lra. lra. }
  assert (inb (1 - a * a / 132) (SC - up (ups (t * t)) 132, SC)%Z) as I2.
  { destruct Iy as [_ Y2]. unfold inb. cbn [fst snd] in *. rewrite minus_IZR. change (IZR SC) with sc.
    pose proof (up_ge (ups (t * t)) 132 ltac:(lia)) as U1. 
    assert (0 <= sc * (a * a)) by (apply Rmult_le_pos; nra). split; lra. }
  assert (Forall (fun d => (0 < d)%Z) [90; 56; 30; 12; 2]%Z) as Fd by (repeat constructor).
  unfold cos_box. cbn [fst snd]. cbv zeta.
  apply (inb_between _ (cos_approx a 5) (cos_approx a 6)); [| |split; assumption].
  - rewrite E1. apply chain_sound; assumption.
  - rewrite E2. apply chain_sound; assumption.
Qed.

Lemma square_sound x b : 0 <= x -> inb x b -> inb (x * x) (square b).
Proof.
  intros Hx [L H]. pose proof sc_pos as Hs. unfold square, inb. cbn [fst snd]. cbv zeta.
  assert (0 <= sc * x) as Hp by (apply Rmult_le_pos; lra).
  assert (sc * (x * x) = (sc * x) * (sc * x) / sc) as -> by (field; lra). split.
  - eapply Rle_trans; [apply dns_le|]. apply div_mono; [exact Hs|]. rewrite mult_IZR.
    assert (0 <= IZR (Z.max 0 (fst b)) <= sc * x) as K.
    { destruct (Z.max_spec 0 (fst b)) as [[K1 ->]|[K1 ->]]; [|lra]. split; [apply (IZR_le 0); lia|exact L]. }
    nra.
  - eapply Rle_trans; [|apply ups_ge]. apply div_mono; [exact Hs|]. rewrite mult_IZR. nra.
Qed.

Lemma exp_sound t : (0 <= t <= 8 * SC)%Z -> inb (exp (- (IZR t / sc))) (exp_box t).
Proof.
  intros [H0 H2]. pose proof sc_pos as Hs. set (y := IZR t / sc / 8).
  assert (0 <= y <= 1) as Hy.
  { unfold y. apply IZR_le in H0, H2. rewrite mult_IZR in H2. change (IZR SC) with sc in H2. split.
    - assert (0 <= IZR t / sc); [|lra]. apply Rmult_le_pos; [exact H0|]. left. apply Rinv_0_lt_compat, Hs.
    - assert (IZR t / sc <= 8); [|lra]. apply Rmult_le_reg_r with sc; [exact Hs|]. replace (IZR t / sc * sc) with (IZR t) by (field; lra). exact H2. }
  destruct (exp_neg_alt y 3 Hy) as [L H]. change (S (2 * 3)) with 7%nat in L. change (2 * 3)%nat with 6%nat in H.
  set (ds := [6; 5; 4; 3; 2; 1]%Z).
  assert (sum_f_R0 (tg_alt (fun n => y ^ n / INR (fact n))) 6 = chain y 1 ds) as E1.
  { cbn [sum_f_R0]. unfold tg_alt. facts. unfold chain, ds. cbn [fold_left pow]. field. }
  assert (sum_f_R0 (tg_alt (fun n => y ^ n / INR (fact n))) 7 = chain y (1 - y / 7) ds) as E2.
  { cbn [sum_f_R0] in E1 |- *. rewrite E1. unfold tg_alt. facts. unfold chain, ds. cbn [fold_left pow]. field. }
  assert (sc * y = IZR t / 8) as Ey by (unfold y; field; lra).
  assert (inb y (dn t 8, up t 8)) as Iy.
  { unfold inb. cbn [fst snd]. rewrite Ey. split; [apply dn_le; lia|apply up_ge; lia]. }
  assert (0 <= dn t 8)%Z as Py. { unfold dn. apply Z.div_pos; lia. }
  pose proof (up_ge (up t 8) 7 ltac:(lia)) as U1. pose proof (up_ge t 8 ltac:(lia)) as U2. apply IZR_le in H0.
  assert (inb 1 (SC - up (up t 8) 7, SC)%Z) as I1.
  { unfold inb. cbn [fst snd]. rewrite minus_IZR. change (IZR SC) with sc. lra. }
  assert (inb (1 - y / 7) (SC - up (up t 8) 7, SC)%Z) as I2.
  { unfold inb. cbn [fst snd]. rewrite minus_IZR. change (IZR SC) with sc. 
    assert (sc * (1 - y / 7) = sc - IZR t / 8 / 7) as -> by (rewrite <- Ey; field). split; lra. }
  assert (Forall (fun d => (0 < d)%Z) ds) as Fd by (repeat constructor).
  assert (inb (exp (- y)) (fold_left (horner (dn t 8, up t 8)) ds (SC - up (up t 8) 7, SC)%Z)) as K.
  { apply (inb_between _ (chain y (1 - y / 7) ds) (chain y 1 ds)); [| |rewrite <- E1, <- E2; split; assumption].
    - apply chain_sound; assumption.
    - apply chain_sound; assumption. }
  assert (exp (- (IZR t / sc)) = ((exp (- y) * exp (- y)) * (exp (- y) * exp (- y))) * ((exp (- y) * exp (- y)) * (exp (- y) * exp (- y)))) as ->.
  { rewrite <- !exp_plus. f_equal. unfold y. field. lra. }
  pose proof (exp_pos (- y)) as Pe. unfold exp_box. cbn [fst snd]. cbv zeta.
  apply square_sound; [apply Rmult_le_pos; nra|]. apply square_sound; [nra|]. apply square_sound; [lra|]. exact K.
Qed.

Lemma sqrt_ratio num den : (0 <= num)%Z -> (0 < den)%Z -> 0 <= IZR num / IZR den.
Proof. intros H1 H2. apply Rmult_le_pos; [apply (IZR_le 0); exact H1|]. left. apply Rinv_0_lt_compat. apply (IZR_lt 0). exact H2. Qed.
Lemma two_below_PI : 2 <= PI.
Proof. pose proof PI2_3_2. lra. Qed.

(** The argument of the clamped distances. *)
Definition clamped (num den : Z) : R := clamp (sqrt (IZR num / IZR den)) (-1 + so3_eps) (1 - so3_eps).
Lemma eps_is : so3_eps = / 10000000.
Proof. unfold so3_eps. f_equal. ring. Qed.
Lemma clamped_min num den : clamped num den = Rmin (sqrt (IZR num / IZR den)) (1 - so3_eps).
Proof. unfold clamped, clamp. rewrite Rmax_left; [reflexivity|]. pose proof (sqrt_pos (IZR num / IZR den)). rewrite eps_is. lra. Qed.
Lemma clamped_range num den : 0 <= clamped num den <= 1 - so3_eps.
Proof. rewrite clamped_min. split; [apply Rmin_glb; [apply sqrt_pos|rewrite eps_is; lra]|apply Rmin_r]. Qed.
Lemma least_sound : inb (acos (1 - so3_eps)) least.
Proof.
  pose proof two_below_PI as P2. rewrite eps_is. unfold inb, least, sc, SC. cbn [fst snd].
  assert (forall a, 0 <= a <= 1 -> 1 - a * a / 2 <= cos a <= 1 - a * a / 2 + a * a * (a * a) / 24) as C.
  { intros a Ha. destruct (pre_cos_bound a 0) as [L H]; [lra|lra|]. change (2 * 0 + 1)%nat with 1%nat in L. change (2 * (0 + 1))%nat with 2%nat in H.
    unfold cos_approx in L, H. cbn [sum_f_R0] in L, H. unfold cos_term in L, H.
    change (2 * 0)%nat with 0%nat in *. change (2 * 1)%nat with 2%nat in *. change (2 * 2)%nat with 4%nat in *. cbn [fact Nat.mul Nat.add pow INR] in L, H. split; lra. }
  split.
  - assert (7502 / 16777216 <= acos (1 - / 10000000)); [|lra]. rewrite <- (acos_cos (7502 / 16777216)) by lra.
    pose proof (C (7502 / 16777216) ltac:(lra)) as [L _]. pose proof (COS_bound (7502 / 16777216)). apply acos_decr_le; lra.
  - assert (acos (1 - / 10000000) <= 7504 / 16777216); [|lra]. rewrite <- (acos_cos (7504 / 16777216)) at 1 by lra.
    pose proof (C (7504 / 16777216) ltac:(lra)) as [_ L]. pose proof (COS_bound (7504 / 16777216)). apply acos_decr_le; lra.
Qed.
Lemma clamped_any num den : inb (acos (clamped num den)) (fst least, 2 * SC)%Z.
Proof.
  pose proof sc_pos as Hs. pose proof (clamped_range num den) as R. pose proof eps_is as Ee. destruct least_sound as [L _]. split; cbn [fst snd] in *.
  - eapply Rle_trans; [exact L|]. apply Rmult_le_compat_l; [lra|]. rewrite Ee in *. apply acos_decr_le; lra.
  - rewrite mult_IZR. change (IZR SC) with sc. assert (acos (clamped num den) <= 2); [|nra]. pose proof PI_4 as P4.
    rewrite Ee in R. assert (acos (clamped num den) <= acos 0) by (apply acos_decr_le; lra). rewrite acos_0 in *. lra.
Qed.
Section Acos.
  Context (num den : Z) (Hn : (0 <= num)%Z) (Hd : (0 < den)%Z).
  Let r := IZR num / IZR den.
  Lemma acos_above_sound t : (snd least <= t)%Z -> acos_above num den t = true -> sc * acos (clamped num den) <= IZR t.
  Proof.
    intros Ht H. unfold acos_above in H. cbv zeta in H. apply andb_prop in H. destruct H as [H Hc]. apply andb_prop in H. destruct H as [H2 H0].
    apply Z.leb_le in H2, H0. destruct (cos_sound t (conj H0 H2)) as [_ K]. set (c := snd (cos_box t)) in *.
    pose proof sc_pos as Hs. set (a := IZR t / sc) in *. pose proof (clamped_range num den) as X. pose proof eps_is as Ee. rewrite Ee in X.
    assert (sc * a = IZR t) as Ea by (unfold a; field; lra).
    assert (0 <= a <= 2) as Ha.
    { apply IZR_le in H0, H2. rewrite mult_IZR in H2. change (IZR SC) with sc in H2. rewrite <- Ea in H0, H2. split; nra. }
    pose proof two_below_PI as P2. pose proof (COS_bound a) as B. destruct least_sound as [_ Hl]. apply IZR_le in Ht.
    assert (acos (1 - so3_eps) <= a) as Hl' by (apply Rmult_le_reg_l with sc; [exact Hs|lra]).
    assert (cos a <= 1 - so3_eps) as Hl2.
    { rewrite <- (cos_acos (1 - so3_eps)) by (rewrite Ee; lra). destruct (acos_bound (1 - so3_eps)). apply cos_decr_1; lra. }
    rewrite <- Ea. apply Rmult_le_compat_l; [lra|]. rewrite <- (acos_cos a) by lra.
    apply acos_decr_le; [lra| |lra].
    rewrite clamped_min. apply Rmin_glb; [|exact Hl2]. fold r. pose proof (sqrt_pos r) as Pr.
    apply orb_prop in Hc. destruct Hc as [Hc|Hc]; apply Z.leb_le in Hc; apply IZR_le in Hc.
    - assert (cos a <= 0); [|lra]. apply Rmult_le_reg_l with sc; [exact Hs|]. lra.
    - destruct (Rle_dec (cos a) 0) as [N|N]; [lra|]. apply Rsqr_incr_0_var; [|lra]. rewrite Rsqr_sqrt by (apply sqrt_ratio; assumption).
      assert (0 < IZR den) as Pd by (apply (IZR_lt 0); exact Hd).
      rewrite !mult_IZR in Hc. change (IZR SC) with sc in Hc. apply Rmult_le_reg_r with (IZR den * (sc * sc)); [apply Rmult_lt_0_compat; nra|].
      replace (r * (IZR den * (sc * sc))) with (IZR num * (sc * sc)) by (unfold r; field; lra).
      eapply Rle_trans; [|exact Hc]. unfold Rsqr.
      replace (cos a * cos a * (IZR den * (sc * sc))) with ((sc * cos a) * (sc * cos a) * IZR den) by ring.
      apply Rmult_le_compat_r; [lra|]. assert (0 < sc * cos a) by (apply Rmult_lt_0_compat; lra). nra.
  Qed.
  Lemma acos_below_sound t : acos_below num den t = true -> IZR t <= sc * acos (clamped num den).
  Proof.
    intros H. unfold acos_below in H. cbv zeta in H. pose proof sc_pos as Hs. pose proof (clamped_range num den) as X. pose proof eps_is as Ee. rewrite Ee in X.
    apply orb_prop in H. destruct H as [H|H].
    { apply Z.eqb_eq in H. subst t. apply Rmult_le_pos; [lra|]. apply acos_bound. }
    apply andb_prop in H. destruct H as [H Hc]. apply andb_prop in H. destruct H as [H Hp]. apply andb_prop in H. destruct H as [H2 H0].
    apply Z.leb_le in H2, H0, Hp, Hc. destruct (cos_sound t (conj H0 H2)) as [K _]. set (c := fst (cos_box t)) in *.
    set (a := IZR t / sc) in *.
    assert (sc * a = IZR t) as Ea by (unfold a; field; lra). rewrite <- Ea. apply Rmult_le_compat_l; [lra|].
    assert (0 <= a <= 2) as Ha.
    { apply IZR_le in H0, H2. rewrite mult_IZR in H2. change (IZR SC) with sc in H2. rewrite <- Ea in H0, H2. split; nra. }
    pose proof two_below_PI. rewrite <- (acos_cos a) by lra. pose proof (COS_bound a) as B.
    apply acos_decr_le; [lra| |lra].
    rewrite clamped_min. eapply Rle_trans; [apply Rmin_l|]. fold r.
    apply IZR_le in Hc, Hp. assert (0 <= cos a) as Pc. { apply Rmult_le_reg_l with sc; [exact Hs|]. lra. }
    apply Rsqr_incr_0_var; [|exact Pc]. rewrite Rsqr_sqrt by (apply sqrt_ratio; assumption).
    assert (0 < IZR den) as Pd by (apply (IZR_lt 0); exact Hd).
    rewrite !mult_IZR in Hc. change (IZR SC) with sc in Hc. apply Rmult_le_reg_r with (IZR den * (sc * sc)); [apply Rmult_lt_0_compat; nra|].
    replace (r * (IZR den * (sc * sc))) with (IZR num * (sc * sc)) by (unfold r; field; lra).
    eapply Rle_trans; [exact Hc|]. unfold Rsqr.
    replace (cos a * cos a * (IZR den * (sc * sc))) with ((sc * cos a) * (sc * cos a) * IZR den) by ring.
    apply Rmult_le_compat_r; [lra|]. nra.
  Qed.
  Lemma at_check_sound t : at_check num den t = true -> inb (acos (clamped num den)) (at_box t).
  Proof.
    intros H. unfold at_check in H. apply andb_prop in H. destruct H as [H H2]. apply andb_prop in H. destruct H as [H0 H1]. apply Z.leb_le in H0.
    split; cbn [at_box fst snd]; [apply acos_below_sound, H1|apply acos_above_sound; [exact H0|exact H2]].
  Qed.
  Lemma hint_check_sound h : hint_check num den h = true -> inb (acos (clamped num den)) (box_of h).
  Proof.
    destruct h as [| |t]; intros H; cbn [hint_check box_of] in *; [|apply clamped_any|apply at_check_sound, H].
    apply Z.leb_le, IZR_le in H. assert (0 < IZR den) as Pd by (apply (IZR_lt 0); exact Hd).
    assert (1 <= r) as Hr. { apply Rmult_le_reg_r with (IZR den); [exact Pd|]. unfold r. replace (IZR num / IZR den * IZR den) with (IZR num) by (field; lra). lra. }
    assert (1 <= sqrt r) as Hs by (rewrite <- sqrt_1; apply sqrt_le_1_alt, Hr).
    rewrite clamped_min. fold r. rewrite Rmin_right by (rewrite eps_is; lra). exact least_sound.
  Qed.
End Acos.

Lemma inb_intro x a b : IZR a <= sc * x -> sc * x <= IZR b -> inb x (a, b).
Proof. intros H1 H2. split; assumption. Qed.
Lemma inb_lo x b : inb x b -> IZR (fst b) <= sc * x.
Proof. intros [H _]. exact H. Qed.
Lemma inb_hi x b : inb x b -> sc * x <= IZR (snd b).
Proof. intros [_ H]. exact H. Qed.
Lemma exp_step a b : 0 <= a -> a <= b -> exp (- a) - (b - a) <= exp (- b).
Proof.
  intros Ha Hb. replace (- b) with (- a + - (b - a)) by ring. rewrite exp_plus. pose proof (exp_ineq1_le (- (b - a))) as H. pose proof (exp_pos (- a)) as P.
  assert (exp (- a) <= 1). { rewrite <- exp_0. destruct Ha as [Ha| <-]; [left; apply exp_increasing; lra|rewrite Ropp_0; lra]. }
  nra.
Qed.
Lemma exp_anti a b : a <= b -> exp (- b) <= exp (- a).
Proof. intros [H| ->]; [left; apply exp_increasing; lra|lra]. Qed.
Lemma E8_bound : sc * exp (- 8) <= IZR E8.
Proof.
  pose proof (inb_hi _ _ (exp_sound (8 * SC) ltac:(unfold SC; lia))) as H. replace (IZR (8 * SC) / sc) with 8 in H.
  - eapply Rle_trans; [exact H|]. apply IZR_le. apply Z.leb_le. vm_compute. reflexivity.
  - rewrite mult_IZR. change (IZR SC) with sc. pose proof sc_pos. field. lra.
Qed.
Lemma gauss_end u ul uh : 0 <= u -> IZR ul <= sc * u -> sc * u <= IZR uh -> (0 <= ul)%Z ->
  inb (exp (- u)) (if Z.leb (8 * SC) ul then (0, E8)%Z else (Z.max 0 (fst (exp_box ul) - (uh - ul)), snd (exp_box ul))%Z).
Proof.
  intros Pu L Hh P0. pose proof sc_pos as Hs. pose proof (exp_pos (- u)) as Pe. destruct (Z.leb_spec (8 * SC) ul) as [K|K]; apply inb_intro.
  - apply Rmult_le_pos; lra.
  - eapply Rle_trans; [|exact E8_bound]. apply Rmult_le_compat_l; [lra|]. apply (exp_anti 8 u). apply IZR_le in K. rewrite mult_IZR in K. change (IZR SC) with sc in K. apply Rmult_le_reg_l with sc; [exact Hs|]. rewrite (Rmult_comm sc 8). eapply Rle_trans; [exact K|exact L].
  - assert (0 <= ul <= 8 * SC)%Z as Bt by lia. pose proof (inb_lo _ _ (exp_sound ul Bt)) as E. set (b := fst (exp_box ul)) in *.
    destruct (Z.max_spec 0 (b - (uh - ul))) as [[_ ->]|[_ ->]]; [|apply Rmult_le_pos; lra]. rewrite !minus_IZR.
    apply (IZR_le 0) in P0.
    assert (0 <= IZR ul / sc) as P1. { apply Rmult_le_pos; [exact P0|]. left. apply Rinv_0_lt_compat, Hs. }
    assert (sc * (IZR ul / sc) = IZR ul) as Eq by (field; lra).
    assert (IZR ul / sc <= u) as P2 by (apply Rmult_le_reg_l with sc; [exact Hs|lra]).
    pose proof (exp_step (IZR ul / sc) u P1 P2) as X. nra.
  - assert (0 <= ul <= 8 * SC)%Z as Bt by lia. pose proof (inb_hi _ _ (exp_sound ul Bt)) as E. eapply Rle_trans; [|exact E].
    apply Rmult_le_compat_l; [lra|]. apply exp_anti. apply Rmult_le_reg_l with sc; [exact Hs|]. replace (sc * (IZR ul / sc)) with (IZR ul) by (field; lra). exact L.
Qed.
Lemma shift48 a : Z.shiftr a 48 = dn a (SC * SC).
Proof. unfold dn. rewrite Z.shiftr_div_pow2 by lia. reflexivity. Qed.
Lemma dn_succ a b : (0 < b)%Z -> IZR a / IZR b <= IZR (dn a b + 1).
Proof.
  intros Hb. assert (0 < IZR b) as Pb by (apply IZR_lt; exact Hb). apply Rmult_le_reg_r with (IZR b); [assumption|].
  replace (IZR a / IZR b * IZR b) with (IZR a) by (field; lra). rewrite <- mult_IZR. apply IZR_le. unfold dn. pose proof (Z.mul_succ_div_gt a b Hb). nia.
Qed.
Lemma factor_sound w bw : 0 < w -> (0 < fst bw)%Z -> inb w bw ->
  IZR (fst (factor_box bw)) <= sc * sc * (sc * (ln2_lit / (w * w)) / (sc * sc)) /\
  sc * sc * (sc * (ln2_lit / (w * w)) / (sc * sc)) <= IZR (snd (factor_box bw)) /\ (0 <= fst (factor_box bw))%Z.
Proof.
  intros Hw Pw [W1 W2]. pose proof sc_pos as Hs. apply (IZR_lt 0) in Pw. assert (0 < IZR (snd bw)) as Pw2 by lra.
  assert (sc * sc * (sc * (ln2_lit / (w * w)) / (sc * sc)) = 69314718 * (sc * sc * sc) / (100000000 * ((sc * w) * (sc * w)))) as -> by (unfold ln2_lit; field; lra).
  assert (0 <= 69314718 * (sc * sc * sc)) as Pn by (apply Rmult_le_pos; [lra|]; apply Rmult_le_pos; [apply Rmult_le_pos|]; lra).
  assert (0 < sc * w) as Psw by nra. unfold factor_box. cbn [fst snd]. split; [|split].
  - eapply Rle_trans; [apply dn_le; apply lt_IZR in Pw2; nia|]. rewrite !mult_IZR. change (IZR SC) with sc. unfold Rdiv. apply Rmult_le_compat_l; [exact Pn|].
    apply Rinv_le_contravar; [nra|]. apply Rmult_le_compat_l; [lra|]. nra.
  - eapply Rle_trans; [|apply up_ge; apply lt_IZR in Pw; nia]. rewrite !mult_IZR. change (IZR SC) with sc. unfold Rdiv. apply Rmult_le_compat_l; [exact Pn|].
    apply Rinv_le_contravar; [nra|]. apply Rmult_le_compat_l; [lra|]. nra.
  - unfold dn. apply Z.div_pos; [unfold SC; lia|apply lt_IZR in Pw2; nia].
Qed.
Lemma gauss_sound x w bx bw : 0 <= x -> 0 < w -> (0 < fst bw)%Z -> (0 <= fst bx)%Z -> inb x bx -> inb w bw -> inb (RBF_gauss x w) (gauss_box (factor_box bw) bx).
Proof.
  intros Hx Hw Pw Px [X1 X2] Iw. pose proof sc_pos as Hs. destruct (factor_sound w bw Hw Pw Iw) as (K1 & K2 & K3).
  set (k := factor_box bw) in *. set (F := sc * sc * (sc * (ln2_lit / (w * w)) / (sc * sc))) in *.
  set (u := x ^ 2 / (w ^ 2 / ln2_lit)).
  assert (0 < ln2_lit) as Pl by (unfold ln2_lit; lra).
  assert (0 < w * w) as Pww by nra.
  assert (0 <= u) as Pu. { unfold u. apply Rmult_le_pos; [nra|]. left. apply Rinv_0_lt_compat. apply Rmult_lt_0_compat; [nra|]. apply Rinv_0_lt_compat, Pl. }
  assert (sc * u = (sc * x) * (sc * x) * F / (sc * sc)) as Eu by (unfold u, F; field; lra).
  apply (IZR_le 0) in Px, K3. assert (0 <= sc * x) as Psx by nra. assert (0 < sc * sc) as Pss by nra.
  set (ul := Z.shiftr (fst bx * fst bx * fst k) 48). set (uh := (Z.shiftr (snd bx * snd bx * snd k) 48 + 1)%Z).
  assert (IZR ul <= sc * u) as L.
  { unfold ul. rewrite shift48. eapply Rle_trans; [apply dn_le; reflexivity|]. rewrite Eu, (mult_IZR SC SC). change (IZR SC) with sc. apply div_mono; [exact Pss|].
    rewrite !mult_IZR. apply Rmult_le_compat; [nra|exact K3|nra|exact K1]. }
  assert (sc * u <= IZR uh) as Hh.
  { unfold uh. rewrite shift48. eapply Rle_trans; [|apply dn_succ; reflexivity]. rewrite Eu, (mult_IZR SC SC). change (IZR SC) with sc. apply div_mono; [exact Pss|].
    rewrite !mult_IZR. apply Rmult_le_compat; [nra|lra|nra|exact K2]. }
  assert (0 <= ul)%Z as P0.
  { unfold ul. apply Z.shiftr_nonneg. apply le_IZR in Px, K3. apply Z.mul_nonneg_nonneg; [apply Z.mul_nonneg_nonneg; assumption|assumption]. }
  exact (gauss_end u ul uh Pu L Hh P0).
Qed.

Lemma F2_length {A B} {P : A -> B -> Prop} {l l'} : Forall2 P l l' -> length l = length l'.
Proof. induction 1; cbn [length]; congruence. Qed.
(** ** Order statistics: the second smallest entry is monotone. *)
Fixpoint ascending (l : list R) : Prop := match l with [] => True | x :: r => match r with [] => True | y :: _ => x <= y end /\ ascending r end.
Lemma insert_ascending x : forall l, ascending l -> ascending (insertR x l).
Proof.
  induction l as [|y r IH]; intros H; [simpl; auto|]. cbn [insertR]. destruct (Rle_dec x y) as [K|K].
  - cbn [ascending]. split; [exact K|exact H].
  - destruct H as [H1 H2]. specialize (IH H2). cbn [ascending]. split; [|exact IH]. destruct r as [|z r]; cbn [insertR] in *; [lra|]. destruct (Rle_dec x z); lra.
Qed.
Lemma sort_ascending l : ascending (sortR l).
Proof. induction l as [|x l IH]; [exact I|]. cbn [sortR fold_right]. apply insert_ascending, IH. Qed.

Lemma cons_le_insert x' : forall y r r', ascending (y :: r) -> Forall2 Rle r r' -> y <= x' -> Forall2 Rle (y :: r) (insertR x' r').
Proof.
  intros y r r' Ha H. revert y Ha. induction H as [|z z' r r' Hz H IH]; intros y Ha Hy; cbn [insertR]; [constructor; [exact Hy|constructor]|].
  destruct Ha as [A1 A2]. destruct (Rle_dec x' z') as [K|K].
  - constructor; [exact Hy|]. constructor; assumption.
  - constructor; [lra|]. apply IH; [exact A2|lra].
Qed.
Lemma insert_le_cons x : forall y' r r', ascending (y' :: r') -> Forall2 Rle r r' -> x <= y' -> Forall2 Rle (insertR x r) (y' :: r').
Proof.
  intros y' r r' Ha H. revert y' Ha. induction H as [|z z' r r' Hz H IH]; intros y' Ha Hy; cbn [insertR]; [constructor; [exact Hy|constructor]|].
  destruct Ha as [A1 A2]. destruct (Rle_dec x z) as [K|K].
  - constructor; [exact Hy|]. constructor; assumption.
  - constructor; [lra|]. apply IH; [exact A2|lra].
Qed.
Lemma insert_mono x x' : x <= x' -> forall l l', ascending l -> ascending l' -> Forall2 Rle l l' -> Forall2 Rle (insertR x l) (insertR x' l').
Proof.
  intros Hx l l' A A' H. induction H as [|y y' r r' Hy H IH]; cbn [insertR]; [constructor; [exact Hx|constructor]|].
  destruct (Rle_dec x y) as [K|K], (Rle_dec x' y') as [K'|K'].
  - constructor; [exact Hx|constructor; assumption].
  - constructor; [lra|]. apply cons_le_insert; [exact A|exact H|lra].
  - constructor; [lra|]. apply insert_le_cons; [exact A'|exact H|lra].
  - constructor; [exact Hy|]. apply IH; [exact (proj2 A)|exact (proj2 A')].
Qed.
Lemma sort_mono l l' : Forall2 Rle l l' -> Forall2 Rle (sortR l) (sortR l').
Proof.
  intros H. induction H as [|x x' l l' Hx H IH]; [constructor|]. cbn [sortR fold_right].
  apply insert_mono; [exact Hx|apply sort_ascending|apply sort_ascending|exact IH].
Qed.
Lemma insert_scaled x l : insertR (IZR x) (map IZR l) = map IZR (insertZ x l).
Proof.
  induction l as [|y r IH]; [reflexivity|]. cbn [map insertR insertZ]. destruct (Rle_dec (IZR x) (IZR y)) as [K|K].
  - apply le_IZR in K. apply Z.leb_le in K. rewrite K. reflexivity.
  - destruct (Z.leb_spec x y) as [H|H]; [apply IZR_le in H; contradiction|]. cbn [map]. rewrite IH. reflexivity.
Qed.
Lemma sort_scaled l : sortR (map IZR l) = map IZR (sortZ l).
Proof. induction l as [|x l IH]; [reflexivity|]. cbn [map sortR sortZ fold_right] in *. fold (sortR (map IZR l)) in *. fold (sortZ l) in *. rewrite IH. apply insert_scaled. Qed.
Lemma insert_times c x l : 0 < c -> insertR (c * x) (map (Rmult c) l) = map (Rmult c) (insertR x l).
Proof.
  intros Hc. induction l as [|y r IH]; [reflexivity|]. cbn [map insertR]. destruct (Rle_dec x y) as [K|K], (Rle_dec (c * x) (c * y)) as [K'|K']; try reflexivity; try (exfalso; nra).
  cbn [map]. rewrite IH. reflexivity.
Qed.
Lemma sort_times c l : 0 < c -> sortR (map (Rmult c) l) = map (Rmult c) (sortR l).
Proof. intros Hc. induction l as [|x l IH]; [reflexivity|]. cbn [map sortR fold_right] in *. fold (sortR (map (Rmult c) l)) in *. fold (sortR l) in *. rewrite IH. apply insert_times, Hc. Qed.
Lemma sort_length l : length (sortR l) = length l.
Proof.
  assert (forall x r, length (insertR x r) = S (length r)) as H.
  { intros x r. induction r as [|y r IH]; [reflexivity|]. cbn [insertR]. destruct (Rle_dec x y); cbn [length]; [reflexivity|]. rewrite IH. reflexivity. }
  induction l as [|x l IH]; [reflexivity|]. cbn [sortR fold_right length]. fold (sortR l). rewrite H, IH. reflexivity.
Qed.
Lemma nth_map0 {A} (f : A -> R) (l : list A) i d : (i < length l)%nat -> nth i (map f l) 0 = f (nth i l d).
Proof. intros H. rewrite (nth_indep _ 0 (f d)) by (rewrite map_length; exact H). apply map_nth. Qed.
Lemma Forall2_nth {A B} (P : A -> B -> Prop) l l' i a b : Forall2 P l l' -> (i < length l)%nat -> P (nth i l a) (nth i l' b).
Proof. intros H. revert i. induction H as [|x y l l' Hx H IH]; intros i Hi; cbn [length] in Hi; [lia|]. destruct i; [exact Hx|]. cbn [nth]. apply IH. lia. Qed.

Lemma second_sound (ds : list R) (bs : list box) : (2 <= length ds)%nat -> Forall2 inb ds bs ->
  IZR (second (map fst bs)) <= sc * nth 1 (sortR ds) 0 <= IZR (second (map snd bs)).
Proof.
  intros Hl H. pose proof sc_pos as Hs.
  assert (length bs = length ds) as Lb by (symmetry; apply (F2_length H)).
  assert (sc * nth 1 (sortR ds) 0 = nth 1 (sortR (map (Rmult sc) ds)) 0) as ->.
  { rewrite sort_times by exact Hs. rewrite (nth_map0 (Rmult sc) _ 1 0) by (rewrite sort_length; lia). reflexivity. }
  assert (forall f : box -> Z, IZR (second (map f bs)) = nth 1 (sortR (map IZR (map f bs))) 0) as E.
  { intros f. rewrite sort_scaled. unfold second. rewrite (nth_map0 IZR _ 1 0%Z); [reflexivity|].
    assert (length (sortR (map IZR (map f bs))) = length bs) as L by (rewrite sort_length, !map_length; reflexivity).
    rewrite sort_scaled, map_length in L. lia. }
  rewrite !E. split.
  - apply (Forall2_nth Rle); [|rewrite sort_length, !map_length; lia]. apply sort_mono. rewrite map_map.
    clear -H. induction H as [|d b ds bs Hd H IH]; [constructor|]. cbn [map]. constructor; [apply Hd|exact IH].
  - apply (Forall2_nth Rle); [|rewrite sort_length, map_length; lia]. apply sort_mono. rewrite map_map.
    clear -H. induction H as [|d b ds bs Hd H IH]; [constructor|]. cbn [map]. constructor; [apply Hd|exact IH].
Qed.

Lemma width_sound (rows : list (list R)) (boxes : list (list box)) : rows <> [] -> Forall2 (fun r b => (2 <= length r)%nat /\ Forall2 inb r b) rows boxes ->
  inb (8 / 10 * meanR (map (fun r => nth 1 (sortR r) 0) rows)) (width_box boxes).
Proof.
  intros Hne H. pose proof sc_pos as Hs.
  assert (length boxes = length rows) as Lb by (symmetry; apply (F2_length H)).
  assert (0 < IZR (Z.of_nat (length rows))) as Pn. { apply (IZR_lt 0). destruct rows; [contradiction|cbn [length]; lia]. }
  assert (IZR (sumZ (map (fun r => second (map fst r)) boxes)) <= sc * sumR (map (fun r => nth 1 (sortR r) 0) rows) <= IZR (sumZ (map (fun r => second (map snd r)) boxes))) as K.
  { clear Hne Lb Pn. induction H as [|r b rows boxes [H1 H2] H IH]; [simpl; lra|]. cbn [map sumR sumZ fold_right].
    fold (sumZ (map (fun r => second (map fst r)) boxes)). fold (sumZ (map (fun r => second (map snd r)) boxes)). rewrite !plus_IZR.
    pose proof (second_sound r b H1 H2). lra. }
  unfold width_box, inb. rewrite Lb. cbn [fst snd]. cbv zeta. unfold meanR. rewrite map_length, INR_IZR_INZ.
  set (t := sumR (map (fun r => nth 1 (sortR r) 0) rows)) in *. set (n := Z.of_nat (length rows)) in *.
  assert (sc * (8 / 10 * (t / IZR n)) = 8 * (sc * t) / (10 * IZR n)) as -> by (field; lra).
  assert (0 < 10 * n)%Z as P10 by (apply lt_IZR in Pn; lia). split.
  - eapply Rle_trans; [apply dn_le, P10|]. rewrite !mult_IZR. apply div_mono; lra.
  - eapply Rle_trans; [|apply up_ge, P10]. rewrite !mult_IZR. apply div_mono; lra.
Qed.

(** ** The matrix. *)
Fixpoint zsm (n : nat) (f : nat -> Z) : Z := match n with O => 0%Z | S k => (f O + zsm k (fun i => f (S i)))%Z end.
Lemma zsm_sm n : forall f, IZR (zsm n f) = sm n (fun i => IZR (f i)).
Proof. induction n; intros f; [reflexivity|]. cbn [zsm sm]. rewrite plus_IZR, IHn. reflexivity. Qed.

Lemma sm_constant n c : sm n (fun _ => c) = c * IZR (Z.of_nat n).
Proof. induction n as [|n IH]; [cbn [sm Z.of_nat]; ring|]. cbn [sm]. rewrite IH. rewrite Nat2Z.inj_succ, succ_IZR. ring. Qed.
Definition bs : R := IZR BS.
Lemma bs_pos : 0 < bs.
Proof. unfold bs. apply IZR_lt. reflexivity. Qed.
(** Entries of integer matrices and finite sums of integers. *)
Definition zent (m : list (list Z)) (i j : nat) : Z := nth j (nth i m []) 0%Z.
Definition row_fact (n : nat) (m b : list (list Z)) (e beta : Z) (i : nat) : Prop :=
  let rb := zsm n (fun k => Z.abs (zent b i k)) in
  (2 * (zsm n (fun j => Z.abs ((if Nat.eqb j i then SC * BS else 0) - zsm n (fun k => zent b i k * zent m k j))) + rb * (Z.of_nat n * e)) <= SC * BS)%Z /\
  (rb <= beta * BS)%Z.
Lemma rows_sound n (A : nat -> nat -> R) (m b : list (list Z)) e beta : (0 <= beta)%Z -> (0 <= e)%Z ->
  (forall i j, (i < n)%nat -> (j < n)%nat -> Rabs (sc * A i j - IZR (zent m i j)) <= IZR e) ->
  (forall i, (i < n)%nat -> row_fact n m b e beta i) ->
  trivial_kernel n A /\
  forall x y c, sys n A x y -> 0 <= c -> (forall i, (i < n)%nat -> Rabs (y i) <= c) -> forall j, (j < n)%nat -> Rabs (x j) <= 2 * IZR beta * c.
Proof.
  intros Hbeta He HA Hrow. pose proof sc_pos as Hs. pose proof bs_pos as Hb. set (B := fun i k => IZR (zent b i k) / bs).
  assert (forall i, (i < n)%nat -> sm n (fun k => Rabs (B i k)) <= IZR beta) as HB.
  { intros i Hi. specialize (Hrow i Hi). destruct Hrow as [_ H2].
    apply IZR_le in H2. rewrite mult_IZR, zsm_sm in H2. change (IZR BS) with bs in H2.
    rewrite (sm_ext n _ (fun k => / bs * Rabs (IZR (zent b i k)))).
    2: { intros k _. unfold B, Rdiv. rewrite Rabs_mult, (Rabs_right (/ bs)); [ring|]. left. apply Rinv_0_lt_compat, Hb. }
    rewrite sm_scal. apply Rmult_le_reg_l with bs; [exact Hb|]. replace (bs * (/ bs * sm n (fun k => Rabs (IZR (zent b i k))))) with (sm n (fun k => Rabs (IZR (zent b i k)))) by (field; lra).
    rewrite (sm_ext n _ (fun k => IZR (Z.abs (zent b i k)))); [lra|]. intros k _. symmetry. apply abs_IZR. }
  assert (forall i, (i < n)%nat -> sm n (fun j => Rabs (delta i j - sm n (fun k => B i k * A k j))) <= 1 / 2) as HR.
  { intros i Hi. specialize (Hrow i Hi). destruct Hrow as [H1 _].
    apply IZR_le in H1. rewrite !mult_IZR, plus_IZR, !mult_IZR in H1. change (IZR SC) with sc in H1. change (IZR BS) with bs in H1.
    assert (0 < sc * bs) as Psb by (apply Rmult_lt_0_compat; assumption).
    set (rb := IZR (zsm n (fun k => Z.abs (zent b i k)))) in *.
    assert (rb = sm n (fun k => Rabs (IZR (zent b i k)))) as Erb. { unfold rb. rewrite zsm_sm. apply sm_ext. intros k _. apply abs_IZR. }
    assert (0 <= rb) as Prb. { rewrite Erb. rewrite <- (sm_zero n (fun _ => 0)) by reflexivity. apply sm_le. intros; apply Rabs_pos. }
    apply (IZR_le 0) in He.
    assert (forall j, (j < n)%nat -> sc * bs * Rabs (delta i j - sm n (fun k => B i k * A k j)) <=
              IZR (Z.abs ((if Nat.eqb j i then SC * BS else 0) - zsm n (fun k => zent b i k * zent m k j)))%Z + rb * IZR e) as Hj.
    { intros j Hj. rewrite abs_IZR, minus_IZR, zsm_sm.
      assert (IZR (if Nat.eqb j i then SC * BS else 0)%Z = sc * bs * delta i j) as ->.
      { unfold delta. destruct (Nat.eqb j i); [rewrite mult_IZR; change (IZR SC) with sc; change (IZR BS) with bs|]; ring. }
      rewrite <- (Rabs_right (sc * bs)) at 1 by lra. rewrite <- Rabs_mult.
      replace (sc * bs * (delta i j - sm n (fun k => B i k * A k j)))
        with ((sc * bs * delta i j - sm n (fun k => IZR (zent b i k * zent m k j)%Z)) - sm n (fun k => IZR (zent b i k) * (sc * A k j - IZR (zent m k j)))).
      2: { rewrite Rmult_minus_distr_l, <- sm_scal. rewrite (sm_ext n (fun k => sc * bs * (B i k * A k j)) (fun k => IZR (zent b i k * zent m k j)%Z + IZR (zent b i k) * (sc * A k j - IZR (zent m k j)))).
           - rewrite sm_plus. ring.
           - intros k _. rewrite mult_IZR. unfold B. field. lra. }
      eapply Rle_trans; [apply Rabs_triang|]. apply Rplus_le_compat_l. rewrite Rabs_Ropp. eapply Rle_trans; [apply sm_abs|].
      rewrite Erb. rewrite (Rmult_comm _ (IZR e)), <- sm_scal. apply sm_le. intros k Hk. rewrite Rabs_mult, Rmult_comm. apply Rmult_le_compat_r; [apply Rabs_pos|]. apply HA; assumption. }
    apply Rmult_le_reg_l with (sc * bs); [exact Psb|]. rewrite <- sm_scal. eapply Rle_trans; [apply sm_le; exact Hj|]. rewrite sm_plus.
    assert (sm n (fun _ => rb * IZR e) = rb * (IZR (Z.of_nat n) * IZR e)) as ->.
    { rewrite sm_constant. ring. }
    rewrite <- zsm_sm. lra. }
  apply (IZR_le 0) in Hbeta. split.
  - apply (approximate_inverse n A B (1 / 2) (IZR beta)); [lra|exact Hbeta|exact HR|exact HB].
  - intros x y c Hx Hc' Hy j Hj. pose proof (bounded_below n A B (1 / 2) (IZR beta) ltac:(lra) Hbeta HR HB x y c Hx Hc' Hy j Hj) as K.
    replace (2 * IZR beta) with (IZR beta / (1 - 1 / 2)) by field. exact K.
Qed.

(** The list form of the row check. *)
Lemma zsm_ext n : forall f g, (forall i, (i < n)%nat -> f i = g i) -> zsm n f = zsm n g.
Proof. induction n as [|n IH]; intros f g H; [reflexivity|]. cbn [zsm]. rewrite (H 0%nat) by lia. f_equal. apply IH. intros i Hi. apply H. lia. Qed.
Lemma sum_zsm {A} (f : A -> Z) (d : A) : forall l, sumZ (map f l) = zsm (length l) (fun i => f (nth i l d)).
Proof. induction l as [|x l IH]; [reflexivity|]. cbn [map sumZ fold_right length zsm nth]. fold (sumZ (map f l)). rewrite IH. reflexivity. Qed.
Lemma zdotl_zsm : forall a b, length b = length a -> zdotl a b = zsm (length a) (fun k => (nth k a 0 * nth k b 0)%Z).
Proof. induction a as [|x a IH]; intros [|y b] H; try discriminate; [reflexivity|]. cbn [zdotl length zsm nth]. rewrite IH by (cbn [length] in H; lia). reflexivity. Qed.
Lemma row_check_fact n m b e beta i : (i < n)%nat -> length m = n -> (forall r, In r m -> length r = n) -> (forall k j, (k < n)%nat -> (j < n)%nat -> zent m k j = zent m j k) ->
  row_check n m e beta i (nth i b []) = true -> row_fact n m b e beta i.
Proof.
  intros Hi Lm Rm Sm H. unfold row_check in H. cbv zeta in H. apply andb_prop in H. destruct H as [H H2]. apply andb_prop in H. destruct H as [L H1].
  apply Nat.eqb_eq in L. apply Z.leb_le in H1, H2. rewrite (sum_zsm Z.abs 0%Z), L in H1, H2. unfold row_fact, zent in *. cbv zeta. split; [|exact H2].
  eapply Z.le_trans; [|exact H1]. apply Z.eq_le_incl. f_equal. f_equal. unfold deviation. rewrite (sum_zsm _ (0%Z, [])).
  assert (length (unit_row n i) = n) as Lu by (unfold unit_row; rewrite map_length, seq_length; reflexivity).
  rewrite combine_length, Lu, Lm, Nat.min_id. apply zsm_ext. intros j Hj. rewrite combine_nth by lia. cbn [fst snd].
  rewrite zdotl_zsm by (rewrite L; apply Rm, nth_In; lia). rewrite L. f_equal. f_equal.
  - unfold unit_row. rewrite (nth_indep _ 0%Z ((fun j => if Nat.eqb j i then (SC * BS)%Z else 0%Z) 0%nat)) by (rewrite map_length, seq_length; exact Hj).
    rewrite (map_nth (fun j => if Nat.eqb j i then (SC * BS)%Z else 0%Z)). rewrite seq_nth by exact Hj. reflexivity.
  - apply zsm_ext. intros k Hk. rewrite Sm by assumption. reflexivity.
Qed.
