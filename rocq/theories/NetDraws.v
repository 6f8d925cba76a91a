(** Facts about draws and grids that correspond under a rotation. *)
From Coq Require Import String ZArith Permutation.
From Verif Require Import Prelude RMath Mat SO2 SO2Facts O2 O2Facts SO3 SO3Facts SO3More O3 O3Facts.
Open Scope R_scope.

Lemma Rmod_scale a x : 0 < a -> Rmod (a * x) a = a * Rmod x 1.
Proof.
  intros Ha. destruct (Rmod_decomp x 1) as [k Hk]. pose proof (Rmod_bounds x 1 ltac:(lra)) as HB.
  apply (Rmod_unique _ _ _ k); [assumption| |].
  - rewrite Hk at 1. ring.
  - split; [apply Rmult_le_pos; lra|]. rewrite <- (Rmult_1_r a) at 2. apply Rmult_lt_compat_l; lra.
Qed.

Lemma turned_angle q u x : Rmod (2 * PI * Rmod (u + IZR q / 4) 1 + x) (2 * PI) = Rmod (IZR q * (PI / 2) + (2 * PI * u + x)) (2 * PI).
Proof.
  pose proof PI_RGT_0. rewrite <- Rmod_scale by lra. rewrite Rmod_add_l by lra. f_equal. field.
Qed.
Lemma so2_turned_draw q u x : so2_left_apply_angle (2 * PI * Rmod (u + IZR q / 4) 1) x
  = so2_left_apply_angle (IZR q * (PI / 2)) (so2_left_apply_angle (2 * PI * u) x).
Proof. unfold so2_left_apply_angle. rewrite Rmod_add_r by (pose proof PI_RGT_0; lra). apply turned_angle. Qed.

Definition o2_drawn (u c : R) : O2 := mkO2 (2 * (if Rlt_dec (1 / 2) c then 1 else 0) - 1) (2 * PI * u).
Lemma o2_turned_draw q u c x : o2_left_apply_angle (o2_drawn (Rmod (u + IZR q / 4) 1) c) x
  = o2_left_apply_angle (mkO2 1 (IZR q * (PI / 2))) (o2_left_apply_angle (o2_drawn u c) x).
Proof.
  unfold o2_left_apply_angle, o2_drawn. cbn [o2c o2a]. f_equal; [ring|]. rewrite Rmod_add_r by (pose proof PI_RGT_0; lra). apply turned_angle.
Qed.

Lemma qdot_mul p q : qdot (qmul p q) (qmul p q) = qdot p p * qdot q q.
Proof. destruct p, q. cbn. unfold qdot; cbn. ring. Qed.
Lemma random_mul_l p q : unitq p -> so3_random_matrix (qmul p q) = mul3 (so3_quat_to_matrix p) (so3_random_matrix q).
Proof.
  intros Hp. unfold so3_random_matrix, so3_random_quat. rewrite !qnormalize_scal, !q2m_qscal.
  assert (qnorm (qmul p q) = qnorm q) as ->. { unfold qnorm. rewrite qdot_mul. unfold unitq in Hp. rewrite Hp. f_equal. ring. }
  rewrite q2m_mul. mext; cbn; ring.
Qed.
Lemma random_mul_r p q : unitq p -> so3_random_matrix (qmul q p) = mul3 (so3_random_matrix q) (so3_quat_to_matrix p).
Proof.
  intros Hp. unfold so3_random_matrix, so3_random_quat. rewrite !qnormalize_scal, !q2m_qscal.
  assert (qnorm (qmul q p) = qnorm q) as ->. { unfold qnorm. rewrite qdot_mul. unfold unitq in Hp. rewrite Hp. f_equal. ring. }
  rewrite q2m_mul. mext; cbn; ring.
Qed.

Lemma so3_turned_draw g q : isSO3 g -> so3_random_matrix (qmul (so3_matrix_to_quat g) q) = mul3 g (so3_random_matrix q).
Proof. intros Hg. rewrite random_mul_l by (apply m2q_unit; assumption). rewrite m2q_right_inv by assumption. reflexivity. Qed.
Lemma so3_conjugate_draw g q x : isSO3 g ->
  mul3 (so3_random_matrix (qmul (qmul (so3_matrix_to_quat g) q) (so3_quat_inverse (so3_matrix_to_quat g)))) (mul3 g x) = mul3 g (mul3 (so3_random_matrix q) x).
Proof.
  intros Hg. pose proof (m2q_unit g Hg) as Hu.
  assert (unitq (so3_quat_inverse (so3_matrix_to_quat g))) as Hi. { revert Hu. generalize (so3_matrix_to_quat g). intros [w a b c]. unfold unitq, qdot. cbn. lra. }
  rewrite random_mul_r by assumption. rewrite so3_turned_draw by assumption. rewrite q2m_inv, m2q_right_inv by assumption. unfold so3_matrix_inverse.
  rewrite !mul3_assoc. rewrite <- (mul3_assoc (mul3 g (so3_random_matrix q)) (tr3 g) g). destruct Hg as ((E & _) & _). rewrite E, mul3_I_r. reflexivity.
Qed.
Lemma o3_turned_draw g c q x : o3_wf g -> o3c g = 1 ->
  o3_left_apply_O3 (o3_random c (qmul (so3_matrix_to_quat (o3r g)) q)) x = o3_left_apply_O3 g (o3_left_apply_O3 (o3_random c q) x).
Proof.
  intros [_ Hg] Hc. unfold o3_left_apply_O3, o3_random. cbn [o3c o3r]. rewrite so3_turned_draw by assumption. f_equal; [rewrite Hc; ring|]. symmetry. apply mul3_assoc.
Qed.

Lemma closed_permutation {A} (f : A -> A) l : (forall x y, f x = f y -> x = y) -> NoDup l -> (forall x, In x l -> In (f x) l) -> Permutation (map f l) l.
Proof.
  intros Hi Hn Hc. apply NoDup_Permutation_bis.
  - apply FinFun.Injective_map_NoDup; assumption.
  - rewrite map_length. lia.
  - intros y Hy. apply in_map_iff in Hy. destruct Hy as (x & <- & Hx). auto.
Qed.

Lemma quarter_in_grid q m : (0 < m)%nat -> exists j, (j < 4 * m)%nat /\ Rmod (IZR q * (PI / 2)) (2 * PI) = 2 * PI * INR j / INR (4 * m).
Proof.
  intros Hm. pose proof PI_RGT_0 as HP. pose proof (lt_0_INR m Hm) as HM. pose proof (Z.mod_pos_bound q 4 ltac:(lia)) as HB.
  exists (Z.to_nat (q mod 4) * m)%nat. split; [nia|]. apply (Rmod_unique _ _ _ (q / 4)); [lra| |].
  - rewrite !mult_INR. rewrite (INR_IZR_INZ (Z.to_nat _)), Z2Nat.id by lia. replace (INR 4) with 4 by (cbn; ring).
    rewrite (Z.div_mod q 4) at 1 by lia. rewrite plus_IZR, mult_IZR. field. lra.
  - rewrite !mult_INR. rewrite (INR_IZR_INZ (Z.to_nat _)), Z2Nat.id by lia. replace (INR 4) with 4 by (cbn; ring).
    replace (2 * PI * (IZR (q mod 4) * INR m) / (4 * INR m)) with (PI / 2 * IZR (q mod 4)) by (field; lra).
    assert (0 <= IZR (q mod 4) <= 3). { split; apply IZR_le; lia. } split; [apply Rmult_le_pos; lra|]. nra.
Qed.
Lemma so2_uniform_turned q m : Permutation (map (so2_left_apply_angle (IZR q * (PI / 2))) (so2_uniform_grid (4 * m))) (so2_uniform_grid (4 * m)).
Proof.
  destruct (Nat.eq_dec m 0) as [->|Hm0]; [constructor|]. assert (0 < m)%nat as Hm by lia.
  destruct (quarter_in_grid q m Hm) as (j & Hj & E). pose proof PI_RGT_0 as HP.
  assert (forall a, so2_left_apply_angle (IZR q * (PI / 2)) a = so2_left_apply_angle (2 * PI * INR j / INR (4 * m)) a) as K.
  { intros a. rewrite <- E. unfold so2_left_apply_angle. rewrite Rmod_add_l by lra. reflexivity. }
  assert (forall a, In a (so2_uniform_grid (4 * m)) <-> exists i, (i < 4 * m)%nat /\ a = 2 * PI * INR i / INR (4 * m)) as KI.
  { intros a. rewrite so2_uniform_grid_eq, in_map_iff. split; intros (i & A & B).
    - apply in_seq in B. exists i. split; [lia|congruence].
    - exists i. split; [congruence|apply in_seq; lia]. }
  apply NoDup_Permutation_bis.
  - assert (NoDup (map (so2_left_apply_angle (2 * PI * INR j / INR (4 * m))) (so2_uniform_grid (4 * m)))) as Q.
    2:{ erewrite map_ext; [exact Q|exact K]. }
    rewrite so2_uniform_grid_eq, map_map. apply NoDup_nth_error. intros a b Ha Hab. rewrite map_length, seq_length in Ha.
    rewrite !nth_error_map in Hab. rewrite (nth_error_seq) in Hab by assumption. cbn [option_map] in Hab.
    destruct (Nat.lt_ge_cases b (4 * m)) as [Hb|Hb].
    + rewrite nth_error_seq in Hab by assumption. cbn [option_map] in Hab. rewrite !Nat.add_0_l in Hab || idtac. injection Hab as Hab.
      rewrite !so2_grid_closed in Hab by (try assumption; lia).
      assert (INR ((j + a) mod (4 * m)) = INR ((j + b) mod (4 * m))) as Hmod.
      { assert (0 < INR (4 * m)) by (apply lt_0_INR; lia). apply (Rmult_eq_reg_l (2 * PI / INR (4 * m))).
        - unfold Rdiv in *. rewrite (Rmult_comm (2 * PI)), !Rmult_assoc. rewrite !Rmult_assoc in Hab. rewrite !(Rmult_comm (/ _)). rewrite !Rmult_assoc. exact Hab.
        - apply Rmult_integral_contrapositive_currified; [lra|]. apply Rinv_neq_0_compat. lra. }
      apply INR_eq in Hmod. 
      assert (((j + a) mod (4 * m) = (j + b) mod (4 * m))%nat -> a = b) as KM; [|auto]. clear - Ha Hb Hj Hm. intros E.
      pose proof (Nat.div_mod (j + a) (4 * m) ltac:(lia)) as E1. pose proof (Nat.div_mod (j + b) (4 * m) ltac:(lia)) as E2.
      rewrite E in E1. assert ((j + a) / (4 * m) = (j + b) / (4 * m))%nat as EE by nia. rewrite EE in E1. lia.
    + replace (nth_error (seq 0 (4 * m)) b) with (@None nat) in Hab; [discriminate|]. symmetry. apply nth_error_None. rewrite seq_length. exact Hb.
  - rewrite map_length. lia.
  - intros y Hy. apply in_map_iff in Hy. destruct Hy as (x & <- & Hx). rewrite K. apply KI in Hx. destruct Hx as (i & Hi & ->).
    rewrite so2_grid_closed by assumption. apply KI. exists ((j + i) mod (4 * m))%nat. split; [apply Nat.mod_upper_bound; lia|reflexivity].
Qed.
Lemma combine_repeat_const {B} (c : R) (l : list B) r1 r2 : combine (repeat c (length l) ++ r1) (l ++ r2) = map (pair c) l ++ combine r1 r2.
Proof. induction l as [|a l IH]; [reflexivity|]. cbn. f_equal. exact IH. Qed.
Lemma o2_uniform_split n m : o2_uniform_grid n m = map (mkO2 1) (so2_uniform_grid n) ++ map (mkO2 (-(1))) (so2_uniform_grid m).
Proof.
  unfold o2_uniform_grid. rewrite <- (so2_uniform_grid_length n) at 1. rewrite combine_repeat_const.
  rewrite <- (so2_uniform_grid_length m) at 1. rewrite <- (app_nil_r (so2_uniform_grid m)) at 2. rewrite <- (app_nil_r (repeat _ _)).
  rewrite combine_repeat_const. cbn [combine]. rewrite app_nil_r, map_app, !map_map. reflexivity.
Qed.
Lemma o2_uniform_turned q n m : Permutation (map (o2_left_apply_angle (mkO2 1 (IZR q * (PI / 2)))) (o2_uniform_grid (4 * n) (4 * m))) (o2_uniform_grid (4 * n) (4 * m)).
Proof.
  rewrite o2_uniform_split, map_app, !map_map.
  assert (forall c l, map (fun x => o2_left_apply_angle (mkO2 1 (IZR q * (PI / 2))) (mkO2 c x)) l = map (mkO2 c) (map (so2_left_apply_angle (IZR q * (PI / 2))) l)) as K.
  { intros c l. rewrite map_map. apply map_ext. intros x. unfold o2_left_apply_angle, so2_left_apply_angle. cbn [o2c o2a]. f_equal. ring. }
  rewrite !K. apply Permutation_app; apply Permutation_map; apply so2_uniform_turned.
Qed.
