(** Facts about coordinate grids, masks and the spatial sampler. *)
From Coq Require Import Permutation ZArith.
From Verif Require Import Prelude RMath Mat Tensor TensorFacts SignedPerm Functional.
Open Scope R_scope.

(** Node i of s equally spaced nodes of [-1,1]. *)
Definition lin (s i : nat) : R := -1 + 2 * (INR i / INR (s - 1)).

Lemma xat_linspace s i : (i < s)%nat -> xat (linspace (-1) 1 s) i = lin s i.
Proof.
  intros H. unfold xat. erewrite nth_of_nth_error; [|apply linspace_nth; assumption].
  unfold lin. unfold Rdiv. ring.
Qed.

Lemma lin_1 : lin 1 0 = -1.
Proof. unfold lin. simpl. unfold Rdiv. ring. Qed.

Lemma INR_pos n : (0 < n)%nat -> 0 < INR n.
Proof. apply lt_0_INR. Qed.

Lemma lin_rev s i : (2 <= s)%nat -> (i < s)%nat -> lin s (s - 1 - i) = - lin s i.
Proof.
  intros Hs Hi. unfold lin. rewrite (minus_INR (s - 1) i) by lia.
  pose proof (INR_pos (s - 1)). field. apply Rgt_not_eq. apply H. lia.
Qed.

Lemma lin_bounds s i : (2 <= s)%nat -> (i < s)%nat -> -1 <= lin s i <= 1.
Proof.
  intros Hs Hi. unfold lin. pose proof (INR_pos (s - 1) ltac:(lia)) as Hp.
  assert (0 <= INR i / INR (s - 1)).
  { apply Rmult_le_pos; [apply pos_INR|]. left. apply Rinv_0_lt_compat; assumption. }
  assert (INR i / INR (s - 1) <= 1).
  { apply Rmult_le_reg_r with (INR (s - 1)); [assumption|]. unfold Rdiv.
    rewrite Rmult_assoc, Rinv_l by lra. rewrite Rmult_1_r, Rmult_1_l. apply le_INR. lia. }
  lra.
Qed.
Lemma lin_0 s : (2 <= s)%nat -> lin s 0 = -1.
Proof. intros. unfold lin. simpl. unfold Rdiv. ring. Qed.
Lemma lin_last s : (2 <= s)%nat -> lin s (s - 1) = 1.
Proof. intros. unfold lin. pose proof (INR_pos (s - 1) ltac:(lia)). field. lra. Qed.
Lemma lin_mid m : (1 <= m)%nat -> lin (2 * m + 1) m = 0.
Proof.
  intros. unfold lin. replace (2 * m + 1 - 1)%nat with (2 * m)%nat by lia. rewrite mult_INR.
  pose proof (INR_pos m ltac:(lia)). simpl (INR 2). field. lra.
Qed.

Lemma grid_R3_at s i j k : (i < s)%nat -> (j < s)%nat -> (k < s)%nat ->
  at_ (create_grid_R3 s) [i; j; k] = mkV3 (lin s k) (lin s j) (lin s i).
Proof.
  intros. unfold create_grid_R3. rewrite at_build by (repeat apply valid_cons; try assumption; apply valid_nil).
  simpl nth. rewrite !xat_linspace by assumption. reflexivity.
Qed.
Lemma grid_R2_at s i j : (i < s)%nat -> (j < s)%nat ->
  at_ (create_grid_R2 s) [i; j] = mkV2 (lin s i) (lin s j).
Proof.
  intros. unfold create_grid_R2. rewrite at_build by (repeat apply valid_cons; try assumption; apply valid_nil).
  simpl nth. rewrite !xat_linspace by assumption. reflexivity.
Qed.

Lemma sgn_lin s i (b : bool) : (2 <= s)%nat -> (i < s)%nat ->
  sgn b * lin s i = lin s (if b then s - 1 - i else i)%nat.
Proof. intros. destruct b; simpl; [rewrite lin_rev by assumption|]; ring. Qed.

Lemma valid3_inv s idx : valid [s; s; s] idx ->
  exists i j k, idx = [i; j; k] /\ (i < s)%nat /\ (j < s)%nat /\ (k < s)%nat.
Proof.
  intros H. apply valid_inv_cons in H. destruct H as (i & r & -> & Hi & H).
  apply valid_inv_cons in H. destruct H as (j & r' & -> & Hj & H).
  apply valid_inv_cons in H. destruct H as (k & r'' & -> & Hk & H).
  apply valid_inv_nil in H. subst. eauto 8.
Qed.
Lemma valid2_inv s idx : valid [s; s] idx -> exists i j, idx = [i; j] /\ (i < s)%nat /\ (j < s)%nat.
Proof.
  intros H. apply valid_inv_cons in H. destruct H as (i & r & -> & Hi & H).
  apply valid_inv_cons in H. destruct H as (j & r' & -> & Hj & H).
  apply valid_inv_nil in H. subst. eauto 8.
Qed.

Lemma sp3_inv sp : sp_ok 3 sp -> exists a b c fa fb fc, sp = [(a, fa); (b, fb); (c, fc)] /\
  (a < 3)%nat /\ (b < 3)%nat /\ (c < 3)%nat.
Proof.
  intros H. pose proof (sp_length _ _ H) as L.
  destruct sp as [|[a fa] [|[b fb] [|[c fc] [|]]]]; simpl in L; try discriminate.
  exists a, b, c, fa, fb, fc. split; [reflexivity|].
  pose proof (sp_axis _ _ H 0 _ eq_refl). pose proof (sp_axis _ _ H 1 _ eq_refl). pose proof (sp_axis _ _ H 2 _ eq_refl).
  simpl in *. auto.
Qed.
Lemma sp2_inv sp : sp_ok 2 sp -> exists a b fa fb, sp = [(a, fa); (b, fb)] /\ (a < 2)%nat /\ (b < 2)%nat.
Proof.
  intros H. pose proof (sp_length _ _ H) as L.
  destruct sp as [|[a fa] [|[b fb] [|]]]; simpl in L; try discriminate.
  exists a, b, fa, fb. split; [reflexivity|].
  pose proof (sp_axis _ _ H 0 _ eq_refl). pose proof (sp_axis _ _ H 1 _ eq_refl). simpl in *. auto.
Qed.

Lemma grid_R3_sperm s sp idx : (2 <= s)%nat -> sp_ok 3 sp -> valid [s; s; s] idx ->
  app3 (sp_mat3 sp) (at_ (create_grid_R3 s) idx) = at_ (create_grid_R3 s) (sp_idx sp [s; s; s] idx).
Proof.
  intros Hs Hok Hv. pose proof (sp_idx_valid 3 sp Hok [s;s;s] [s;s;s] eq_refl (sp_shape_cube 3 sp s Hok) _ Hv) as Hv'.
  apply valid3_inv in Hv. destruct Hv as (i & j & k & -> & Hi & Hj & Hk).
  destruct (sp3_inv sp Hok) as (a & b & c & fa & fb & fc & -> & Ha & Hb & Hc).
  rewrite grid_R3_at by assumption.
  unfold sp_idx in *. simpl map2 in *. apply valid3_inv in Hv'.
  destruct Hv' as (i' & j' & k' & E & Hi' & Hj' & Hk'). rewrite E. rewrite grid_R3_at by assumption.
  injection E as E1 E2 E3. subst i' j' k'. clear Hi' Hj' Hk'. unfold sp_mat3. cbn [nth Nat.sub fst snd].
  mext.
  - destruct c as [|[|[|]]]; try lia; cbn [Nat.eqb nth]; rewrite <- sgn_lin by assumption; ring.
  - destruct b as [|[|[|]]]; try lia; cbn [Nat.eqb nth]; rewrite <- sgn_lin by assumption; ring.
  - destruct a as [|[|[|]]]; try lia; cbn [Nat.eqb nth]; rewrite <- sgn_lin by assumption; ring.
Qed.

Lemma grid_R2_sperm s sp idx : (2 <= s)%nat -> sp_ok 2 sp -> valid [s; s] idx ->
  app2 (sp_mat2 sp) (at_ (create_grid_R2 s) idx) = at_ (create_grid_R2 s) (sp_idx sp [s; s] idx).
Proof.
  intros Hs Hok Hv. pose proof (sp_idx_valid 2 sp Hok [s;s] [s;s] eq_refl (sp_shape_cube 2 sp s Hok) _ Hv) as Hv'.
  apply valid2_inv in Hv. destruct Hv as (i & j & -> & Hi & Hj).
  destruct (sp2_inv sp Hok) as (a & b & fa & fb & -> & Ha & Hb).
  rewrite grid_R2_at by assumption.
  unfold sp_idx in *. simpl map2 in *. apply valid2_inv in Hv'.
  destruct Hv' as (i' & j' & E & Hi' & Hj'). rewrite E. rewrite grid_R2_at by assumption.
  injection E as E1 E2. subst i' j'. clear Hi' Hj'. unfold sp_mat2. cbn [nth fst snd].
  mext.
  - destruct a as [|[|]]; try lia; cbn [Nat.eqb nth]; rewrite <- sgn_lin by assumption; ring.
  - destruct b as [|[|]]; try lia; cbn [Nat.eqb nth]; rewrite <- sgn_lin by assumption; ring.
Qed.

(** *** Which matrices are signed permutations *)
Definition unit_entry (x : R) : Prop := x = -1 \/ x = 0 \/ x = 1.
Definition signed3 (A : M3) : Prop :=
  isO3 A /\ unit_entry (a00 A) /\ unit_entry (a01 A) /\ unit_entry (a02 A) /\
  unit_entry (a10 A) /\ unit_entry (a11 A) /\ unit_entry (a12 A) /\
  unit_entry (a20 A) /\ unit_entry (a21 A) /\ unit_entry (a22 A).
Definition signed2 (A : M2) : Prop :=
  mul2 A (tr2 A) = I2 /\ unit_entry (b00 A) /\ unit_entry (b01 A) /\ unit_entry (b10 A) /\ unit_entry (b11 A).

Definition row_form (x y z : R) (c : nat) (b : bool) : Prop :=
  (c < 3)%nat /\ x = (if Nat.eqb c 2 then sgn b else 0) /\ y = (if Nat.eqb c 1 then sgn b else 0) /\
  z = (if Nat.eqb c 0 then sgn b else 0).
Lemma row_cases x y z : unit_entry x -> unit_entry y -> unit_entry z -> x * x + y * y + z * z = 1 ->
  exists c b, row_form x y z c b.
Proof.
  intros Hx Hy Hz H.
  destruct Hx as [->|[->| ->]], Hy as [->|[->| ->]], Hz as [->|[->| ->]]; try lra.
  all: first [ exists 0%nat, true; unfold row_form; simpl; split; [lia|]; lra
             | exists 0%nat, false; unfold row_form; simpl; split; [lia|]; lra
             | exists 1%nat, true; unfold row_form; simpl; split; [lia|]; lra
             | exists 1%nat, false; unfold row_form; simpl; split; [lia|]; lra
             | exists 2%nat, true; unfold row_form; simpl; split; [lia|]; lra
             | exists 2%nat, false; unfold row_form; simpl; split; [lia|]; lra ].
Qed.

Lemma perm3 a b c : (a < 3)%nat -> (b < 3)%nat -> (c < 3)%nat -> a <> b -> a <> c -> b <> c ->
  Permutation [a; b; c] [0%nat; 1%nat; 2%nat].
Proof.
  intros. apply NoDup_Permutation_bis; simpl; [|lia|].
  - repeat constructor; simpl; intuition.
  - intros x [<-|[<-|[<-|[]]]]; simpl; lia.
Qed.

Lemma signed3_sperm A : signed3 A -> exists sp, sp_ok 3 sp /\ A = sp_mat3 sp.
Proof.
  intros ((_ & Ho) & H00 & H01 & H02 & H10 & H11 & H12 & H20 & H21 & H22).
  pose proof (f_equal a00 Ho) as E00. pose proof (f_equal a11 Ho) as E11. pose proof (f_equal a22 Ho) as E22.
  pose proof (f_equal a01 Ho) as E01. pose proof (f_equal a02 Ho) as E02. pose proof (f_equal a12 Ho) as E12.
  clear Ho. destruct A as [x0 x1 x2 y0 y1 y2 z0 z1 z2]; simpl in *.
  destruct (row_cases x0 x1 x2 H00 H01 H02 E00) as (c & fc & Hc & -> & -> & ->).
  destruct (row_cases y0 y1 y2 H10 H11 H12 E11) as (b & fb & Hb & -> & -> & ->).
  destruct (row_cases z0 z1 z2 H20 H21 H22 E22) as (a & fa & Ha & -> & -> & ->).
  clear H00 H01 H02 H10 H11 H12 H20 H21 H22 E00 E11 E22.
  assert (c <> b). { intros ->. destruct b as [|[|[|]]]; try lia; simpl in E01; destruct fb, fc; simpl in E01; lra. }
  assert (c <> a). { intros ->. destruct a as [|[|[|]]]; try lia; simpl in E02; destruct fa, fc; simpl in E02; lra. }
  assert (b <> a). { intros ->. destruct a as [|[|[|]]]; try lia; simpl in E12; destruct fa, fb; simpl in E12; lra. }
  exists [(a, fa); (b, fb); (c, fc)]. split.
  - unfold sp_ok. simpl. apply perm3; lia.
  - unfold sp_mat3. simpl. reflexivity.
Qed.

Lemma signed2_sperm A : signed2 A -> exists sp, sp_ok 2 sp /\ A = sp_mat2 sp.
Proof.
  intros (Ho & H00 & H01 & H10 & H11).
  pose proof (f_equal b00 Ho) as E00. pose proof (f_equal b11 Ho) as E11. pose proof (f_equal b01 Ho) as E01.
  clear Ho. destruct A as [x0 x1 y0 y1]; simpl in *.
  assert (forall x y, unit_entry x -> unit_entry y -> x * x + y * y = 1 ->
    exists c b, (c < 2)%nat /\ x = (if Nat.eqb c 0 then sgn b else 0) /\ y = (if Nat.eqb c 1 then sgn b else 0)) as Hrow.
  { clear. intros x y Hx Hy H.
    destruct Hx as [->|[->| ->]], Hy as [->|[->| ->]]; try lra.
    all: first [ exists 0%nat, true; simpl; split; [lia|]; lra
             | exists 0%nat, false; simpl; split; [lia|]; lra
             | exists 1%nat, true; simpl; split; [lia|]; lra
             | exists 1%nat, false; simpl; split; [lia|]; lra ]. }
  destruct (Hrow x0 x1 H00 H01 E00) as (a & fa & Ha & -> & ->).
  destruct (Hrow y0 y1 H10 H11 E11) as (b & fb & Hb & -> & ->).
  assert (a <> b). { intros ->. destruct b as [|[|]]; try lia; simpl in E01; destruct fb, fa; simpl in E01; lra. }
  exists [(a, fa); (b, fb)]. split.
  - unfold sp_ok. simpl. destruct a as [|[|]]; destruct b as [|[|]]; try lia; [reflexivity|constructor].
  - unfold sp_mat2. simpl. reflexivity.
Qed.

(** *** masks *)
Lemma shape_tmap {A B} (f : A -> B) t : shape (tmap f t) = shape t.
Proof. reflexivity. Qed.
Lemma wft_tmap {A B} (f : A -> B) t : wft t -> wft (tmap f t).
Proof. unfold wft, tmap; simpl. rewrite map_length. auto. Qed.
Lemma at_tmap {A B} {DA : Dflt A} {DB : Dflt B} (f : A -> B) t idx : wft t -> valid (shape t) idx ->
  at_ (tmap f t) idx = f (at_ t idx).
Proof.
  intros Hw Hv. unfold at_, tmap; simpl. pose proof (ravel_lt _ _ Hv).
  rewrite (nth_indep _ dflt (f dflt)) by (rewrite map_length, Hw; assumption).
  apply map_nth.
Qed.

Lemma mask_R3_at s idx : valid [s; s; s] idx ->
  at_ (create_spherical_mask_R3 s) idx = lt_float (norm3 (at_ (create_grid_R3 s) idx)) (11 / 10).
Proof. intros. unfold create_spherical_mask_R3. rewrite at_tmap; [reflexivity|apply wft_build|assumption]. Qed.
Lemma mask_R2_at s idx : valid [s; s] idx ->
  at_ (create_spherical_mask_R2 s) idx = lt_float (norm2 (at_ (create_grid_R2 s) idx)) (11 / 10).
Proof. intros. unfold create_spherical_mask_R2. rewrite at_tmap; [reflexivity|apply wft_build|assumption]. Qed.

Lemma norm_sp3 sp v : sp_ok 3 sp -> norm3 (app3 (sp_mat3 sp) v) = norm3 v.
Proof.
  intros H. unfold norm3. f_equal.
  destruct (sp3_inv sp H) as (a & b & c & fa & fb & fc & -> & Ha & Hb & Hc).
  assert (NoDup [a; b; c]) as Hn.
  { eapply Permutation_NoDup; [apply Permutation_sym; exact H|]. simpl. repeat constructor; simpl; lia. }
  apply NoDup_cons_iff in Hn. destruct Hn as [N1 Hn]. apply NoDup_cons_iff in Hn. destruct Hn as [N2 _].
  simpl in N1, N2. clear H.
  destruct v as [x y z]. unfold sp_mat3, dot3, app3; simpl.
  destruct a as [|[|[|]]], b as [|[|[|]]], c as [|[|[|]]]; try lia; simpl;
    destruct fa, fb, fc; simpl; ring.
Qed.
Lemma norm_sp2 sp v : sp_ok 2 sp -> norm2 (app2 (sp_mat2 sp) v) = norm2 v.
Proof.
  intros H. unfold norm2. f_equal.
  destruct (sp2_inv sp H) as (a & b & fa & fb & -> & Ha & Hb).
  assert (NoDup [a; b]) as Hn.
  { eapply Permutation_NoDup; [apply Permutation_sym; exact H|]. simpl. repeat constructor; simpl; lia. }
  apply NoDup_cons_iff in Hn. destruct Hn as [N1 _]. simpl in N1. clear H.
  destruct v as [x y]. unfold sp_mat2, dot2, app2; simpl.
  destruct a as [|[|]], b as [|[|]]; try lia; simpl; destruct fa, fb; simpl; ring.
Qed.

Lemma sqrt_lt_sq x y : 0 < y -> x < y * y -> sqrt x < y.
Proof.
  intros Hy H. destruct (Rle_dec 0 x) as [Hx|Hx].
  - rewrite <- (sqrt_square y) by lra. apply sqrt_lt_1; [assumption| |assumption].
    apply Rmult_le_pos; lra.
  - rewrite sqrt_neg_0 by lra. lra.
Qed.
Lemma sq_le_sqrt x y : 0 <= y -> y * y <= x -> y <= sqrt x.
Proof.
  intros Hy H. rewrite <- (sqrt_square y) by assumption. apply sqrt_le_1; [| |assumption];
  [apply Rmult_le_pos; assumption|]. assert (0 <= y * y) by (apply Rmult_le_pos; assumption). lra.
Qed.
Lemma lt_float_1 x y : lt_float x y = 1 <-> x < y.
Proof. unfold lt_float. destruct (Rlt_dec x y); split; intros; try lra; auto. Qed.
Lemma lt_float_0 x y : lt_float x y = 0 <-> ~ x < y.
Proof. unfold lt_float. destruct (Rlt_dec x y); split; intros; try lra; try tauto. Qed.

Lemma lin_le_mid s i : (3 <= s)%nat -> (i = 1)%nat -> lin s i * lin s i <= 1.
Proof. intros Hs ->. pose proof (lin_bounds s 1 ltac:(lia) ltac:(lia)). nra. Qed.

(** *** the sampler at the identity *)
Lemma Int_part_unique x z : IZR z <= x < IZR z + 1 -> Int_part x = z.
Proof.
  intros [H1 H2]. unfold Int_part. assert ((z + 1)%Z = up x) by (apply tech_up; rewrite plus_IZR; lra). lia.
Qed.
Lemma rne_near x z : Rabs (x - IZR z) < 1 / 2 -> rne x = z.
Proof.
  intros H. apply Rabs_def2 in H. destruct H as [H1 H2]. unfold rne.
  destruct (Rle_dec (IZR z) x) as [Hle|Hgt].
  - rewrite (Int_part_unique x z) by lra. destruct (Rlt_dec (x - IZR z) (1/2)); [reflexivity|lra].
  - rewrite (Int_part_unique x (z - 1)) by (rewrite minus_IZR; lra). rewrite minus_IZR.
    destruct (Rlt_dec (x - (IZR z - 1)) (1/2)); [lra|].
    destruct (Rlt_dec (1/2) (x - (IZR z - 1))); [lia|lra].
Qed.

Lemma unnorm_lin s i : (2 <= s)%nat -> gs_unnormalize s (lin s i) = INR i + INR i / INR (s - 1) - 1 / 2.
Proof.
  intros Hs. unfold gs_unnormalize, lin. rewrite (minus_INR s 1) by lia.
  assert (0 < INR s - INR 1). { rewrite <- minus_INR by lia. apply INR_pos. lia. }
  simpl (INR 1) in *. field. lra.
Qed.
Lemma frac_strict s i : (0 < i)%nat -> (i < s - 1)%nat -> 0 < INR i / INR (s - 1) < 1.
Proof.
  intros H1 H2. pose proof (INR_pos i H1). pose proof (INR_pos (s - 1) ltac:(lia)).
  split; [apply Rdiv_lt_0_compat; assumption|].
  apply Rmult_lt_reg_r with (INR (s - 1)); [assumption|]. unfold Rdiv.
  rewrite Rmult_assoc, Rinv_l by lra. rewrite Rmult_1_r, Rmult_1_l. apply lt_INR. assumption.
Qed.
Lemma clamp_mid x lo hi : lo <= x <= hi -> clamp x lo hi = x.
Proof. intros. unfold clamp. rewrite Rmax_left, Rmin_left by lra. reflexivity. Qed.
Lemma clamp_lo x lo hi : x <= lo -> lo <= hi -> clamp x lo hi = lo.
Proof. intros. unfold clamp. rewrite Rmax_right by lra. rewrite Rmin_left by lra. reflexivity. Qed.
Lemma clamp_hi x lo hi : hi <= x -> lo <= hi -> clamp x lo hi = hi.
Proof. intros. unfold clamp. rewrite Rmax_left by lra. rewrite Rmin_right by lra. reflexivity. Qed.

Lemma coord_first s : (1 <= s)%nat -> gs_coord GsBorder s (lin s 0) = 0.
Proof.
  intros Hs. simpl. assert (1 <= INR s) by (apply (le_INR 1); assumption).
  destruct (Nat.eq_dec s 1) as [->|].
  - rewrite lin_1. apply clamp_lo; [unfold gs_unnormalize; simpl; lra|simpl; lra].
  - rewrite unnorm_lin by lia. apply clamp_lo; [simpl; unfold Rdiv; lra|lra].
Qed.
Lemma coord_last s : (2 <= s)%nat -> gs_coord GsBorder s (lin s (s - 1)) = INR (s - 1).
Proof.
  intros Hs. simpl. assert (1 <= INR s) by (apply (le_INR 1); lia).
  rewrite unnorm_lin by lia. rewrite (minus_INR s 1) by lia. simpl (INR 1).
  assert (2 <= INR s) by (apply (le_INR 2); lia). apply clamp_hi; [|lra].
  unfold Rdiv. rewrite Rinv_r by lra. lra.
Qed.
Lemma coord_mid s i : (0 < i)%nat -> (i < s - 1)%nat ->
  gs_coord GsBorder s (lin s i) = INR i + INR i / INR (s - 1) - 1 / 2.
Proof.
  intros H1 H2. simpl. rewrite unnorm_lin by lia. pose proof (frac_strict s i H1 H2).
  apply clamp_mid. assert (1 <= INR i) by (apply (le_INR 1); lia).
  assert (INR i <= INR s - 2). { replace (INR s - 2) with (INR (s - 2)) by (rewrite minus_INR by lia; reflexivity). apply le_INR. lia. }
  lra.
Qed.

Lemma nearest_index s i : (1 <= s)%nat -> (i < s)%nat -> rne (gs_coord GsBorder s (lin s i)) = Z.of_nat i.
Proof.
  intros Hs Hi. apply rne_near. rewrite <- INR_IZR_INZ.
  destruct (Nat.eq_dec i 0) as [->|].
  - rewrite coord_first by assumption. simpl. rewrite Rminus_0_r, Rabs_R0. lra.
  - destruct (Nat.eq_dec i (s - 1)) as [->|].
    + rewrite coord_last by lia. rewrite Rminus_diag_eq by reflexivity. rewrite Rabs_R0. lra.
    + rewrite coord_mid by lia. pose proof (frac_strict s i ltac:(lia) ltac:(lia)).
      apply Rabs_def1; lra.
Qed.

Lemma in_range_nat n i : (i < n)%nat -> in_range n (Z.of_nat i) = true.
Proof.
  intros H. unfold in_range. apply andb_true_intro. split; [apply Z.leb_le|apply Z.ltb_lt]; lia.
Qed.

Lemma gs_read_nat s im idx : valid s idx -> gs_read s im (map Z.of_nat idx) = at_ (mkT s im) idx.
Proof.
  intros H. unfold gs_read.
  assert (forallb (fun nz => in_range (fst nz) (snd nz)) (combine s (map Z.of_nat idx)) = true) as ->.
  { induction H as [|i d idx s Hi H IH]; simpl; [reflexivity|]. rewrite in_range_nat by assumption. exact IH. }
  f_equal. rewrite map_map. rewrite <- (map_id idx) at 2. apply map_ext. intros; apply Nat2Z.id.
Qed.

Lemma nearest_identity_3 s im i j k : (1 <= s)%nat -> (i < s)%nat -> (j < s)%nat -> (k < s)%nat ->
  gs3 false GsBorder [s; s; s] im (at_ (create_grid_R3 s) [i; j; k]) = at_ (mkT [s; s; s] im) [i; j; k].
Proof.
  intros Hs Hi Hj Hk. rewrite grid_R3_at by assumption. unfold gs3, gs_nearest, axis3. cbn [vx vy vz map2].
  rewrite !nearest_index by assumption.
  change [Z.of_nat i; Z.of_nat j; Z.of_nat k] with (map Z.of_nat [i; j; k]).
  apply gs_read_nat. repeat apply valid_cons; try assumption. apply valid_nil.
Qed.
Lemma nearest_identity_2 s im i j : (1 <= s)%nat -> (i < s)%nat -> (j < s)%nat ->
  gs2 false GsBorder [s; s] im (at_ (create_grid_R2 s) [i; j]) = at_ (mkT [s; s] im) [j; i].
Proof.
  intros Hs Hi Hj. rewrite grid_R2_at by assumption. unfold gs2, gs_nearest, axis2. cbn [v2x v2y map2].
  rewrite !nearest_index by assumption.
  change [Z.of_nat j; Z.of_nat i] with (map Z.of_nat [j; i]).
  apply gs_read_nat. repeat apply valid_cons; try assumption. apply valid_nil.
Qed.

(** Linear sampling reproduces integer coordinates. *)
Lemma Int_part_INR i : Int_part (INR i) = Z.of_nat i.
Proof. apply Int_part_unique. rewrite <- INR_IZR_INZ. lra. Qed.
Lemma gs_corners_zero cs acc f : (forall z, f 0 z = 0) -> gs_corners cs 0 acc f = 0.
Proof.
  intros Hf. revert acc. induction cs as [|c cs IH]; intros; simpl; [apply Hf|].
  rewrite !Rmult_0_l, !IH. ring.
Qed.
Lemma gs_corners_int idx w acc f : (forall z, f 0 z = 0) ->
  gs_corners (map INR idx) w acc f = f w (rev acc ++ map Z.of_nat idx).
Proof.
  intros Hf. revert w acc. induction idx as [|i idx IH]; intros w acc; simpl; [rewrite app_nil_r; reflexivity|].
  rewrite Int_part_INR. rewrite plus_IZR, <- INR_IZR_INZ.
  replace (w * (INR i - INR i)) with 0 by ring.
  rewrite gs_corners_zero by assumption. replace (w * (INR i + 1 - INR i)) with w by ring.
  rewrite IH. simpl. rewrite <- app_assoc. simpl. ring.
Qed.

Lemma linear_int pm s im u idx : valid s idx -> map2 (fun n x => gs_coord pm n x) s u = map INR idx ->
  gs_linear pm s im u = at_ (mkT s im) idx.
Proof.
  intros Hv E. unfold gs_linear. rewrite E, gs_corners_int by (intros; ring).
  simpl. rewrite gs_read_nat by assumption. ring.
Qed.

Lemma linear_coord_small s i : (1 <= s <= 3)%nat -> (i < s)%nat -> gs_coord GsBorder s (lin s i) = INR i.
Proof.
  intros Hs Hi. destruct (Nat.eq_dec i 0) as [->|]; [apply coord_first; lia|].
  destruct (Nat.eq_dec i (s - 1)) as [->|]; [apply coord_last; lia|].
  assert (s = 3%nat /\ i = 1%nat) as [-> ->] by lia. rewrite coord_mid by lia. simpl. lra.
Qed.
Lemma linear_coord_big s : (4 <= s)%nat ->
  let c := gs_coord GsBorder s (lin s 1) in 0 < c < 1.
Proof.
  intros Hs c. subst c. rewrite coord_mid by lia. simpl (INR 1).
  assert (3 <= INR (s - 1)) by (replace 3 with (INR 3) by (simpl; lra); apply le_INR; lia).
  assert (0 < / INR (s - 1)) by (apply Rinv_0_lt_compat; lra).
  assert (/ INR (s - 1) <= / 3) by (apply Rinv_le_contravar; lra).
  unfold Rdiv. lra.
Qed.
Lemma linear_identity_3_small s im i j k : (1 <= s <= 3)%nat -> (i < s)%nat -> (j < s)%nat -> (k < s)%nat ->
  gs3 true GsBorder [s; s; s] im (at_ (create_grid_R3 s) [i; j; k]) = at_ (mkT [s; s; s] im) [i; j; k].
Proof.
  intros Hs Hi Hj Hk. rewrite grid_R3_at by assumption. unfold gs3, axis3. cbn [vx vy vz].
  apply linear_int; [repeat apply valid_cons; try assumption; apply valid_nil|].
  cbn [map2 map]. rewrite !linear_coord_small by assumption. reflexivity.
Qed.
Lemma linear_identity_2_small s im i j : (1 <= s <= 3)%nat -> (i < s)%nat -> (j < s)%nat ->
  gs2 true GsBorder [s; s] im (at_ (create_grid_R2 s) [i; j]) = at_ (mkT [s; s] im) [j; i].
Proof.
  intros Hs Hi Hj. rewrite grid_R2_at by assumption. unfold gs2, axis2. cbn [v2x v2y].
  apply linear_int; [repeat apply valid_cons; try assumption; apply valid_nil|].
  cbn [map2 map]. rewrite !linear_coord_small by assumption. reflexivity.
Qed.

Lemma gs_corners_last idx c w acc f : (forall z, f 0 z = 0) -> 0 < c < 1 ->
  gs_corners (map INR idx ++ [c]) w acc f =
  f (w * (1 - c)) (rev acc ++ map Z.of_nat idx ++ [0%Z]) + f (w * c) (rev acc ++ map Z.of_nat idx ++ [1%Z]).
Proof.
  intros Hf Hc. revert w acc. induction idx as [|i idx IH]; intros w acc.
  - simpl. rewrite (Int_part_unique c 0) by (simpl; lra). simpl. rewrite Rminus_0_r. reflexivity.
  - cbn [map app gs_corners]. rewrite Int_part_INR. rewrite plus_IZR, <- INR_IZR_INZ.
    replace (w * (INR i - INR i)) with 0 by ring.
    rewrite gs_corners_zero by assumption. replace (w * (INR i + 1 - INR i)) with w by ring.
    rewrite IH. simpl. rewrite <- !app_assoc. simpl. ring.
Qed.

Lemma linear_big_3 s im : (4 <= s)%nat -> exists c, 0 < c < 1 /\
  gs3 true GsBorder [s; s; s] im (at_ (create_grid_R3 s) [0; 0; 1]%nat) =
  (1 - c) * at_ (mkT [s; s; s] im) [0; 0; 0]%nat + c * at_ (mkT [s; s; s] im) [0; 0; 1]%nat.
Proof.
  intros Hs. exists (gs_coord GsBorder s (lin s 1)). split; [apply linear_coord_big; assumption|].
  rewrite grid_R3_at by lia. unfold gs3, axis3, gs_linear. cbn [vx vy vz map2].
  rewrite !coord_first by lia. set (c := gs_coord GsBorder s (lin s 1)).
  change [0; 0; c] with (map INR [0; 0]%nat ++ [c]).
  rewrite gs_corners_last by (try (intros; ring); apply linear_coord_big; assumption).
  cbn [rev app map].
  change [Z.of_nat 0; Z.of_nat 0; 0%Z] with (map Z.of_nat [0; 0; 0]%nat).
  change [Z.of_nat 0; Z.of_nat 0; 1%Z] with (map Z.of_nat [0; 0; 1]%nat).
  rewrite !gs_read_nat by (repeat apply valid_cons; try lia; apply valid_nil). ring.
Qed.
Lemma linear_big_2 s im : (4 <= s)%nat -> exists c, 0 < c < 1 /\
  gs2 true GsBorder [s; s] im (at_ (create_grid_R2 s) [1; 0]%nat) =
  (1 - c) * at_ (mkT [s; s] im) [0; 0]%nat + c * at_ (mkT [s; s] im) [0; 1]%nat.
Proof.
  intros Hs. exists (gs_coord GsBorder s (lin s 1)). split; [apply linear_coord_big; assumption|].
  rewrite grid_R2_at by lia. unfold gs2, axis2, gs_linear. cbn [v2x v2y map2].
  rewrite !coord_first by lia. set (c := gs_coord GsBorder s (lin s 1)).
  change [0; c] with (map INR [0]%nat ++ [c]).
  rewrite gs_corners_last by (try (intros; ring); apply linear_coord_big; assumption).
  cbn [rev app map].
  change [Z.of_nat 0; 0%Z] with (map Z.of_nat [0; 0]%nat).
  change [Z.of_nat 0; 1%Z] with (map Z.of_nat [0; 1]%nat).
  rewrite !gs_read_nat by (repeat apply valid_cons; try lia; apply valid_nil). ring.
Qed.

(** *** mask values *)
Lemma half_small s : (3 <= s)%nat -> 0 <= lin s (s / 2) <= / 3.
Proof.
  intros Hs. destruct (Nat.Even_or_Odd s) as [[m ->]|[m ->]].
  - assert (2 <= m)%nat by lia. replace (2 * m / 2)%nat with m by (rewrite Nat.mul_comm, Nat.div_mul; lia).
    assert (2 <= INR m) by (apply (le_INR 2); assumption).
    assert (lin (2 * m) m = / (2 * INR m - 1)) as ->.
    { unfold lin. rewrite minus_INR, mult_INR by lia. simpl (INR 2). simpl (INR 1). field. lra. }
    split; [left; apply Rinv_0_lt_compat; lra|]. apply Rinv_le_contravar; lra.
  - replace ((2 * m + 1) / 2)%nat with m.
    + rewrite lin_mid by lia. lra.
    + rewrite Nat.add_comm, Nat.mul_comm, Nat.div_add by lia. simpl. reflexivity.
Qed.

Lemma corner_sq s i : (1 <= s)%nat -> (i = 0 \/ i = s - 1)%nat -> lin s i * lin s i = 1.
Proof.
  intros Hs Hi. destruct (Nat.eq_dec s 1) as [->|].
  - destruct Hi as [->| ->]; simpl; rewrite lin_1; ring.
  - destruct Hi as [->| ->]; [rewrite lin_0 by lia|rewrite lin_last by lia]; ring.
Qed.
Lemma corner_dropped_3 s i j k : (1 <= s)%nat -> (i = 0 \/ i = s - 1)%nat -> (j = 0 \/ j = s - 1)%nat ->
  (k = 0 \/ k = s - 1)%nat -> at_ (create_spherical_mask_R3 s) [i; j; k] = 0.
Proof.
  intros Hs Hi Hj Hk. rewrite mask_R3_at by (repeat apply valid_cons; try lia; apply valid_nil).
  rewrite grid_R3_at by lia. apply lt_float_0. unfold norm3, dot3; simpl. rewrite !corner_sq by assumption.
  apply Rle_not_lt. apply sq_le_sqrt; lra.
Qed.
Lemma corner_dropped_2 s i j : (1 <= s)%nat -> (i = 0 \/ i = s - 1)%nat -> (j = 0 \/ j = s - 1)%nat ->
  at_ (create_spherical_mask_R2 s) [i; j] = 0.
Proof.
  intros Hs Hi Hj. rewrite mask_R2_at by (repeat apply valid_cons; try lia; apply valid_nil).
  rewrite grid_R2_at by lia. apply lt_float_0. unfold norm2, dot2; simpl. rewrite !corner_sq by assumption.
  apply Rle_not_lt. apply sq_le_sqrt; lra.
Qed.
Lemma middle_kept_3 s : (3 <= s)%nat -> at_ (create_spherical_mask_R3 s) [s / 2; s / 2; s / 2]%nat = 1.
Proof.
  intros Hs. assert (s / 2 < s)%nat by (apply Nat.div_lt; lia).
  rewrite mask_R3_at by (repeat apply valid_cons; try assumption; apply valid_nil).
  rewrite grid_R3_at by assumption. apply lt_float_1. unfold norm3, dot3; cbn [vx vy vz].
  pose proof (half_small s Hs). set (x := lin s (s / 2)) in *. assert (x * x <= / 9) by nra. apply sqrt_lt_sq; lra.
Qed.
Lemma middle_kept_2 s : (3 <= s)%nat -> at_ (create_spherical_mask_R2 s) [s / 2; s / 2]%nat = 1.
Proof.
  intros Hs. assert (s / 2 < s)%nat by (apply Nat.div_lt; lia).
  rewrite mask_R2_at by (repeat apply valid_cons; try assumption; apply valid_nil).
  rewrite grid_R2_at by assumption. apply lt_float_1. unfold norm2, dot2; cbn [v2x v2y].
  pose proof (half_small s Hs). set (x := lin s (s / 2)) in *. assert (x * x <= / 9) by nra. apply sqrt_lt_sq; lra.
Qed.
(** Odd sizes: a cell with at most one outer index and the rest central. *)
Lemma face_kept_3 m i : (1 <= m)%nat -> (i < 2 * m + 1)%nat ->
  at_ (create_spherical_mask_R3 (2 * m + 1)) [i; m; m] = 1 /\
  at_ (create_spherical_mask_R3 (2 * m + 1)) [m; i; m] = 1 /\
  at_ (create_spherical_mask_R3 (2 * m + 1)) [m; m; i] = 1.
Proof.
  intros Hm Hi. pose proof (lin_bounds (2 * m + 1) i ltac:(lia) Hi) as Hb.
  rewrite !mask_R3_at by (repeat apply valid_cons; try lia; apply valid_nil).
  rewrite !grid_R3_at by lia. rewrite !lt_float_1. unfold norm3, dot3; cbn [vx vy vz].
  rewrite lin_mid by assumption. set (x := lin (2 * m + 1) i) in *. assert (x * x <= 1) by nra.
  split; [|split]; (apply sqrt_lt_sq; lra).
Qed.
Lemma face_kept_2 m i : (1 <= m)%nat -> (i < 2 * m + 1)%nat ->
  at_ (create_spherical_mask_R2 (2 * m + 1)) [i; m] = 1 /\
  at_ (create_spherical_mask_R2 (2 * m + 1)) [m; i] = 1.
Proof.
  intros Hm Hi. pose proof (lin_bounds (2 * m + 1) i ltac:(lia) Hi) as Hb.
  rewrite !mask_R2_at by (repeat apply valid_cons; try lia; apply valid_nil).
  rewrite !grid_R2_at by lia. rewrite !lt_float_1. unfold norm2, dot2; cbn [v2x v2y].
  rewrite lin_mid by assumption. set (x := lin (2 * m + 1) i) in *. assert (x * x <= 1) by nra.
  split; (apply sqrt_lt_sq; lra).
Qed.

Lemma mask_sperm_3 s sp idx : (2 <= s)%nat -> sp_ok 3 sp -> valid [s; s; s] idx ->
  at_ (create_spherical_mask_R3 s) (sp_idx sp [s; s; s] idx) = at_ (create_spherical_mask_R3 s) idx.
Proof.
  intros Hs Hok Hv. pose proof (sp_idx_valid 3 sp Hok [s;s;s] [s;s;s] eq_refl (sp_shape_cube 3 sp s Hok) _ Hv).
  rewrite !mask_R3_at by assumption. rewrite <- grid_R3_sperm by assumption. rewrite norm_sp3 by assumption. reflexivity.
Qed.
Lemma mask_sperm_2 s sp idx : (2 <= s)%nat -> sp_ok 2 sp -> valid [s; s] idx ->
  at_ (create_spherical_mask_R2 s) (sp_idx sp [s; s] idx) = at_ (create_spherical_mask_R2 s) idx.
Proof.
  intros Hs Hok Hv. pose proof (sp_idx_valid 2 sp Hok [s;s] [s;s] eq_refl (sp_shape_cube 2 sp s Hok) _ Hv).
  rewrite !mask_R2_at by assumption. rewrite <- grid_R2_sperm by assumption. rewrite norm_sp2 by assumption. reflexivity.
Qed.
Lemma mask_zero_iff_3 s : (1 <= s)%nat ->
  ((forall idx, valid [s; s; s] idx -> at_ (create_spherical_mask_R3 s) idx = 0) <-> (s <= 2)%nat).
Proof.
  intros Hs. split.
  - intros H. destruct (le_lt_dec s 2); [assumption|]. exfalso.
    assert (s / 2 < s)%nat by (apply Nat.div_lt; lia).
    pose proof (H [s/2;s/2;s/2]%nat ltac:(repeat apply valid_cons; try assumption; apply valid_nil)) as Hz0.
    rewrite middle_kept_3 in Hz0 by lia. lra.
  - intros H2 idx Hv. apply valid3_inv in Hv. destruct Hv as (i & j & k & -> & Hi & Hj & Hk).
    apply corner_dropped_3; lia.
Qed.
Lemma mask_zero_iff_2 s : (1 <= s)%nat ->
  ((forall idx, valid [s; s] idx -> at_ (create_spherical_mask_R2 s) idx = 0) <-> (s <= 2)%nat).
Proof.
  intros Hs. split.
  - intros H. destruct (le_lt_dec s 2); [assumption|]. exfalso.
    assert (s / 2 < s)%nat by (apply Nat.div_lt; lia).
    pose proof (H [s/2;s/2]%nat ltac:(repeat apply valid_cons; try assumption; apply valid_nil)) as Hz0.
    rewrite middle_kept_2 in Hz0 by lia. lra.
  - intros H2 idx Hv. apply valid2_inv in Hv. destruct Hv as (i & j & -> & Hi & Hj).
    apply corner_dropped_2; lia.
Qed.
