(** Proofs about the padding modes of grid_sample: what points outside the image read. *)
From Coq Require Import String ZArith.
From Verif Require Import Prelude RMath Mat Repulse Interp Tensor TensorFacts Functional FunctionalFacts Kernel KernelFacts SampleRn ResampleFacts.
Open Scope R_scope.

(** The triangular wave without the absolute value. *)
Definition fold_wave (n : nat) (x : R) : R :=
  let q := Int_part (x / INR n) in let r := x - INR n * IZR q in if Z.even q then r else INR n - r.

Section Wave.
Context (n : nat) (Hn : (0 < n)%nat).
Let Np : 0 < INR n. Proof. apply lt_0_INR. exact Hn. Qed.
Lemma div_n x : x / INR n * INR n = x. Proof using Hn. pose proof Np. field. lra. Qed.

Lemma fold_wave_neg x : fold_wave n (- x) = fold_wave n x.
Proof using Hn.
  pose proof Np as HN. unfold fold_wave. set (t := x / INR n). replace (- x / INR n) with (- t) by (unfold t; field; lra).
  assert (x = t * INR n) as Ex by (unfold t; rewrite div_n; reflexivity).
  pose proof (floor_bounds t) as B. set (q := Int_part t) in *.
  destruct (Req_dec t (IZR q)) as [E|E].
  - rewrite (Int_part_unique (- t) (- q)) by (rewrite opp_IZR; lra). rewrite Z.even_opp, opp_IZR. rewrite Ex, E. destruct (Z.even q); ring.
  - rewrite (Int_part_unique (- t) (- q - 1)) by (rewrite minus_IZR, opp_IZR; lra).
    replace (Z.even (- q - 1)) with (negb (Z.even q)) by (rewrite Z.even_sub, Z.even_opp; destruct (Z.even q); reflexivity).
    rewrite minus_IZR, opp_IZR. destruct (Z.even q); cbn [negb]; ring.
Qed.
Lemma fold_wave_period x : fold_wave n (x + 2 * INR n) = fold_wave n x.
Proof using Hn.
  pose proof Np as HN. unfold fold_wave. set (t := x / INR n). replace ((x + 2 * INR n) / INR n) with (t + 2) by (unfold t; field; lra).
  pose proof (floor_bounds t) as B. set (q := Int_part t) in *. rewrite (Int_part_unique (t + 2) (q + 2)) by (rewrite plus_IZR; lra).
  rewrite Z.even_add, plus_IZR. change (Z.even 2) with true. destruct (Z.even q); cbn [Bool.eqb]; ring.
Qed.
Lemma reflect_wave u : gs_reflect n u = fold_wave n (u + 1 / 2) - 1 / 2.
Proof using Hn.
  assert (gs_reflect n u = fold_wave n (Rabs (u + 1 / 2)) - 1 / 2) as ->.
  { unfold gs_reflect, fold_wave. cbv zeta. destruct (Z.even _); ring. }
  unfold Rabs. destruct (Rcase_abs (u + 1 / 2)); [rewrite fold_wave_neg|]; reflexivity.
Qed.
(** Mirror images at the two borders -1/2 and n - 1/2. *)
Lemma reflect_low u : gs_reflect n (- 1 - u) = gs_reflect n u.
Proof using Hn. rewrite !reflect_wave. replace (- 1 - u + 1 / 2) with (- (u + 1 / 2)) by field. rewrite fold_wave_neg. reflexivity. Qed.
Lemma reflect_high u : gs_reflect n (2 * INR n - 1 - u) = gs_reflect n u.
Proof using Hn.
  rewrite !reflect_wave. replace (2 * INR n - 1 - u + 1 / 2) with (- (u + 1 / 2) + 2 * INR n) by field. rewrite fold_wave_period, fold_wave_neg. reflexivity.
Qed.
Lemma unnorm_low x : gs_unnormalize n (- 2 - x) = - 1 - gs_unnormalize n x. Proof using. unfold gs_unnormalize. field. Qed.
Lemma unnorm_high x : gs_unnormalize n (2 - x) = 2 * INR n - 1 - gs_unnormalize n x. Proof using. unfold gs_unnormalize. field. Qed.
Lemma coord_mirror x : gs_coord GsReflect n (- 2 - x) = gs_coord GsReflect n x /\ gs_coord GsReflect n (2 - x) = gs_coord GsReflect n x.
Proof using Hn. unfold gs_coord, gs_place. rewrite unnorm_low, unnorm_high, reflect_low, reflect_high. auto. Qed.
Lemma coord_inside x : -1 <= x <= 1 -> gs_coord GsReflect n x = gs_coord GsBorder n x.
Proof using Hn.
  pose proof Np as HN. intros Hx. unfold gs_coord, gs_place. rewrite reflect_inside; [reflexivity|lia|]. unfold gs_unnormalize.
  assert (0 <= (x + 1) * INR n <= 2 * INR n); [|lra]. split; [apply Rmult_le_pos; lra|apply Rmult_le_compat_r; lra].
Qed.
Lemma coord_border x : gs_coord GsBorder n x = gs_coord GsBorder n (Rmax (-1) (Rmin 1 x)).
Proof using Hn.
  pose proof Np as HN. assert (1 <= INR n) as H1 by (change 1 with (INR 1); apply le_INR; lia). unfold gs_coord, gs_place.
  destruct (Rle_dec x (-1)) as [A|A].
  - rewrite (Rmin_right 1 x), (Rmax_left (-1) x) by lra.
    rewrite !clamp_lo; [reflexivity| | | |]; unfold gs_unnormalize; try lra. assert ((x + 1) * INR n <= 0 * INR n) by (apply Rmult_le_compat_r; lra). lra.
  - destruct (Rle_dec 1 x) as [B|B].
    + rewrite (Rmin_left 1 x), (Rmax_right (-1) 1) by lra.
      rewrite !clamp_hi; [reflexivity| | | |]; unfold gs_unnormalize; try lra. assert (2 * INR n <= (x + 1) * INR n) by (apply Rmult_le_compat_r; lra). lra.
    + rewrite (Rmin_right 1 x), (Rmax_right (-1) x) by lra. reflexivity.
Qed.

(** Bicubic. *)
Lemma cell_mirror z : gs_cell GsReflect n (-1 - z) = gs_cell GsReflect n z /\ gs_cell GsReflect n (2 * Z.of_nat n - 1 - z) = gs_cell GsReflect n z.
Proof using Hn.
  unfold gs_cell, gs_place. split; do 2 f_equal.
  - rewrite minus_IZR. apply reflect_low.
  - rewrite !minus_IZR, mult_IZR, <- INR_IZR_INZ. apply reflect_high.
Qed.
Definition cubic_axis (pm : gs_padding) (c : R) (F : Z -> R) : R :=
  let z := Int_part c in fold_right Rplus 0 (map2 (fun k i => k * F (gs_cell pm n (z + i)%Z)) (cubic_coeffs (c - IZR z)) [-1; 0; 1; 2]%Z).
Lemma cubic_axis_mirror c c' m F : (c' = - 1 - c /\ m = (-1)%Z) \/ (c' = 2 * INR n - 1 - c /\ m = (2 * Z.of_nat n - 1)%Z) -> cubic_axis GsReflect c' F = cubic_axis GsReflect c F.
Proof using Hn.
  intros Hc. assert (c' = IZR m - c /\ forall z, gs_cell GsReflect n (m - z) = gs_cell GsReflect n z) as [Ec Hm].
  { destruct Hc as [[-> ->]|[-> ->]].
    - split; [reflexivity|]. intros z. exact (proj1 (cell_mirror z)).
    - split; [rewrite minus_IZR, mult_IZR, <- INR_IZR_INZ; reflexivity|]. intros z. exact (proj2 (cell_mirror z)). }
  clear Hc. unfold cubic_axis. pose proof (floor_bounds c) as B. set (z := Int_part c) in *. cbv zeta.
  destruct (Req_dec c (IZR z)) as [E|E].
  - rewrite (Int_part_unique c' (m - z)) by (rewrite minus_IZR; lra). rewrite Ec, minus_IZR. replace (IZR m - c - (IZR m - IZR z)) with 0 by lra. replace (c - IZR z) with 0 by lra.
    cbn [cubic_coeffs map2 fold_right]. rewrite !Z.add_0_r, (Hm z).
    assert (cubic2 (0 + 1) = 0) as -> by (unfold cubic2; field). assert (cubic1 (1 - 0) = 0) as -> by (unfold cubic1; field). assert (cubic2 (2 - 0) = 0) as -> by (unfold cubic2; field). ring.
  - rewrite (Int_part_unique c' (m - z - 1)) by (rewrite !minus_IZR; lra). rewrite Ec, !minus_IZR. replace (IZR m - c - (IZR m - IZR z - 1)) with (1 - (c - IZR z)) by ring.
    cbn [cubic_coeffs map2 fold_right]. set (t := c - IZR z).
    replace (m - z - 1 + -1)%Z with (m - (z + 2))%Z by lia. replace (m - z - 1 + 0)%Z with (m - (z + 1))%Z by lia.
    replace (m - z - 1 + 1)%Z with (m - (z + 0))%Z by lia. replace (m - z - 1 + 2)%Z with (m - (z + -1))%Z by lia. rewrite !Hm.
    replace (1 - t + 1) with (2 - t) by ring. replace (1 - (1 - t)) with t by ring. replace (2 - (1 - t)) with (t + 1) by ring. ring.
Qed.
End Wave.

Lemma gs_cubic_axes pm a b im u0 u1 : gs_cubic pm [a; b] im [u0; u1] =
  cubic_axis a pm (gs_unnormalize a u0) (fun za => cubic_axis b pm (gs_unnormalize b u1) (fun zb => gs_read [a; b] im [za; zb])).
Proof. reflexivity. Qed.

Lemma gs_linear_ext pm pm' s im u u' : List.length u = List.length s -> List.length u' = List.length s ->
  map2 (fun n x => gs_coord pm n x) s u = map2 (fun n x => gs_coord pm' n x) s u' -> gs_linear pm s im u = gs_linear pm' s im u'.
Proof. intros _ _ E. unfold gs_linear. rewrite E. reflexivity. Qed.
Lemma nearest_as_coords pm s u : map2 (fun n x => rne (gs_coord pm n x)) s u = map rne (map2 (fun n x => gs_coord pm n x) s u).
Proof. revert u; induction s as [|n s IH]; intros [|x u]; cbn [map2 map]; try reflexivity. rewrite IH. reflexivity. Qed.
Lemma gs_nearest_ext pm pm' s im u u' : map2 (fun n x => gs_coord pm n x) s u = map2 (fun n x => gs_coord pm' n x) s u' -> gs_nearest pm s im u = gs_nearest pm' s im u'.
Proof. intros E. unfold gs_nearest. rewrite !nearest_as_coords, E. reflexivity. Qed.

(** Zeros: a coordinate a whole cell outside makes every cell read lie outside. *)
Lemma gs_read_out s im z j : (j < List.length s)%nat -> (j < List.length z)%nat -> in_range (nth j s 0%nat) (nth j z 0%Z) = false -> gs_read s im z = 0.
Proof.
  intros H1 H2 H3. unfold gs_read. assert (forallb (fun nz => in_range (fst nz) (snd nz)) (combine s z) = false) as ->; [|reflexivity].
  revert z j H1 H2 H3; induction s as [|n s IH]; intros [|y z] j H1 H2 H3; cbn [List.length] in *; try lia.
  destruct j as [|j]; cbn [nth combine forallb fst snd] in *; [rewrite H3; reflexivity|]. rewrite (IH z j) by (try lia; exact H3). apply Bool.andb_false_r.
Qed.
Lemma corner_terms_out cs : forall (s s0 : list nat) w acc t j, In t (corner_terms cs w acc) -> List.length acc = List.length s0 -> List.length cs = List.length s -> (j < List.length s)%nat ->
  (nth j cs 0 <= -1 \/ INR (nth j s 0%nat) <= nth j cs 0) -> fst t = 0 \/ in_range (nth j s 0%nat) (nth (List.length s0 + j) (snd t) 0%Z) = false.
Proof.
  assert (forall cs w acc t, In t (corner_terms cs w acc) -> fst t <> 0 -> exists r, snd t = rev acc ++ r /\ List.length r = List.length cs /\ forall j, (j < List.length cs)%nat ->
    (nth j r 0%Z = Int_part (nth j cs 0) \/ nth j r 0%Z = (Int_part (nth j cs 0%R) + 1)%Z /\ nth j cs 0 <> IZR (Int_part (nth j cs 0)))) as K.
  { induction cs0 as [|c cs0 IH]; intros w acc t Ht Hf.
    - cbn [corner_terms] in Ht. destruct Ht as [<-|[]]. exists []. cbn [snd]. rewrite app_nil_r. split; [reflexivity|]. split; [reflexivity|]. cbn. intros; lia.
    - cbn [corner_terms] in Ht. cbv zeta in Ht. apply in_app_iff in Ht.
      assert (exists y, In t (corner_terms cs0 (if Z.eqb y (Int_part c) then w * (IZR (Int_part c + 1) - c) else w * (c - IZR (Int_part c))) (y :: acc)) /\ (y = Int_part c \/ y = (Int_part c + 1)%Z)) as (y & Hy & Hyc).
      { destruct Ht as [Ht|Ht]; [exists (Int_part c); rewrite Z.eqb_refl; auto|exists (Int_part c + 1)%Z]. destruct (Z.eqb_spec (Int_part c + 1) (Int_part c)); [lia|auto]. }
      destruct (IH _ _ _ Hy Hf) as (r & Er & Lr & Vr). exists (y :: r). cbn [rev] in Er. rewrite <- app_assoc in Er. split; [exact Er|]. split; [cbn [List.length]; lia|].
      intros [|j] Hj; cbn [nth List.length] in *; [|apply Vr; lia]. destruct Hyc as [->| ->]; [left; reflexivity|]. right. split; [reflexivity|]. intros E.
      apply Hf. destruct (Z.eqb_spec (Int_part c + 1) (Int_part c)); [lia|]. replace (c - IZR (Int_part c)) with 0 in Hy by lra. rewrite Rmult_0_r in Hy.
      clear - Hy. revert t Hy. generalize ((Int_part c + 1)%Z :: acc). induction cs0 as [|c' cs0 IH]; intros l t Ht; cbn [corner_terms] in Ht; [destruct Ht as [<-|[]]; reflexivity|].
      cbv zeta in Ht. rewrite !Rmult_0_l in Ht. apply in_app_iff in Ht. destruct Ht as [Ht|Ht]; eapply IH; exact Ht. }
  intros s s0 w acc t j Ht La Lc Hj Ho. destruct (Req_dec (fst t) 0) as [E|E]; [left; exact E|]. right.
  destruct (K _ _ _ _ Ht E) as (r & Er & Lr & Vr). rewrite Er, app_nth2 by (rewrite rev_length; lia). rewrite rev_length. replace (List.length s0 + j - List.length acc)%nat with j by lia.
  pose proof (Vr j ltac:(lia)) as V. pose proof (floor_bounds (nth j cs 0)) as B. set (c := nth j cs 0) in *. set (m := nth j s 0%nat) in *.
  apply Bool.not_true_is_false. intros Q. apply in_range_iff in Q. destruct Q as [Q1 Q2].
  apply IZR_le in Q1. apply IZR_lt in Q2. rewrite <- INR_IZR_INZ in Q2.
  destruct V as [V1|[V1 V]]; rewrite V1 in Q1, Q2.
  - destruct Ho as [Ho|Ho]; [lra|]. rewrite INR_IZR_INZ in Q2, Ho. apply lt_IZR in Q2. assert (Int_part c + 1 <= Z.of_nat m)%Z as L by lia. apply IZR_le in L. rewrite plus_IZR in L. lra.
  - rewrite plus_IZR in *. destruct Ho as [Ho|Ho]; [|lra]. apply V. lra.
Qed.
Lemma linear_outside s im u j : List.length u = List.length s -> (j < List.length s)%nat ->
  (gs_unnormalize (nth j s 0%nat) (nth j u 0) <= -1 \/ INR (nth j s 0%nat) <= gs_unnormalize (nth j s 0%nat) (nth j u 0)) -> gs_linear GsZeros s im u = 0.
Proof.
  intros Hl Hj Ho. rewrite linear_has_terms. unfold eval, linear_terms. set (cs := map2 (fun n x => gs_coord GsZeros n x) s u).
  assert (List.length cs = List.length s) as Lc by (unfold cs; rewrite map2_length; lia).
  assert (nth j cs 0 = gs_unnormalize (nth j s 0%nat) (nth j u 0)) as Ej.
  { unfold cs. clear - Hl Hj. revert u j Hl Hj. induction s as [|n s IH]; intros [|x u] j Hl Hj; cbn [List.length] in *; try lia. destruct j; cbn [map2 nth]; [reflexivity|]. apply IH; lia. }
  assert (forall t, In t (corner_terms cs 1 []) -> fst t * gs_read s im (snd t) = 0) as K.
  { intros t Ht. destruct (corner_terms_out cs s [] 1 [] t j Ht eq_refl Lc Hj) as [->|Q]; [rewrite Ej; exact Ho|ring|].
    rewrite (gs_read_out s im (snd t) j); [ring|exact Hj| |exact Q]. rewrite (corner_terms_length _ _ _ _ Ht), Lc. cbn [List.length]. lia. }
  revert K. generalize (corner_terms cs 1 []). intros l K. induction l as [|t l IH]; [reflexivity|]. cbn [map]. unfold sumR in *. cbn [fold_right]. rewrite IH by (intros; apply K; right; assumption).
  rewrite K by (left; reflexivity). ring.
Qed.
Lemma nearest_outside s im u j : List.length u = List.length s -> (j < List.length s)%nat ->
  (gs_unnormalize (nth j s 0%nat) (nth j u 0) <= -1 \/ INR (nth j s 0%nat) <= gs_unnormalize (nth j s 0%nat) (nth j u 0)) -> gs_nearest GsZeros s im u = 0.
Proof.
  intros Hl Hj Ho. unfold gs_nearest. apply (gs_read_out _ _ _ j); [exact Hj|rewrite map2_length; lia|].
  assert (nth j (map2 (fun n x => rne (gs_coord GsZeros n x)) s u) 0%Z = rne (gs_unnormalize (nth j s 0%nat) (nth j u 0))) as ->.
  { clear Ho. revert u j Hl Hj. induction s as [|n s IH]; intros [|x u] j Hl Hj; cbn [List.length] in *; try lia. destruct j; cbn [map2 nth]; [reflexivity|]. apply IH; lia. }
  set (c := gs_unnormalize _ _) in *. pose proof (floor_bounds c) as B. apply Bool.not_true_is_false. intros Q. apply in_range_iff in Q. destruct Q as [Q1 Q2].
  assert (rne c = Int_part c \/ rne c = (Int_part c + 1)%Z /\ 1 / 2 <= c - IZR (Int_part c)) as V.
  { unfold rne. destruct (Rlt_dec _ _); [auto|]. destruct (Rlt_dec _ _); [right; split; [reflexivity|lra]|]. destruct (Z.even _); [auto|right; split; [reflexivity|lra]]. }
  apply IZR_le in Q1. apply IZR_lt in Q2. rewrite <- INR_IZR_INZ in Q2.
  destruct V as [V|[V H2]]; rewrite V in Q1, Q2.
  - destruct Ho as [Ho|Ho]; [lra|]. rewrite INR_IZR_INZ in Q2, Ho. apply lt_IZR in Q2. assert (Int_part c + 1 <= Z.of_nat (nth j s 0%nat))%Z as L by lia. apply IZR_le in L. rewrite plus_IZR in L. lra.
  - rewrite plus_IZR in *. destruct Ho as [Ho|Ho]; lra.
Qed.
