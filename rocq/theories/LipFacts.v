(** Continuity of torch's grid_sample and of the lifting kernels in the sampling points and the group elements. *)
From Coq Require Import String ZArith Lra.
From Verif Require Import Prelude RMath Mat Tensor TensorFacts Functional FunctionalFacts SampleRn SO2 SO3 SO3Euler Kernel.
Open Scope R_scope.

(** Linear interpolation of a function on the integers. *)
Definition lin1 (f : Z -> R) (u : R) : R := (IZR (Int_part u + 1) - u) * f (Int_part u) + (u - IZR (Int_part u)) * f (Int_part u + 1)%Z.

Lemma lin1_cell f u n : IZR n <= u <= IZR n + 1 -> lin1 f u = f n + (u - IZR n) * (f (n + 1)%Z - f n).
Proof.
  intros H. unfold lin1. pose proof (floor_bounds u) as B. set (z := Int_part u) in *.
  assert (z = n \/ (z = n + 1)%Z /\ u = IZR n + 1) as [->|[-> E]].
  { assert (IZR n < IZR z + 1) as Q1 by lra. rewrite <- plus_IZR in Q1. apply lt_IZR in Q1. assert (IZR z <= IZR n + 1) as Q2 by lra. rewrite <- plus_IZR in Q2. apply le_IZR in Q2.
    destruct (Z.eq_dec z n) as [->|Hn]; [left; reflexivity|right]. assert (z = n + 1)%Z as -> by lia. split; [reflexivity|]. rewrite plus_IZR in B. lra. }
  - rewrite plus_IZR. ring.
  - rewrite !plus_IZR, E. ring.
Qed.
Lemma lin1_int f n : lin1 f (IZR n) = f n.
Proof. rewrite (lin1_cell f _ n) by lra. ring. Qed.

(** f varies by at most D altogether: its interpolation has slope at most D. *)
Lemma lin1_lipschitz_le f D u v : (forall a b, Rabs (f a - f b) <= D) -> u <= v -> Rabs (lin1 f u - lin1 f v) <= D * (v - u).
Proof.
  intros HD Huv. pose proof (floor_bounds u) as Bu. pose proof (floor_bounds v) as Bv. set (n := Int_part u) in *. set (k := Int_part v) in *.
  assert (forall m x y, IZR m <= x <= IZR m + 1 -> IZR m <= y <= IZR m + 1 -> x <= y -> Rabs (lin1 f x - lin1 f y) <= D * (y - x)) as cell.
  { intros m x y Hx Hy Hxy. rewrite (lin1_cell f x m Hx), (lin1_cell f y m Hy).
    replace (f m + (x - IZR m) * (f (m + 1)%Z - f m) - (f m + (y - IZR m) * (f (m + 1)%Z - f m))) with (- ((f (m + 1)%Z - f m) * (y - x))) by ring.
    rewrite Rabs_Ropp, Rabs_mult, (Rabs_right (y - x)) by lra. apply Rmult_le_compat_r; [lra|apply HD]. }
  destruct (Z.eq_dec n k) as [E|NE].
  - apply (cell n); rewrite ?E in *; lra.
  - assert (n < k)%Z as Hlt. { assert (IZR n < IZR k + 1) as Q by lra. rewrite <- plus_IZR in Q. apply lt_IZR in Q. lia. }
    assert (IZR (n + 1) <= IZR k) as Hle by (apply IZR_le; lia). pose proof (plus_IZR n 1) as Ep.
    pose proof (cell n u (IZR (n + 1)) ltac:(lra) ltac:(lra) ltac:(lra)) as A1. pose proof (cell k (IZR k) v ltac:(lra) ltac:(lra) ltac:(lra)) as A3.
    rewrite lin1_int in A1, A3.
    assert (Rabs (f (n + 1)%Z - f k) <= D * (IZR k - IZR (n + 1))) as A2.
    { destruct (Z.eq_dec (n + 1) k) as [<-|Hn]; [rewrite Rminus_diag_eq by reflexivity; rewrite Rabs_R0; lra|].
      assert (IZR (n + 1) + 1 <= IZR k) as Q by (rewrite <- (plus_IZR (n + 1) 1); apply IZR_le; lia).
      pose proof (HD (n + 1)%Z k) as Q1. pose proof (Rabs_pos (f (n + 1)%Z - f k)) as Q2. assert (D * 1 <= D * (IZR k - IZR (n + 1))) as Q3 by (apply Rmult_le_compat_l; lra). lra. }
    replace (lin1 f u - lin1 f v) with ((lin1 f u - f (n + 1)%Z) + (f (n + 1)%Z - f k) + (f k - lin1 f v)) by ring.
    eapply Rle_trans; [apply Rabs_triang|]. eapply Rle_trans; [apply Rplus_le_compat_r; apply Rabs_triang|]. lra.
Qed.
Lemma lin1_lipschitz f D u v : (forall a b, Rabs (f a - f b) <= D) -> Rabs (lin1 f u - lin1 f v) <= D * Rabs (u - v).
Proof.
  intros HD. destruct (Rle_dec u v) as [H|H].
  - rewrite (Rabs_left1 (u - v)) by lra. replace (- (u - v)) with (v - u) by ring. apply lin1_lipschitz_le; assumption.
  - rewrite (Rabs_minus_sym (lin1 f u)), (Rabs_right (u - v)) by lra. apply lin1_lipschitz_le; [assumption|lra].
Qed.
Lemma lin1_close f g e u : (forall z, Rabs (f z - g z) <= e) -> Rabs (lin1 f u - lin1 g u) <= e.
Proof.
  intros H. unfold lin1. pose proof (floor_bounds u) as B. set (n := Int_part u) in *. rewrite plus_IZR.
  replace ((IZR n + 1 - u) * f n + (u - IZR n) * f (n + 1)%Z - ((IZR n + 1 - u) * g n + (u - IZR n) * g (n + 1)%Z)) with ((IZR n + 1 - u) * (f n - g n) + (u - IZR n) * (f (n + 1)%Z - g (n + 1)%Z)) by ring.
  eapply Rle_trans; [apply Rabs_triang|]. rewrite !Rabs_mult, (Rabs_right (IZR n + 1 - u)), (Rabs_right (u - IZR n)) by lra.
  pose proof (Rmult_le_compat_l (IZR n + 1 - u) _ _ ltac:(lra) (H n)). pose proof (Rmult_le_compat_l (u - IZR n) _ _ ltac:(lra) (H (n + 1)%Z)). lra.
Qed.
Lemma lin1_bound f M u : (forall z, Rabs (f z) <= M) -> Rabs (lin1 f u) <= M.
Proof.
  intros H. replace (lin1 f u) with (lin1 f u - lin1 (fun _ => 0) u) by (unfold lin1; ring). apply lin1_close. intros z. rewrite Rminus_0_r. apply H.
Qed.

(** Several axes. *)
Fixpoint multi (g : list Z -> R) (cs : list R) (acc : list Z) : R :=
  match cs with [] => g (rev acc) | c :: cs' => lin1 (fun z => multi g cs' (z :: acc)) c end.
Lemma corners_multi g cs : forall w acc, gs_corners cs w acc (fun w z => w * g z) = w * multi g cs acc.
Proof.
  induction cs as [|c cs IH]; intros w acc; [reflexivity|]. cbn [gs_corners multi]. cbv zeta. rewrite !IH. unfold lin1. ring.
Qed.
Fixpoint gap (cs cs' : list R) : R := match cs, cs' with c :: r, c' :: r' => Rabs (c - c') + gap r r' | _, _ => 0 end.
Lemma multi_bound g M L cs : (forall z, List.length z = L -> Rabs (g z) <= M) -> forall acc, (List.length acc + List.length cs = L)%nat -> Rabs (multi g cs acc) <= M.
Proof.
  intros H. induction cs as [|c cs IH]; intros acc E; cbn [multi List.length] in *; [apply H; rewrite rev_length; lia|]. apply lin1_bound. intros z. apply IH. cbn [List.length]. lia.
Qed.
Lemma multi_lipschitz g M L cs : (forall z, List.length z = L -> Rabs (g z) <= M) -> forall cs' acc, List.length cs = List.length cs' -> (List.length acc + List.length cs = L)%nat ->
  Rabs (multi g cs acc - multi g cs' acc) <= 2 * M * gap cs cs'.
Proof.
  intros H. induction cs as [|c cs IH]; intros [|c' cs'] acc L' E; try discriminate; cbn [multi gap List.length] in *.
  - rewrite Rminus_diag_eq by reflexivity. rewrite Rabs_R0. lra.
  - replace (lin1 (fun z => multi g cs (z :: acc)) c - lin1 (fun z => multi g cs' (z :: acc)) c') with
      ((lin1 (fun z => multi g cs (z :: acc)) c - lin1 (fun z => multi g cs (z :: acc)) c') + (lin1 (fun z => multi g cs (z :: acc)) c' - lin1 (fun z => multi g cs' (z :: acc)) c')) by ring.
    eapply Rle_trans; [apply Rabs_triang|].
    assert (Rabs (lin1 (fun z => multi g cs (z :: acc)) c - lin1 (fun z => multi g cs (z :: acc)) c') <= 2 * M * Rabs (c - c')) as A1.
    { apply lin1_lipschitz. intros a b.
      pose proof (multi_bound g M L cs H (a :: acc) ltac:(cbn [List.length]; lia)) as Q1. pose proof (multi_bound g M L cs H (b :: acc) ltac:(cbn [List.length]; lia)) as Q2.
      pose proof (Rabs_triang (multi g cs (a :: acc)) (- multi g cs (b :: acc))) as Q3. rewrite Rabs_Ropp in Q3. unfold Rminus. lra. }
    assert (Rabs (lin1 (fun z => multi g cs (z :: acc)) c' - lin1 (fun z => multi g cs' (z :: acc)) c') <= 2 * M * gap cs cs') as A2.
    { apply lin1_close. intros z. apply IH; cbn [List.length]; lia. }
    lra.
Qed.

(** ** The placement of coordinates does not spread them. *)
Lemma clamp_lipschitz lo hi x y : Rabs (clamp x lo hi - clamp y lo hi) <= Rabs (x - y).
Proof.
  unfold clamp, Rmin, Rmax. repeat destruct (Rle_dec _ _); unfold Rabs; repeat destruct (Rcase_abs _); lra.
Qed.
Lemma reflect_lin1 n u : (0 < n)%nat -> gs_reflect n u = INR n * lin1 (fun z => if Z.even z then 0 else 1) (Rabs (u + 1 / 2) / INR n) - 1 / 2.
Proof.
  intros Hn. apply lt_INR in Hn. cbn [INR] in Hn. unfold gs_reflect, lin1. cbv zeta. set (x := Rabs (u + 1 / 2)). set (f := Int_part (x / INR n)).
  rewrite Z.even_add. change (Z.even 1) with false. rewrite plus_IZR.
  destruct (Z.even f); cbn [Bool.eqb]; field; lra.
Qed.
Lemma reflect_lipschitz n x y : (0 < n)%nat -> Rabs (gs_reflect n x - gs_reflect n y) <= Rabs (x - y).
Proof.
  intros Hn. rewrite !reflect_lin1 by exact Hn. apply lt_INR in Hn. cbn [INR] in Hn. set (f := fun z => if Z.even z then 0 else 1).
  set (a := Rabs (x + 1 / 2)). set (b := Rabs (y + 1 / 2)).
  replace (INR n * lin1 f (a / INR n) - 1 / 2 - (INR n * lin1 f (b / INR n) - 1 / 2)) with (INR n * (lin1 f (a / INR n) - lin1 f (b / INR n))) by ring.
  rewrite Rabs_mult, (Rabs_right (INR n)) by lra.
  assert (Rabs (lin1 f (a / INR n) - lin1 f (b / INR n)) <= 1 * Rabs (a / INR n - b / INR n)) as A.
  { apply lin1_lipschitz. intros p q. unfold f. destruct (Z.even p), (Z.even q); unfold Rabs; destruct (Rcase_abs _); lra. }
  replace (a / INR n - b / INR n) with ((a - b) / INR n) in A by (field; lra). unfold Rdiv in A. rewrite Rabs_mult, (Rabs_right (/ INR n)) in A by (apply Rle_ge, Rlt_le, Rinv_0_lt_compat; lra).
  apply Rle_trans with (INR n * (1 * (Rabs (a - b) * / INR n))); [apply Rmult_le_compat_l; lra|].
  replace (INR n * (1 * (Rabs (a - b) * / INR n))) with (Rabs (a - b)) by (field; lra).
  unfold a, b. replace (x - y) with ((x + 1 / 2) - (y + 1 / 2)) by ring. apply Rabs_triang_inv2.
Qed.
Lemma coord_lipschitz pm n x y : (0 < n)%nat -> Rabs (gs_coord pm n x - gs_coord pm n y) <= INR n / 2 * Rabs (x - y).
Proof.
  intros Hn. unfold gs_coord. assert (Rabs (gs_unnormalize n x - gs_unnormalize n y) = INR n / 2 * Rabs (x - y)) as E.
  { unfold gs_unnormalize. replace (((x + 1) * INR n - 1) / 2 - ((y + 1) * INR n - 1) / 2) with (INR n / 2 * (x - y)) by field.
    rewrite Rabs_mult, (Rabs_right (INR n / 2)); [reflexivity|]. pose proof (pos_INR n). lra. }
  rewrite <- E. unfold gs_place. destruct pm; [lra|apply clamp_lipschitz|]. eapply Rle_trans; [apply clamp_lipschitz|apply reflect_lipschitz; exact Hn].
Qed.

(** ** Sampling *)
Lemma Rabs_le_between x M : Rabs x <= M -> - M <= x <= M.
Proof. unfold Rabs. destruct (Rcase_abs x); lra. Qed.
Lemma gs_read_abs s im M z : 0 <= M -> List.length z = List.length s -> (forall i, valid s i -> Rabs (at_ (mkT s im) i) <= M) -> Rabs (gs_read s im z) <= M.
Proof.
  intros HM Hl H. apply Rabs_le. apply gs_read_bounds; [lra|exact Hl|]. intros i Hi. apply Rabs_le_between. apply H. exact Hi.
Qed.
Fixpoint wgap (s : list nat) (u u' : list R) : R := match s, u, u' with n :: s', x :: r, x' :: r' => INR n * Rabs (x - x') + wgap s' r r' | _, _, _ => 0 end.
Lemma gap_wgap pm s : Forall (fun n => (0 < n)%nat) s -> forall u u', List.length u = List.length s -> List.length u' = List.length s ->
  2 * gap (map2 (fun n x => gs_coord pm n x) s u) (map2 (fun n x => gs_coord pm n x) s u') <= wgap s u u'.
Proof.
  induction 1 as [|n s Hn Hs IH]; intros [|x u] [|x' u'] L L'; try discriminate; [cbn; lra|].
  cbn [map2 gap wgap]. pose proof (coord_lipschitz pm n x x' Hn). specialize (IH u u' ltac:(cbn in *; lia) ltac:(cbn in *; lia)).
  lra.
Qed.
Lemma gs_linear_lipschitz pm s im M u u' : 0 <= M -> Forall (fun n => (0 < n)%nat) s -> List.length u = List.length s -> List.length u' = List.length s ->
  (forall i, valid s i -> Rabs (at_ (mkT s im) i) <= M) ->
  Rabs (gs_linear pm s im u - gs_linear pm s im u') <= M * wgap s u u'.
Proof.
  intros HM Hs Hu Hu' H. unfold gs_linear. rewrite !corners_multi, !Rmult_1_l.
  assert (forall v : list R, List.length v = List.length s -> List.length (map2 (fun n x => gs_coord pm n x) s v) = List.length s) as Hlen.
  { clear. induction s as [|n s IH]; intros [|x v] E; try discriminate; [reflexivity|]. cbn. f_equal. apply IH. cbn in E. lia. }
  eapply Rle_trans.
  - apply (multi_lipschitz _ M (List.length s)); [intros z Hz; apply gs_read_abs; assumption|rewrite !Hlen by assumption; reflexivity|cbn [List.length]; apply Hlen; exact Hu].
  - pose proof (gap_wgap pm s Hs u u' Hu Hu') as A. apply (Rmult_le_compat_l M) in A; [|exact HM]. lra.
Qed.

Lemma gs2_lipschitz pm n m im M v v' : 0 <= M -> (0 < n)%nat -> (0 < m)%nat -> (forall i, valid [n; m] i -> Rabs (at_ (mkT [n; m] im) i) <= M) ->
  Rabs (gs2 true pm [n; m] im v - gs2 true pm [n; m] im v') <= M * (INR n * Rabs (v2y v - v2y v') + INR m * Rabs (v2x v - v2x v')).
Proof.
  intros HM Hn Hm H. unfold gs2. eapply Rle_trans; [apply (gs_linear_lipschitz pm [n; m] im M); auto|]. unfold axis2. cbn [wgap]. right. ring.
Qed.
Lemma gs3_lipschitz pm n m l im M v v' : 0 <= M -> (0 < n)%nat -> (0 < m)%nat -> (0 < l)%nat -> (forall i, valid [n; m; l] i -> Rabs (at_ (mkT [n; m; l] im) i) <= M) ->
  Rabs (gs3 true pm [n; m; l] im v - gs3 true pm [n; m; l] im v') <= M * (INR n * Rabs (vz v - vz v') + INR m * Rabs (vy v - vy v') + INR l * Rabs (vx v - vx v')).
Proof.
  intros HM Hn Hm Hl H. unfold gs3. eapply Rle_trans; [apply (gs_linear_lipschitz pm [n; m; l] im M); auto|]. unfold axis3. cbn [wgap]. right. ring.
Qed.

(** ** Sampling points of close group elements *)
Lemma sin_abs_le x : Rabs (sin x) <= Rabs x.
Proof.
  assert (forall y, 0 <= y -> Rabs (sin y) <= y) as K.
  { intros y Hy. destruct (Rle_dec y 1) as [H1|H1].
    - destruct (Req_dec y 0) as [->|Hn]; [rewrite sin_0, Rabs_R0; lra|].
      rewrite Rabs_right. { apply Rlt_le, sin_lt_x. lra. } apply Rle_ge, sin_ge_0; [lra|]. pose proof PI2_1. lra.
    - apply Rle_trans with 1; [|lra]. apply Rabs_le. pose proof (SIN_bound y). lra. }
  destruct (Rle_dec 0 x) as [H|H]; [rewrite (Rabs_right x) by lra; apply K; lra|].
  rewrite (Rabs_left x) by lra. rewrite <- (Ropp_involutive x) at 1. rewrite sin_neg, Rabs_Ropp. apply K. lra.
Qed.
Lemma sin_lipschitz a b : Rabs (sin a - sin b) <= Rabs (a - b).
Proof.
  rewrite form4, !Rabs_mult. pose proof (sin_abs_le ((a - b) / 2)) as A.
  assert (Rabs (cos ((a + b) / 2)) <= 1) as B by (apply Rabs_le; pose proof (COS_bound ((a + b) / 2)); lra).
  rewrite (Rabs_right 2) by lra. unfold Rdiv in *. rewrite (Rabs_mult (a - b)), (Rabs_right (/ 2)) in A by lra.
  pose proof (Rabs_pos (cos ((a + b) * / 2))). pose proof (Rabs_pos (sin ((a - b) * / 2))).
  assert (Rabs (cos ((a + b) * / 2)) * Rabs (sin ((a - b) * / 2)) <= 1 * (Rabs (a - b) * / 2)) by (apply Rmult_le_compat; lra). lra.
Qed.
Lemma cos_lipschitz a b : Rabs (cos a - cos b) <= Rabs (a - b).
Proof. rewrite (cos_sin a), (cos_sin b). eapply Rle_trans; [apply sin_lipschitz|]. right. f_equal. ring. Qed.

Lemma Rabs_mult_le a b A B : Rabs a <= A -> Rabs b <= B -> Rabs (a * b) <= A * B.
Proof. intros. rewrite Rabs_mult. apply Rmult_le_compat; auto using Rabs_pos. Qed.
Lemma row2_close a b a' b' x y e : Rabs (a - a') <= e -> Rabs (b - b') <= e -> Rabs x <= 1 -> Rabs y <= 1 -> Rabs (a * x + b * y - (a' * x + b' * y)) <= 2 * e.
Proof.
  intros. replace (a * x + b * y - (a' * x + b' * y)) with ((a - a') * x + (b - b') * y) by ring. eapply Rle_trans; [apply Rabs_triang|].
  pose proof (Rabs_mult_le (a - a') x e 1). pose proof (Rabs_mult_le (b - b') y e 1). lra.
Qed.
Lemma row3_close a b c a' b' c' x y z e : Rabs (a - a') <= e -> Rabs (b - b') <= e -> Rabs (c - c') <= e -> Rabs x <= 1 -> Rabs y <= 1 -> Rabs z <= 1 ->
  Rabs (a * x + b * y + c * z - (a' * x + b' * y + c' * z)) <= 3 * e.
Proof.
  intros. replace (a * x + b * y + c * z - (a' * x + b' * y + c' * z)) with ((a * x + b * y - (a' * x + b' * y)) + (c - c') * z) by ring. eapply Rle_trans; [apply Rabs_triang|].
  pose proof (row2_close a b a' b' x y e). pose proof (Rabs_mult_le (c - c') z e 1). lra.
Qed.

Lemma lin_abs s i : (i < s)%nat -> Rabs (lin s i) <= 1.
Proof.
  intros H. unfold lin. apply Rabs_le. destruct (Nat.eq_dec s 1) as [->|Hs].
  - replace i with 0%nat by lia. cbn. unfold Rdiv. rewrite Rmult_0_l. lra.
  - assert (0 < INR (s - 1)) as P by (apply lt_0_INR; lia). pose proof (pos_INR i). assert (INR i <= INR (s - 1)) as Q by (apply le_INR; lia).
    assert (0 <= INR i / INR (s - 1)) by (apply Rmult_le_pos; [lra|apply Rlt_le, Rinv_0_lt_compat, P]).
    assert (INR i / INR (s - 1) <= 1) by (apply Rmult_le_reg_r with (INR (s - 1)); [exact P|]; unfold Rdiv; rewrite Rmult_assoc, Rinv_l by lra; lra). lra.
Qed.
Lemma lt_float_abs x y : Rabs (lt_float x y) <= 1.
Proof. unfold lt_float. destruct (Rlt_dec x y); apply Rabs_le; lra. Qed.
Lemma masked_close m u v e : Rabs m <= 1 -> Rabs (u - v) <= e -> Rabs (m * u - m * v) <= e.
Proof. intros. replace (m * u - m * v) with (m * (u - v)) by ring. pose proof (Rabs_mult_le m (u - v) 1 e). lra. Qed.
Lemma signed_div c u v e : c = 1 \/ c = -1 -> Rabs (u - v) <= e -> Rabs (u / c - v / c) <= e.
Proof.
  intros [->| ->] H; [unfold Rdiv; rewrite Rinv_1, !Rmult_1_r; exact H|].
  replace (u / -1 - v / -1) with (- (u - v)) by field. rewrite Rabs_Ropp. exact H.
Qed.

Lemma rot2_close s i j t t' e : (i < s)%nat -> (j < s)%nat -> Rabs (t - t') <= e ->
  Rabs (v2x (app2 (so2_angle_to_matrix t) (at_ (create_grid_R2 s) [i; j])) - v2x (app2 (so2_angle_to_matrix t') (at_ (create_grid_R2 s) [i; j]))) <= 2 * e /\
  Rabs (v2y (app2 (so2_angle_to_matrix t) (at_ (create_grid_R2 s) [i; j])) - v2y (app2 (so2_angle_to_matrix t') (at_ (create_grid_R2 s) [i; j]))) <= 2 * e.
Proof.
  intros Hi Hj H. rewrite grid_R2_at by assumption. pose proof (lin_abs s i Hi). pose proof (lin_abs s j Hj). pose proof (sin_lipschitz t t'). pose proof (cos_lipschitz t t').
  unfold app2, so2_angle_to_matrix. cbn [v2x v2y b00 b01 b10 b11]. split; apply row2_close; try assumption; try lra.
  replace (- sin t - - sin t') with (- (sin t - sin t')) by ring. rewrite Rabs_Ropp. lra.
Qed.
Lemma rot3_close s i j k r r' e : (i < s)%nat -> (j < s)%nat -> (k < s)%nat -> close3 e r r' ->
  Rabs (vx (app3 (tr3 r) (at_ (create_grid_R3 s) [i; j; k])) - vx (app3 (tr3 r') (at_ (create_grid_R3 s) [i; j; k]))) <= 3 * e /\
  Rabs (vy (app3 (tr3 r) (at_ (create_grid_R3 s) [i; j; k])) - vy (app3 (tr3 r') (at_ (create_grid_R3 s) [i; j; k]))) <= 3 * e /\
  Rabs (vz (app3 (tr3 r) (at_ (create_grid_R3 s) [i; j; k])) - vz (app3 (tr3 r') (at_ (create_grid_R3 s) [i; j; k]))) <= 3 * e.
Proof.
  intros Hi Hj Hk H. rewrite grid_R3_at by assumption. pose proof (lin_abs s i Hi). pose proof (lin_abs s j Hj). pose proof (lin_abs s k Hk).
  unfold close3, entries3 in H. repeat match goal with A : Forall2 _ (_ :: _) _ |- _ => inversion A; clear A; subst end.
  unfold app3, tr3. cbn [vx vy vz a00 a01 a02 a10 a11 a12 a20 a21 a22]. repeat split; apply row3_close; assumption.
Qed.

(** ** Kernels *)
Lemma bilinear_R2 pm smp : sample_R2 "bilinear" pm = Ok smp -> exists p, smp = gs2 true p.
Proof. unfold sample_R2. cbn. destruct (gs_pad pm) as [p|]; cbn; intros [= <-]; eauto. Qed.
Lemma bilinear_R3 pm smp : sample_R3 "bilinear" pm = Ok smp -> exists p, smp = gs3 true p.
Proof. unfold sample_R3. cbn. destruct (gs_pad pm) as [p|]; cbn; intros [= <-]; eauto. Qed.
Lemma slice_read (t : tensor R) s pre x : valid s x -> at_ (mkT s (slice t s pre)) x = at_ t (pre ++ x).
Proof.
  intros H. change (mkT s (slice t s pre)) with (build s (fun y => at_ t (pre ++ y))). rewrite at_build by assumption. reflexivity.
Qed.

Lemma sample2_close pm s weight M o c u u' e : 0 <= M -> 0 <= e -> (0 < s)%nat ->
  (forall x y, (x < s)%nat -> (y < s)%nat -> Rabs (at_ weight [o; c; x; y]) <= M) ->
  Rabs (v2x u - v2x u') <= 2 * e -> Rabs (v2y u - v2y u') <= 2 * e ->
  Rabs (gs2 true pm [s; s] (slice weight [s; s] [o; c]) u - gs2 true pm [s; s] (slice weight [s; s] [o; c]) u') <= 4 * INR s * M * e.
Proof.
  intros HM He Hs HW Hx Hy. eapply Rle_trans; [apply (gs2_lipschitz pm s s _ M); auto|].
  - intros i Hi. rewrite slice_read by exact Hi. destruct (valid_inv_cons _ _ _ Hi) as (x & p & -> & Hx0 & Hp). destruct (valid_inv_cons _ _ _ Hp) as (y & q & -> & Hy0 & Hq).
    rewrite (valid_inv_nil _ Hq). apply HW; assumption.
  - replace (4 * INR s * M * e) with (M * (INR s * (2 * e) + INR s * (2 * e))) by ring. pose proof (pos_INR s).
    apply Rmult_le_compat_l; [exact HM|]. apply Rplus_le_compat; apply Rmult_le_compat_l; assumption.
Qed.
Lemma sample3_close pm s weight M o c u u' e : 0 <= M -> 0 <= e -> (0 < s)%nat ->
  (forall x y z, (x < s)%nat -> (y < s)%nat -> (z < s)%nat -> Rabs (at_ weight [o; c; x; y; z]) <= M) ->
  Rabs (vx u - vx u') <= 3 * e -> Rabs (vy u - vy u') <= 3 * e -> Rabs (vz u - vz u') <= 3 * e ->
  Rabs (gs3 true pm [s; s; s] (slice weight [s; s; s] [o; c]) u - gs3 true pm [s; s; s] (slice weight [s; s; s] [o; c]) u') <= 9 * INR s * M * e.
Proof.
  intros HM He Hs HW Hx Hy Hz. eapply Rle_trans; [apply (gs3_lipschitz pm s s s _ M); auto|].
  - intros i Hi. rewrite slice_read by exact Hi. destruct (valid_inv_cons _ _ _ Hi) as (x & p & -> & Hx0 & Hp). destruct (valid_inv_cons _ _ _ Hp) as (y & q & -> & Hy0 & Hq).
    destruct (valid_inv_cons _ _ _ Hq) as (z & r & -> & Hz0 & Hr). rewrite (valid_inv_nil _ Hr). apply HW; assumption.
  - replace (9 * INR s * M * e) with (M * (INR s * (3 * e) + INR s * (3 * e) + INR s * (3 * e))) by ring. pose proof (pos_INR s).
    apply Rmult_le_compat_l; [exact HM|]. apply Rplus_le_compat; [apply Rplus_le_compat|]; apply Rmult_le_compat_l; assumption.
Qed.
Lemma scal_close c x y e : c = 1 \/ c = -1 -> Rabs (x - y) <= e -> Rabs (c * x - c * y) <= e.
Proof.
  intros [->| ->] H; [rewrite !Rmult_1_l; exact H|]. replace (-1 * x - -1 * y) with (- (x - y)) by ring. rewrite Rabs_Ropp. exact H.
Qed.

(** ** Nearest sampling at the corner of the kernel *)
Lemma rne_half : rne (- (1 / 2)) = 0%Z.
Proof.
  unfold rne. assert (Int_part (- (1 / 2)) = (-1)%Z) as ->.
  { pose proof (floor_bounds (- (1 / 2))) as [A B]. set (z := Int_part _) in *. assert (IZR z < 0) as Q by lra. apply lt_IZR in Q.
    assert (IZR (-2) < IZR z) as Q' by lra. apply lt_IZR in Q'. lia. }
  destruct (Rlt_dec _ _) as [H|H]; [lra|]. destruct (Rlt_dec _ _) as [H'|H']; [lra|]. reflexivity.
Qed.
Lemma rne_below x : x < - (1 / 2) -> (rne x < 0)%Z.
Proof.
  intros H. unfold rne. pose proof (floor_bounds x) as [A B]. set (f := Int_part x) in *.
  assert (f < 0)%Z as F by (apply lt_IZR; lra).
  assert (~ x - IZR f < 1 / 2 -> (f + 1 < 0)%Z) as K. { intros N. apply lt_IZR. rewrite plus_IZR. lra. }
  cbv zeta. destruct (Rlt_dec _ _); [exact F|]. destruct (Rlt_dec _ _); [apply K; assumption|]. destruct (Z.even f); [exact F|apply K; assumption].
Qed.
Lemma nearest_corner_id s im : (0 < s)%nat -> gs2 false GsZeros [s; s] im (mkV2 (-1) (-1)) = at_ (mkT [s; s] im) [0; 0]%nat.
Proof.
  intros Hs. unfold gs2, gs_nearest, axis2, gs_coord, gs_place. cbn [v2x v2y map2].
  assert (gs_unnormalize s (-1) = - (1 / 2)) as -> by (unfold gs_unnormalize; field). rewrite rne_half.
  unfold gs_read. cbn [combine forallb fst snd]. assert (in_range s 0 = true) as -> by (apply in_range_iff; lia). reflexivity.
Qed.
Lemma nearest_outside s im x y : x < -1 -> (0 < s)%nat -> gs2 false GsZeros [s; s] im (mkV2 x y) = 0.
Proof.
  intros Hx Hs. unfold gs2, gs_nearest, axis2, gs_coord, gs_place. cbn [v2x v2y map2].
  assert (gs_unnormalize s x < - (1 / 2)) as Q.
  { unfold gs_unnormalize. assert (0 < INR s) by (apply lt_0_INR; lia). assert ((x + 1) * INR s < 0 * INR s) by (apply Rmult_lt_compat_r; lra). lra. }
  apply rne_below in Q. unfold gs_read. cbn [combine forallb fst snd].
  assert (in_range s (rne (gs_unnormalize s x)) = false) as ->; [|rewrite andb_false_r; reflexivity].
  unfold in_range. assert (Z.leb 0 (rne (gs_unnormalize s x)) = false) as -> by (apply Z.leb_gt; exact Q). reflexivity.
Qed.
Lemma cos_sin_gt t : 0 < t < PI / 2 -> 1 < cos t + sin t.
Proof.
  intros H. assert (0 < cos t) by (apply cos_gt_0; lra). assert (0 < sin t) by (apply sin_gt_0; lra).
  pose proof (sin2_cos2 t) as E. unfold Rsqr in E. assert (0 < sin t * cos t) by (apply Rmult_lt_0_compat; assumption).
  apply Rnot_le_lt. intros N. assert ((cos t + sin t) * (cos t + sin t) <= 1 * 1) by (apply Rmult_le_compat; lra). lra.
Qed.
