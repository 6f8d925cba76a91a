(** Proofs for C100: barycentric interpolation of rotations (interpolation.py:89-142 with so3.geodesic_distance). *)
From Coq Require Import String Psatz.
From Verif Require Import Prelude RMath Mat Interp InterpFacts SO3 SO3Facts SO3More Bary BarySpec.
Open Scope R_scope.

(** ** least squares *)
Lemma Q4_ext' p q : qw p = qw q -> qx p = qx q -> qy p = qy q -> qz p = qz q -> p = q.
Proof. destruct p, q; cbn. intros; congruence. Qed.

Lemma gap_nonneg p q : 0 <= gap p q.
Proof.
  unfold gap. pose proof (pow2_ge_0 (qw p - qw q)). pose proof (pow2_ge_0 (qx p - qx q)).
  pose proof (pow2_ge_0 (qy p - qy q)). pose proof (pow2_ge_0 (qz p - qz q)). lra.
Qed.

Lemma gap_zero p q : gap p q <= 0 -> p = q.
Proof.
  unfold gap. intros H.
  pose proof pow2_ge_0 as S2.
  pose proof (S2 (qw p - qw q)). pose proof (S2 (qx p - qx q)). pose proof (S2 (qy p - qy q)). pose proof (S2 (qz p - qz q)).
  assert (Z : forall u : R, u ^ 2 <= 0 -> u = 0) by (intros; nra).
  apply Q4_ext'; apply Rminus_diag_uniq, Z; lra.
Qed.

Lemma gap_self p : gap p p = 0.
Proof. unfold gap. ring. Qed.

Lemma comb_inj t t' x y z : independent x y z -> combination t x y z = combination t' x y z -> t = t'.
Proof.
  intros I E. destruct t as [[a b] c], t' as [[a' b'] c'].
  destruct (I (a - a') (b - b') (c - c')) as (A & B & C).
  { unfold combination in *. injection E as E1 E2 E3 E4. f_equal; lra. }
  f_equal; [f_equal|]; lra.
Qed.

(** The least squares solution is the only one. *)
Lemma minimiser_unique x y z n t t' : independent x y z ->
  (forall u, gap n (combination t x y z) <= gap n (combination u x y z)) ->
  gap n (combination t' x y z) <= gap n (combination t x y z) -> t' = t.
Proof.
  intros I H H'. destruct t as [[a b] c], t' as [[a' b'] c'].
  apply (comb_inj _ _ x y z I). apply gap_zero.
  pose proof (H ((a + a') / 2, (b + b') / 2, (c + c') / 2)) as M.
  assert (P : gap n (combination ((a + a') / 2, (b + b') / 2, (c + c') / 2) x y z)
    = (gap n (combination (a, b, c) x y z) + gap n (combination (a', b', c') x y z)) / 2
      - gap (combination (a', b', c') x y z) (combination (a, b, c) x y z) / 4).
  { unfold gap, combination. cbn [qw qx qy qz]. field. }
  rewrite P in M. lra.
Qed.

Lemma comb_neg t x y z n : gap (qneg n) (combination t x y z) =
  gap n (combination (let '(a, b, c) := t in (- a, - b, - c)) x y z).
Proof. destruct t as [[a b] c]. unfold gap, combination, qneg. cbn [qw qx qy qz]. ring. Qed.

Section LS.
  Context (lstsq : Q4 -> Q4 -> Q4 -> Q4 -> R * R * R) (L : least_squares lstsq).

  Lemma lstsq_neg x y z n a b c : independent x y z -> lstsq x y z n = (a, b, c) ->
    lstsq x y z (qneg n) = (- a, - b, - c).
  Proof using L.
    intros I E. destruct (lstsq x y z (qneg n)) as [[a' b'] c'] eqn:E'.
    assert (U : (- a', - b', - c') = (a, b, c)).
    { apply (minimiser_unique x y z n); [assumption| |].
      - intros u. rewrite <- E. apply L. assumption.
      - pose proof (L x y z (qneg n) I (- a, - b, - c)) as K. rewrite E', !comb_neg in K.
        cbn beta iota in K. rewrite !Ropp_involutive in K. exact K. }
    injection U as A B C. f_equal; [f_equal|]; lra.
  Qed.

  Lemma lstsq_vertex x y z : independent x y z -> lstsq x y z x = (1, 0, 0).
  Proof using L.
    intros I. assert (Z : gap x (combination (1, 0, 0) x y z) = 0).
    { unfold gap, combination. cbn [qw qx qy qz]. ring. }
    apply (minimiser_unique x y z x); [assumption| |].
    - intros u. rewrite Z. apply gap_nonneg.
    - apply L. assumption.
  Qed.

  (** Linear isometries of the quaternions do not change the coefficients. *)
  Lemma lstsq_isometry (f : Q4 -> Q4) x y z n :
    (forall t a b c, f (combination t a b c) = combination t (f a) (f b) (f c)) ->
    (forall a b, gap (f a) (f b) = gap a b) ->
    independent x y z -> lstsq (f x) (f y) (f z) (f n) = lstsq x y z n.
  Proof using L.
    intros F G I.
    assert (I' : independent (f x) (f y) (f z)).
    { intros a b c E. apply I. apply gap_zero.
      assert (Z : mkQ 0 0 0 0 = combination (0, 0, 0) x y z) by (unfold combination; f_equal; ring).
      rewrite Z, <- G, !F, E.
      replace (combination (0, 0, 0) (f x) (f y) (f z)) with (mkQ 0 0 0 0) by (unfold combination; f_equal; ring).
      rewrite gap_self. lra. }
    apply (minimiser_unique x y z n); [assumption|intros; apply L; assumption|].
    rewrite <- (G n), <- (G n), !F. apply L. assumption.
  Qed.
End LS.

(** ** the tolerance of interpolate_BCC *)
Lemma cos_small : 1 - so3_eps < cos (/ 10 ^ 6).
Proof.
  assert (P : 3 < PI) by (pose proof PI2_3_2; lra).
  pose proof (cos_bound (/ 10 ^ 6) 0) as B. cbn [mult plus] in B.
  destruct B as [B _]; [lra|lra|].
  eapply Rlt_le_trans; [|exact B]. unfold so3_eps, cos_approx, cos_term. cbn -[pow]. simpl. lra.
Qed.

Lemma tolerance_unreachable p q : / 10 ^ 6 < so3_geodesic_distance p q so3_eps.
Proof.
  unfold so3_geodesic_distance. assert (E : 0 < so3_eps < 1) by (unfold so3_eps; lra).
  pose proof (clamp_bounds (Rabs (qdot p q)) (-1 + so3_eps) (1 - so3_eps) ltac:(lra)) as B.
  pose proof cos_small as C. assert (P : 3 < PI) by (pose proof PI2_3_2; lra).
  rewrite <- (acos_cos (/ 10 ^ 6)) at 1 by lra.
  assert (cos (/ 10 ^ 6) <= 1) by (apply COS_bound).
  apply acos_decr_lt; lra.
Qed.

(** ** rows *)
Definition row_of (S : nat) (w : option (R * R * R)) (si sj sk : list R) : list (option R) :=
  map (fun t => match w with
                | Some (a, b, c) => Some (a * nth t si 0 + b * nth t sj 0 + c * nth t sk 0)
                | None => None
                end) (seq 0 S).

Lemma ieee_rows {G} T (HT : torch_ok T) (dist : G -> G -> R) lstsq eps D S nodes grid signal :
  (3 <= D)%nat -> (3 <= length grid)%nat -> length signal = length grid ->
  exists out, interpolate_BCC_ieee T dist lstsq eps D S nodes grid signal = Ok out /\
  length out = length nodes /\
  forall p n, nth_error nodes p = Some n ->
  exists i j k gi gj gk si sj sk,
    te_top3 T (map (fun b => dist n b) grid) = (i, j, k) /\
    nth_error grid i = Some gi /\ nth_error grid j = Some gj /\ nth_error grid k = Some gk /\
    nth_error signal i = Some si /\ nth_error signal j = Some sj /\ nth_error signal k = Some sk /\
    i <> j /\ i <> k /\ j <> k /\
    dist n gi <= dist n gj <= dist n gk /\
    (forall m g, nth_error grid m = Some g -> m <> i -> m <> j -> dist n gk <= dist n g) /\
    nth_error out p = Some (row_of S (bcc_weights_ieee eps (dist n gi) (lstsq gi gj gk n)) si sj sk).
Proof.
  intros HD H3 Hlen. unfold interpolate_BCC_ieee.
  destruct (Nat.ltb_spec D 3) as [Hlt|_]; [lia|].
  destruct (Nat.ltb_spec (length grid) 3) as [Hlt|_]; [lia|].
  match goal with |- exists out, mapM ?f nodes = _ /\ _ => set (F := f) end.
  assert (HF : forall n, exists i j k gi gj gk si sj sk,
    te_top3 T (map (fun b => dist n b) grid) = (i, j, k) /\
    nth_error grid i = Some gi /\ nth_error grid j = Some gj /\ nth_error grid k = Some gk /\
    nth_error signal i = Some si /\ nth_error signal j = Some sj /\ nth_error signal k = Some sk /\
    i <> j /\ i <> k /\ j <> k /\
    dist n gi <= dist n gj <= dist n gk /\
    (forall m g, nth_error grid m = Some g -> m <> i -> m <> j -> dist n gk <= dist n g) /\
    F n = Ok (row_of S (bcc_weights_ieee eps (dist n gi) (lstsq gi gj gk n)) si sj sk)).
  { intros n.
    destruct (ok_top3 T HT (map (fun b => dist n b) grid)) as
      (i & j & k & va & vb & vc & Htop & Hij & Hik & Hjk & Ha & Hb & Hc & Hord & Hrest).
    { rewrite map_length; assumption. }
    apply nth_error_map_inv in Ha as (gi & Hgi & ->).
    apply nth_error_map_inv in Hb as (gj & Hgj & ->).
    apply nth_error_map_inv in Hc as (gk & Hgk & ->).
    assert (Hsig : forall q g, nth_error grid q = Some g -> exists s, nth_error signal q = Some s).
    { intros q g Hq. apply nth_error_Some_lt in Hq. rewrite <- Hlen in Hq.
      destruct (nth_error signal q) eqn:E; [eauto|]. apply nth_error_None in E. lia. }
    destruct (Hsig _ _ Hgi) as [si Hsi]. destruct (Hsig _ _ Hgj) as [sj Hsj].
    destruct (Hsig _ _ Hgk) as [sk Hsk].
    exists i, j, k, gi, gj, gk, si, sj, sk.
    do 9 (split; [assumption|]). split; [assumption|]. split; [assumption|]. split.
    - intros m g Hm Hmi Hmj. apply (Hrest m); try assumption.
      rewrite nth_error_map, Hm. reflexivity.
    - unfold F. rewrite Htop, nth_error_map, Hgi, Hgj, Hgk, Hsi, Hsj, Hsk. reflexivity. }
  destruct (mapM_ok_all F nodes) as [out Hout].
  { intros n _. destruct (HF n) as (i & j & k & gi & gj & gk & si & sj & sk & _ & _ & _ & _ & _ & _ & _ & _ & _ & _ & _ & _ & E).
    eauto. }
  exists out. split; [assumption|]. split; [apply mapM_length in Hout; assumption|].
  intros p n Hp. destruct (mapM_nth _ _ _ _ _ Hout Hp) as (r & Hr & Hr').
  destruct (HF n) as (i & j & k & gi & gj & gk & si & sj & sk & E0 & E1 & E2 & E3 & E4 & E5 & E6 & E7 & E8 & E9 & E10 & E11 & E).
  rewrite E in Hr. injection Hr as <-.
  exists i, j, k, gi, gj, gk, si, sj, sk. do 12 (split; [assumption|]). exact Hr'.
Qed.

(** Where no NaN arises, the real-number model of the same lines agrees. *)
Lemma ieee_agrees {G} T (dist : G -> G -> R) lstsq eps D S nodes grid signal out :
  interpolate_BCC_ieee T dist lstsq eps D S nodes grid signal = Ok (map (map Some) out) ->
  interpolate_BCC T dist lstsq eps D S nodes grid signal = Ok out.
Proof.
  unfold interpolate_BCC_ieee, interpolate_BCC. destruct (Nat.ltb (length grid) 3); [discriminate|].
  revert out. induction nodes as [|n nodes IH]; intros out H; cbn [mapM] in *.
  - injection H as H. destruct out; [reflexivity|discriminate].
  - destruct (te_top3 T (map (fun b => dist n b) grid)) as [[i j] k].
    destruct (Nat.ltb D 3); [discriminate|].
    destruct (nth_error (map (fun b => dist n b) grid) i) as [d|]; [|discriminate].
    destruct (nth_error grid i); [|discriminate]. destruct (nth_error grid j); [|discriminate].
    destruct (nth_error grid k); [|discriminate]. destruct (nth_error signal i); [|discriminate].
    destruct (nth_error signal j); [|discriminate]. destruct (nth_error signal k); [|discriminate].
    cbn [of_option bind] in *.
    match type of H with (bind ?m _) = _ => destruct m as [ys|] eqn:E; [|discriminate] end.
    cbn [bind] in H. injection H as H. destruct out as [|row out]; [discriminate|]. cbn [map] in H.
    injection H as H1 H2. subst ys. rewrite (IH _ eq_refl). cbn [bind].
    unfold bcc_weights_ieee in H1. unfold bcc_weights.
    match goal with |- context [if Rle_dec d eps then ?u else ?v] => set (w := if Rle_dec d eps then u else v) in * end.
    destruct w as [[a b] c]. cbv zeta in *.
    match type of H1 with context [Req_EM_T ?s 0] => destruct (Req_EM_T s 0) as [Z|Z] end.
    + destruct S as [|S]; cbn [seq map] in *; [destruct row; [reflexivity|discriminate]|destruct row; discriminate].
    + match goal with |- bind (Ok ?m) _ = _ => assert (Er : m = row); [|rewrite Er; reflexivity] end.
      clear - H1. revert H1. generalize (seq 0 S). intros ll. revert row.
      induction ll as [|t ll IHl]; intros row H1; destruct row as [|v row]; try discriminate; [reflexivity|].
      cbn [map] in *. injection H1 as H2 H3. rewrite (IHl _ H3). f_equal. exact H2.
Qed.

(** ** rotations *)
Definition rdist (p q : Q4) : R := so3_geodesic_distance p q so3_eps.

Lemma weights_coeffs (d a b c : R) : / 10 ^ 6 < d ->
  bcc_weights_ieee (/ 10 ^ 6) d (a, b, c) =
  if Req_EM_T (Rmax a 0 + Rmax b 0 + Rmax c 0) 0 then None
  else Some (Rmax a 0 / (Rmax a 0 + Rmax b 0 + Rmax c 0), Rmax b 0 / (Rmax a 0 + Rmax b 0 + Rmax c 0), Rmax c 0 / (Rmax a 0 + Rmax b 0 + Rmax c 0)).
Proof.
  intros H. unfold bcc_weights_ieee. destruct (Rle_dec d (/ 10 ^ 6)); [lra|].
  assert (P : forall x : R, (if Rlt_dec x 0 then 0 else x) = Rmax x 0).
  { intros x. destruct (Rlt_dec x 0); [rewrite Rmax_right by lra|rewrite Rmax_left by lra]; reflexivity. }
  cbv zeta. rewrite !P. reflexivity.
Qed.

Lemma row_average S (d a b c : R) si sj sk : / 10 ^ 6 < d ->
  row_of S (bcc_weights_ieee (/ 10 ^ 6) d (a, b, c)) si sj sk
  = average S (Rmax a 0) (Rmax b 0) (Rmax c 0) si sj sk.
Proof.
  intros H. rewrite weights_coeffs by assumption. unfold row_of, average. apply map_ext. intros t.
  destruct (Req_EM_T (Rmax a 0 + Rmax b 0 + Rmax c 0) 0) as [Z|Z]; [reflexivity|]. f_equal. field. exact Z.
Qed.

Lemma average_none S si sj sk : average S 0 0 0 si sj sk = repeat None S.
Proof.
  unfold average. destruct (Req_EM_T (0 + 0 + 0) 0) as [_|N]; [|exfalso; apply N; ring].
  generalize 0%nat at 1. induction S as [|S IH]; intros n; [reflexivity|]. cbn [seq map repeat]. f_equal. apply IH.
Qed.

Lemma average_first S si sj sk : length si = S -> average S 1 0 0 si sj sk = map Some si.
Proof.
  intros E. unfold average. destruct (Req_EM_T (1 + 0 + 0) 0) as [N|_]; [lra|].
  apply nth_error_ext. intros q. rewrite !nth_error_map.
  destruct (Nat.lt_ge_cases q S) as [Hq|Hq].
  - rewrite nth_error_seq by assumption. cbn [option_map plus].
    destruct (nth_error si q) as [v|] eqn:Ev; [|apply nth_error_None in Ev; lia].
    rewrite (nth_error_nth _ _ _ Ev). cbn [option_map]. do 2 f_equal. field.
  - rewrite (proj2 (nth_error_None (seq 0 S) q)) by (rewrite seq_length; lia).
    rewrite (proj2 (nth_error_None si q)) by lia. reflexivity.
Qed.

Lemma rdist_neg p q : rdist (qneg p) q = rdist p q /\ rdist p (qneg q) = rdist p q.
Proof. apply geo_neg. Qed.

Lemma qneg_neg q : qneg (qneg q) = q.
Proof. destruct q. unfold qneg. cbn. rewrite !Ropp_involutive. reflexivity. Qed.

(** The distance at a grid node is the smallest possible one, and strictly smaller than to any other node. *)
Lemma rdist_apart g p q i j : told_apart g -> i <> j -> nth_error g i = Some p -> nth_error g j = Some q ->
  rdist p p < rdist p q.
Proof.
  intros [U A] N Ei Ej. unfold rdist. pose proof (A _ _ _ _ N Ei Ej) as B.
  assert (E : 0 < so3_eps < 1) by (unfold so3_eps; lra).
  rewrite geo_self by (try assumption; apply U; eapply nth_error_In; eassumption).
  unfold so3_geodesic_distance. change (/ 10 ^ 7) with so3_eps in B.
  pose proof (Rabs_pos (qdot p q)).
  rewrite clamp_id by lra. apply acos_decr_lt; lra.
Qed.

Section Rot.
  Context (T : torch_env) (HT : torch_ok T) (lstsq : Q4 -> Q4 -> Q4 -> Q4 -> R * R * R) (L : least_squares lstsq).
  Context (S : nat) (grid : list Q4) (signal : mat).
  Context (P : general_position grid) (H3 : (3 <= length grid)%nat) (Hs : length signal = length grid).

  Lemma two_quaternions nodes : exists out,
    interpolate_BCC_ieee T rdist lstsq (/ 10 ^ 6) 4 S nodes grid signal = Ok out /\
    length out = length nodes /\
    forall r q, nth_error nodes r = Some q ->
    exists i j k gi gj gk si sj sk a b c,
      i <> j /\ i <> k /\ j <> k /\
      nth_error grid i = Some gi /\ nth_error grid j = Some gj /\ nth_error grid k = Some gk /\
      nth_error signal i = Some si /\ nth_error signal j = Some sj /\ nth_error signal k = Some sk /\
      rdist q gi <= rdist q gj <= rdist q gk /\
      (forall m g, nth_error grid m = Some g -> m <> i -> m <> j -> rdist q gk <= rdist q g) /\
      (forall t, gap q (combination (a, b, c) gi gj gk) <= gap q (combination t gi gj gk)) /\
      nth_error out r = Some (average S (Rmax a 0) (Rmax b 0) (Rmax c 0) si sj sk) /\
      forall r', nth_error nodes r' = Some (qneg q) ->
        nth_error out r' = Some (average S (Rmax (- a) 0) (Rmax (- b) 0) (Rmax (- c) 0) si sj sk).
  Proof using HT L P H3 Hs.
    destruct (ieee_rows T HT rdist lstsq (/ 10 ^ 6) 4 S nodes grid signal) as (out & E & Len & R); try assumption; [lia|].
    exists out. split; [assumption|]. split; [assumption|]. intros r q Hr.
    destruct (R r q Hr) as (i & j & k & gi & gj & gk & si & sj & sk & E0 & E1 & E2 & E3 & E4 & E5 & E6 & E7 & E8 & E9 & E10 & E11 & Er).
    assert (I : independent gi gj gk) by (apply (P i j k); assumption).
    destruct (lstsq gi gj gk q) as [[a b] c] eqn:El.
    exists i, j, k, gi, gj, gk, si, sj, sk, a, b, c.
    do 9 (split; [assumption|]). split; [assumption|]. split; [assumption|]. split.
    { intros t. rewrite <- El. apply L. assumption. }
    split. { rewrite Er, row_average by apply tolerance_unreachable. reflexivity. }
    intros r' Hr'.
    destruct (R r' (qneg q) Hr') as (i' & j' & k' & gi' & gj' & gk' & si' & sj' & sk' & F0 & F1 & F2 & F3 & F4 & F5 & F6 & F7 & F8 & F9 & _ & _ & Fr).
    assert (Em : map (fun b => rdist (qneg q) b) grid = map (fun b => rdist q b) grid).
    { apply map_ext. intros x. apply rdist_neg. }
    rewrite Em, E0 in F0. injection F0 as <- <- <-.
    rewrite E1 in F1. injection F1 as <-. rewrite E2 in F2. injection F2 as <-. rewrite E3 in F3. injection F3 as <-.
    rewrite E4 in F4. injection F4 as <-. rewrite E5 in F5. injection F5 as <-. rewrite E6 in F6. injection F6 as <-.
    rewrite (lstsq_neg lstsq L gi gj gk q a b c I El) in Fr.
    rewrite Fr, row_average by apply tolerance_unreachable. reflexivity.
  Qed.

  (** At the rotations of the grid itself. *)
  Lemma on_grid nodes (A : told_apart grid) (W : forall s, In s signal -> length s = S) : exists out,
    interpolate_BCC_ieee T rdist lstsq (/ 10 ^ 6) 4 S nodes grid signal = Ok out /\
    length out = length nodes /\
    forall r m g s, nth_error grid m = Some g -> nth_error signal m = Some s ->
      (nth_error nodes r = Some g -> nth_error out r = Some (map Some s)) /\
      (nth_error nodes r = Some (qneg g) -> nth_error out r = Some (repeat None S)).
  Proof using HT L P H3 Hs.
    destruct (ieee_rows T HT rdist lstsq (/ 10 ^ 6) 4 S nodes grid signal) as (out & E & Len & R); try assumption; [lia|].
    exists out. split; [assumption|]. split; [assumption|]. intros r m g s Hg Hsm.
    assert (K : forall n, (n = g \/ n = qneg g) -> nth_error nodes r = Some n ->
      exists gj gk sj sk, independent g gj gk /\
      nth_error out r = Some (row_of S (bcc_weights_ieee (/ 10 ^ 6) (rdist n g) (lstsq g gj gk n)) s sj sk)).
    { intros n Hn Hr.
      destruct (R r n Hr) as (i & j & k & gi & gj & gk & si & sj & sk & E0 & E1 & E2 & E3 & E4 & E5 & E6 & E7 & E8 & E9 & E10 & E11 & Er).
      assert (Ed : forall x, rdist n x = rdist g x).
      { intros x. destruct Hn as [->| ->]; [reflexivity|apply rdist_neg]. }
      assert (M : m = i).
      { destruct (Nat.eq_dec m i) as [|Nmi]; [assumption|exfalso].
        pose proof (rdist_apart grid g gi m i A Nmi Hg E1) as D.
        rewrite !Ed in E10.
        assert (rdist g gi <= rdist g g).
        { destruct (Nat.eq_dec m j) as [->|Nmj]; [rewrite Hg in E2; injection E2 as <-; lra|].
          pose proof (E11 m g Hg Nmi Nmj) as X. rewrite !Ed in X. lra. }
        lra. }
      subst i. rewrite Hg in E1. injection E1 as <-. rewrite Hsm in E4. injection E4 as <-.
      exists gj, gk, sj, sk. split; [apply (P m j k); assumption|exact Er]. }
    assert (Ls : length s = S) by (apply W; eapply nth_error_In; eassumption).
    split; intros Hr.
    - destruct (K g (or_introl eq_refl) Hr) as (gj & gk & sj & sk & I & Er).
      rewrite (lstsq_vertex lstsq L g gj gk I), row_average in Er by apply tolerance_unreachable.
      rewrite Er. f_equal. rewrite (Rmax_left 1 0), (Rmax_left 0 0) by lra. apply average_first. assumption.
    - destruct (K (qneg g) (or_intror eq_refl) Hr) as (gj & gk & sj & sk & I & Er).
      rewrite (lstsq_neg lstsq L g gj gk g 1 0 0 I (lstsq_vertex lstsq L g gj gk I)), row_average in Er by apply tolerance_unreachable.
      rewrite Er. f_equal. rewrite Ropp_0, (Rmax_right (- (1)) 0), (Rmax_left 0 0) by lra. apply average_none.
  Qed.
End Rot.

(** ** isometries *)
Lemma qmul_left_comb r t x y z : qmul r (combination t x y z) = combination t (qmul r x) (qmul r y) (qmul r z).
Proof. destruct t as [[a b] c]. unfold qmul, combination. cbn [qw qx qy qz]. apply Q4_ext'; cbn [qw qx qy qz]; ring. Qed.
Lemma qmul_right_comb r t x y z : qmul (combination t x y z) r = combination t (qmul x r) (qmul y r) (qmul z r).
Proof. destruct t as [[a b] c]. unfold qmul, combination. cbn [qw qx qy qz]. apply Q4_ext'; cbn [qw qx qy qz]; ring. Qed.
Lemma gap_left r x y : unitq r -> gap (qmul r x) (qmul r y) = gap x y.
Proof.
  unfold unitq. intros U. replace (gap (qmul r x) (qmul r y)) with (qdot r r * gap x y); [rewrite U; ring|].
  unfold gap, qmul, qdot. cbn [qw qx qy qz]. ring.
Qed.
Lemma gap_right r x y : unitq r -> gap (qmul x r) (qmul y r) = gap x y.
Proof.
  unfold unitq. intros U. replace (gap (qmul x r) (qmul y r)) with (qdot r r * gap x y); [rewrite U; ring|].
  unfold gap, qmul, qdot. cbn [qw qx qy qz]. ring.
Qed.

Lemma BCC_isometry T (HT : torch_ok T) lstsq (L : least_squares lstsq) (f : Q4 -> Q4) eps S nodes grid signal :
  (forall t a b c, f (combination t a b c) = combination t (f a) (f b) (f c)) ->
  (forall a b, gap (f a) (f b) = gap a b) -> (forall a b, rdist (f a) (f b) = rdist a b) ->
  general_position grid ->
  interpolate_BCC_ieee T rdist lstsq eps 4 S (map f nodes) (map f grid) signal
  = interpolate_BCC_ieee T rdist lstsq eps 4 S nodes grid signal.
Proof.
  intros F G D P. unfold interpolate_BCC_ieee. rewrite map_length.
  destruct (Nat.ltb_spec (length grid) 3) as [|H3]; [reflexivity|].
  rewrite mapM_map. apply mapM_ext. intros n _. rewrite map_map.
  replace (map (fun x => rdist (f n) (f x)) grid) with (map (fun b => rdist n b) grid)
    by (apply map_ext; intros; symmetry; apply D).
  destruct (ok_top3 T HT (map (fun b => rdist n b) grid)) as
    (i & j & k & va & vb & vc & Htop & Hij & Hik & Hjk & _).
  { rewrite map_length; assumption. }
  rewrite Htop, !nth_error_map. cbn [Nat.ltb Nat.leb].
  destruct (nth_error grid i) as [gi|] eqn:Ei; [|reflexivity]. destruct (nth_error grid j) as [gj|] eqn:Ej; [|reflexivity].
  destruct (nth_error grid k) as [gk|] eqn:Ek; [|reflexivity]. cbn [option_map of_option bind].
  rewrite (lstsq_isometry lstsq L f gi gj gk n F G (P i j k gi gj gk Hij Hik Hjk Ei Ej Ek)). reflexivity.
Qed.

(** ** the other two interpolations do not see the sign *)
Lemma dist_rows (nodes nodes' grid grid' : list Q4) :
  Forall2 same_rotation nodes nodes' -> Forall2 same_rotation grid grid' ->
  map (fun a => map (fun b => rdist a b) grid') nodes' = map (fun a => map (fun b => rdist a b) grid) nodes.
Proof.
  intros Hn Hg. induction Hn as [|p q nodes nodes' E _ IH]; [reflexivity|]. cbn [map]. f_equal; [|exact IH].
  clear IH. induction Hg as [|a b grid grid' E' _ IH]; [reflexivity|]. cbn [map]. f_equal; [|exact IH].
  destruct E as [->| ->], E' as [->| ->]; rewrite ?(proj1 (rdist_neg _ _)), ?(proj2 (rdist_neg _ _)); reflexivity.
Qed.

Lemma NN_signs {Row} T (nodes nodes' grid grid' : list Q4) (signal : list Row) :
  Forall2 same_rotation nodes nodes' -> Forall2 same_rotation grid grid' ->
  interpolate_NN T rdist nodes' grid' signal = interpolate_NN T rdist nodes grid signal.
Proof.
  intros Hn Hg. unfold interpolate_NN.
  destruct Hg as [|a b grid grid' E Hg]; [reflexivity|].
  assert (Hg' : Forall2 same_rotation (a :: grid) (b :: grid')) by (constructor; assumption).
  pose proof (dist_rows _ _ _ _ Hn Hg') as D. clear Hg'. revert D.
  generalize (a :: grid) (b :: grid'). intros g g' D.
  induction Hn as [|p q nodes nodes' _ _ IH]; [reflexivity|].
  cbn [map] in D. injection D as D1 D2. cbn [mapM]. rewrite D1, (IH D2). reflexivity.
Qed.

Lemma RBF_signs T rbf width S (nodes nodes' grid grid' : list Q4) signal :
  Forall2 same_rotation nodes nodes' -> Forall2 same_rotation grid grid' ->
  interpolate_RBF T rdist rbf width S nodes' grid' signal = interpolate_RBF T rdist rbf width S nodes grid signal.
Proof. intros Hn Hg. apply RBF_dist_ext; apply dist_rows; assumption. Qed.

(** A node within the tolerance of a grid element. *)
Lemma within_tolerance (G : Type) (T : torch_env) (dist : G -> G -> R) (lstsq : G -> G -> G -> G -> R * R * R) (eps : R) (D S : nat)
    (nodes grid : list G) (signal : mat) (out : list (list (option R))) (p : nat) (n g : G) :
  torch_ok T -> length signal = length grid ->
  interpolate_BCC_ieee T dist lstsq eps D S nodes grid signal = Ok out ->
  nth_error nodes p = Some n -> In g grid -> dist n g <= eps ->
  exists i gi si, nth_error grid i = Some gi /\ nth_error signal i = Some si /\
    (forall h, In h grid -> dist n gi <= dist n h) /\
    nth_error out p = Some (map (fun t => Some (nth t si 0)) (seq 0 S)).
Proof.
  intros HT HL Hout Hn Hg Hd. unfold interpolate_BCC_ieee in Hout. destruct (Nat.ltb_spec (length grid) 3) as [|L3]; [discriminate|].
  destruct (mapM_nth _ _ _ _ _ Hout Hn) as (r & Hr & Hr').
  destruct (ok_top3 T HT (map (fun b => dist n b) grid)) as (i & j & k & a & b & c & E & Nij & Nik & Njk & Ei & Ej & Ek & Hab & Hc); [rewrite map_length; exact L3|].
  cbv zeta in Hr. rewrite E in Hr. destruct (Nat.ltb D 3); [discriminate|]. rewrite Ei in Hr. cbn [of_option bind] in Hr.
  rewrite nth_error_map in Ei. destruct (nth_error grid i) as [gi|] eqn:Eg; [|discriminate]. injection Ei as Ea.
  destruct (nth_error grid j) as [gj|] eqn:Egj; [|discriminate]. destruct (nth_error grid k) as [gk|]; [|discriminate].
  destruct (nth_error signal i) as [si|] eqn:Es; [|discriminate]. destruct (nth_error signal j) as [sj|]; [|discriminate]. destruct (nth_error signal k) as [sk|]; [|discriminate].
  cbn [of_option bind] in Hr. rewrite nth_error_map, Egj in Ej. injection Ej as Eb.
  assert (forall h, In h grid -> dist n gi <= dist n h) as Hmin.
  { intros h Hh. apply In_nth_error in Hh as [m Hm]. destruct (Nat.eq_dec m i) as [->|Nmi]; [rewrite Eg in Hm; injection Hm as <-; lra|].
    destruct (Nat.eq_dec m j) as [->|Nmj]; [rewrite Egj in Hm; injection Hm as <-; lra|].
    specialize (Hc m (dist n h)). rewrite nth_error_map, Hm in Hc. specialize (Hc eq_refl Nmi Nmj). lra. }
  exists i, gi, si. split; [exact Eg|]. split; [exact Es|]. split; [exact Hmin|]. rewrite Hr'. injection Hr as <-. f_equal.
  pose proof (Hmin g Hg). unfold bcc_weights_ieee. destruct (Rle_dec a eps) as [_|F]; [|exfalso; apply F; lra].
  destruct (Rlt_dec 1 0); [lra|]. destruct (Rlt_dec 0 0); [lra|]. destruct (Req_EM_T (1 + 0 + 0) 0); [lra|].
  apply map_ext. intros t. f_equal. field.
Qed.
