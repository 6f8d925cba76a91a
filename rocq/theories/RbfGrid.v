(** From the integer certificates (RbfCert.v) to the RBF matrices of the default SO(3) grids. *)
From Coq Require Import ZArith Lia Lra Psatz.
From Verif Require Import Prelude RMath Mat Interp InterpFacts SO3 O3 Repulse GridTables Kernel RbfCert LinAlg SolveSpec RbfSpec RbfSound.
Open Scope R_scope.

Definition is_acos (d : R) (num den : Z) : Prop := (0 <= num)%Z /\ (0 < den)%Z /\ d = acos (clamped num den).

Lemma max_ge l : forall v, In v l -> (v <= fold_right Z.max 0 l)%Z.
Proof. induction l as [|x l IH]; intros v Hv; [destruct Hv|]. cbn [fold_right]. destruct Hv as [<-|Hv]; [lia|]. specialize (IH v Hv). lia. Qed.

(** Symmetric matrices given by their strict upper triangle. *)
Definition triangle {A} (n : nat) (h : list (list A)) : Prop := length h = n /\ forall i, (i < n)%nat -> length (nth i h []) = (n - i - 1)%nat.
Definition tri (h : list (list Z)) (i j : nat) : Z := nth (j - i - 1) (nth i h []) 0%Z.
Lemma tri_map {A} (f : Z -> A) n h i j d : triangle n h -> (i < j)%nat -> (j < n)%nat -> nth (j - i - 1) (nth i (map (map f) h) []) d = f (tri h i j).
Proof.
  intros [L R] Hi Hj. rewrite (nth_indep _ [] (map f [])) by (rewrite map_length; lia). rewrite (map_nth (map f)).
  rewrite (nth_indep _ d (f 0%Z)) by (rewrite map_length, R; lia). rewrite (map_nth f). reflexivity.
Qed.
Lemma sym_map {A} (f : Z -> A) n h a d i j : triangle n h -> (i < n)%nat -> (j < n)%nat ->
  (i = j /\ sym a d (map (map f) h) i j = a) \/ (i < j)%nat /\ sym a d (map (map f) h) i j = f (tri h i j) \/ (j < i)%nat /\ sym a d (map (map f) h) i j = f (tri h j i).
Proof.
  intros T Hi Hj. unfold sym. destruct (Nat.compare_spec i j) as [E|L|G].
  - left. split; [exact E|reflexivity].
  - right. left. split; [exact L|]. apply (tri_map f n); assumption.
  - right. right. split; [exact G|]. apply (tri_map f n); assumption.
Qed.
Lemma sym_sym {A} (a d : A) h i j : sym a d h i j = sym a d h j i.
Proof. unfold sym. rewrite (Nat.compare_antisym i j). destruct (Nat.compare i j); reflexivity. Qed.
Lemma square_nth {A} n (f : nat -> nat -> A) i j d : (i < n)%nat -> (j < n)%nat -> nth j (nth i (square_of n f) []) d = f i j.
Proof.
  intros Hi Hj. unfold square_of. rewrite (nth_indep _ [] (map (f 0%nat) (seq 0 n))) by (rewrite map_length, seq_length; exact Hi).
  rewrite (map_nth (fun i => map (f i) (seq 0 n))). rewrite seq_nth by exact Hi. rewrite (nth_indep _ d (f i 0%nat)) by (rewrite map_length, seq_length; exact Hj).
  rewrite (map_nth (f i)). rewrite seq_nth by exact Hj. reflexivity.
Qed.
Lemma square_length {A} n (f : nat -> nat -> A) : length (square_of n f) = n.
Proof. unfold square_of. rewrite map_length, seq_length. reflexivity. Qed.
Lemma square_rows {A} n (f : nat -> nat -> A) r : In r (square_of n f) -> length r = n.
Proof. unfold square_of. intros H. apply in_map_iff in H. destruct H as (i & <- & _). rewrite map_length, seq_length. reflexivity. Qed.

Definition gauss_matrix (D : list (list R)) (w : R) : mat := map (map (fun d => RBF_gauss d w)) D.
Definition default_of (W : list (list R)) : R := 8 / 10 * meanR (map (fun r => nth 1 (sortR r) 0) W).
(** The distances D lie in the boxes given by the hints. *)
Definition dent (D : list (list R)) (i j : nat) : R := nth j (nth i D []) 0.
Definition enclosed (n : nat) (D : list (list R)) (h : list (list Z)) : Prop :=
  triangle n h /\ (forall i, (i < n)%nat -> inb (dent D i i) least) /\
  forall i j, (i < j)%nat -> (j < n)%nat -> inb (dent D i j) (at_box (tri h i j)) /\ inb (dent D j i) (at_box (tri h i j)).
Lemma at_box_nonneg t : (0 <= fst (at_box t))%Z.
Proof. unfold at_box. cbn [fst]. lia. Qed.

Lemma certify_sound n D W h wb b beta : (0 <= beta)%Z -> length D = n -> Forall (fun r => length r = n) D -> enclosed n D h ->
  Forall2 (fun r x => (2 <= length r)%nat /\ Forall2 inb r x) W wb -> W <> [] ->
  certify n h wb b beta = true ->
  0 < default_of W /\
  nonsingular n (gauss_matrix D (default_of W)) /\
  forall x y e, sys n (ent (gauss_matrix D (default_of W))) x y -> 0 <= e -> (forall i, (i < n)%nat -> Rabs (y i) <= e) ->
    forall j, (j < n)%nat -> Rabs (x j) <= 2 * IZR beta * e.
Proof.
  intros Hbeta LDn LD (T & Hdiag & Hoff) HW NW E. unfold certify in E. cbv zeta in E.
  set (bw := width_box wb) in *. set (k := factor_box bw) in *. set (G := fun t => gauss_box k (at_box t)) in *. set (gd := gauss_box k least) in *.
  set (e := Z.max (spread gd) (fold_right Z.max 0%Z (map spread (concat (map (map G) h))))) in *.
  assert (map (map fst) (map (map G) h) = map (map (fun t => fst (G t))) h) as Em. { rewrite map_map. apply map_ext. intros r. rewrite map_map. reflexivity. }
  rewrite Em in E. set (m := square_of n (sym (fst gd) 0%Z (map (map (fun t => fst (G t))) h))) in *.
  apply andb_prop in E. destruct E as [E Erows]. apply andb_prop in E. destruct E as [Ew Eb]. apply Nat.eqb_eq in Eb. apply Z.ltb_lt in Ew.
  pose proof sc_pos as Hs.
  assert (inb (default_of W) bw) as Iw by (apply width_sound; [exact NW|exact HW]).
  assert (0 < default_of W) as Pw. { pose proof (inb_lo _ _ Iw) as Iw'. apply (IZR_lt 0) in Ew. apply Rmult_lt_reg_l with sc; [exact Hs|]. lra. }
  set (w := default_of W) in *.
  assert (wfm n n (gauss_matrix D w)) as Wm.
  { split; [unfold gauss_matrix; rewrite map_length; exact LDn|]. intros r Hr. unfold gauss_matrix in Hr. apply in_map_iff in Hr. destruct Hr as (r' & <- & Hr').
    rewrite map_length. rewrite Forall_forall in LD. apply LD, Hr'. }
  assert (forall i j, (i < n)%nat -> (j < n)%nat -> ent (gauss_matrix D w) i j = RBF_gauss (dent D i j) w) as Eent.
  { intros i j Hi Hj. assert (length (nth i D []) = n) as Li by (rewrite Forall_forall in LD; apply LD, nth_In; lia).
    unfold ent, gauss_matrix, dent. rewrite (nth_indep _ [] (map (fun d => RBF_gauss d w) [])) by (rewrite map_length; lia). rewrite map_nth.
    rewrite (nth_map0 (fun d => RBF_gauss d w) _ j 0) by lia. reflexivity. }
  assert (forall x bx, (0 <= fst bx)%Z -> inb x bx -> (spread (gauss_box k bx) <= e)%Z -> Rabs (sc * RBF_gauss x w - IZR (fst (gauss_box k bx))) <= IZR e) as Hbox.
  { intros x bx Pb Ix Be. assert (0 <= x) as Px. { pose proof (inb_lo _ _ Ix) as Ij. apply (IZR_le 0) in Pb. apply Rmult_le_reg_l with sc; [exact Hs|]. lra. }
    pose proof (gauss_sound x w bx bw Px Pw Ew Pb Ix Iw) as Gs. fold k in Gs. pose proof (inb_lo _ _ Gs) as G1. pose proof (inb_hi _ _ Gs) as G2. unfold spread in Be.
    apply IZR_le in Be. rewrite minus_IZR in Be. rewrite Rabs_right; lra. }
  assert (forall i j, (i < j)%nat -> (j < n)%nat -> (spread (G (tri h i j)) <= e)%Z) as Hspread.
  { intros i j Hi Hj. unfold e. eapply Z.le_trans; [|apply Z.le_max_r]. apply max_ge. apply in_map. apply in_concat. exists (nth i (map (map G) h) []). destruct T as [T1 T2]. split.
    - apply nth_In. rewrite map_length. lia.
    - rewrite <- (tri_map G n h i j (0, 0)%Z (conj T1 T2) Hi Hj). apply nth_In. rewrite (nth_indep _ [] (map G [])) by (rewrite map_length; lia). rewrite (map_nth (map G)), map_length, T2; lia. }
  assert (forall i j, (i < n)%nat -> (j < n)%nat -> Rabs (sc * ent (gauss_matrix D w) i j - IZR (zent m i j)) <= IZR e) as Hent.
  { intros i j Hi Hj. rewrite Eent by assumption. unfold zent, m. rewrite square_nth by assumption.
    destruct (sym_map (fun t => fst (G t)) n h (fst gd) 0%Z i j T Hi Hj) as [[<- ->]|[[L ->]|[L ->]]].
    - apply Hbox; [discriminate|apply Hdiag, Hi|]. unfold e. apply Z.le_max_l.
    - apply Hbox; [apply at_box_nonneg|apply Hoff; assumption|apply Hspread; assumption].
    - apply Hbox; [apply at_box_nonneg|apply Hoff; assumption|apply Hspread; assumption]. }
  assert (0 <= e)%Z as Pe.
  { unfold e. eapply Z.le_trans; [|apply Z.le_max_r]. clear. induction (map spread (concat (map (map G) h))) as [|x l IH]; cbn [fold_right]; lia. }
  assert (forall i, (i < n)%nat -> row_fact n m b e beta i) as Hrow.
  { intros i Hi. apply row_check_fact; [exact Hi|apply square_length|intros r Hr; exact (square_rows _ _ _ Hr)| |].
    - intros p q Hp Hq. unfold zent, m. rewrite !square_nth by assumption. apply sym_sym.
    - rewrite forallb_forall in Erows. apply (Erows (i, nth i b [])).
      replace (i, nth i b []) with (nth i (combine (seq 0 n) b) (0%nat, [])).
      + apply nth_In. rewrite combine_length, seq_length. lia.
      + rewrite combine_nth by (rewrite seq_length; lia). rewrite seq_nth by exact Hi. reflexivity. }
  destruct (rows_sound n (ent (gauss_matrix D w)) m b e beta Hbeta Pe Hent Hrow) as [K1 K2].
  split; [exact Pw|]. split; [apply trivial_kernel_nonsingular; assumption|exact K2].
Qed.

(** ** The distances of the tabulated grids. *)
Lemma dec11_le a b : (if Rle_dec (dec11 a) (dec11 b) then true else false) = Z.leb a b.
Proof.
  unfold dec11. destruct (Rle_dec (IZR a / 10 ^ 11) (IZR b / 10 ^ 11)) as [H|H]; symmetry.
  - apply Z.leb_le. apply le_IZR. lra.
  - apply Z.leb_gt. apply lt_IZR. lra.
Qed.
Lemma dec11_if {A} a b (x y : A) : (if Rle_dec (dec11 a) (dec11 b) then x else y) = (if Z.leb a b then x else y).
Proof. rewrite <- dec11_le. destruct (Rle_dec (dec11 a) (dec11 b)); reflexivity. Qed.
Lemma dec11_plus a b : dec11 a + dec11 b = dec11 (a + b).
Proof. unfold dec11. rewrite plus_IZR. field. Qed.
Lemma dec11_minus a b : dec11 a - dec11 b = dec11 (a - b).
Proof. unfold dec11. rewrite minus_IZR. field. Qed.
Lemma dec11_one : 1 = dec11 U.
Proof. unfold dec11, U. field. Qed.
Lemma dec11_twice a : 2 * dec11 a = dec11 (2 * a).
Proof. unfold dec11. rewrite mult_IZR. field. Qed.

Lemma pivot_integer r : so3_m2q_pivot (argmax4 (a00 (gm_of r)) (a11 (gm_of r)) (a22 (gm_of r)) (a00 (gm_of r) + a11 (gm_of r) + a22 (gm_of r))) (gm_of r) = gq_of (zpivot r).
Proof.
  unfold gm_of. cbn [a00 a01 a02 a10 a11 a12 a20 a21 a22]. unfold argmax4. rewrite !dec11_plus. rewrite !dec11_if. unfold zpivot.
  change (if Z.leb (z11 r) (z00 r) then
    if Z.leb (z22 r) (z00 r) then if Z.leb (z00 r + z11 r + z22 r) (z00 r) then 0%nat else 3%nat
    else if Z.leb (z00 r + z11 r + z22 r) (z22 r) then 2%nat else 3%nat
  else
    if Z.leb (z22 r) (z11 r) then if Z.leb (z00 r + z11 r + z22 r) (z11 r) then 1%nat else 3%nat
    else if Z.leb (z00 r + z11 r + z22 r) (z22 r) then 2%nat else 3%nat) with (zargmax (z00 r) (z11 r) (z22 r) (z00 r + z11 r + z22 r)%Z).
  cbv zeta. unfold so3_m2q_pivot. cbn [a00 a01 a02 a10 a11 a12 a20 a21 a22]. cbv zeta. rewrite dec11_one.
  destruct (zargmax (z00 r) (z11 r) (z22 r) (z00 r + z11 r + z22 r)%Z) as [|[|[|k]]];
    rewrite ?dec11_twice, ?dec11_plus, ?dec11_minus, ?dec11_plus; reflexivity.
Qed.

Lemma qdot_dec p q : qdot (gq_of p) (gq_of q) = IZR (zdot p q) / 10 ^ 22.
Proof. unfold qdot, gq_of, dec11, zdot. cbn [qw qx qy qz]. rewrite !plus_IZR, !mult_IZR. field. Qed.

Lemma qdot_normal a b : 0 < qnorm a -> 0 < qnorm b -> qdot (qnormalize a) (qnormalize b) = qdot a b / (qnorm a * qnorm b).
Proof.
  intros Ha Hb. unfold qdot, qnormalize. cbn [qw qx qy qz]. revert Ha Hb. generalize (qnorm a) (qnorm b). intros x y Hx Hy. field. lra.
Qed.
Lemma qnorm_dec p : qnorm (gq_of p) = sqrt (IZR (zdot p p)) / 10 ^ 11.
Proof.
  unfold qnorm. rewrite qdot_dec. unfold Rdiv. rewrite sqrt_mult_alt.
  - f_equal. replace (/ 10 ^ 22) with (/ 10 ^ 11 * / 10 ^ 11) by field. apply sqrt_square. left. apply Rinv_0_lt_compat. apply pow_lt. lra.
  - apply (IZR_le 0). unfold zdot. nia.
Qed.
Lemma geodesic_integer r s : (0 < zdot (zpivot r) (zpivot r))%Z -> (0 < zdot (zpivot s) (zpivot s))%Z ->
  is_acos (so3_geodesic_distance (so3_matrix_to_quat (gm_of r)) (so3_matrix_to_quat (gm_of s)) so3_eps) (zdot (zpivot r) (zpivot s) * zdot (zpivot r) (zpivot s)) (zdot (zpivot r) (zpivot r) * zdot (zpivot s) (zpivot s)).
Proof.
  intros Hr Hs. unfold so3_geodesic_distance, so3_matrix_to_quat. rewrite !pivot_integer. set (p := zpivot r) in *. set (q := zpivot s) in *.
  assert (0 < IZR (zdot p p)) as Pp by (apply (IZR_lt 0); exact Hr). assert (0 < IZR (zdot q q)) as Pq by (apply (IZR_lt 0); exact Hs).
  assert (Rabs (qdot (qnormalize (gq_of p)) (qnormalize (gq_of q))) = sqrt (IZR (zdot p q * zdot p q) / IZR (zdot p p * zdot q q))) as E.
  { assert (forall x, 0 < x -> 0 < x / 10 ^ 11) as Pos by (intros x Hx; apply Rmult_lt_0_compat; [exact Hx|apply Rinv_0_lt_compat, pow_lt; lra]).
    pose proof (sqrt_lt_R0 _ Pp) as Sp. pose proof (sqrt_lt_R0 _ Pq) as Sq.
    rewrite qdot_normal by (rewrite qnorm_dec; apply Pos; assumption). rewrite !qnorm_dec, qdot_dec.
    rewrite !mult_IZR, sqrt_div_alt by (apply Rmult_lt_0_compat; assumption). rewrite (sqrt_mult_alt (IZR (zdot p p)) (IZR (zdot q q))) by lra.
    fold (Rsqr (IZR (zdot p q))). rewrite sqrt_Rsqr_abs.
    replace (IZR (zdot p q) / 10 ^ 22 / (sqrt (IZR (zdot p p)) / 10 ^ 11 * (sqrt (IZR (zdot q q)) / 10 ^ 11)))
      with (IZR (zdot p q) / (sqrt (IZR (zdot p p)) * sqrt (IZR (zdot q q)))) by (field; lra).
    unfold Rdiv. rewrite Rabs_mult. f_equal. apply Rabs_right. left. apply Rinv_0_lt_compat, Rmult_lt_0_compat; assumption. }
  rewrite E. split; [nia|]. split; [nia|]. reflexivity.
Qed.

(** The ten-vectors of the E(3) kernels, within one half of the grid (c * c = 1). *)
Lemma flat_integer c r s : c * c = 1 ->
  is_acos (flat_geodesic (o3_flat (mkO3 c (gm_of r))) (o3_flat (mkO3 c (gm_of s))) so3_eps) (zflat r s * zflat r s) (U * U * (U * U)).
Proof.
  intros Hc. unfold flat_geodesic.
  assert (Rabs (dotl (o3_flat (mkO3 c (gm_of r))) (o3_flat (mkO3 c (gm_of s)))) = sqrt (IZR (zflat r s * zflat r s) / IZR (U * U * (U * U)))) as E.
  { assert (dotl (o3_flat (mkO3 c (gm_of r))) (o3_flat (mkO3 c (gm_of s))) = IZR (zflat r s) / 10 ^ 22) as ->.
    { unfold dotl, o3_flat, gm_of. cbn [o3c o3r a00 a01 a02 a10 a11 a12 a20 a21 a22 combine map fold_right fst snd]. rewrite Hc. unfold zflat, dec11, U.
      rewrite !plus_IZR, !mult_IZR. field. }
    rewrite !mult_IZR, sqrt_div_alt by (unfold U; lra). fold (Rsqr (IZR (zflat r s))). rewrite sqrt_Rsqr_abs.
    rewrite (sqrt_square (IZR U * IZR U)) by (unfold U; lra). replace (IZR U * IZR U) with (10 ^ 22) by (unfold U; ring).
    unfold Rdiv. rewrite Rabs_mult. f_equal. apply Rabs_right. left. apply Rinv_0_lt_compat, pow_lt. lra. }
  rewrite E. split; [nia|]. split; [unfold U; lia|]. reflexivity.
Qed.

(** Tables of distances. *)
Definition pairs {A} (d : A -> A -> R) (l : list A) : list (list R) := map (fun a => map (d a) l) l.
Lemma pairs_entry {A} (d : A -> A -> R) (l : list A) x i j : (i < length l)%nat -> (j < length l)%nat -> dent (pairs d l) i j = d (nth i l x) (nth j l x).
Proof.
  intros Hi Hj. unfold dent, pairs. rewrite (nth_indep _ [] ((fun a => map (d a) l) x)) by (rewrite map_length; exact Hi). rewrite (map_nth (fun a => map (d a) l)).
  rewrite (nth_indep _ 0 (d (nth i l x) x)) by (rewrite map_length; exact Hj). apply map_nth.
Qed.
Lemma pairs_rows {A} (d : A -> A -> R) l n : length l = n -> Forall (fun r => length r = n) (pairs d l).
Proof. intros H. apply Forall_forall. intros r Hr. unfold pairs in Hr. apply in_map_iff in Hr. destruct Hr as (a & <- & _). rewrite map_length. exact H. Qed.

(** The second column of the sorted distance matrix, and the default width made of it. *)
Lemma second_column {A} (d : A -> A -> R) (q : list A) : (2 <= length q)%nat ->
  mapM (fun a => of_option IndexError (nth_error (sortR (map (fun b => d a b) q)) 1)) q = Ok (map (fun r => nth 1 (sortR r) 0) (pairs d q)).
Proof.
  intros H. unfold pairs. rewrite map_map. set (q' := q) at 2 4. clearbody q'. induction q' as [|a q' IH]; [reflexivity|]. cbn [mapM map].
  assert (nth_error (sortR (map (fun b => d a b) q)) 1 = Some (nth 1 (sortR (map (d a) q)) 0)) as ->.
  { apply nth_error_nth'. rewrite sort_length, map_length. lia. }
  cbn [of_option bind]. rewrite IH. reflexivity.
Qed.
Lemma width_is {A} (d : A -> A -> R) (q : list A) : (2 <= length q)%nat ->
  default_width 0 (if Nat.ltb (length q) 2 then Err IndexError else mapM (fun a => of_option IndexError (nth_error (sortR (map (fun b => d a b) q)) 1)) q)
  = Ok (default_of (pairs d q)).
Proof.
  intros H. destruct (Nat.ltb_spec (length q) 2); [lia|]. rewrite second_column by exact H. unfold default_width. destruct (Req_EM_T 0 0) as [_|N]; [|congruence].
  reflexivity.
Qed.

Lemma in_sizes n : (2 <= n <= 24)%nat -> In n (seq 2 23).
Proof. intros H. apply in_seq. lia. Qed.
Lemma zmat_length n : (2 <= n <= 24)%nat -> length (zmat n) = n.
Proof. intros H. do 25 (destruct n as [|n]; [lia || reflexivity|]). lia. Qed.

Definition fdist (a b : O3) : R := flat_geodesic (o3_flat a) (o3_flat b) so3_eps.
(** What the distance check says. *)
Definition znorm (r : ZM) : Z := zdot (zpivot r) (zpivot r).
Lemma normed_is r : normed r = (zpivot r, znorm r).
Proof. reflexivity. Qed.
Lemma row_pairs_nth r : forall l h, row_pairs (normed r) (map normed l) h = true -> length h = length l /\
  forall j x, (j < length l)%nat -> at_check (zdot (zpivot r) (zpivot (nth j l x)) * zdot (zpivot r) (zpivot (nth j l x))) (znorm r * znorm (nth j l x)) (nth j h 0%Z) = true.
Proof.
  induction l as [|s l IH]; intros [|t h] H; try discriminate; [split; [reflexivity|cbn [length]; lia]|]. cbn [map row_pairs] in H. apply andb_prop in H. destruct H as [H1 H2].
  destruct (IH h H2) as [L K]. split; [cbn [length]; congruence|]. intros [|j] x Hj; [exact H1|]. apply (K j x). cbn [length] in Hj. lia.
Qed.
Lemma tri_check_nth : forall l h, tri_check (map normed l) h = true -> triangle (length l) h /\ (forall i x, (i < length l)%nat -> (0 < znorm (nth i l x))%Z) /\
  forall i j x, (i < j)%nat -> (j < length l)%nat ->
    at_check (zdot (zpivot (nth i l x)) (zpivot (nth j l x)) * zdot (zpivot (nth i l x)) (zpivot (nth j l x))) (znorm (nth i l x) * znorm (nth j l x)) (tri h i j) = true.
Proof.
  induction l as [|r l IH]; intros [|t h] H; try discriminate.
  - split; [split; [reflexivity|cbn [length]; intros; lia]|]. split; cbn [length]; intros; lia.
  - cbn [map tri_check] in H. apply andb_prop in H. destruct H as [H H3]. apply andb_prop in H. destruct H as [H1 H2]. apply Z.ltb_lt in H1.
    destruct (row_pairs_nth r l t H2) as [L K]. destruct (IH h H3) as ([T1 T2] & P & Q). split; [split|split].
    + cbn [length]. congruence.
    + intros [|i] Hi; cbn [nth length] in *; [lia|]. rewrite T2 by lia. lia.
    + intros [|i] x Hi; [exact H1|]. cbn [nth length] in *. apply P. lia.
    + intros [|i] [|j] x Hi Hj; try lia; cbn [length nth] in *.
      * unfold tri. replace (S j - 0 - 1)%nat with j by lia. cbn [nth]. apply K. lia.
      * unfold tri. replace (S j - S i - 1)%nat with (j - i - 1)%nat by lia. cbn [nth]. apply (Q i j x); lia.
Qed.
Lemma zdot_comm p q : zdot p q = zdot q p.
Proof. unfold zdot. ring. Qed.
Lemma gdist_enclosed n h : (2 <= n <= 24)%nat -> certify_dist n h = true -> enclosed n (pairs gdist (table_matrix n)) h.
Proof.
  intros Hn H. pose proof (zmat_length n Hn) as L. destruct (tri_check_nth (zmat n) h H) as (T & P & Q). rewrite L in *.
  set (x := zm 0 0 0 0 0 0 0 0 0).
  assert (forall i j, (i < n)%nat -> (j < n)%nat -> is_acos (dent (pairs gdist (table_matrix n)) i j)
    (zdot (zpivot (nth i (zmat n) x)) (zpivot (nth j (zmat n) x)) * zdot (zpivot (nth i (zmat n) x)) (zpivot (nth j (zmat n) x))) (znorm (nth i (zmat n) x) * znorm (nth j (zmat n) x))) as A.
  { intros i j Hi Hj. unfold table_matrix. rewrite (pairs_entry gdist _ (gm_of x)) by (rewrite map_length, L; assumption). rewrite !map_nth.
    apply geodesic_integer; [apply (P i x Hi)|apply (P j x Hj)]. }
  split; [exact T|]. split.
  - intros i Hi. destruct (A i i Hi Hi) as (A1 & A2 & ->). apply (hint_check_sound _ _ A1 A2 Hclamp). cbn [hint_check]. apply Z.leb_le. unfold znorm. lia.
  - intros i j Hi Hj. specialize (Q i j x Hi Hj). split.
    + destruct (A i j ltac:(lia) Hj) as (A1 & A2 & ->). apply at_check_sound; assumption.
    + pose proof (A j i Hj ltac:(lia)) as Aj. rewrite (zdot_comm (zpivot (nth j (zmat n) x))), (Z.mul_comm (znorm (nth j (zmat n) x))) in Aj. destruct Aj as (A1 & A2 & ->). apply at_check_sound; assumption.
Qed.
(** A square of enclosed distances lies in its boxes. *)
Lemma rows_intro (W : list (list R)) (wb : list (list box)) n : length W = n -> length wb = n -> (2 <= n)%nat -> Forall (fun r => length r = n) W -> (forall r, In r wb -> length r = n) ->
  (forall i j, (i < n)%nat -> (j < n)%nat -> inb (dent W i j) (nth j (nth i wb []) (0, 0)%Z)) -> Forall2 (fun r x => (2 <= length r)%nat /\ Forall2 inb r x) W wb.
Proof.
  intros L L' Hn RW Rb H.
  assert (forall (A B : Type) (P : A -> B -> Prop) (a : A) (b : B) (l : list A) (l' : list B), length l = length l' -> (forall i, (i < length l)%nat -> P (nth i l a) (nth i l' b)) -> Forall2 P l l') as F.
  { clear. intros A B P a b. induction l as [|x l IH]; intros [|y l'] E K; try discriminate; constructor; [apply (K 0%nat); cbn [length]; lia|].
    apply IH; [cbn [length] in E; lia|]. intros i Hi. apply (K (S i)). cbn [length]. lia. }
  apply (F _ _ _ [] []); [congruence|]. intros i Hi. rewrite L in Hi. assert (length (nth i W []) = n) as Li by (rewrite Forall_forall in RW; apply RW, nth_In; lia).
  split; [lia|]. apply (F _ _ _ 0 (0, 0)%Z); [rewrite Li; symmetry; apply Rb, nth_In; lia|]. intros j Hj. rewrite Li in Hj. apply H; assumption.
Qed.
Lemma enclosed_boxes n D h : (2 <= n)%nat -> length D = n -> Forall (fun r => length r = n) D -> enclosed n D h ->
  Forall2 (fun r x => (2 <= length r)%nat /\ Forall2 inb r x) D (dist_boxes n h).
Proof.
  intros Hn L R (T & Hd & Ho). apply (rows_intro D _ n); [exact L|apply square_length|exact Hn|exact R|intros r Hr; exact (square_rows _ _ _ Hr)|].
  intros i j Hi Hj. unfold dist_boxes. rewrite square_nth by assumption.
  destruct (sym_map at_box n h least (0, 0)%Z i j T Hi Hj) as [[<- ->]|[[K ->]|[K ->]]]; [apply Hd, Hi|apply Ho; assumption|apply Ho; assumption].
Qed.
(** What the check of the flat distances says. *)
Lemma flat_row_sound c r : c * c = 1 -> forall l h, flat_row r l h = true -> Forall2 inb (map (fdist (mkO3 c (gm_of r))) (map (fun s => mkO3 c (gm_of s)) l)) (map box_of h).
Proof.
  intros Hc. induction l as [|s l IH]; intros [|x h] H; try discriminate; [constructor|]. cbn [flat_row] in H. cbv zeta in H. apply andb_prop in H. destruct H as [H1 H2].
  cbn [map]. constructor; [|apply IH, H2]. destruct (flat_integer c r s Hc) as (A1 & A2 & A3). unfold fdist. rewrite A3. apply hint_check_sound; assumption.
Qed.
Lemma flat_check_sound c l : c * c = 1 -> (2 <= length l)%nat -> forall l' h, flat_check l' l h = true ->
  Forall2 (fun r x => (2 <= length r)%nat /\ Forall2 inb r x) (map (fun a => map (fdist a) (map (fun s => mkO3 c (gm_of s)) l)) (map (fun s => mkO3 c (gm_of s)) l')) (map (map box_of) h).
Proof.
  intros Hc Hl. induction l' as [|r l' IH]; intros [|x h] H; try discriminate; [constructor|]. cbn [flat_check] in H. apply andb_prop in H. destruct H as [H1 H2].
  cbn [map]. constructor; [|apply IH, H2]. split; [rewrite !map_length; exact Hl|]. apply flat_row_sound; assumption.
Qed.
Lemma table_matrix_length n : (2 <= n <= 24)%nat -> length (table_matrix n) = n.
Proof. intros H. unfold table_matrix. rewrite map_length. apply zmat_length, H. Qed.

(** Whatever the certificates say about the default SE(3) widths and RBF matrices. *)
Definition bounded_system (n : nat) (m : mat) (beta : R) : Prop :=
  forall x y e, sys n (ent m) x y -> 0 <= e -> (forall i, (i < n)%nat -> Rabs (y i) <= e) -> forall j, (j < n)%nat -> Rabs (x j) <= beta * e.
Lemma gauss_pairs w g : gauss_matrix (pairs gdist g) w = rbf_matrix w g.
Proof. unfold gauss_matrix, pairs, rbf_matrix. rewrite map_map. apply map_ext. intros a. rewrite map_map. reflexivity. Qed.
Lemma width_SE3_is g : (2 <= length g)%nat -> width_SE3 0 g = Ok (default_of (pairs gdist g)).
Proof.
  intros H. unfold width_SE3, so3_nearest_neighbour_distance_matrix, so3_nearest_neighbour_distance.
  pose proof (width_is (fun p q => so3_geodesic_distance p q so3_eps) (map so3_matrix_to_quat g)) as E. rewrite map_length in E |- *. rewrite E by exact H.
  unfold pairs, gdist. rewrite map_map. f_equal. f_equal. apply map_ext. intros a. rewrite map_map. reflexivity.
Qed.
Lemma width_flat_is l : (2 <= length l)%nat -> default_width 0 (so3_nearest_neighbour_distance_flat (map o3_flat l)) = Ok (default_of (pairs fdist l)).
Proof.
  intros H. unfold so3_nearest_neighbour_distance_flat.
  pose proof (width_is (fun p q => flat_geodesic p q so3_eps) (map o3_flat l)) as E. rewrite map_length in E |- *. rewrite E by exact H.
  unfold pairs, fdist. rewrite map_map. f_equal. f_equal. apply map_ext. intros a. rewrite map_map. reflexivity.
Qed.

Lemma certified_SE3 beta n h b : (0 <= beta)%Z -> (2 <= n <= 24)%nat -> certify_dist n h = true -> certify_SE3 beta n h b = true ->
  exists w, width_SE3 0 (table_matrix n) = Ok w /\ 0 < w /\ nonsingular n (rbf_matrix w (table_matrix n)) /\ bounded_system n (rbf_matrix w (table_matrix n)) (2 * IZR beta).
Proof.
  intros Hb Hn Ed E. pose proof (table_matrix_length n Hn) as L. exists (default_of (pairs gdist (table_matrix n))). split; [apply width_SE3_is; lia|].
  rewrite <- gauss_pairs. pose proof (gdist_enclosed n h Hn Ed) as En.
  assert (length (pairs gdist (table_matrix n)) = n) as Lp by (unfold pairs; rewrite map_length; exact L).
  apply (certify_sound n _ _ h (dist_boxes n h) b beta); try exact E; try exact En; try exact Lp; try exact Hb.
  - apply pairs_rows, L.
  - apply enclosed_boxes; [lia|exact Lp|apply pairs_rows, L|exact En].
  - intros N. rewrite N in Lp. cbn [length] in Lp. lia.
Qed.
Lemma certified_E3 beta n c h f b : (0 <= beta)%Z -> (2 <= n <= 24)%nat -> c * c = 1 -> certify_dist n h = true -> certify_E3 beta n h f b = true ->
  exists w, default_width 0 (so3_nearest_neighbour_distance_flat (map o3_flat (map (mkO3 c) (table_matrix n)))) = Ok w /\ 0 < w /\
    nonsingular n (rbf_matrix w (table_matrix n)) /\ bounded_system n (rbf_matrix w (table_matrix n)) (2 * IZR beta).
Proof.
  intros Hb Hn Hc Ed E. pose proof (table_matrix_length n Hn) as L. set (l := map (mkO3 c) (table_matrix n)). assert (length l = n) as Ll by (unfold l; rewrite map_length; exact L).
  apply andb_prop in E. destruct E as [Ef E].
  exists (default_of (pairs fdist l)). split; [apply width_flat_is; lia|].
  rewrite <- gauss_pairs. pose proof (gdist_enclosed n h Hn Ed) as En.
  assert (length (pairs gdist (table_matrix n)) = n) as Lp by (unfold pairs; rewrite map_length; exact L).
  apply (certify_sound n _ _ h (map (map box_of) f) b beta); try exact E; try exact En; try exact Lp; try exact Hb.
  - apply pairs_rows, L.
  - assert (l = map (fun s => mkO3 c (gm_of s)) (zmat n)) as -> by (unfold l, table_matrix; apply map_map). unfold pairs. apply flat_check_sound; [exact Hc|rewrite zmat_length by exact Hn; lia|exact Ef].
  - intros N. apply (f_equal (@length _)) in N. unfold pairs in N. rewrite map_length, Ll in N. cbn [length] in N. lia.
Qed.
