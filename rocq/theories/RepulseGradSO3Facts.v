(** Facts about the backward pass on SO(3). *)
From Verif Require Import Prelude RMath Mat SO3 SO3Facts Repulse RepulseFacts SepProduct RepulseGrad RepulseGradSpec RepulseGradFacts RepulseGradSO3.
Open Scope R_scope.

Definition D (f : R -> R) (l : R) : Prop := derivable_pt_lim f 0 l.
Lemma D_eq f l l' : l = l' -> D f l -> D f l'. Proof. apply derivable_pt_lim_eq. Qed.
Lemma D_const c : D (fun _ => c) 0. Proof. apply derivable_pt_lim_const. Qed.
Lemma D_plus f g f' g' : D f f' -> D g g' -> D (fun t => f t + g t) (f' + g'). Proof. apply derivable_pt_lim_plus. Qed.
Lemma D_minus f g f' g' : D f f' -> D g g' -> D (fun t => f t - g t) (f' - g'). Proof. apply derivable_pt_lim_minus. Qed.
Lemma D_opp f f' : D f f' -> D (fun t => - f t) (- f'). Proof. apply derivable_pt_lim_opp. Qed.
Lemma D_mul f g f' g' : D f f' -> D g g' -> D (fun t => f t * g t) (f' * g 0 + f 0 * g'). Proof. apply derivable_pt_lim_mult. Qed.
Lemma D_local f g l d : 0 < d -> (forall y, Rabs y < d -> f y = g y) -> D g l -> D f l.
Proof. intros Hd H. apply (derivable_pt_lim_local f g 0 l d Hd). intros y Hy. apply H. rewrite Rminus_0_r in Hy. exact Hy. Qed.
Lemma D_near f l e : D f l -> 0 < e -> exists d, 0 < d /\ forall y, Rabs y < d -> Rabs (f y - f 0) < e.
Proof.
  intros H He. assert (continuity_pt f 0) as C by (apply derivable_continuous_pt; exists l; exact H).
  destruct (C e He) as (d & Hd & K). exists d. split; [exact Hd|]. intros y Hy. destruct (Req_dec y 0) as [->|Hne].
  - unfold Rminus. rewrite Rplus_opp_r, Rabs_R0. exact He.
  - apply (K y). split; [split; [exact I|congruence]|]. cbn. unfold R_dist. rewrite Rminus_0_r. exact Hy.
Qed.
Lemma D_thr eps f f' : 0 < eps -> Rabs (f 0) <> eps -> D f f' -> D (fun t => thr eps (f t)) (thr_backward eps (f 0) * f').
Proof.
  intros He Hne H. unfold thr_backward. destruct (Rlt_dec eps (f 0)) as [L|L]; [|destruct (Rlt_dec (f 0) (- eps)) as [L2|L2]].
  - destruct (D_near f f' (f 0 - eps) H) as (d & Hd & K); [lra|]. apply (D_local _ f _ d Hd); [|rewrite Rmult_1_l; exact H].
    intros y Hy. specialize (K y Hy). apply Rabs_def2 in K. unfold thr. destruct (Rlt_dec eps (f y)); [ring|lra].
  - destruct (D_near f f' (- eps - f 0) H) as (d & Hd & K); [lra|]. apply (D_local _ f _ d Hd); [|rewrite Rmult_1_l; exact H].
    intros y Hy. specialize (K y Hy). apply Rabs_def2 in K. unfold thr. destruct (Rlt_dec eps (f y)); [ring|]. destruct (Rlt_dec (f y) (- eps)); [ring|lra].
  - assert (Rabs (f 0) < eps) as Hlt.
    { destruct (Rle_lt_dec 0 (f 0)); [rewrite Rabs_right in * by lra|rewrite Rabs_left in * by lra]; lra. }
    destruct (D_near f f' (eps - Rabs (f 0)) H) as (d & Hd & K); [lra|]. apply (D_local _ (fun _ => 0) _ d Hd); [|rewrite Rmult_0_l; apply D_const].
    intros y Hy. specialize (K y Hy). assert (Rabs (f y) < eps) as B by (pose proof (Rabs_triang (f y - f 0) (f 0)) as T; replace (f y - f 0 + f 0) with (f y) in T by ring; lra).
    apply Rabs_def2 in B. unfold thr. destruct (Rlt_dec eps (f y)); [lra|]. destruct (Rlt_dec (f y) (- eps)); [lra|ring].
Qed.
Lemma D_abs f f' : f 0 <> 0 -> D f f' -> D (fun t => Rabs (f t)) (abs_backward (f 0) * f').
Proof.
  intros Hne H. unfold abs_backward. destruct (Rlt_dec 0 (f 0)) as [L|L]; [|destruct (Rlt_dec (f 0) 0) as [L2|L2]; [|lra]].
  - destruct (D_near f f' (f 0) H L) as (d & Hd & K). apply (D_local _ f _ d Hd); [|rewrite Rmult_1_l; exact H].
    intros y Hy. specialize (K y Hy). apply Rabs_def2 in K. apply Rabs_right. lra.
  - destruct (D_near f f' (- f 0) H) as (d & Hd & K); [lra|]. apply (D_local _ (fun t => - f t) _ d Hd); [|apply D_eq with (l := - f'); [ring|apply D_opp, H]].
    intros y Hy. specialize (K y Hy). apply Rabs_def2 in K. apply Rabs_left. lra.
Qed.
Lemma D_comp f g f' g' : D f f' -> derivable_pt_lim g (f 0) g' -> D (fun t => g (f t)) (g' * f').
Proof. intros Hf Hg. apply (derivable_pt_lim_comp f g); assumption. Qed.
Lemma D_quot f g f' g' : g 0 <> 0 -> D f f' -> D g g' -> D (fun t => f t / g t) (f' / g 0 - f 0 * g' / (g 0 * g 0)).
Proof.
  intros Hn Hf Hg. eapply D_eq; [|apply (derivable_pt_lim_div f g 0 f' g' Hf Hg Hn)]. unfold Rsqr. field. exact Hn.
Qed.

(** Curves of matrices and quaternions. *)
Definition DM (M : R -> M3) (M' : M3) : Prop :=
  (D (fun t => a00 (M t)) (a00 M') /\ D (fun t => a01 (M t)) (a01 M') /\ D (fun t => a02 (M t)) (a02 M')) /\
  (D (fun t => a10 (M t)) (a10 M') /\ D (fun t => a11 (M t)) (a11 M') /\ D (fun t => a12 (M t)) (a12 M')) /\
  (D (fun t => a20 (M t)) (a20 M') /\ D (fun t => a21 (M t)) (a21 M') /\ D (fun t => a22 (M t)) (a22 M')).
Definition DQ (Q : R -> Q4) (Q' : Q4) : Prop :=
  D (fun t => qw (Q t)) (qw Q') /\ D (fun t => qx (Q t)) (qx Q') /\ D (fun t => qy (Q t)) (qy Q') /\ D (fun t => qz (Q t)) (qz Q').
Lemma DQ_local P Q Q' d : 0 < d -> (forall y, Rabs y < d -> P y = Q y) -> DQ Q Q' -> DQ P Q'.
Proof. intros Hd H (A & B & C & E). split; [|split; [|split]]; (eapply D_local; [exact Hd|intros y Hy; rewrite (H y Hy); reflexivity|assumption]). Qed.

Definition lin3 (u v w : R) (A B C : M3) : M3 :=
  map3_2 Rplus (map3_2 Rplus (map3 (Rmult u) A) (map3 (Rmult v) B)) (map3 (Rmult w) C).
Ltac dstep := first [apply D_minus | apply D_plus | apply D_opp | apply D_mul | apply derivable_sin_aff | apply derivable_cos_aff | apply D_const].
Lemma DM_entries a b g u v w :
  DM (fun t => so3_euler_entries (mkV3 (a + t * u) (b + t * v) (g + t * w)))
     (lin3 u v w (euler_d_alpha (mkV3 a b g)) (euler_d_beta (mkV3 a b g)) (euler_d_gamma (mkV3 a b g))).
Proof.
  unfold DM, so3_euler_entries, lin3, map3_2, map3, euler_d_alpha, euler_d_beta, euler_d_gamma. cbn [vx vy vz a00 a01 a02 a10 a11 a12 a20 a21 a22].
  split; [|split]; (split; [|split]); (eapply D_eq; [|repeat dstep]); cbv beta; rewrite ?Rmult_0_l, ?Rplus_0_r; ring.
Qed.
Lemma DM_thr eps M M' : 0 < eps ->
  (forall f, In f [a00; a01; a02; a10; a11; a12; a20; a21; a22] -> Rabs (f (M 0)) <> eps) -> DM M M' ->
  DM (fun t => map3 (thr eps) (M t)) (map3_2 (fun e d => thr_backward eps e * d) (M 0) M').
Proof.
  intros He Hoff ((A & B & C) & (E & F & G) & (H & I & J)). unfold DM, map3, map3_2. cbn [a00 a01 a02 a10 a11 a12 a20 a21 a22].
  split; [|split]; (split; [|split]).
  - apply (D_thr eps (fun t => a00 (M t))); [exact He|apply (Hoff a00); cbn; auto 12|exact A].
  - apply (D_thr eps (fun t => a01 (M t))); [exact He|apply (Hoff a01); cbn; auto 12|exact B].
  - apply (D_thr eps (fun t => a02 (M t))); [exact He|apply (Hoff a02); cbn; auto 12|exact C].
  - apply (D_thr eps (fun t => a10 (M t))); [exact He|apply (Hoff a10); cbn; auto 12|exact E].
  - apply (D_thr eps (fun t => a11 (M t))); [exact He|apply (Hoff a11); cbn; auto 12|exact F].
  - apply (D_thr eps (fun t => a12 (M t))); [exact He|apply (Hoff a12); cbn; auto 12|exact G].
  - apply (D_thr eps (fun t => a20 (M t))); [exact He|apply (Hoff a20); cbn; auto 12|exact H].
  - apply (D_thr eps (fun t => a21 (M t))); [exact He|apply (Hoff a21); cbn; auto 12|exact I].
  - apply (D_thr eps (fun t => a22 (M t))); [exact He|apply (Hoff a22); cbn; auto 12|exact J].
Qed.
(** The pivot. *)
Definition decisions (m : M3) : list R := [a00 m; a11 m; a22 m; a00 m + a11 m + a22 m].
Definition pivot (m : M3) : nat := argmax4 (a00 m) (a11 m) (a22 m) (a00 m + a11 m + a22 m).
Definition largest (l : list R) (i : nat) : Prop := (i < 4)%nat /\ forall j, (j < 4)%nat -> j <> i -> nth j l 0 < nth i l 0.
Lemma argmax4_largest a b c d i : largest [a; b; c; d] i -> argmax4 a b c d = i.
Proof.
  intros [Hi H]. pose proof (H 0%nat ltac:(lia)) as H0. pose proof (H 1%nat ltac:(lia)) as H1. pose proof (H 2%nat ltac:(lia)) as H2. pose proof (H 3%nat ltac:(lia)) as H3. clear H.
  destruct i as [|[|[|[|i]]]]; try lia; cbn [nth] in *; unfold argmax4;
    repeat match goal with H : ?x <> ?x -> _ |- _ => clear H | H : ?x <> ?y -> _ |- _ => specialize (H ltac:(discriminate)) end;
    repeat match goal with |- context [Rle_dec ?x ?y] => destruct (Rle_dec x y) end; try reflexivity; lra.
Qed.
Lemma DM_decision M M' j : DM M M' -> exists l, D (fun t => nth j (decisions (M t)) 0) l.
Proof.
  intros ((A & _) & (_ & F & _) & (_ & _ & J)). unfold decisions. destruct j as [|[|[|[|j]]]]; cbn [nth]; try (eexists; eassumption).
  - eexists. apply D_plus; [apply D_plus|]; eassumption.
  - exists 0. destruct j; apply D_const.
Qed.
Lemma pivot_near M M' i : DM M M' -> largest (decisions (M 0)) i -> exists d, 0 < d /\ forall y, Rabs y < d -> pivot (M y) = i.
Proof.
  intros HM [Hi H].
  assert (forall j, (j < 4)%nat -> j <> i -> exists d, 0 < d /\ forall y, Rabs y < d -> nth j (decisions (M y)) 0 < nth i (decisions (M y)) 0) as K.
  { intros j Hj Hne. destruct (DM_decision M M' i HM) as [li Di]. destruct (DM_decision M M' j HM) as [lj Dj].
    specialize (H j Hj Hne). destruct (D_near _ _ (nth i (decisions (M 0)) 0 - nth j (decisions (M 0)) 0) (D_minus _ _ _ _ Di Dj)) as (d & Hd & K); [lra|].
    exists d. split; [exact Hd|]. intros y Hy. specialize (K y Hy). cbv beta in K. apply Rabs_def2 in K. lra. }
  assert (exists d, 0 < d /\ forall y, Rabs y < d -> forall j, In j (seq 0 4) -> j <> i -> nth j (decisions (M y)) 0 < nth i (decisions (M y)) 0) as (d & Hd & Q).
  { assert (forall j, In j (seq 0 4) -> (j < 4)%nat) as Hl by (intros j Hj; apply in_seq in Hj; lia). revert Hl.
    induction (seq 0 4) as [|j l IH]; intros Hl; [exists 1; split; [lra|intros y _ j []]|].
    destruct IH as (d & Hd & Q); [intros; apply Hl; right; assumption|]. destruct (Nat.eq_dec j i) as [->|Hne].
    - exists d. split; [exact Hd|]. intros y Hy j [<-|Hj] Hji; [congruence|]. apply Q; assumption.
    - destruct (K j (Hl j (or_introl eq_refl)) Hne) as (d' & Hd' & Q'). exists (Rmin d d'). split; [apply Rmin_pos; assumption|].
      pose proof (Rmin_l d d'). pose proof (Rmin_r d d'). intros y Hy j' [<-|Hj'] Hji; [apply Q'; lra|apply Q; [lra|assumption|assumption]]. }
  exists d. split; [exact Hd|]. intros y Hy. unfold pivot. apply argmax4_largest. split; [exact Hi|]. intros j Hj Hne. apply (Q y Hy j); [apply in_seq; lia|exact Hne].
Qed.
(** The linear part of the pivot formulas. *)
Definition pivot_lin (i : nat) (r : M3) : Q4 :=
  let t := a00 r + a11 r + a22 r in
  match i with
  | 0%nat => mkQ (a21 r - a12 r) (- t + 2 * a00 r) (a10 r + a01 r) (a20 r + a02 r)
  | 1%nat => mkQ (a02 r - a20 r) (a01 r + a10 r) (- t + 2 * a11 r) (a21 r + a12 r)
  | 2%nat => mkQ (a10 r - a01 r) (a02 r + a20 r) (a12 r + a21 r) (- t + 2 * a22 r)
  | _ => mkQ t (a21 r - a12 r) (a02 r - a20 r) (a10 r - a01 r)
  end.
Lemma DQ_pivot i M M' : DM M M' -> DQ (fun t => so3_m2q_pivot i (M t)) (pivot_lin i M').
Proof.
  intros ((A & B & C) & (E & F & G) & (H & I & J)). unfold DQ, so3_m2q_pivot, pivot_lin.
  destruct i as [|[|[|i]]]; cbn [qw qx qy qz]; (split; [|split; [|split]]);
    (eapply D_eq; [|repeat first [eassumption | apply D_minus | apply D_plus | apply D_opp | apply D_mul | apply D_const]]); cbv beta; ring.
Qed.
Lemma pivot_adjoint i g M' : qdot g (pivot_lin i M') = dot9 (pivot_backward i g) M'.
Proof. unfold qdot, pivot_lin, dot9, pivot_backward. destruct i as [|[|[|i]]]; cbn [qw qx qy qz a00 a01 a02 a10 a11 a12 a20 a21 a22]; ring. Qed.
(** Normalisation. *)
Definition normalize_d (u u' : Q4) : Q4 :=
  let m := qnorm u in let s := qdot u u' in
  mkQ (qw u' / m - qw u * (s / m) / (m * m)) (qx u' / m - qx u * (s / m) / (m * m)) (qy u' / m - qy u * (s / m) / (m * m)) (qz u' / m - qz u * (s / m) / (m * m)).
Lemma DQ_dot P Q P' Q' : DQ P P' -> DQ Q Q' -> D (fun t => qdot (P t) (Q t)) (qdot P' (Q 0) + qdot (P 0) Q').
Proof.
  intros (A & B & C & E) (A' & B' & C' & E'). unfold qdot.
  eapply D_eq; [|apply D_plus; [apply D_plus; [apply D_plus|]|]; apply D_mul; eassumption]. cbv beta. ring.
Qed.
Lemma qnorm_pos u : 0 < qdot u u -> 0 < qnorm u. Proof. intros H. apply sqrt_lt_R0. exact H. Qed.
Lemma D_norm U U' : DQ U U' -> 0 < qdot (U 0) (U 0) -> D (fun t => qnorm (U t)) (qdot (U 0) U' / qnorm (U 0)).
Proof.
  intros H P. unfold qnorm. eapply D_eq; [|apply D_comp; [apply (DQ_dot U U U' U' H H)|apply derivable_pt_lim_sqrt; exact P]].
  fold (qnorm (U 0)). pose proof (qnorm_pos _ P). assert (qdot U' (U 0) = qdot (U 0) U') as -> by (unfold qdot; ring). field. lra.
Qed.
Lemma DQ_normalize U U' : DQ U U' -> 0 < qdot (U 0) (U 0) -> DQ (fun t => qnormalize (U t)) (normalize_d (U 0) U').
Proof.
  intros H P. pose proof (D_norm U U' H P) as N. pose proof (qnorm_pos _ P) as M. destruct H as (A & B & C & E).
  unfold DQ, qnormalize, normalize_d. cbn [qw qx qy qz].
  split; [|split; [|split]]; (eapply D_eq; [|apply D_quot; [|eassumption|exact N]; cbv beta; lra]); cbv beta; reflexivity.
Qed.
Lemma normalize_adjoint g u u' : 0 < qdot u u -> qdot g (normalize_d u u') = qdot (normalize_backward u g) u'.
Proof.
  intros P. pose proof (qnorm_pos u P) as M. unfold normalize_d, normalize_backward. set (m := qnorm u) in *. clearbody m. set (s := qdot u u'). set (r := qdot g u).
  unfold qdot at 1 2. cbn [qw qx qy qz].
  transitivity (qdot g u' / m - r * s / (m * m * m)).
  - unfold r, qdot. field. lra.
  - unfold s, qdot. field. lra.
Qed.
Lemma thr_adjoint eps E A B : dot9 A (map3_2 (fun e d => thr_backward eps e * d) E B) = dot9 (map3_2 (fun e d => thr_backward eps e * d) E A) B.
Proof. unfold dot9, map3_2. cbn [a00 a01 a02 a10 a11 a12 a20 a21 a22]. ring. Qed.
Lemma lin3_adjoint M u v w A B C : dot9 M (lin3 u v w A B C) = dot9 M A * u + dot9 M B * v + dot9 M C * w.
Proof. unfold dot9, lin3, map3_2, map3. cbn [a00 a01 a02 a10 a11 a12 a20 a21 a22]. ring. Qed.

(** ** One element *)
Lemma six_pos : 0 < / 10 ^ 6. Proof. apply Rinv_0_lt_compat, pow_lt. lra. Qed.
Lemma pivot_norm_pos r : 0 < qdot (so3_m2q_pivot (pivot r) r) (so3_m2q_pivot (pivot r) r).
Proof.
  pose proof (m2q_unit_any r) as U. unfold so3_matrix_to_quat in U. fold (pivot r) in U. set (u := so3_m2q_pivot (pivot r) r) in *. clearbody u.
  pose proof (Rle_0_sqr (qw u)) as P1. pose proof (Rle_0_sqr (qx u)) as P2. pose proof (Rle_0_sqr (qy u)) as P3. pose proof (Rle_0_sqr (qz u)) as P4. unfold Rsqr in *.
  assert (0 <= qdot u u) as [P|P] by (unfold qdot; lra); [exact P|]. exfalso.
  assert (qw u = 0) as Ew by (unfold qdot in P; clear -P P1 P2 P3 P4; nra). assert (qx u = 0) as Ex by (unfold qdot in P; clear -P P1 P2 P3 P4; nra).
  assert (qy u = 0) as Ey by (unfold qdot in P; clear -P P1 P2 P3 P4; nra). assert (qz u = 0) as Ez by (unfold qdot in P; clear -P P1 P2 P3 P4; nra).
  unfold unitq, qdot, qnormalize in U. cbn [qw qx qy qz] in U. rewrite Ew, Ex, Ey, Ez in U. unfold Rdiv in U. rewrite !Rmult_0_l in U. lra.
Qed.
Lemma element_curve a b g u v w :
  let x := mkV3 a b g in
  (forall e, In e [a00; a01; a02; a10; a11; a12; a20; a21; a22] -> Rabs (e (so3_euler_entries x)) <> / 10 ^ 6) ->
  (exists p, largest (decisions (so3_euler_to_matrix x (/ 10 ^ 6))) p) ->
  exists Q', DQ (fun t => so3_euler_to_quat (mkV3 (a + t * u) (b + t * v) (g + t * w)) (/ 10 ^ 6)) Q' /\
    forall q, qdot q Q' = nth 0 (so3_angles_backward x (/ 10 ^ 6) q) 0 * u + nth 1 (so3_angles_backward x (/ 10 ^ 6) q) 0 * v + nth 2 (so3_angles_backward x (/ 10 ^ 6) q) 0 * w.
Proof.
  intros x Hoff [p Hp]. set (E := fun t => so3_euler_entries (mkV3 (a + t * u) (b + t * v) (g + t * w))).
  pose proof (DM_entries a b g u v w) as HE. fold E x in HE. set (E' := lin3 u v w (euler_d_alpha x) (euler_d_beta x) (euler_d_gamma x)) in *.
  assert (E 0 = so3_euler_entries x) as E0 by (unfold E, x; rewrite !Rmult_0_l, !Rplus_0_r; reflexivity).
  pose proof (DM_thr (/ 10 ^ 6) E E' six_pos ltac:(rewrite E0; exact Hoff) HE) as HM. rewrite E0 in HM.
  set (M := fun t => map3 (thr (/ 10 ^ 6)) (E t)) in *. set (M' := map3_2 _ (so3_euler_entries x) E') in *.
  assert (M 0 = so3_euler_to_matrix x (/ 10 ^ 6)) as M0 by (unfold M; rewrite E0; reflexivity).
  rewrite <- M0 in Hp. destruct (pivot_near M M' p HM Hp) as (d & Hd & K).
  assert (pivot (M 0) = p) as P0 by (apply K; rewrite Rabs_R0; exact Hd).
  pose proof (pivot_norm_pos (M 0)) as NP. rewrite P0 in NP.
  exists (normalize_d (so3_m2q_pivot p (M 0)) (pivot_lin p M')). split.
  - apply (DQ_local _ (fun t => qnormalize (so3_m2q_pivot p (M t))) _ d Hd).
    + intros y Hy. unfold so3_euler_to_quat, so3_matrix_to_quat. fold (pivot (so3_euler_to_matrix (mkV3 (a + y * u) (b + y * v) (g + y * w)) (/ 10 ^ 6))).
      change (so3_euler_to_matrix (mkV3 (a + y * u) (b + y * v) (g + y * w)) (/ 10 ^ 6)) with (M y). rewrite (K y Hy). reflexivity.
    + apply (DQ_normalize (fun t => so3_m2q_pivot p (M t))); [apply DQ_pivot, HM|exact NP].
  - intros q. rewrite normalize_adjoint by exact NP. rewrite pivot_adjoint. unfold M'. rewrite thr_adjoint. unfold E'. rewrite lin3_adjoint.
    unfold so3_angles_backward. rewrite <- M0. fold (pivot (M 0)). rewrite P0. cbn [nth]. reflexivity.
Qed.

(** ** Pairs *)
Lemma half_scale k c : columb_energy k (acos (clamp c lo7 hi7) / (PI / 2)) = / 2 ^ k * pair_energy k c.
Proof.
  unfold pair_energy, columb_energy. pose proof PI_RGT_0. replace (acos (clamp c lo7 hi7) / (PI / 2)) with (2 * (acos (clamp c lo7 hi7) / PI)) by (field; lra).
  rewrite Rpow_mult_distr, Rinv_mult. reflexivity.
Qed.
Lemma half_backward k c : 0 < acos (clamp c lo7 hi7) ->
  columb_backward k (acos (clamp c lo7 hi7) / (PI / 2)) / (PI / 2) * acos_backward (clamp c lo7 hi7) * clamp_backward c lo7 hi7 = / 2 ^ k * pair_backward k c.
Proof.
  intros P. unfold pair_backward, columb_backward. pose proof PI_RGT_0. set (z := acos (clamp c lo7 hi7)) in *. clearbody z.
  replace (z / (PI / 2)) with (2 * (z / PI)) by (field; lra). rewrite Rpow_mult_distr.
  assert (0 < z / PI) as Q by (apply Rdiv_lt_0_compat; lra). assert ((z / PI) ^ S k <> 0) as N by (apply pow_nonzero; lra). assert (2 ^ k <> 0) as N2 by (apply pow_nonzero; lra).
  cbn [pow] in *. set (r := z / PI) in *. clearbody r. assert (r ^ k <> 0) as N3 by (intros Z; apply N; rewrite Z; ring). generalize dependent (r ^ k). generalize dependent (2 ^ k). intros. field. repeat split; (assumption || lra).
Qed.
Lemma clamp_acos_pos c : 0 < acos (clamp c lo7 hi7).
Proof.
  pose proof seven as S7. destruct (clamp_bounds c lo7 hi7) as [L U]; [unfold lo7, hi7; lra|]. apply acos_pos_lt. unfold lo7, hi7 in *. lra.
Qed.
Lemma rotation_pairs k n x : length x = n ->
  rotation_energy k x = sumR (map (fun i => sumR (map (fun j => / 2 ^ k * pair_energy k (Rabs (qdot (quat_of x i) (quat_of x j)))) (others n i))) (seq 0 n)) / INR (n * (n - 1)).
Proof.
  intros Hn. unfold rotation_energy.
  pose proof (mean_energy_pairs (fun g => so3_euler_to_quat g (/ 10 ^ 6)) (fun a b => so3_geodesic_distance a b (/ 10 ^ 7)) (columb_energy k) (PI / 2) (euler_rows x) (euler_of x n)) as E.
  cbv zeta in E. rewrite E. clear E. 2:{ intros a b _ _. apply so3_self_minimal. }
  assert (length (euler_rows x) = n) as -> by (unfold euler_rows; rewrite map_length; exact Hn).
  f_equal. apply sumR_ext. intros i Hi. apply in_seq in Hi. apply sumR_ext. intros j Hj. apply others_In in Hj as [Hj _]. unfold euler_rows.
  assert (forall i, (i < n)%nat -> nth i (map (fun r => mkV3 (nth 0 r 0) (nth 1 r 0) (nth 2 r 0)) x) (euler_of x n) = euler_of x i) as K.
  { intros l Hl. rewrite (nth_indep _ _ ((fun r => mkV3 (nth 0 r 0) (nth 1 r 0) (nth 2 r 0)) [])) by (rewrite map_length; lia). rewrite (map_nth (fun r => mkV3 (nth 0 r 0) (nth 1 r 0) (nth 2 r 0))). reflexivity. }
  rewrite !K by lia. unfold so3_geodesic_distance. fold lo7 hi7. rewrite half_scale. reflexivity.
Qed.

(** ** The energy along a direction *)
Lemma finite_choice {B} (P : nat -> B -> Prop) (d : B) n : (forall i, (i < n)%nat -> exists b, P i b) -> exists f, forall i, (i < n)%nat -> P i (f i).
Proof.
  induction n as [|n IH]; intros H; [exists (fun _ => d); intros; lia|]. destruct IH as [f Hf]; [intros; apply H; lia|]. destruct (H n) as [b Hb]; [lia|].
  exists (fun i => if Nat.eqb i n then b else f i). intros i Hi. destruct (Nat.eqb_spec i n) as [->|Hne]; [exact Hb|apply Hf; lia].
Qed.
Lemma so3_inner_grad_pair k n x i j : length x = n ->
  so3_inner_grad k x i j = / INR (n * (n - 1)) * (/ 2 ^ k * pair_backward k (Rabs (qdot (quat_of x i) (quat_of x j)))) * abs_backward (qdot (quat_of x i) (quat_of x j)).
Proof.
  intros Hn. unfold so3_inner_grad. rewrite Hn. change (so3_inner x i j) with (qdot (quat_of x i) (quat_of x j)). fold lo7 hi7.
  rewrite <- (half_backward k _ (clamp_acos_pos _)). unfold Rdiv. ring.
Qed.
Lemma so3_backward_row k n x i : length x = n -> (i < n)%nat -> nth i (so3_backward k x) [] = so3_angles_backward (euler_of x i) (/ 10 ^ 6) (so3_quat_grad k x i).
Proof. intros Hn Hi. unfold so3_backward. rewrite Hn, nth_map_seq by exact Hi. reflexivity. Qed.
Lemma so3_backward_table k x : table (length x) 3 (so3_backward k x).
Proof. split; [unfold so3_backward; rewrite map_length, seq_length; reflexivity|]. intros i Hi. rewrite (so3_backward_row k (length x)) by (reflexivity || exact Hi). reflexivity. Qed.
Lemma qdot_sum (c : nat -> R) (p : nat -> Q4) (v : Q4) js :
  qdot (mkQ (sumR (map (fun j => c j * qw (p j)) js)) (sumR (map (fun j => c j * qx (p j)) js)) (sumR (map (fun j => c j * qy (p j)) js)) (sumR (map (fun j => c j * qz (p j)) js))) v
  = sumR (map (fun j => c j * qdot v (p j)) js).
Proof. unfold qdot. cbn [qw qx qy qz]. induction js as [|j js IH]; cbn [map sumR]; [ring|]. rewrite <- IH. ring. Qed.
Lemma so3_backward_gradient k n x : table n 3 x -> general_position n x -> is_gradient n 3 (rotation_energy k) x (so3_backward k x).
Proof.
  intros [Hn Hr] [Hel Hpair]. split; [rewrite <- Hn; apply so3_backward_table|]. intros v _.
  destruct (finite_choice (fun i Q' => DQ (fun t => so3_euler_to_quat (mkV3 (number x i 0 + t * number v i 0) (number x i 1 + t * number v i 1) (number x i 2 + t * number v i 2)) (/ 10 ^ 6)) Q' /\
      forall q, qdot q Q' = nth 0 (so3_angles_backward (euler_of x i) (/ 10 ^ 6) q) 0 * number v i 0 + nth 1 (so3_angles_backward (euler_of x i) (/ 10 ^ 6) q) 0 * number v i 1
        + nth 2 (so3_angles_backward (euler_of x i) (/ 10 ^ 6) q) 0 * number v i 2) (mkQ 1 0 0 0) n) as [V HV].
  { intros i Hi. destruct (Hel i Hi) as [H1 (p & Hp & H2)]. apply element_curve; [exact H1|]. exists p. split; [exact Hp|exact H2]. }
  set (P := fun i t => so3_euler_to_quat (mkV3 (number x i 0 + t * number v i 0) (number x i 1 + t * number v i 1) (number x i 2 + t * number v i 2)) (/ 10 ^ 6)).
  assert (forall i, P i 0 = quat_of x i) as P0 by (intros i; unfold P, quat_of, euler_of; rewrite !Rmult_0_l, !Rplus_0_r; reflexivity).
  set (p := quat_of x) in *. set (g := so3_inner_grad k x).
  apply derivable_pt_lim_eq with (l := / INR (n * (n - 1)) * sumR (map (fun i => sumR (map (fun j =>
      / 2 ^ k * (pair_backward k (Rabs (qdot (p i) (p j))) * (abs_backward (qdot (p i) (p j)) * (qdot (V i) (p j) + qdot (p i) (V j))))) (others n i))) (seq 0 n))).
  - transitivity (sumR (map (fun i => sumR (map (fun j => g i j * qdot (V i) (p j) + g i j * qdot (p i) (V j)) (others n i))) (seq 0 n))).
    { rewrite <- sumR_scale. apply sumR_ext. intros i _. rewrite <- sumR_scale. apply sumR_ext. intros j _. unfold g. rewrite (so3_inner_grad_pair k n) by exact Hn. fold p. ring. }
    transitivity (sumR (map (fun i => sumR (map (fun j => g i j * qdot (V i) (p j)) (others n i))) (seq 0 n)) + sumR (map (fun i => sumR (map (fun j => g i j * qdot (p i) (V j)) (others n i))) (seq 0 n))).
    { rewrite <- sumR_plus. apply sumR_ext. intros i _. apply sumR_plus. }
    rewrite (sum_pairs_swap n (fun i j => g i j * qdot (p i) (V j))). rewrite <- sumR_plus. unfold along. apply sumR_ext. intros i Hi. apply in_seq in Hi.
    rewrite <- sumR_plus. transitivity (qdot (so3_quat_grad k x i) (V i)).
    + unfold so3_quat_grad. rewrite Hn. fold (others n i). rewrite (qdot_sum (fun j => so3_inner_grad k x i j + so3_inner_grad k x j i) p (V i)).
      apply sumR_ext. intros j _. unfold g, qdot. ring.
    + destruct (HV i) as [_ ->]; [lia|]. change (seq 0 3) with [0%nat; 1%nat; 2%nat]. cbn [map sumR]. unfold number at 4 6 8. rewrite (so3_backward_row k n) by (exact Hn || lia). ring.
  - apply derivable_pt_lim_fext with (g := mult_real_fct (/ INR (n * (n - 1))) (fun t => sumR (map (fun i => sumR (map (fun j => / 2 ^ k * pair_energy k (Rabs (qdot (P i t) (P j t)))) (others n i))) (seq 0 n)))).
    { intros t. rewrite (rotation_pairs k n) by (unfold moved; rewrite map_length, seq_length; reflexivity).
      unfold mult_real_fct, Rdiv. rewrite Rmult_comm. f_equal. apply sumR_ext. intros i Hi. apply in_seq in Hi. apply sumR_ext. intros j Hj. apply others_In in Hj as [Hj _].
      unfold quat_of, euler_of. rewrite !moved_entry by lia. reflexivity. }
    apply derivable_pt_lim_scal. apply derivable_sum. intros i Hi. apply in_seq in Hi.
    apply (derivable_sum (fun j t => / 2 ^ k * pair_energy k (Rabs (qdot (P i t) (P j t))))). intros j Hj. apply others_In in Hj as [Hj Hne].
    apply (derivable_pt_lim_scal (fun t => pair_energy k (Rabs (qdot (P i t) (P j t))))).
    destruct (HV i) as [Di _]; [lia|]. destruct (HV j) as [Dj _]; [lia|]. fold (P i) in Di. fold (P j) in Dj.
    pose proof (DQ_dot (P i) (P j) _ _ Di Dj) as DD. cbv beta in DD. rewrite !P0 in DD.
    destruct (Hpair i j) as [N1 N2]; [lia|lia|congruence|].
    pose proof (D_abs (fun t => qdot (P i t) (P j t)) _ ltac:(cbv beta; rewrite !P0; exact N1) DD) as DA. cbv beta in DA. rewrite !P0 in DA.
    apply (D_comp (fun t => Rabs (qdot (P i t) (P j t))) (pair_energy k)); [exact DA|]. rewrite !P0. fold p in N2. pose proof seven as S7.
    apply derivable_pair; intros E; [pose proof (Rabs_pos (qdot (p i) (p j))); unfold lo7 in E; lra|apply N2; exact E].
Qed.

(** ** Twins *)
Lemma quat_of_unit x i : qdot (quat_of x i) (quat_of x i) = 1.
Proof. exact (m2q_unit_any _). Qed.
Lemma so3_inner_grad_twin k x i j l : nth i x [] = nth j x [] -> so3_inner_grad k x i l = so3_inner_grad k x j l /\ so3_inner_grad k x l i = so3_inner_grad k x l j.
Proof. intros H. rewrite !(so3_inner_grad_pair k (length x)) by reflexivity. unfold quat_of, euler_of, number. rewrite H. split; reflexivity. Qed.
Lemma so3_guarded_grad k x i j : hi7 < Rabs (qdot (quat_of x i) (quat_of x j)) -> so3_inner_grad k x i j = 0.
Proof. intros H. rewrite (so3_inner_grad_pair k (length x)) by reflexivity. rewrite guarded_pair by (rewrite Rabs_Rabsolu; exact H). ring. Qed.
Lemma so3_twin_grad k n x i j : length x = n -> (i < n)%nat -> (j < n)%nat -> nth i x [] = nth j x [] -> nth i (so3_backward k x) [] = nth j (so3_backward k x) [].
Proof.
  intros Hn Hi Hj H. pose proof seven as S7. rewrite !(so3_backward_row k n) by assumption.
  assert (forall a b, (a = i \/ a = j) -> (b = i \/ b = j) -> so3_inner_grad k x a b = 0) as Z.
  { intros a b Ha Hb. apply so3_guarded_grad. assert (qdot (quat_of x a) (quat_of x b) = qdot (quat_of x i) (quat_of x i)) as -> by (unfold quat_of, euler_of, number; destruct Ha as [->| ->], Hb as [->| ->]; rewrite ?H; reflexivity).
    rewrite quat_of_unit, Rabs_R1. unfold hi7. lra. }
  assert (forall coord : Q4 -> R, sumR (map (fun l => (so3_inner_grad k x i l + so3_inner_grad k x l i) * coord (quat_of x l)) (others n i)) =
    sumR (map (fun l => (so3_inner_grad k x j l + so3_inner_grad k x l j) * coord (quat_of x l)) (others n j))) as E.
  { intros coord. unfold others. rewrite !sum_filter. apply sumR_ext. intros l _. destruct (so3_inner_grad_twin k x i j l H) as [<- <-].
    destruct (Nat.eqb_spec l i) as [Ei|Ni], (Nat.eqb_spec l j) as [Ej|Nj]; cbn [negb]; try reflexivity; rewrite !Z by auto; ring. }
  assert (so3_quat_grad k x i = so3_quat_grad k x j) as ->.
  { unfold so3_quat_grad. rewrite Hn. unfold others in E. f_equal; [apply (E qw)|apply (E qx)|apply (E qy)|apply (E qz)]. }
  assert (euler_of x i = euler_of x j) as -> by (unfold euler_of, number; rewrite H; reflexivity). reflexivity.
Qed.
Lemma row_list n d x i : table n d x -> (i < n)%nat -> nth i x [] = map (number x i) (seq 0 d).
Proof.
  intros [_ R] Hi. specialize (R i Hi). apply (nth_ext _ _ 0 0); [rewrite map_length, seq_length; exact R|]. intros c Hc. rewrite nth_map_seq by lia. reflexivity.
Qed.
Lemma so3_twin_epoch k n steps lr alpha noise e x i j : table n 3 x -> table n 3 (noise e) -> (i < n)%nat -> (j < n)%nat -> nth i x [] = nth j x [] ->
  alpha = 0 \/ nth i (noise e) [] = nth j (noise e) [] ->
  let y := repulse_epoch steps lr alpha (so3_backward k) noise e x in nth i y [] = nth j y [].
Proof.
  intros Hx Hz Hi Hj H Hn y. assert (table n 3 (so3_backward k x)) as Hb by (destruct Hx as [<- _]; apply so3_backward_table).
  assert (table n 3 y) as Hy by (apply epoch_table; assumption). rewrite !(row_list n 3 y) by assumption.
  apply map_ext_in. intros c Hc. apply in_seq in Hc. unfold y. rewrite !(epoch_number n 3) by (assumption || lia).
  assert (number x i c = number x j c) as -> by (unfold number; rewrite H; reflexivity).
  assert (number (so3_backward k x) i c = number (so3_backward k x) j c) as -> by (unfold number; rewrite (so3_twin_grad k n x i j) by (assumption || apply Hx); reflexivity).
  destruct Hn as [->|Hn]; [ring|]. assert (number (noise e) i c = number (noise e) j c) as -> by (unfold number; rewrite Hn; reflexivity). reflexivity.
Qed.
(** An element guarded from all others. *)
Lemma so3_stuck k n x i : length x = n -> (i < n)%nat -> (forall j, (j < n)%nat -> j <> i -> hi7 < Rabs (qdot (quat_of x i) (quat_of x j))) ->
  nth i (so3_backward k x) [] = [0; 0; 0].
Proof.
  intros Hn Hi H. rewrite (so3_backward_row k n) by assumption. assert (so3_quat_grad k x i = mkQ 0 0 0 0) as ->.
  { unfold so3_quat_grad. rewrite Hn. fold (others n i). f_equal; apply sumR_zero; intros j Hj; apply others_In in Hj as [Hj Hne];
      rewrite (so3_guarded_grad k x i j) by (apply H; assumption); rewrite (so3_guarded_grad k x j i) by (replace (qdot (quat_of x j) (quat_of x i)) with (qdot (quat_of x i) (quat_of x j)) by (unfold qdot; ring); apply H; assumption); ring. }
  unfold so3_angles_backward. set (m := so3_euler_to_matrix _ _). set (p := argmax4 _ _ _ _).
  assert (normalize_backward (so3_m2q_pivot p m) (mkQ 0 0 0 0) = mkQ 0 0 0 0) as ->.
  { unfold normalize_backward, qdot, Rdiv. cbn [qw qx qy qz]. f_equal; ring. }
  assert (pivot_backward p (mkQ 0 0 0 0) = mkM3 0 0 0 0 0 0 0 0 0) as -> by (unfold pivot_backward; destruct p as [|[|[|p]]]; cbn [qw qx qy qz]; rewrite ?Ropp_0; reflexivity).
  unfold dot9, map3_2. cbn [a00 a01 a02 a10 a11 a12 a20 a21 a22]. f_equal; [ring|]. f_equal; [ring|]. f_equal. ring.
Qed.

(** ** Turns about the third axis *)
Definition zturn (a : R) : M3 := mkM3 (cos a) (- sin a) 0 (sin a) (cos a) 0 0 0 1.
Lemma flat_entries a g : so3_euler_entries (mkV3 a 0 g) = zturn (a + g).
Proof. unfold so3_euler_entries, zturn. cbn [vx vy vz]. rewrite cos_0, sin_0, cos_plus, sin_plus. f_equal; ring. Qed.
Lemma thr_big eps r : 0 < eps -> eps < Rabs r -> thr eps r = r.
Proof.
  intros He H. unfold thr. destruct (Rlt_dec eps r); [ring|]. destruct (Rlt_dec r (- eps)); [ring|]. exfalso. destruct (Rle_lt_dec 0 r); [rewrite Rabs_right in H by lra|rewrite Rabs_left in H by lra]; lra.
Qed.
Lemma thr_zero eps : thr eps 0 = 0. Proof. unfold thr. ring. Qed.
Lemma six_small : / 10 ^ 6 < / 100. Proof. apply Rinv_lt_contravar; simpl; lra. Qed.
Lemma flat_matrix a g : / 100 <= Rabs (cos (a + g)) -> / 100 <= Rabs (sin (a + g)) -> so3_euler_to_matrix (mkV3 a 0 g) (/ 10 ^ 6) = zturn (a + g).
Proof.
  intros Hc Hs. pose proof six_pos. pose proof six_small. unfold so3_euler_to_matrix. rewrite flat_entries. unfold zturn, map3. cbn [a00 a01 a02 a10 a11 a12 a20 a21 a22].
  rewrite !thr_zero, !thr_big by (rewrite ?Rabs_Ropp, ?Rabs_R1; lra). reflexivity.
Qed.
Lemma flat_identity : so3_euler_to_matrix (mkV3 0 0 0) (/ 10 ^ 6) = zturn 0.
Proof.
  pose proof six_pos. pose proof six_small. unfold so3_euler_to_matrix. rewrite flat_entries, Rplus_0_r. unfold zturn, map3. cbn [a00 a01 a02 a10 a11 a12 a20 a21 a22].
  rewrite sin_0, cos_0, Ropp_0, !thr_zero, !thr_big by (rewrite ?Rabs_R1; lra). reflexivity.
Qed.
