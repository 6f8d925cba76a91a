(** Facts about Defaults.v. *)
From Verif Require Import Prelude RMath Interp Bary Defaults.
Open Scope R_scope.

Definition low (a : ext) : Prop := match a with Fin _ | MInf => True | _ => False end.
Definition high (a : ext) : Prop := match a with Fin _ | PInf => True | _ => False end.
Lemma xadd_NaN_r a : xadd a NaN = NaN.
Proof. destruct a; reflexivity. Qed.
Lemma xsum_NaN l : In NaN l -> xsum l = NaN.
Proof. induction l as [|a l IH]; intros []; cbn [xsum fold_right]; [subst; reflexivity|]. fold (xsum l). rewrite (IH H). apply xadd_NaN_r. Qed.
Lemma xsum_low l : (forall a, In a l -> low a) -> low (xsum l) /\ (In MInf l -> xsum l = MInf).
Proof.
  induction l as [|a l IH]; intros H; [split; [exact I|intros []]|]. destruct IH as (L & M); [intros b Hb; apply H; right; exact Hb|].
  cbn [xsum fold_right]. fold (xsum l). pose proof (H a (or_introl eq_refl)) as La. split.
  - destruct a, (xsum l); cbn in *; auto.
  - intros [->|Hi]; [destruct (xsum l); cbn in *; auto; contradiction|]. rewrite (M Hi). destruct a; cbn in *; auto; contradiction.
Qed.
Lemma xsum_high l : (forall a, In a l -> high a) -> high (xsum l) /\ (In PInf l -> xsum l = PInf).
Proof.
  induction l as [|a l IH]; intros H; [split; [exact I|intros []]|]. destruct IH as (L & M); [intros b Hb; apply H; right; exact Hb|].
  cbn [xsum fold_right]. fold (xsum l). pose proof (H a (or_introl eq_refl)) as La. split.
  - destruct a, (xsum l); cbn in *; auto.
  - intros [->|Hi]; [destruct (xsum l); cbn in *; auto; contradiction|]. rewrite (M Hi). destruct a; cbn in *; auto; contradiction.
Qed.
Lemma in_kept N j : In j (kept N) <-> (1 <= j < N)%nat.
Proof. unfold kept. rewrite in_seq. lia. Qed.
Lemma xscale_pos r a : 0 < r -> xscale r a = match a with Fin b => Fin (r * b) | _ => a end.
Proof. intros P. destruct a; cbn [xscale]; try reflexivity; destruct (Rlt_dec 0 r); try reflexivity; contradiction. Qed.

Section Finite.
Context (N D : nat) (c : R) (Hc : 0 < c) (HN : (2 <= N)%nat) (HD : (1 <= D)%nat) (x : nat -> nat -> ext) (v : nat -> nat -> R) (Hx : forall i k, x i k = Fin (v i k)).

Lemma count_pos : 0 < / (INR N * INR (N - 1) * INR D).
Proof. apply Rinv_0_lt_compat. apply Rmult_lt_0_compat; [apply Rmult_lt_0_compat|]; apply lt_0_INR; lia. Qed.
Lemma diff_fin i j k : xscale (/ c) (default_diff x i j k) = Fin (/ c * (v i k - v j k)).
Proof. unfold default_diff. rewrite !Hx. reflexivity. Qed.
Lemma pair_low i j k : low (default_pair_grad N D c x i j k) /\ (i = j -> default_pair_grad N D c x i j k = MInf).
Proof.
  pose proof count_pos as P. assert (Pc : 0 < / c) by (apply Rinv_0_lt_compat; exact Hc).
  unfold default_pair_grad. rewrite diff_fin. rewrite !(xscale_pos (/ c) _ Pc), !(xscale_pos _ _ P). cbn [xinv_pow].
  destruct (Req_EM_T (/ c * (v i k - v j k)) 0) as [E|E].
  - cbn [xscale]. destruct (Rlt_dec 0 (-2)); [lra|]. destruct (Rlt_dec (-2) 0); [|lra]. split; [exact I|reflexivity].
  - split; [exact I|]. intros ->. exfalso. apply E. ring.
Qed.
Lemma grad_NaN i k : (1 <= i < N)%nat -> default_grad N D c x i k = NaN.
Proof.
  intros Hi. unfold default_grad.
  destruct (xsum_low (map (fun j => default_pair_grad N D c x i j k) (kept N))) as (_ & M1).
  { intros a Ha. apply in_map_iff in Ha as (j & <- & _). apply pair_low. }
  destruct (xsum_low (map (fun i' => default_pair_grad N D c x i' i k) (seq 0 N))) as (_ & M2).
  { intros a Ha. apply in_map_iff in Ha as (j & <- & _). apply pair_low. }
  rewrite M1, M2.
  - replace (Nat.eqb i 0) with false by (symmetry; apply Nat.eqb_neq; lia). reflexivity.
  - apply in_map_iff. exists i. split; [apply pair_low; reflexivity|]. apply in_seq. lia.
  - apply in_map_iff. exists i. split; [apply pair_low; reflexivity|]. apply in_kept. exact Hi.
Qed.
Lemma energy_inf : default_energy N D c x = PInf.
Proof.
  unfold default_energy. destruct (xsum_high (map (fun p => xinv_pow 2 (xscale (/ c) (default_diff x (fst (fst p)) (snd (fst p)) (snd p))))
    (list_prod (list_prod (seq 0 N) (kept N)) (seq 0 D)))) as (_ & M).
  { intros a Ha. apply in_map_iff in Ha as (p & <- & _). rewrite diff_fin. cbn [xinv_pow]. destruct (Req_EM_T _ 0); exact I. }
  rewrite M; [rewrite (xscale_pos _ _ count_pos); reflexivity|].
  apply in_map_iff. exists (1%nat, 1%nat, 0%nat). split.
  - rewrite diff_fin. cbn [fst snd xinv_pow]. destruct (Req_EM_T _ 0) as [E|E]; [reflexivity|]. exfalso. apply E. ring.
  - apply in_prod; [apply in_prod; [apply in_seq; lia|apply in_kept; lia]|apply in_seq; lia].
Qed.
End Finite.

Lemma pair_NaN N D c x i j k : x i k = NaN \/ x j k = NaN -> default_pair_grad N D c x i j k = NaN.
Proof. intros H. unfold default_pair_grad, default_diff. destruct H as [->| ->]; [reflexivity|]. cbn [xneg]. rewrite xadd_NaN_r. reflexivity. Qed.
Lemma grad_NaN_later N D c x i k : (2 <= N)%nat -> (forall j, (1 <= j < N)%nat -> x j k = NaN) -> default_grad N D c x i k = NaN.
Proof.
  intros HN H. unfold default_grad. rewrite (xsum_NaN (map _ (kept N))); [reflexivity|].
  apply in_map_iff. exists 1%nat. split; [apply pair_NaN; right; apply H; lia|]. apply in_kept. lia.
Qed.
Lemma epoch_NaN N D steps c lr alpha noise e x i k : default_grad N D c x i k = NaN -> default_epoch N D steps c lr alpha noise e x i k = NaN.
Proof. intros H. unfold default_epoch. rewrite H. cbn [xadd xscale xneg]. apply xadd_NaN_r. Qed.
