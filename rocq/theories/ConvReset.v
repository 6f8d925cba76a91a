(** Parameter initialisation. *)
From Coq Require Import String ZArith Lra.
From Verif Require Import Prelude RMath Mat Repulse RepulseFacts Tensor TensorFacts SignedPerm Kernel KernelFacts Conv.
Open Scope R_scope.

Lemma uniform_fill_spec s a b u : has_shape (uniform_fill s a b u) s /\
  forall idx, valid s idx -> at_ (uniform_fill s a b u) idx = a + (b - a) * u (ravel s idx).
Proof. split; [split; [reflexivity|apply wft_build]|]. intros idx H. unfold uniform_fill. rewrite at_build by assumption. reflexivity. Qed.
Lemma uniform_bound r x : 0 <= r -> 0 <= x < 1 -> Rabs (- r + (r - - r) * x) <= r.
Proof. intros Hr Hx. apply Rabs_le. nra. Qed.

Lemma sqrt_pos_INR f : (0 < f)%nat -> 0 < sqrt (INR f).
Proof. intros H. apply sqrt_lt_R0. apply (lt_INR 0). assumption. Qed.
Lemma gain_sqrt5 : sqrt (2 / (1 + sqrt 5 * sqrt 5)) = sqrt (1 / 3).
Proof. rewrite sqrt_sqrt by lra. f_equal. lra. Qed.
Lemma kaiming_bound f : sqrt 3 * kaiming_std (sqrt 5) f = 1 / sqrt (INR f).
Proof.
  unfold kaiming_std. rewrite gain_sqrt5. unfold Rdiv at 1. rewrite <- Rmult_assoc.
  rewrite <- sqrt_mult by lra. replace (3 * (1 / 3)) with 1 by lra. rewrite sqrt_1. reflexivity.
Qed.
Lemma kaiming_std5 f : (0 < f)%nat -> kaiming_std (sqrt 5) f = 1 / sqrt (3 * INR f).
Proof.
  intros Hf. unfold kaiming_std. rewrite gain_sqrt5. pose proof (sqrt_pos_INR f Hf) as Hp.
  assert (0 < INR f) as HI by (apply (lt_INR 0); assumption).
  assert (0 < sqrt 3) as H3 by (apply sqrt_lt_R0; lra).
  rewrite sqrt_mult by lra. rewrite sqrt_div by lra. rewrite sqrt_1. field. lra.
Qed.
Lemma no_zero s : existsb (Nat.eqb 0) s = false <-> prodn s <> 0%nat.
Proof.
  induction s as [|a s IH]; [cbn; split; [intros _; discriminate|reflexivity]|]. rewrite prodn_cons. cbn [existsb].
  destruct a; simpl Nat.eqb; cbn [orb].
  - split; [discriminate|]. intros H. exfalso. apply H. reflexivity.
  - rewrite IH. split; intros H; [|intros E; apply H; rewrite E; apply Nat.mul_0_r].
    intros E. apply Nat.eq_mul_0 in E. destruct E; [discriminate|contradiction].
Qed.
Lemma fan_pos a c rest : prodn (a :: c :: rest) <> 0%nat -> (0 < c * prodn rest)%nat.
Proof. rewrite !prodn_cons. intros H. destruct (Nat.eq_dec (c * prodn rest) 0) as [E|E]; [rewrite E, Nat.mul_0_r in H; contradiction|lia]. Qed.

Lemma kaiming_uniform_spec w u a c rest : has_shape w (a :: c :: rest) -> (forall i, 0 <= u i < 1) ->
  exists w', kaiming_uniform (sqrt 5) w u = Ok w' /\ has_shape w' (a :: c :: rest) /\
    forall idx, valid (a :: c :: rest) idx ->
      at_ w' idx = (2 * u (ravel (a :: c :: rest) idx) - 1) / sqrt (INR (c * prodn rest)%nat) /\
      Rabs (at_ w' idx) <= 1 / sqrt (INR (c * prodn rest)%nat).
Proof.
  intros [Hs Hw] Hu. unfold kaiming_uniform. rewrite Hs.
  destruct (existsb (Nat.eqb 0) (a :: c :: rest)) eqn:E.
  - exists w. split; [reflexivity|]. split; [split; assumption|]. intros idx Hv. exfalso.
    assert (prodn (a :: c :: rest) = 0%nat) as E0.
    { destruct (Nat.eq_dec (prodn (a :: c :: rest)) 0) as [|N]; [assumption|]. apply no_zero in N. congruence. }
    pose proof (proj2 (in_indices _ _) Hv) as Hin. rewrite <- indices_length in E0. destruct (indices (a :: c :: rest)); [destruct Hin|discriminate].
  - apply no_zero in E. pose proof (fan_pos _ _ _ E) as Hf. cbn [fan_in bind]. rewrite kaiming_bound.
    destruct (uniform_fill_spec (a :: c :: rest) (- (1 / sqrt (INR (c * prodn rest)%nat))) (1 / sqrt (INR (c * prodn rest)%nat)) u) as [S1 S2].
    eexists; split; [reflexivity|]. split; [exact S1|]. intros idx Hv. rewrite S2 by assumption.
    pose proof (sqrt_pos_INR _ Hf) as Hp. split; [field; lra|]. apply uniform_bound; [|apply Hu].
    apply Rlt_le. apply Rdiv_lt_0_compat; lra.
Qed.
