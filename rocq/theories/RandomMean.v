(** Facts for C98: averaging over randomly turned uniform grids. *)
From Coq Require Import ZArith Permutation Lia Lra.
From Verif Require Import Prelude RMath SO2 SO2Facts Repulse RepulseFacts Tensor KernelFacts SepProduct RegridSpec Public RandomSpec RandomFacts.
Open Scope R_scope.

Lemma turned_element N n r k j : (0 < N)%nat -> N = (n * r)%nat ->
  so2_left_apply_angle (2 * PI * (INR k / INR N)) (2 * PI * INR j / INR n) = 2 * PI * INR ((k + j * r) mod N) / INR N.
Proof.
  intros HN E. unfold so2_left_apply_angle. assert (INR n <> 0 /\ INR r <> 0) as [Hn Hr] by (split; apply not_0_INR; nia). pose proof PI_RGT_0.
  assert (2 * PI * (INR k / INR N) + 2 * PI * INR j / INR n = 2 * PI * INR (k + j * r) / INR N) as ->.
  { rewrite E, plus_INR, !mult_INR. field. auto. }
  assert (0 < INR N) as HN' by (apply lt_0_INR; exact HN).
  apply Rmod_unique with (k := Z.of_nat ((k + j * r) / N)); [lra| |].
  - rewrite <- INR_IZR_INZ. pose proof (Nat.div_mod (k + j * r) N ltac:(lia)) as Q. apply (f_equal INR) in Q. rewrite (plus_INR (N * _)), (mult_INR N) in Q. rewrite Q. field. lra.
  - pose proof (Nat.mod_upper_bound (k + j * r) N ltac:(lia)) as B. apply lt_INR in B. pose proof (pos_INR ((k + j * r) mod N)). split.
    + apply Rmult_le_pos; [apply Rmult_le_pos; lra|]. left. apply Rinv_0_lt_compat. exact HN'.
    + apply Rmult_lt_reg_r with (INR N); [exact HN'|]. unfold Rdiv. rewrite Rmult_assoc, Rinv_l by lra. nra.
Qed.

Lemma turned_uniform_regrid N n r k : (0 < N)%nat -> N = (n * r)%nat ->
  regrid (fun j => ((k + j * r) mod N)%nat) (so2_uniform_grid N) (bcast_left so2_left_apply_angle (so2_random_grid [INR k / INR N]) (so2_uniform_grid n)).
Proof.
  intros HN E j h. unfold bcast_left, so2_random_grid. cbn [map flat_map]. rewrite app_nil_r, nth_error_map. intros H.
  destruct (nth_error (so2_uniform_grid n) j) as [a|] eqn:Ea; [|discriminate]. cbn [option_map] in H. injection H as <-.
  assert (j < n)%nat as Hj by (rewrite <- (so2_uniform_grid_length n); apply nth_error_Some; congruence).
  rewrite so2_uniform_grid_nth in Ea by exact Hj. injection Ea as <-. rewrite (turned_element N n r) by assumption.
  apply so2_uniform_grid_nth. apply Nat.mod_upper_bound. lia.
Qed.

Lemma mean_shift N r' (g : nat -> R) : (0 < N)%nat -> sumR (map (fun k => g ((k + r') mod N)%nat) (seq 0 N)) = sumR (map g (seq 0 N)).
Proof.
  intros HN. transitivity (sumR (map g (map (fun k => Z.to_nat ((Z.of_nat k + Z.of_nat r') mod Z.of_nat N)) (seq 0 N)))).
  - rewrite map_map. f_equal. apply map_ext. intros k. f_equal. rewrite <- Nat2Z.inj_add, <- Nat2Z.inj_mod, Nat2Z.id. reflexivity.
  - apply sumR_perm. apply Permutation_map. apply shift_mod_perm. exact HN.
Qed.
Lemma mean_of_turned N n r (g : nat -> R) : (0 < N)%nat -> N = (n * r)%nat ->
  meanR (map (fun k => meanR (map (fun j => g ((k + j * r) mod N)%nat) (seq 0 n))) (seq 0 N)) = meanR (map g (seq 0 N)).
Proof.
  intros HN E. assert (INR n <> 0) by (apply not_0_INR; nia). unfold meanR. rewrite !map_length, !seq_length. f_equal.
  transitivity (sumR (map (fun k => / INR n * sumR (map (fun j => g ((k + j * r) mod N)%nat) (seq 0 n))) (seq 0 N))).
  { f_equal. apply map_ext. intros k. rewrite map_length, seq_length. unfold Rdiv. ring. }
  rewrite sumR_scale, (sumR_swap (fun k j => g ((k + j * r) mod N)%nat)).
  transitivity (/ INR n * sumR (map (fun j => sumR (map g (seq 0 N))) (seq 0 n))).
  { f_equal. f_equal. apply map_ext. intros j. apply mean_shift. exact HN. }
  assert (forall c l, sumR (map (fun _ : nat => c) l) = INR (List.length l) * c) as Hc.
  { intros c l. induction l as [|a l IH]; [cbn; ring|]. cbn [map List.length]. rewrite S_INR. transitivity (c + sumR (map (fun _ : nat => c) l)); [reflexivity|rewrite IH; ring]. }
  rewrite Hc, seq_length. field. assumption.
Qed.
