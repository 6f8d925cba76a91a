(** The default group interpolations are well posed. *)
From Coq Require Import String ZArith Lia Lra.
From Verif Require Import Prelude RMath Mat Interp InterpFacts SO2 SO2Facts O2 O2Facts SO3 O3 Repulse GridTables GridCache GridCacheFacts Tensor Kernel KernelMore Public
  LinAlg SolveSpec RbfSpec RbfCert RbfSound RbfGrid RbfHints RbfRun RbfSO2.
Open Scope R_scope.

Lemma system_inverse n m beta : wfm n n m -> bounded_system n m beta -> bounded_inverse n m beta.
Proof.
  intros [Lm Rm] HB x B Lx Hrow v Hv. destruct (In_nth x v 0 Hv) as (j & Hj & <-). rewrite Lx in Hj.
  assert (forall i, (i < n)%nat -> In (nth i m []) m) as Hin by (intros i Hi; apply nth_In; lia).
  apply (HB (fun j => nth j x 0) (fun i => dotl (nth i m []) x) B); [| |intros i Hi; apply Hrow, Hin, Hi|exact Hj].
  - intros i Hi. rewrite (dotl_sm n); [reflexivity|apply Rm, Hin, Hi|exact Lx].
  - eapply Rle_trans; [|apply (Hrow (nth 0 m [])), Hin; lia]. apply Rabs_pos.
Qed.
Lemma rbf_wfm w g : wfm (length g) (length g) (rbf_matrix w g).
Proof. split; [apply map_length|]. intros r Hr. apply in_map_iff in Hr. destruct Hr as (a & <- & _). apply map_length. Qed.
Lemma so2_rbf_wfm w g : wfm (length g) (length g) (so2_rbf_matrix w g).
Proof. split; [apply map_length|]. intros r Hr. apply in_map_iff in Hr. destruct Hr as (a & <- & _). apply map_length. Qed.

Lemma ready_SE3 n : (2 <= n <= 24)%nat -> exists w, width_SE3 0 (table_matrix n) = Ok w /\ 0 < w /\
  nonsingular n (rbf_matrix w (table_matrix n)) /\ bounded_inverse n (rbf_matrix w (table_matrix n)) 120.
Proof.
  intros Hn. pose proof run_dist as D. rewrite forallb_forall in D. specialize (D n (in_sizes n Hn)). pose proof run_SE3 as R. rewrite forallb_forall in R. specialize (R n (in_sizes n Hn)).
  destruct (certified_SE3 60 n _ _ ltac:(lia) Hn D R) as (w & E & P & N & B). exists w. split; [exact E|]. split; [exact P|]. split; [exact N|].
  replace 120 with (2 * 60) by lra. apply system_inverse; [|exact B]. pose proof (rbf_wfm w (table_matrix n)) as W. rewrite (table_matrix_length n Hn) in W. exact W.
Qed.
Lemma ready_E3 n c : (2 <= n <= 24)%nat -> c * c = 1 -> exists w, default_width 0 (so3_nearest_neighbour_distance_flat (map o3_flat (map (mkO3 c) (table_matrix n)))) = Ok w /\ 0 < w /\
  nonsingular n (rbf_matrix w (table_matrix n)) /\ bounded_inverse n (rbf_matrix w (table_matrix n)) 120.
Proof.
  intros Hn Hc. pose proof run_dist as D. rewrite forallb_forall in D. specialize (D n (in_sizes n Hn)). pose proof run_E3 as R. rewrite forallb_forall in R. specialize (R n (in_sizes n Hn)).
  destruct (certified_E3 60 n c _ _ _ ltac:(lia) Hn Hc D R) as (w & E & P & N & B). exists w. split; [exact E|]. split; [exact P|]. split; [exact N|].
  replace 120 with (2 * 60) by lra. apply system_inverse; [|exact B]. pose proof (rbf_wfm w (table_matrix n)) as W. rewrite (table_matrix_length n Hn) in W. exact W.
Qed.

Lemma combine_attach {A B} (f : R -> A -> B) c (l : list A) : map (fun p => f (fst p) (snd p)) (combine (repeat c (length l)) l) = map (f c) l.
Proof. induction l as [|x l IH]; [reflexivity|]. cbn. f_equal. exact IH. Qed.
Lemma combine_app_len {A B} (a a' : list A) (b b' : list B) : length a = length b -> combine (a ++ a') (b ++ b') = combine a b ++ combine a' b'.
Proof. revert b. induction a as [|x a IH]; intros [|y b] H; try discriminate; [reflexivity|]. cbn. f_equal. apply IH. now injection H. Qed.
Lemma default_E3_tables h n m o1 o2 : write_free h -> (2 <= n <= 24)%nat -> (2 <= m <= 24)%nat ->
  default_E3 (grun ginit h) n m o1 o2 = Ok (map (mkO3 1) (table_matrix n) ++ map (mkO3 (-1)) (table_matrix m)).
Proof.
  intros Hw Hn Hm. destruct (tabulated_matrix h n "matrix" false o1 Hw Hn eq_refl) as (l1 & E1 & L1). destruct (tabulated_matrix h m "matrix" false o2 Hw Hm eq_refl) as (l2 & E2 & L2).
  unfold default_E3, o3_uniform_grid. rewrite E1, E2. cbn [snd]. rewrite L1, L2. cbn [of_option bind tcat]. unfold o3_attach.
  pose proof (table_matrix_length n Hn) as Ln. pose proof (table_matrix_length m Hm) as Lm.
  rewrite !app_length, !repeat_length, Ln, Lm, Nat.eqb_refl. cbn [bind]. f_equal. replace (-1 * 1) with (-1) by lra.
  rewrite combine_app_len by (rewrite repeat_length; lia). rewrite map_app. f_equal.
  - rewrite <- Ln at 1. apply (combine_attach mkO3).
  - rewrite <- Lm at 1. apply (combine_attach mkO3).
Qed.
Lemma o2_uniform_halves n m : o2_uniform_grid n m = map (mkO2 1) (so2_uniform_grid n) ++ map (mkO2 (-1)) (so2_uniform_grid m).
Proof.
  unfold o2_uniform_grid. pose proof (so2_uniform_grid_length n) as Ln. pose proof (so2_uniform_grid_length m) as Lm.
  rewrite combine_app_len by (rewrite repeat_length; lia). rewrite map_app. f_equal.
  - rewrite <- Ln at 1. apply (combine_attach mkO2).
  - rewrite <- Lm at 1. apply (combine_attach mkO2).
Qed.
