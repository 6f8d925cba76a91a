(** Property theorems C54-C57: pooling, normalization, activations, wrapper.
    Reading guide (LayersSpec.v).  [rearranged f s s' X X']: X' (shape (N, C, *s')) is X (shape (N, C, *s)) with the axes after the
    channels rearranged by the one-to-one map f.  [permutes n p]: p is a permutation of 0..n-1.  [largest s F v]: v is the maximum of F
    over the multi-indices of shape s.  [average], [variance], [sample_variance]: of a list.  [channel_entries N s X c],
    [sample_entries s X n c]: all entries of a channel; of one sample of it.  [pooled]: what a pooling module returns, a tensor
    ([PTensor]) or a (values, indices) pair ([PPair]). *)
From Coq Require Import String ZArith Permutation.
From Verif Require Import Prelude RMath Mat Repulse RepulseFacts Tensor TensorFacts Kernel KernelFacts Conv SignedPerm Layers LayersSpec LayersFacts NormFacts PoolFacts PoolWindows.
Open Scope nat_scope.

(** ** C54 *)
Theorem C54_avg_group_pool : forall (x : tensor R) N C n rest, has_shape x (N :: C :: n :: rest) ->
  exists y, g_avg_group_pool x = Ok (PTensor y) /\ has_shape y (N :: C :: rest) /\
    forall a b z, a < N -> b < C -> valid rest z ->
      at_ y (a :: b :: z) = (total (map (fun e => at_ x (a :: b :: e :: z)) (seq 0 n)) / INR n)%R.
Proof.
  intros x N C n rest H. destruct (avg_group_spec x N C n rest H) as (y & A & B & V). exists y. split; [exact A|]. split; [exact B|].
  intros. rewrite total_sumR. apply V; assumption.
Qed.
Print Assumptions C54_avg_group_pool.

Theorem C54_avg_global_pool : forall (x : tensor R) N C n rest, has_shape x (N :: C :: n :: rest) ->
  exists y, g_avg_global_pool x = Ok (PTensor y) /\ has_shape y [N; C; 1] /\
    forall a b, a < N -> b < C ->
      at_ y [a; b; 0] = (total (map (fun z => at_ x (a :: b :: z)) (indices (n :: rest))) / INR (n * prodn rest))%R.
Proof.
  intros x N C n rest H. destruct (avg_global_spec x N C n rest H) as (y & A & B & V). exists y. split; [exact A|]. split; [exact B|].
  intros. rewrite total_sumR. apply V; assumption.
Qed.
Print Assumptions C54_avg_global_pool.

(** Max pooling over the group axis: a pair of tensors; values are the maxima, indices where they are attained. *)
Theorem C54_max_group_pool : forall (x : tensor R) N C n rest, has_shape x (N :: C :: n :: rest) ->
  (0 < n -> exists v i, g_max_group_pool x = Ok (PPair v i) /\ has_shape v (N :: C :: rest) /\ has_shape i (N :: C :: rest) /\
    forall a b z, a < N -> b < C -> valid rest z ->
      (forall e, e < n -> (at_ x (a :: b :: e :: z) <= at_ v (a :: b :: z))%R) /\
      at_ i (a :: b :: z) < n /\ at_ x (a :: b :: at_ i (a :: b :: z) :: z) = at_ v (a :: b :: z)) /\
  (n = 0 -> g_max_group_pool x = Err IndexError).
Proof.
  intros x N C n rest H. split.
  - intros Hn. destruct (max_group_spec x N C n rest H Hn) as (v & i & A & B & B' & V). exists v, i. split; [exact A|]. split; [exact B|]. split; [exact B'|].
    intros a b z Ha Hb Hz. destruct (V a b z Ha Hb Hz) as (V1 & V2 & V3 & _). auto.
  - intros ->. unfold g_max_group_pool, max2. rewrite (proj1 H). reflexivity.
Qed.
Print Assumptions C54_max_group_pool.

Theorem C54_max_global_pool : forall (x : tensor R) N C n rest, has_shape x (N :: C :: n :: rest) ->
  (0 < n * prodn rest -> exists v i, g_max_global_pool x = Ok (PPair v i) /\ has_shape v [N; C; 1] /\ has_shape i [N; C; 1] /\
    forall a b, a < N -> b < C ->
      largest (n :: rest) (fun z => at_ x (a :: b :: z)) (at_ v [a; b; 0]) /\
      at_ i [a; b; 0] < n * prodn rest /\ at_ x (a :: b :: unravel (n :: rest) (at_ i [a; b; 0])) = at_ v [a; b; 0]) /\
  (n * prodn rest = 0 -> g_max_global_pool x = Err IndexError).
Proof.
  intros x N C n rest H. split.
  - apply max_global_spec; assumption.
  - intros E. unfold g_max_global_pool, flatten2. rewrite (proj1 H). cbn [bind]. unfold max2. cbn [shape]. rewrite prodn_cons, E. reflexivity.
Qed.
Print Assumptions C54_max_global_pool.

(** Defect: whenever max pooling returns, it returns the pair and never a tensor; inputs without a group axis raise. *)
Theorem C54_max_returns_pairs : forall (x : tensor R),
  (forall t, g_max_group_pool x <> Ok (PTensor t)) /\ (forall t, g_max_global_pool x <> Ok (PTensor t)) /\
  (List.length (shape x) < 3 ->
     g_max_group_pool x = Err IndexError /\ g_max_global_pool x = Err IndexError /\
     g_avg_group_pool x = Err IndexError /\ g_avg_global_pool x = Err IndexError).
Proof.
  intros x. unfold g_max_group_pool, g_max_global_pool, g_avg_group_pool, g_avg_global_pool, flatten2, mean2, max2.
  destruct (shape x) as [|N [|C [|n rest]]]; cbn [bind rmap shape].
  1-3: repeat split; try (intros; discriminate).
  split; [|split].
  - intros t. destruct (Nat.eqb n 0); discriminate.
  - intros t. destruct (Nat.eqb (prodn (n :: rest)) 0); discriminate.
  - simpl. lia.
Qed.
Print Assumptions C54_max_returns_pairs.

(** Global pooling forgets every rearrangement of group elements and positions (even one changing the sizes). *)
Theorem C54_global_pool_invariance : forall f n rest n' rest' (X X' : tensor R),
  rearranged f (n :: rest) (n' :: rest') X X' ->
  g_avg_global_pool X' = g_avg_global_pool X /\
  (forall v i, g_max_global_pool X = Ok (PPair v i) -> exists i', g_max_global_pool X' = Ok (PPair v i')).
Proof.
  intros f n rest n' rest' X X' (B & N & C & HX & HX' & E).
  pose proof (bijective_prodn _ _ _ B) as Ep. rewrite !prodn_cons in Ep.
  assert (forall a b, a < N -> b < C -> Permutation (map (fun z => at_ X (a :: b :: z)) (indices (n :: rest))) (map (fun z => at_ X' (a :: b :: z)) (indices (n' :: rest')))) as P.
  { intros a b Ha Hb. apply (rearranged_values f); [exact B|]. intros y Hy. apply E; assumption. }
  split.
  - destruct (avg_global_spec X N C n rest HX) as (y & A & S & V). destruct (avg_global_spec X' N C n' rest' HX') as (y' & A' & S' & V').
    rewrite A, A'. do 2 f_equal. apply tensor_ext; [apply S'|apply S|rewrite (proj1 S), (proj1 S'); reflexivity|].
    intros idx Hi. rewrite (proj1 S') in Hi. apply valid_inv_cons in Hi. destruct Hi as (a & i1 & -> & Ha & Hi).
    apply valid_inv_cons in Hi. destruct Hi as (b & i2 & -> & Hb & Hi). apply valid_inv_cons in Hi. destruct Hi as (k & i3 & -> & Hk & Hi).
    apply valid_inv_nil in Hi. subst i3. replace k with 0 by lia. rewrite V, V' by assumption. rewrite Ep. f_equal. symmetry. apply sumR_perm, P; assumption.
  - intros v i Hv. destruct (Nat.eq_dec (n * prodn rest) 0) as [Hz|Hz].
    { rewrite (proj2 (C54_max_global_pool X N C n rest HX) Hz) in Hv. discriminate. }
    destruct (max_global_spec X N C n rest HX ltac:(lia)) as (v1 & i1 & A & S & _ & V). rewrite A in Hv. injection Hv as <- <-.
    destruct (max_global_spec X' N C n' rest' HX' ltac:(lia)) as (v2 & i2 & A' & S' & _ & V'). exists i2. rewrite A'. do 2 f_equal.
    apply tensor_ext; [apply S'|apply S|rewrite (proj1 S), (proj1 S'); reflexivity|].
    intros idx Hi. rewrite (proj1 S') in Hi. apply valid_inv_cons in Hi. destruct Hi as (a & j1 & -> & Ha & Hi).
    apply valid_inv_cons in Hi. destruct Hi as (b & j2 & -> & Hb & Hi). apply valid_inv_cons in Hi. destruct Hi as (k & j3 & -> & Hk & Hi).
    apply valid_inv_nil in Hi. subst j3. replace k with 0 by lia.
    destruct (V a b Ha Hb) as ([(y & Hy & Ey) M] & _). destruct (V' a b Ha Hb) as ([(y' & Hy' & Ey') M'] & _).
    apply Rle_antisym.
    + rewrite <- Ey'. destruct B as (_ & _ & B3). destruct (B3 y' Hy') as (w & Hw & <-). rewrite E by assumption. apply M. exact Hw.
    + rewrite <- Ey. rewrite <- (E a b y) by assumption. apply M'. apply B. exact Hy.
Qed.
Print Assumptions C54_global_pool_invariance.

(** Group pooling forgets the order of the group elements and commutes with every rearrangement of the positions. *)
Theorem C54_group_pool_invariance : forall (p : nat -> nat) f n rest rest' (X X' : tensor R) N C,
  permutes n p -> bijective f rest rest' -> has_shape X (N :: C :: n :: rest) -> has_shape X' (N :: C :: n :: rest') ->
  (forall a b e z, a < N -> b < C -> e < n -> valid rest z -> at_ X' (a :: b :: p e :: f z) = at_ X (a :: b :: e :: z)) ->
  (forall Y, g_avg_group_pool X = Ok (PTensor Y) -> exists Y', g_avg_group_pool X' = Ok (PTensor Y') /\ rearranged f rest rest' Y Y') /\
  (forall v i, g_max_group_pool X = Ok (PPair v i) -> exists v' i', g_max_group_pool X' = Ok (PPair v' i') /\ rearranged f rest rest' v v').
Proof.
  intros p f n rest rest' X X' N C Hp B HX HX' E.
  assert (forall a b z, a < N -> b < C -> valid rest z -> Permutation (map (fun e => at_ X (a :: b :: e :: z)) (seq 0 n)) (map (fun e => at_ X' (a :: b :: e :: f z)) (seq 0 n))) as P.
  { intros a b z Ha Hb Hz. apply (permutes_values n p _ (fun e => at_ X' (a :: b :: e :: f z))); [exact Hp|]. intros e He. apply E; assumption. }
  split.
  - intros Y HY. destruct (avg_group_spec X N C n rest HX) as (y & A & S & V). rewrite A in HY. injection HY as <-.
    destruct (avg_group_spec X' N C n rest' HX') as (y' & A' & S' & V'). exists y'. split; [exact A'|]. split; [exact B|]. exists N, C.
    split; [exact S|]. split; [exact S'|]. intros a b z Ha Hb Hz. rewrite V, V' by (try assumption; apply B; exact Hz). f_equal. symmetry. apply sumR_perm, P; assumption.
  - intros v i Hv. destruct (Nat.eq_dec n 0) as [Hz|Hz].
    { rewrite (proj2 (C54_max_group_pool X N C n rest HX) Hz) in Hv. discriminate. }
    destruct (max_group_spec X N C n rest HX ltac:(lia)) as (v1 & i1 & A & S & _ & V). rewrite A in Hv. injection Hv as <- <-.
    destruct (max_group_spec X' N C n rest' HX' ltac:(lia)) as (v2 & i2 & A' & S' & _ & V'). exists v2, i2. split; [exact A'|]. split; [exact B|]. exists N, C.
    split; [exact S|]. split; [exact S'|]. intros a b z Ha Hb Hz'.
    destruct (V a b z Ha Hb Hz') as (_ & _ & _ & ->). destruct (V' a b (f z) Ha Hb (proj1 B z Hz')) as (_ & _ & _ & ->).
    symmetry. apply maxR_perm, P; assumption.
Qed.
Print Assumptions C54_group_pool_invariance.

(** ** C55.  [pool_axes d spec sp]: the pooling windows of the stock torch module on an image of size sp, None when it raises. *)
Theorem C55_spatial_pools : forall G d spec (x : tensor R) (H : list G) N C n sp, has_shape x (N :: C :: n :: sp) -> List.length sp = d ->
  N * C * n * prodn sp <> 0 ->
  match pool_axes d spec sp with
  | None => g_spatial_pool d spec x H = Err RuntimeError
  | Some axs =>
    if returns_pair spec then g_spatial_pool d spec x H = Err AttributeError
    else (prodn (map px_out axs) = 1 -> exists v, g_spatial_pool d spec x H = Ok (v, H) /\ has_shape v [N; C; n] /\
           forall a c e, a < N -> c < C -> e < n ->
             at_ v [a; c; e] = pool_value spec (map (fun q => at_ x (a :: c :: e :: q)) (cart (map (fun p => px_win p 0) axs))) (prodn (map (fun p => px_full p 0) axs))) /\
         (prodn (map px_out axs) <> 1 -> g_spatial_pool d spec x H = Err RuntimeError)
  end.
Proof.
  intros G d spec x H N C n sp Hx Hd Hz.
  assert (N <> 0) as HN by (intros ->; simpl in Hz; lia).
  assert (C * n * prodn sp <> 0) as Hz2 by (intros Q; apply Hz; rewrite <- (Nat.mul_assoc N C n), <- Nat.mul_assoc, Q; lia).
  destruct (spatial_pool_spec H d spec x N C n sp Hx Hd) as [A B].
  destruct (pool_axes d spec sp) as [axs|] eqn:Ea; [|apply A; left; reflexivity].
  destruct (B axs eq_refl Hz2) as (B1 & B2 & B3). destruct (returns_pair spec); [apply B1; reflexivity|].
  split; [apply B3; reflexivity|apply B2; [reflexivity|exact HN]].
Qed.
Print Assumptions C55_spatial_pools.

(** The usual constructors: GMaxSpatialPool(k) and GAvgSpatialPool(k) with their default stride succeed exactly when every spatial size a
    has k <= a < 2k; adaptive pools exactly when every requested size is 1 (None keeps the size). *)
Theorem C55_default_windows : forall G d spec k incl (x : tensor R) (H : list G) N C n sp, has_shape x (N :: C :: n :: sp) -> List.length sp = d ->
  N * C * n <> 0 -> 0 < k ->
  spec = MaxPool (repeat k d) (repeat k d) (repeat 0 d) (repeat 1 d) false false \/ spec = AvgPool (repeat k d) (repeat k d) (repeat 0 d) false incl None ->
  (Forall (fun a => k <= a < 2 * k) sp -> exists v, g_spatial_pool d spec x H = Ok (v, H) /\ has_shape v [N; C; n]) /\
  (~ Forall (fun a => k <= a < 2 * k) sp -> g_spatial_pool d spec x H = Err RuntimeError).
Proof.
  intros G d spec k incl x H N C n sp Hx Hd Hne Hk Hs.
  assert (N <> 0) as HN by (intros ->; simpl in Hne; lia).
  destruct (window_default_spec spec sp k d Hd Hk) as [Er Ea]. { destruct Hs as [->| ->]; [left; reflexivity|right; exists incl; reflexivity]. }
  destruct (default_axes sp k d Hd Hk) as [D1 D2].
  destruct (spatial_pool_spec H d spec x N C n sp Hx Hd) as [A B].
  assert (forall a, a / k = 1 <-> k <= a < 2 * k) as Hdiv.
  { intros a. pose proof (Nat.div_mod a k ltac:(lia)) as Q. pose proof (Nat.mod_upper_bound a k ltac:(lia)). split.
    - intros E. rewrite E in Q. lia.
    - intros Q2. symmetry. apply (Nat.div_unique a k 1 (a - k)); lia. }
  assert (prodn sp <> 0 -> C * n * prodn sp <> 0) as Hmul.
  { intros Q Z. apply Nat.eq_mul_0 in Z. destruct Z as [Z|Z]; [|contradiction]. apply Hne. rewrite <- Nat.mul_assoc, Z. lia. }
  assert (Forall (fun a => k <= a) sp -> prodn sp <> 0) as Hpos.
  { clear -Hk. induction 1 as [|a l Ha Hl IH]; [discriminate|]. rewrite prodn_cons. intros Q. apply Nat.eq_mul_0 in Q. lia. }
  split.
  - intros F. assert (Forall (fun a => k <= a) sp) as F1 by (eapply Forall_impl; [|exact F]; cbv beta; intros ? ?; lia).
    destruct (D1 F1) as (axs & E1 & E2). rewrite <- Ea in E1. destruct (B axs E1 (Hmul (Hpos F1))) as (_ & _ & B3).
    destruct (B3 Er) as (v & V1 & V2 & _); [|exists v; auto]. rewrite E2. apply prodn_one, Forall_map. eapply Forall_impl; [|exact F]. intros a Ha. apply Hdiv. exact Ha.
  - intros F. destruct (Forall_dec (fun a => k <= a) (fun a => le_dec k a) sp) as [F1|F1].
    + destruct (D1 F1) as (axs & E1 & E2). rewrite <- Ea in E1. destruct (B axs E1 (Hmul (Hpos F1))) as (_ & B2 & _).
      apply B2; [exact Er|exact HN|]. rewrite E2. intros Q. apply F. apply prodn_one in Q. apply Forall_map in Q. eapply Forall_impl; [|exact Q]. intros a Ha. apply Hdiv. exact Ha.
    + apply A. left. rewrite Ea. apply D2. exact F1.
Qed.
Print Assumptions C55_default_windows.

Theorem C55_adaptive : forall G d spec o (x : tensor R) (H : list G) N C n sp, has_shape x (N :: C :: n :: sp) -> List.length sp = d -> List.length o = d ->
  N * C * n * prodn sp <> 0 -> spec = AdaptiveMax o false \/ spec = AdaptiveAvg o ->
  (Forall (fun s => s = 1) (adaptive_sizes sp o) -> exists v, g_spatial_pool d spec x H = Ok (v, H) /\ has_shape v [N; C; n] /\
     forall a c e, a < N -> c < C -> e < n ->
       match spec with
       | AdaptiveAvg _ => at_ v [a; c; e] = average (map (fun q => at_ x (a :: c :: e :: q)) (indices sp))
       | _ => largest sp (fun q => at_ x (a :: c :: e :: q)) (at_ v [a; c; e])
       end) /\
  (~ Forall (fun s => s = 1) (adaptive_sizes sp o) -> g_spatial_pool d spec x H = Err RuntimeError).
Proof.
  intros G d spec o x H N C n sp Hx Hd Ho Hz Hs.
  destruct (adaptive_axes_spec spec o sp d Hd Ho Hs) as (Er & axs & Ea & Eo).
  pose proof (C55_spatial_pools G d spec x H N C n sp Hx Hd Hz) as K. rewrite Ea, Er in K. destruct K as [K1 K2]. rewrite Eo in K1, K2.
  split.
  - intros F. destruct (K1 (proj2 (prodn_one _) F)) as (v & V1 & V2 & V3). exists v. split; [exact V1|]. split; [exact V2|]. intros a c e Ha Hc He.
    specialize (V3 a c e Ha Hc He).
    assert (map (fun p => px_win p 0) axs = map (fun a => seq 0 a) sp) as Ew.
    { assert (axs = axes d (fun j => adaptive_axis (nth j sp 0) (match nth j o None with Some v => v | None => nth j sp 0 end))) as ->.
      { assert (Some axs = Some (axes d (fun j => adaptive_axis (nth j sp 0) (match nth j o None with Some v => v | None => nth j sp 0 end)))) as Q; [|injection Q; auto].
        rewrite <- Ea. destruct Hs as [->| ->]; unfold pool_axes; rewrite Ho, Nat.eqb_refl; reflexivity. }
      unfold axes. rewrite map_map. apply nth_ext with (d := []) (d' := []); [rewrite !map_length, seq_length; auto|].
      intros j Hj. rewrite map_length, seq_length in Hj. rewrite nth_map_seq by exact Hj.
      rewrite (nth_indep _ [] (seq 0 0)) by (rewrite map_length; lia). rewrite (map_nth (fun a => seq 0 a)).
      assert (match nth j o None with Some v0 => v0 | None => nth j sp 0 end = 1) as ->; [|apply adaptive_one_window].
      rewrite Forall_forall in F. apply F. unfold adaptive_sizes. apply in_map_iff. exists (nth j sp 0, nth j o None). split; [reflexivity|].
      rewrite <- combine_nth by lia. apply nth_In. rewrite combine_length. lia. }
    rewrite Ew, cart_seq in V3.
    assert (indices sp <> []) as Hne.
    { intros Q. apply (f_equal (@List.length _)) in Q. rewrite indices_length in Q. simpl in Q. apply Hz. rewrite Q. lia. }
    destruct Hs as [->| ->]; cbn [pool_value] in V3.
    + rewrite V3. destruct (maxR_spec (map (fun q => at_ x (a :: c :: e :: q)) (indices sp))) as [M1 M2]. { intros Q. apply map_eq_nil in Q. contradiction. }
      split.
      * apply in_map_iff in M1. destruct M1 as (y & Ey & Hy). exists y. split; [apply in_indices; exact Hy|exact Ey].
      * intros y Hy. apply M2. apply (in_map (fun q => at_ x (a :: c :: e :: q))), in_indices. exact Hy.
    + rewrite V3. symmetry. apply average_meanR.
  - intros F. apply K2. intros Q. apply F, prodn_one. exact Q.
Qed.
Print Assumptions C55_adaptive.

(** Windows of any size, stride, padding, dilation and rounding: the module succeeds exactly when one window fits on every axis
    ([one_window]); the entry is then the largest, respectively the sum over the divisor, of the entries that window reads
    ([window_reads]). The divisor of the average is divisor_override, or the number of cells of the window clipped to the padded image
    (count_include_pad), or the number of entries read. *)
Theorem C55_max_windows : forall G d k s p t ceil (x : tensor R) (H : list G) N C n sp, has_shape x (N :: C :: n :: sp) -> List.length sp = d ->
  N * C * n * prodn sp <> 0 -> List.length k = d -> List.length s = d -> List.length p = d -> List.length t = d ->
  ((forall i, i < d -> one_window (nth i sp 0) (nth i k 0) (nth i s 0) (nth i p 0) (nth i t 0) ceil) ->
   exists v, g_spatial_pool d (MaxPool k s p t ceil false) x H = Ok (v, H) /\ has_shape v [N; C; n] /\
     forall a c e, a < N -> c < C -> e < n -> (exists q, valid sp q /\ window_reads k p t q = true) ->
       (exists q, valid sp q /\ window_reads k p t q = true /\ at_ x (a :: c :: e :: q) = at_ v [a; c; e]) /\
       (forall q, valid sp q -> window_reads k p t q = true -> (at_ x (a :: c :: e :: q) <= at_ v [a; c; e])%R)) /\
  (~ (forall i, i < d -> one_window (nth i sp 0) (nth i k 0) (nth i s 0) (nth i p 0) (nth i t 0) ceil) ->
   g_spatial_pool d (MaxPool k s p t ceil false) x H = Err RuntimeError).
Proof.
  intros G d k s p t ceil x H N C n sp Hx Hd Hz Lk Ls Lp Lt.
  assert (Hsp : forall i, i < d -> 0 < nth i sp 0).
  { intros i Hi. assert (prodn sp <> 0) as Q by lia. apply prodn_pos_nth; [exact Q|lia]. }
  pose proof (C55_spatial_pools G d (MaxPool k s p t ceil false) x H N C n sp Hx Hd Hz) as K. cbn [returns_pair] in K.
  destruct (window_axes d sp k s p t ceil Hd Hsp) as [W1 W2].
  assert (Ea : pool_axes d (MaxPool k s p t ceil false) sp = sequence (axes d (fun j => window_axis (nth j sp 0) (nth j k 0) (nth j s 0) (nth j p 0) (nth j t 0) ceil))).
  { unfold pool_axes. rewrite Lk, Ls, Lp, Lt, Nat.eqb_refl. reflexivity. }
  rewrite Ea in K. split.
  - intros F. destruct (W1 F) as (axs & E & Ho & Ew & _). rewrite E in K. destruct K as [K _]. destruct (K Ho) as (v & V1 & V2 & V3).
    exists v. split; [exact V1|]. split; [exact V2|]. intros a c e Ha Hc He (q0 & Hq0 & Hr0). rewrite (V3 a c e Ha Hc He), Ew. cbn [pool_value].
    assert (Pm : Permutation (cart (axes d (fun i => win0 (nth i sp 0) (nth i k 0) (nth i p 0) (nth i t 0)))) (filter (window_reads k p t) (indices sp))).
    { apply windows_perm; [exact Hd|]. intros i Hi. apply (F i Hi). }
    rewrite (maxR_perm _ _ (Permutation_map _ Pm)).
    destruct (maxR_spec (map (fun q => at_ x (a :: c :: e :: q)) (filter (window_reads k p t) (indices sp)))) as [M1 M2].
    { intros Q. apply map_eq_nil in Q. assert (In q0 []) as []. rewrite <- Q. apply filter_In. split; [apply in_indices; exact Hq0|exact Hr0]. }
    split.
    + apply in_map_iff in M1. destruct M1 as (q & Eq & Hq). apply filter_In in Hq. destruct Hq as [Hq Hr]. exists q. split; [apply in_indices; exact Hq|]. split; [exact Hr|exact Eq].
    + intros q Hq Hr. apply M2, in_map_iff. exists q. split; [reflexivity|]. apply filter_In. split; [apply in_indices; exact Hq|exact Hr].
  - intros F. destruct (sequence _) as [axs|] eqn:E; [|exact K]. destruct K as [_ K]. apply K. intros Q. apply F. exact (W2 axs eq_refl Q).
Qed.
Print Assumptions C55_max_windows.

Theorem C55_avg_windows : forall G d k s p ceil (incl : bool) (dv : option nat) (x : tensor R) (H : list G) N C n sp, has_shape x (N :: C :: n :: sp) -> List.length sp = d ->
  N * C * n * prodn sp <> 0 -> List.length k = d -> List.length s = d -> List.length p = d -> dv <> Some 0 ->
  let t := repeat 1 d in
  let read := filter (window_reads k p t) (indices sp) in
  let divisor := match dv with Some v => v
    | None => if incl then prodn (map (fun i => Nat.min (nth i k 0) (nth i sp 0 + 2 * nth i p 0)) (seq 0 d)) else List.length read end in
  ((forall i, i < d -> one_window (nth i sp 0) (nth i k 0) (nth i s 0) (nth i p 0) 1 ceil) ->
   exists v, g_spatial_pool d (AvgPool k s p ceil incl dv) x H = Ok (v, H) /\ has_shape v [N; C; n] /\
     forall a c e, a < N -> c < C -> e < n -> at_ v [a; c; e] = (total (map (fun q => at_ x (a :: c :: e :: q)) read) / INR divisor)%R) /\
  (~ (forall i, i < d -> one_window (nth i sp 0) (nth i k 0) (nth i s 0) (nth i p 0) 1 ceil) ->
   g_spatial_pool d (AvgPool k s p ceil incl dv) x H = Err RuntimeError).
Proof.
  intros G d k s p ceil incl dv x H N C n sp Hx Hd Hz Lk Ls Lp Hdv t read divisor.
  assert (Hsp : forall i, i < d -> 0 < nth i sp 0).
  { intros i Hi. assert (prodn sp <> 0) as Q by lia. apply prodn_pos_nth; [exact Q|lia]. }
  assert (Ht : forall i, i < d -> nth i t 0 = 1) by (intros i Hi; unfold t; apply nth_repeat_lt; exact Hi).
  pose proof (C55_spatial_pools G d (AvgPool k s p ceil incl dv) x H N C n sp Hx Hd Hz) as K. cbn [returns_pair] in K.
  destruct (window_axes d sp k s p t ceil Hd Hsp) as [W1 W2].
  assert (Ea : pool_axes d (AvgPool k s p ceil incl dv) sp = sequence (axes d (fun j => window_axis (nth j sp 0) (nth j k 0) (nth j s 0) (nth j p 0) (nth j t 0) ceil))).
  { unfold pool_axes, all_some. rewrite Lk, Ls, Lp, Nat.eqb_refl. replace (negb match dv with Some 0 => true | _ => false end) with true by (destruct dv as [[|]|]; [contradiction|reflexivity|reflexivity]).
    cbn [andb]. f_equal. unfold axes. apply map_ext_in. intros j Hj. apply in_seq in Hj. rewrite Ht by lia. reflexivity. }
  rewrite Ea in K. split.
  - intros F. assert (F' : forall i, i < d -> one_window (nth i sp 0) (nth i k 0) (nth i s 0) (nth i p 0) (nth i t 0) ceil) by (intros i Hi; rewrite Ht by exact Hi; apply F; exact Hi).
    destruct (W1 F') as (axs & E & Ho & Ew & Ef). rewrite E in K. destruct K as [K _]. destruct (K Ho) as (v & V1 & V2 & V3).
    exists v. split; [exact V1|]. split; [exact V2|]. intros a c e Ha Hc He. rewrite (V3 a c e Ha Hc He), Ew, Ef. cbn [pool_value].
    assert (Pm : Permutation (cart (axes d (fun i => win0 (nth i sp 0) (nth i k 0) (nth i p 0) (nth i t 0)))) read).
    { apply windows_perm; [exact Hd|]. intros i Hi. rewrite Ht by exact Hi. lia. }
    rewrite map_length, (Permutation_length Pm), (sumR_perm _ _ (Permutation_map (fun q => at_ x (a :: c :: e :: q)) Pm)). reflexivity.
  - intros F. destruct (sequence _) as [axs|] eqn:E; [|exact K]. destruct K as [_ K]. apply K. intros Q. apply F. intros i Hi. rewrite <- (Ht i Hi). exact (W2 axs eq_refl Q i Hi).
Qed.
Print Assumptions C55_avg_windows.

(** Padding 1, dilation 2, stride 2, size 3 on a 4 x 4 image: one window, reading the positions with odd coordinates. *)
Example C55_windows_nonvacuous : one_window 4 3 2 1 2 false /\ filter (window_reads [3; 3] [1; 1] [2; 2]) (indices [4; 4]) = [[1; 1]; [1; 3]; [3; 1]; [3; 3]].
Proof. split; [unfold one_window; lia|reflexivity]. Qed.

(** A 2x2 max pool on a 4x4 image (two group elements), as in any CNN, raises; on a 2x3 image it succeeds. *)
Example C55_nonvacuous : exists (x x' : tensor R) v,
  let spec := MaxPool [2; 2] [2; 2] [0; 0] [1; 1] false false in
  has_shape x [1; 3; 2; 4; 4] /\ has_shape x' [1; 3; 2; 2; 3] /\
  g_spatial_pool 2 spec x [0%R; PI] = Err RuntimeError /\ g_spatial_pool 2 spec x' [0%R; PI] = Ok (v, [0%R; PI]) /\ has_shape v [1; 3; 2].
Proof.
  pose (x := build [1; 3; 2; 4; 4] (fun idx => INR (nth 3 idx 0))). pose (x' := build [1; 3; 2; 2; 3] (fun idx => INR (nth 3 idx 0))).
  assert (has_shape x [1; 3; 2; 4; 4]) as Hx by (split; [reflexivity|apply wft_build]).
  assert (has_shape x' [1; 3; 2; 2; 3]) as Hx' by (split; [reflexivity|apply wft_build]).
  destruct (C55_default_windows R 2 (MaxPool [2; 2] [2; 2] [0; 0] [1; 1] false false) 2 true x [0%R; PI] 1 3 2 [4; 4] Hx eq_refl ltac:(lia) ltac:(lia) (or_introl eq_refl)) as [_ A].
  destruct (C55_default_windows R 2 (MaxPool [2; 2] [2; 2] [0; 0] [1; 1] false false) 2 true x' [0%R; PI] 1 3 2 [2; 3] Hx' eq_refl ltac:(lia) ltac:(lia) (or_introl eq_refl)) as [B _].
  destruct B as (v & Bv & Sv). { repeat constructor; lia. }
  exists x, x', v. cbv zeta. repeat (split; [assumption|]). split; [|split; assumption]. apply A. intros Q. inversion Q; subst. lia.
Qed.

(** ** C56.  [bn_batch s]: the statistics come from the input (training mode, or no running statistics).  [affine1 w b c v]: v scaled and
    shifted by the affine parameters of channel c, when there are any. *)
Theorem C56_batch_norm : forall G d s (x : tensor R) (H : list G) N C n sp,
  has_shape x (N :: C :: n :: sp) -> List.length sp = d -> 0 < d -> check_channels s C = true ->
  let V := channel_entries N (n :: sp) x in
  (bn_batch s = true -> N * (n * prodn sp) = 1 -> g_batch_norm d s x H = Err ValueError) /\
  (bn_batch s = false \/ N * (n * prodn sp) <> 1 -> exists y s',
    g_batch_norm d s x H = Ok (y, H, s') /\ has_shape y (N :: C :: n :: sp) /\
    (forall a c z, a < N -> c < C -> valid (n :: sp) z ->
      at_ y (a :: c :: z) = affine1 (nm_weight s) (nm_bias s) c
        (if bn_batch s then (at_ x (a :: c :: z) - average (V c)) / sqrt (variance (V c) + nm_eps s)
         else (at_ x (a :: c :: z) - nth c (olist (nm_mean s)) 0) / sqrt (nth c (olist (nm_var s)) 0 + nm_eps s))%R) /\
    (nm_training s = false -> nm_mean s' = nm_mean s /\ nm_var s' = nm_var s) /\
    (nm_training s = true -> forall m v mom c, nm_mean s = Some m -> nm_var s = Some v -> nm_momentum s = Some mom -> c < C ->
      nth c (olist (nm_mean s')) 0%R = ((1 - mom) * nth c m 0 + mom * average (V c))%R /\
      nth c (olist (nm_var s')) 0%R = ((1 - mom) * nth c v 0 + mom * sample_variance (V c))%R)).
Proof.
  intros G d s x H N C n sp Hx Hd Hd0 Hch V. destruct (g_batch_norm_spec H d s x N C n sp Hx Hd Hd0) as (A1 & _ & A3).
  split; [intros Q1 Q2; apply A1; auto|]. intros Hok.
  destruct (A3 ltac:(intros [Q1 Q2]; destruct Hok; [congruence|contradiction]) Hch) as (y & E & S & Vy).
  exists y. eexists. split; [exact E|]. split; [exact S|]. split; [|split].
  - intros a c z Ha Hc Hz. rewrite Vy by assumption. f_equal. unfold bn_mean, bn_var, normalized. fold (channel_entries N (n :: sp) x c). unfold V.
    destruct (bn_batch s); [|reflexivity]. rewrite (average_meanR (channel_entries N (n :: sp) x c)), (variance_varR (channel_entries N (n :: sp) x c)). reflexivity.
  - intros Q. unfold bn_next. cbn [nm_mean nm_var]. rewrite Q. auto.
  - intros Q m v mom c Em Ev Emom Hc. unfold bn_next. cbn [nm_mean nm_var]. rewrite Q, Em, Ev. cbn [olist]. unfold bn_factor. rewrite Emom.
    assert (List.length m = C /\ List.length v = C) as [Lm Lv].
    { unfold check_channels in Hch. rewrite Em, Ev in Hch. cbn [fits_channels] in Hch. rewrite !Bool.andb_true_iff, !Nat.eqb_eq in Hch. tauto. }
    assert (forall l (F : nat -> R), List.length l = C -> nth c (blend mom l (map F (seq 0 C))) 0%R = ((1 - mom) * nth c l 0 + mom * F c)%R) as K.
    { intros l F Ll. unfold blend. apply nth_error_nth. erewrite nth_error_map2; [reflexivity| |]; [apply nth_error_nth'; lia|].
      rewrite <- (nth_map_seq F C c 0%R Hc). apply nth_error_nth'. rewrite map_length, seq_length. exact Hc. }
    rewrite (K m (fun c => meanR (channel_values N (n :: sp) x c)) Lm), (K v (fun c => uvarR (channel_values N (n :: sp) x c)) Lv).
    split; [reflexivity|]. unfold V. rewrite (sample_variance_uvarR (channel_entries N (n :: sp) x c)). reflexivity.
Qed.
Print Assumptions C56_batch_norm.

Theorem C56_instance_norm : forall G d s (x : tensor R) (H : list G) N C n sp,
  has_shape x (N :: C :: n :: sp) -> List.length sp = d -> 0 < d -> check_channels s C = true ->
  C = nm_features s \/ nm_weight s = None ->
  let V := sample_entries (n :: sp) x in
  (bn_batch s = true -> n * prodn sp = 1 -> g_instance_norm d s x H = Err ValueError) /\
  (bn_batch s = false \/ n * prodn sp <> 1 -> exists y s',
    g_instance_norm d s x H = Ok (y, H, s') /\ has_shape y (N :: C :: n :: sp) /\
    (forall a c z, a < N -> c < C -> valid (n :: sp) z ->
      at_ y (a :: c :: z) = affine1 (nm_weight s) (nm_bias s) c
        (if bn_batch s then (at_ x (a :: c :: z) - average (V a c)) / sqrt (variance (V a c) + nm_eps s)
         else (at_ x (a :: c :: z) - nth c (olist (nm_mean s)) 0) / sqrt (nth c (olist (nm_var s)) 0 + nm_eps s))%R) /\
    (bn_batch s = false -> nm_mean s' = nm_mean s /\ nm_var s' = nm_var s)).
Proof.
  intros G d s x H N C n sp Hx Hd Hd0 Hch Hf V. destruct (g_instance_norm_spec H d s x N C n sp Hx Hd Hd0) as (A1 & _ & A3).
  split; [intros Q1 Q2; apply A1; right; auto|]. intros Hok.
  destruct (A3 ltac:(intros [[Q1 Q2]|[Q1 Q2]]; [destruct Hf; contradiction|destruct Hok; [congruence|contradiction]]) Hch) as (y & E & S & Vy).
  exists y. eexists. split; [exact E|]. split; [exact S|]. split.
  - intros a c z Ha Hc Hz. rewrite Vy by assumption. f_equal. unfold bn_mean, bn_var, normalized.
    destruct (bn_batch s); [|reflexivity]. unfold V. rewrite (average_meanR (sample_entries (n :: sp) x a c)), (variance_varR (sample_entries (n :: sp) x a c)). reflexivity.
  - intros Q. unfold in_next. cbn [nm_mean nm_var]. rewrite Q. auto.
Qed.
Print Assumptions C56_instance_norm.

(** Normalizing commutes with every rearrangement of group elements and positions, and ends in the same running statistics; the grid H is
    returned as given. *)
Theorem C56_norms_commute : forall G G' d s f n sp n' sp' (X X' Y : tensor R) (H : list G) (H' : list G') st,
  rearranged f (n :: sp) (n' :: sp') X X' -> List.length sp = d -> List.length sp' = d -> 0 < d ->
  (g_batch_norm d s X H = Ok (Y, H, st) ->
     exists Y', g_batch_norm d s X' H' = Ok (Y', H', st) /\ rearranged f (n :: sp) (n' :: sp') Y Y') /\
  (g_instance_norm d s X H = Ok (Y, H, st) ->
     exists Y', g_instance_norm d s X' H' = Ok (Y', H', st) /\ rearranged f (n :: sp) (n' :: sp') Y Y').
Proof.
  intros G G' d s f n sp n' sp' X X' Y H H' st HR L L' D. split; intros E.
  - exact (batch_norm_rearranged d s f n sp n' sp' X X' H H' Y st HR L L' D E).
  - exact (instance_norm_rearranged d s f n sp n' sp' X X' H H' Y st HR L L' D E).
Qed.
Print Assumptions C56_norms_commute.

(** Inputs of the wrong rank are refused, whatever the state; instance normalization lets one wrong rank through (C81). *)
Theorem C56_wrong_rank : forall G d s (x : tensor R) (H : list G), 0 < d -> List.length (shape x) <> 3 + d -> wft x ->
  g_batch_norm d s x H = Err ValueError /\ (List.length (shape x) <> 2 + d -> g_instance_norm d s x H = Err ValueError).
Proof.
  intros G d s x H Hd HL Hw. unfold g_batch_norm, g_instance_norm, g_norm.
  destruct (shape x) as [|N [|C [|n [|Z dims]]]] eqn:Es; try (split; [|intros _]; reflexivity).
  rewrite view_ok by (rewrite Es, !prodn_cons; lia). cbn [bind]. unfold batch_norm, instance_norm, instance_batched. cbn [shape List.length] in *.
  destruct (Nat.eqb_spec (S (List.length dims)) d) as [E|E]; [lia|]. split; [reflexivity|]. intros HL2.
  destruct (Nat.eqb_spec (S (S (S (List.length dims)))) (S d)) as [E'|_]; [lia|]. reflexivity.
Qed.
Print Assumptions C56_wrong_rank.

(** GLayerNorm normalizes over the trailing axes it was built for, one slice per leading index, and keeps shape and grid. *)
Theorem C56_layer_norm : forall G ns eps w b (x : tensor R) (H : list G) lead, ns <> [] ->
  has_shape x (lead ++ ns) ->
  exists y, g_layer_norm ns eps w b x H = Ok (y, H) /\ has_shape y (lead ++ ns) /\
    forall pre z, valid lead pre -> valid ns z ->
      let V := map (fun q => at_ x (pre ++ q)) (indices ns) in
      at_ y (pre ++ z) =
        ((at_ x (pre ++ z) - average V) / sqrt (variance V + eps) * match w with Some t => at_ t z | None => 1 end
         + match b with Some t => at_ t z | None => 0 end)%R.
Proof.
  intros G ns eps w b x H lead Hne [Hs Hw]. unfold g_layer_norm, layer_norm. rewrite Hs.
  rewrite app_length. replace (List.length lead + List.length ns - List.length ns) with (List.length lead) by lia.
  rewrite skipn_app, Nat.sub_diag, skipn_all. cbn [skipn app].
  destruct (list_eq_dec Nat.eq_dec ns ns) as [_|Q]; [|congruence]. destruct ns as [|d0 ns0]; [congruence|]. set (ns := d0 :: ns0) in *.
  eexists. split; [reflexivity|]. split; [split; [reflexivity|apply wft_build]|].
  intros pre z Hp Hz. set (V := map (fun q => at_ x (pre ++ q)) (indices ns)). rewrite at_build by (apply valid_app; assumption).
  rewrite <- (valid_length _ _ Hp). rewrite firstn_app, Nat.sub_diag, firstn_all, skipn_app, Nat.sub_diag, skipn_all. cbn [firstn skipn app].
  rewrite app_nil_r. unfold slice. fold V. unfold normalized. rewrite <- average_meanR, <- (variance_varR V).
  destruct w, b; lra.
Qed.
Print Assumptions C56_layer_norm.

(** Hypotheses met: a fresh two-channel GBatchNorm2d in training mode on a (3, 2, 4, 5, 6) tensor. *)
Example C56_nonvacuous : exists s (x y : tensor R) s',
  has_shape x [3; 2; 4; 5; 6] /\ check_channels s 2 = true /\ bn_batch s = true /\ nm_training s = true /\ nm_momentum s = Some (1/10)%R /\
  g_batch_norm 2 s x [0%R; 1%R; 2%R; 3%R] = Ok (y, [0%R; 1%R; 2%R; 3%R], s').
Proof.
  pose (s := {| nm_features := 2; nm_eps := 1/100000; nm_momentum := Some (1/10); nm_weight := Some [1; 1]; nm_bias := Some [0; 0];
    nm_mean := Some [0; 0]; nm_var := Some [1; 1]; nm_count := 0; nm_training := true |}%R).
  pose (x := build [3; 2; 4; 5; 6] (fun idx => INR (nth 2 idx 0))).
  assert (has_shape x [3; 2; 4; 5; 6]) as Hx by (split; [reflexivity|apply wft_build]).
  destruct (C56_batch_norm R 2 s x [0%R; 1%R; 2%R; 3%R] 3 2 4 [5; 6] Hx eq_refl ltac:(lia) eq_refl) as [_ A].
  destruct A as (y & s' & E & _). { right. vm_compute. discriminate. }
  exists s, x, y, s'. repeat (split; [first [assumption|reflexivity]|]). exact E.
Qed.

(** ** C57 *)
Lemma at_ewise f (x : tensor R) s idx : has_shape x s -> valid s idx -> at_ (ewise f x) idx = f (at_ x idx).
Proof.
  intros [Hs Hw] Hi. unfold at_, ewise. cbn [shape data]. rewrite Hs. pose proof (ravel_lt _ _ Hi) as Hr.
  rewrite (nth_indep _ dflt (f dflt)) by (rewrite map_length, Hw, Hs; exact Hr). apply map_nth.
Qed.
Lemma ewise_shape f (x : tensor R) s : has_shape x s -> has_shape (ewise f x) s.
Proof. intros [Hs Hw]. split; [exact Hs|]. unfold wft, ewise in *. cbn [shape data]. rewrite map_length. exact Hw. Qed.

(** The scalar functions: max(x, 0); x or slope * x; x times the normal distribution function (erf a parameter), or its tanh approximation.
    GGELU raises RuntimeError for every other approximation name. *)
Theorem C57_activations : forall G (x : tensor R) (H : list G) s, has_shape x s ->
  (exists y, g_relu x H = Ok (y, H) /\ has_shape y s /\ forall idx, valid s idx -> at_ y idx = Rmax (at_ x idx) 0) /\
  (forall slope, exists y, g_leaky_relu slope x H = Ok (y, H) /\ has_shape y s /\
     forall idx, valid s idx -> (0 < at_ x idx -> at_ y idx = at_ x idx)%R /\ (at_ x idx <= 0 -> at_ y idx = slope * at_ x idx)%R) /\
  (forall erf, exists y, g_gelu erf "none" x H = Ok (y, H) /\ has_shape y s /\
     forall idx, valid s idx -> at_ y idx = (at_ x idx * ((1 + erf (at_ x idx / sqrt 2)) / 2))%R) /\
  (forall erf, exists y, g_gelu erf "tanh" x H = Ok (y, H) /\ has_shape y s /\
     forall idx, valid s idx -> at_ y idx = (at_ x idx / 2 * (1 + tanh (sqrt (2 / PI) * (at_ x idx + 44715 / 1000000 * at_ x idx ^ 3))))%R) /\
  (forall erf a, a <> "none"%string -> a <> "tanh"%string -> g_gelu erf a x H = Err RuntimeError).
Proof.
  intros G x H s Hx. split; [|split; [|split; [|split]]].
  - eexists. split; [reflexivity|]. split; [apply ewise_shape; exact Hx|]. intros idx Hi. rewrite (at_ewise _ x s) by assumption. reflexivity.
  - intros slope. eexists. split; [reflexivity|]. split; [apply ewise_shape; exact Hx|]. intros idx Hi. rewrite (at_ewise _ x s) by assumption.
    unfold leaky_relu. destruct (Rlt_dec 0 (at_ x idx)); split; intros; try reflexivity; lra.
  - intros erf. eexists. split; [reflexivity|]. split; [apply ewise_shape; exact Hx|]. intros idx Hi. rewrite (at_ewise _ x s) by assumption. reflexivity.
  - intros erf. eexists. split; [reflexivity|]. split; [apply ewise_shape; exact Hx|]. intros idx Hi. rewrite (at_ewise _ x s) by assumption. reflexivity.
  - intros erf a A B. unfold g_gelu, gelu. apply String.eqb_neq in A, B. rewrite A, B. reflexivity.
Qed.
Print Assumptions C57_activations.

(** Any entrywise layer commutes with every rearrangement (all three activations are of this form). *)
Theorem C57_activations_commute : forall f s s' (X X' : tensor R) phi, rearranged f s s' X X' -> rearranged f s s' (ewise phi X) (ewise phi X').
Proof.
  intros f s s' X X' phi (B & N & C & HX & HX' & E). split; [exact B|]. exists N, C. split; [apply ewise_shape; exact HX|]. split; [apply ewise_shape; exact HX'|].
  intros a c y Ha Hc Hy.
  rewrite (at_ewise phi X' (N :: C :: s')) by (try assumption; do 2 (apply valid_cons; [assumption|]); apply B; exact Hy).
  rewrite (at_ewise phi X (N :: C :: s)) by (try assumption; do 2 (apply valid_cons; [assumption|]); exact Hy).
  rewrite E by assumption. reflexivity.
Qed.
Print Assumptions C57_activations_commute.
Theorem C57_activations_entrywise : forall G (x : tensor R) (H : list G),
  (exists phi, g_relu x H = Ok (ewise phi x, H)) /\ (forall slope, exists phi, g_leaky_relu slope x H = Ok (ewise phi x, H)) /\
  (forall erf a r, g_gelu erf a x H = Ok r -> exists phi, r = (ewise phi x, H)).
Proof.
  intros G x H. split; [eexists; reflexivity|]. split; [intros; eexists; reflexivity|]. intros erf a r. unfold g_gelu.
  destruct (gelu erf a) as [f|]; [|discriminate]. intros E. injection E as <-. eexists; reflexivity.
Qed.
Print Assumptions C57_activations_entrywise.

(** GWrap: construction raises AttributeError for every module.  A plain function can be wrapped, but then calling the object raises
    AttributeError; only a direct .forward call would work. *)
Theorem C57_gwrap_unusable : forall f,
  gwrap_init (CModule f) = Err AttributeError /\
  (forall g o, gwrap_init (CFunction g) = Ok o -> forall G (x : tensor R) (H : list G),
     gwrap_call o x H = Err AttributeError /\ gwrap_forward o x H = y <- g x ;; Ok (y, H)).
Proof.
  intros f. split; [reflexivity|]. intros g o E G x H. unfold gwrap_init, module_setattr in E. injection E as <-. split; reflexivity.
Qed.
Print Assumptions C57_gwrap_unusable.
(** The attribute protocol itself is not the obstacle: after Module.__init__ the same assignment works and the call applies the module. *)
Example C57_gwrap_fixed : forall f G (x : tensor R) (H : list G), exists o,
  module_setattr "module" (CModule f) (module_init module_new) = Ok o /\ gwrap_call o x H = y <- f x ;; Ok (y, H).
Proof. intros f G x H. eexists. split; [reflexivity|]. reflexivity. Qed.
