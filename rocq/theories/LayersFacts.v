(** Proofs about the pooling, normalization and activation layers. *)
From Coq Require Import String ZArith Permutation.
From Verif Require Import Prelude RMath Mat Repulse RepulseFacts Tensor TensorFacts Kernel KernelFacts Conv Layers LayersSpec.
Open Scope nat_scope.

(** ** Lists *)
Lemma maxR_spec l : l <> [] -> In (maxR l) l /\ forall x, In x l -> (x <= maxR l)%R.
Proof.
  destruct l as [|a l]; [congruence|]. intros _. unfold maxR.
  assert (forall l a, (In (fold_left Rmax l a) (a :: l)) /\ (forall x, In x (a :: l) -> (x <= fold_left Rmax l a)%R)) as K.
  { clear. induction l as [|b l IH]; intros a; simpl.
    - split; [auto|]. intros x [->|[]]. apply Rle_refl.
    - destruct (IH (Rmax a b)) as [A B]. split.
      + simpl in A. destruct A as [A|A]; [|tauto]. rewrite <- A. unfold Rmax. destruct (Rle_dec a b); auto.
      + intros x Hx. assert (Rmax a b <= fold_left Rmax l (Rmax a b))%R as M by (apply B; left; reflexivity).
        destruct Hx as [<-|[<-|Hx]].
        * eapply Rle_trans; [apply Rmax_l|exact M].
        * eapply Rle_trans; [apply Rmax_r|exact M].
        * apply B. right. exact Hx. }
  apply K.
Qed.
Lemma maxR_perm l l' : Permutation l l' -> maxR l = maxR l'.
Proof.
  intros P. destruct l as [|a l].
  - apply Permutation_nil in P. subst. reflexivity.
  - assert (l' <> []) as H' by (intros ->; apply Permutation_sym, Permutation_nil in P; discriminate).
    destruct (maxR_spec (a :: l) ltac:(discriminate)) as [A B]. destruct (maxR_spec l' H') as [A' B'].
    apply Rle_antisym.
    + apply B'. apply (Permutation_in _ P). exact A.
    + apply B. apply (Permutation_in _ (Permutation_sym P)). exact A'.
Qed.

Lemma argmax_from_spec l : forall pre best bi,
  bi < List.length pre -> nth bi pre 0%R = best -> (forall j, j < List.length pre -> (nth j pre 0 <= best)%R) ->
  (forall j, j < bi -> (nth j pre 0 < best)%R) ->
  let k := argmax_from best bi (List.length pre) l in
  k < List.length (pre ++ l) /\ (forall j, j < List.length (pre ++ l) -> (nth j (pre ++ l) 0 <= nth k (pre ++ l) 0)%R) /\
  (forall j, j < k -> (nth j (pre ++ l) 0 < nth k (pre ++ l) 0)%R).
Proof.
  induction l as [|x l IH]; intros pre best bi Hb Hn Hle Hlt; cbn [argmax_from].
  - rewrite app_nil_r. cbv zeta. split; [exact Hb|]. rewrite Hn. auto.
  - replace (pre ++ x :: l) with ((pre ++ [x]) ++ l) by (rewrite <- app_assoc; reflexivity).
    replace (S (List.length pre)) with (List.length (pre ++ [x])) by (rewrite app_length; simpl; lia).
    assert (forall j, j < List.length pre -> nth j (pre ++ [x]) 0%R = nth j pre 0%R) as E1 by (intros; apply app_nth1; assumption).
    assert (nth (List.length pre) (pre ++ [x]) 0%R = x) as E2 by (rewrite app_nth2, Nat.sub_diag by lia; reflexivity).
    destruct (Rlt_dec best x) as [Hx|Hx].
    + apply IH; rewrite ?app_length; cbn [List.length].
      * lia.
      * exact E2.
      * intros j Hj. destruct (Nat.eq_dec j (List.length pre)) as [->|]; [rewrite E2; apply Rle_refl|].
        rewrite E1 by lia. eapply Rle_trans; [apply Hle; lia|left; exact Hx].
      * intros j Hj. rewrite E1 by lia. eapply Rle_lt_trans; [apply Hle; lia|exact Hx].
    + apply IH; rewrite ?app_length; cbn [List.length].
      * lia.
      * rewrite E1 by lia. exact Hn.
      * intros j Hj. destruct (Nat.eq_dec j (List.length pre)) as [->|]; [rewrite E2; apply Rnot_lt_le; exact Hx|].
        rewrite E1 by lia. apply Hle. lia.
      * intros j Hj. rewrite E1 by lia. apply Hlt. lia.
Qed.
Lemma argmax_spec l : l <> [] ->
  argmax l < List.length l /\ nth (argmax l) l 0%R = maxR l /\ forall j, j < argmax l -> (nth j l 0 < maxR l)%R.
Proof.
  destruct l as [|a l]; [congruence|]. intros Hne. unfold argmax.
  destruct (argmax_from_spec l [a] a 0) as (A & B & C); cbn [List.length nth]; try lia; try reflexivity.
  - intros j Hj. replace j with 0 by lia. apply Rle_refl.
  - cbn [List.length] in *. set (k := argmax_from a 0 1 l) in *. change ([a] ++ l) with (a :: l) in *.
    destruct (maxR_spec (a :: l) Hne) as [M1 M2].
    assert (nth k (a :: l) 0%R = maxR (a :: l)) as E.
    { apply Rle_antisym; [apply M2, nth_In; exact A|].
      destruct (In_nth _ _ 0%R M1) as (j & Hj & <-). apply B. exact Hj. }
    split; [exact A|]. split; [exact E|]. intros j Hj. rewrite <- E. apply C. exact Hj.
Qed.

Lemma meanR_perm l l' : Permutation l l' -> meanR l = meanR l'.
Proof. intros P. unfold meanR. rewrite (sumR_perm _ _ P), (Permutation_length P). reflexivity. Qed.
Lemma varR_perm l l' : Permutation l l' -> varR l = varR l'.
Proof.
  intros P. unfold varR. rewrite (meanR_perm _ _ P), (Permutation_length P).
  rewrite (sumR_perm _ (map (fun x => (x - meanR l') * (x - meanR l'))%R l')); [reflexivity|]. apply Permutation_map. exact P.
Qed.
Lemma uvarR_perm l l' : Permutation l l' -> uvarR l = uvarR l'.
Proof.
  intros P. unfold uvarR. rewrite (meanR_perm _ _ P), (Permutation_length P).
  rewrite (sumR_perm _ (map (fun x => (x - meanR l') * (x - meanR l'))%R l')); [reflexivity|]. apply Permutation_map. exact P.
Qed.

(** ** Bijections of multi-indices *)
Lemma bijective_perm f s s' : bijective f s s' -> Permutation (map f (indices s)) (indices s').
Proof.
  intros (A & B & C). apply NoDup_Permutation.
  -
    assert (forall l, NoDup l -> (forall y, In y l -> valid s y) -> NoDup (map f l)) as K.
    { induction 1 as [|y l Hy Hl IH]; intros V; simpl; constructor.
      - intros Hin. apply in_map_iff in Hin. destruct Hin as (z & E & Hz). apply B in E; [subst; contradiction| |]; apply V; simpl; auto.
      - apply IH. intros z Hz. apply V. right. exact Hz. }
    apply K; [apply indices_NoDup|]. intros y Hy. apply in_indices. exact Hy.
  - apply indices_NoDup.
  - intros y'. rewrite in_indices, in_map_iff. split.
    + intros (y & <- & Hy). apply A. apply in_indices. exact Hy.
    + intros Hy'. destruct (C _ Hy') as (y & Hy & E). exists y. rewrite in_indices. auto.
Qed.
Lemma bijective_prodn f s s' : bijective f s s' -> prodn s' = prodn s.
Proof.
  intros H. apply bijective_perm, Permutation_length in H. rewrite map_length, !indices_length in H. auto.
Qed.
Lemma rearranged_values {A} f s s' (F F' : list nat -> A) : bijective f s s' -> (forall y, valid s y -> F' (f y) = F y) ->
  Permutation (map F (indices s)) (map F' (indices s')).
Proof.
  intros H E. apply bijective_perm in H.
  replace (map F (indices s)) with (map F' (map f (indices s))); [apply Permutation_map; exact H|].
  rewrite map_map. apply map_ext_in. intros y Hy. apply E, in_indices. exact Hy.
Qed.
Lemma permutes_perm n p : permutes n p -> Permutation (map p (seq 0 n)) (seq 0 n).
Proof.
  intros (A & B). apply NoDup_Permutation_bis.
  - assert (forall l, NoDup l -> (forall y, In y l -> y < n) -> NoDup (map p l)) as K.
    { induction 1 as [|y l Hy Hl IH]; intros V; simpl; constructor.
      - intros Hin. apply in_map_iff in Hin. destruct Hin as (z & E & Hz). apply B in E; [subst; contradiction| |]; apply V; simpl; auto.
      - apply IH. intros z Hz. apply V. right. exact Hz. }
    apply K; [apply seq_NoDup|]. intros y Hy. apply in_seq in Hy. lia.
  - rewrite map_length. lia.
  - intros y Hy. apply in_map_iff in Hy. destruct Hy as (z & <- & Hz). apply in_seq in Hz. apply in_seq. specialize (A z). lia.
Qed.
Lemma permutes_values {A} n p (F F' : nat -> A) : permutes n p -> (forall e, e < n -> F' (p e) = F e) ->
  Permutation (map F (seq 0 n)) (map F' (seq 0 n)).
Proof.
  intros H E. apply permutes_perm in H.
  replace (map F (seq 0 n)) with (map F' (map p (seq 0 n))); [apply Permutation_map; exact H|].
  rewrite map_map. apply map_ext_in. intros y Hy. apply in_seq in Hy. apply E. lia.
Qed.

(** ** Group and global pooling *)
Lemma at_reduce2 {E} {D : Dflt E} (f : list R -> E) N C n rest t a b y : a < N -> b < C -> valid rest y ->
  at_ (reduce2 f N C n rest t) (a :: b :: y) = f (map (fun e => at_ t (a :: b :: e :: y)) (seq 0 n)).
Proof. intros Ha Hb Hy. unfold reduce2. rewrite at_build by (repeat apply valid_cons; assumption). reflexivity. Qed.
Lemma reduce2_shape {E} (f : list R -> E) N C n rest t : has_shape (reduce2 f N C n rest t) (N :: C :: rest).
Proof. split; [reflexivity|apply wft_build]. Qed.

Lemma at_flat (x : tensor R) N C s a b k : has_shape x (N :: C :: s) -> a < N -> b < C -> k < prodn s ->
  at_ (mkT [N; C; prodn s] (data x)) [a; b; k] = at_ x (a :: b :: unravel s k).
Proof.
  intros [Hs Hw] Ha Hb Hk. unfold at_. cbn [shape data]. rewrite Hs. f_equal.
  cbn [ravel prodn fold_right]. fold (prodn s). rewrite ravel_unravel by assumption. lia.
Qed.
Lemma flat_values (x : tensor R) N C s a b : has_shape x (N :: C :: s) -> a < N -> b < C ->
  map (fun k => at_ (mkT [N; C; prodn s] (data x)) [a; b; k]) (seq 0 (prodn s)) = map (fun y => at_ x (a :: b :: y)) (indices s).
Proof.
  intros H Ha Hb. unfold indices. rewrite map_map. apply map_ext_in. intros k Hk. apply in_seq in Hk.
  apply at_flat; try assumption. lia.
Qed.
Lemma at_keepdim {E} {D : Dflt E} (t : tensor E) N C a b : has_shape t [N; C] -> at_ (keepdim t) [a; b; 0] = at_ t [a; b].
Proof.
  intros [Hs _]. unfold at_, keepdim. cbn [shape data]. rewrite Hs. f_equal.
Qed.
Lemma keepdim_shape {E} (t : tensor E) N C : has_shape t [N; C] -> has_shape (keepdim t) [N; C; 1].
Proof. intros [Hs Hw]. split; unfold keepdim; cbn [shape data]; [rewrite Hs; reflexivity|]. unfold wft in *. cbn [shape data]. rewrite Hw, Hs. cbn. lia. Qed.

Lemma avg_group_spec (x : tensor R) N C n rest : has_shape x (N :: C :: n :: rest) ->
  exists y, g_avg_group_pool x = Ok (PTensor y) /\ has_shape y (N :: C :: rest) /\
    forall a b z, a < N -> b < C -> valid rest z ->
      at_ y (a :: b :: z) = (sumR (map (fun e => at_ x (a :: b :: e :: z)) (seq 0 n)) / INR n)%R.
Proof.
  intros H. eexists. unfold g_avg_group_pool, mean2. rewrite (proj1 H). split; [reflexivity|]. split; [apply reduce2_shape|].
  intros a b z Ha Hb Hz. rewrite at_reduce2 by assumption. unfold meanR. rewrite map_length, seq_length. reflexivity.
Qed.
Lemma max_group_spec (x : tensor R) N C n rest : has_shape x (N :: C :: n :: rest) -> 0 < n ->
  exists v i, g_max_group_pool x = Ok (PPair v i) /\ has_shape v (N :: C :: rest) /\ has_shape i (N :: C :: rest) /\
    forall a b z, a < N -> b < C -> valid rest z ->
      (forall e, e < n -> (at_ x (a :: b :: e :: z) <= at_ v (a :: b :: z))%R) /\
      at_ i (a :: b :: z) < n /\
      at_ x (a :: b :: at_ i (a :: b :: z) :: z) = at_ v (a :: b :: z) /\
      at_ v (a :: b :: z) = maxR (map (fun e => at_ x (a :: b :: e :: z)) (seq 0 n)).
Proof.
  intros H Hn. do 2 eexists. unfold g_max_group_pool, max2. rewrite (proj1 H).
  destruct (Nat.eqb_spec n 0); [lia|]. split; [reflexivity|]. split; [apply reduce2_shape|]. split; [apply reduce2_shape|].
  intros a b z Ha Hb Hz. rewrite !at_reduce2 by assumption. set (l := map _ _).
  assert (List.length l = n) as Ll by (unfold l; rewrite map_length, seq_length; reflexivity).
  assert (l <> []) as Hl by (intros E; rewrite E in Ll; simpl in Ll; lia).
  assert (forall e, e < n -> nth e l 0%R = at_ x (a :: b :: e :: z)) as Nl.
  { intros e He. unfold l. set (F := fun e => at_ x (a :: b :: e :: z)). rewrite (nth_indep _ 0%R (F 0)) by (rewrite map_length, seq_length; lia).
    rewrite map_nth, seq_nth by lia. reflexivity. }
  destruct (maxR_spec l Hl) as [M1 M2]. destruct (argmax_spec l Hl) as (A1 & A2 & _). rewrite Ll in A1.
  split; [|split; [exact A1|split; [|reflexivity]]].
  - intros e He. apply M2. rewrite <- Nl by assumption. apply nth_In. lia.
  - rewrite <- Nl by assumption. exact A2.
Qed.
Lemma avg_global_spec (x : tensor R) N C n rest : has_shape x (N :: C :: n :: rest) ->
  exists y, g_avg_global_pool x = Ok (PTensor y) /\ has_shape y [N; C; 1] /\
    forall a b, a < N -> b < C ->
      at_ y [a; b; 0] = (sumR (map (fun z => at_ x (a :: b :: z)) (indices (n :: rest))) / INR (n * prodn rest))%R.
Proof.
  intros H. set (K := prodn (n :: rest)). set (y := mkT [N; C; K] (data x)). exists (keepdim (reduce2 meanR N C K [] y)).
  unfold g_avg_global_pool, flatten2. rewrite (proj1 H). fold K y. cbn [bind]. unfold mean2, y at 1. cbn [shape rmap].
  split; [reflexivity|]. split; [apply keepdim_shape, reduce2_shape|].
  intros a b Ha Hb. rewrite (at_keepdim _ N C) by apply reduce2_shape. rewrite at_reduce2 by (try assumption; apply valid_nil).
  unfold y, K. rewrite (flat_values x N C (n :: rest)) by assumption. unfold meanR. rewrite map_length, indices_length. reflexivity.
Qed.
Lemma max_global_spec (x : tensor R) N C n rest : has_shape x (N :: C :: n :: rest) -> 0 < n * prodn rest ->
  exists v i, g_max_global_pool x = Ok (PPair v i) /\ has_shape v [N; C; 1] /\ has_shape i [N; C; 1] /\
    forall a b, a < N -> b < C ->
      largest (n :: rest) (fun z => at_ x (a :: b :: z)) (at_ v [a; b; 0]) /\
      at_ i [a; b; 0] < n * prodn rest /\ at_ x (a :: b :: unravel (n :: rest) (at_ i [a; b; 0])) = at_ v [a; b; 0].
Proof.
  intros H Hn. set (K := prodn (n :: rest)). assert (0 < K) as HK by (unfold K; rewrite prodn_cons; exact Hn).
  set (y := mkT [N; C; K] (data x)). exists (keepdim (reduce2 maxR N C K [] y)), (keepdim (reduce2 argmax N C K [] y)).
  unfold g_max_global_pool, flatten2. rewrite (proj1 H). fold K y. cbn [bind]. unfold max2, y at 1. cbn [shape].
  destruct (Nat.eqb_spec K 0); [lia|]. cbn [rmap].
  split; [reflexivity|]. split; [apply keepdim_shape, reduce2_shape|]. split; [apply keepdim_shape, reduce2_shape|].
  intros a b Ha Hb. rewrite !(at_keepdim _ N C) by apply reduce2_shape. rewrite !at_reduce2 by (try assumption; apply valid_nil).
  unfold y, K. rewrite (flat_values x N C (n :: rest)) by assumption. fold K.
  set (F := fun z => at_ x (a :: b :: z)). change (map (fun y0 => at_ x (a :: b :: y0)) (indices (n :: rest))) with (map F (indices (n :: rest))).
  set (l := map F _). assert (List.length l = K) as Ll by (unfold l; rewrite map_length, indices_length; reflexivity).
  assert (l <> []) as Hl by (intros E; rewrite E in Ll; simpl in Ll; lia).
  destruct (maxR_spec l Hl) as [M1 M2]. destruct (argmax_spec l Hl) as (A1 & A2 & _). rewrite Ll in A1.
  split; [|split].
  - split.
    + apply in_map_iff in M1. destruct M1 as (z & E & Hz). exists z. split; [apply in_indices; exact Hz|exact E].
    + intros z Hz. apply M2. apply (in_map F). apply in_indices. exact Hz.
  - unfold K in A1. rewrite prodn_cons in A1. exact A1.
  - rewrite <- A2. unfold l. rewrite (nth_indep _ 0%R (F [])) by (rewrite map_length, indices_length; exact A1). rewrite map_nth. unfold F. do 3 f_equal.
    unfold indices. change (@nil nat) with (@nil nat). rewrite (nth_indep _ [] (unravel (n :: rest) 0)) by (rewrite map_length, seq_length; exact A1).
    rewrite map_nth, seq_nth by exact A1. reflexivity.
Qed.
