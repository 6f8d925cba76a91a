(** Facts for C55: pooling windows of arbitrary size, stride, padding, dilation. *)
From Coq Require Import String ZArith Permutation.
From Verif Require Import Prelude RMath Mat Repulse RepulseFacts Tensor TensorFacts Kernel KernelFacts Conv ConvFacts SignedPerm Layers LayersSpec LayersFacts NormFacts PoolFacts.
Open Scope nat_scope.

(** positions read along one axis by cell 0 *)
Definition win0 (a k p t : nat) : list nat :=
  filter (fun q => Nat.ltb q a) (map (fun j => 0 * 1 + j * t - p) (filter (fun j => Nat.leb p (j * t)) (seq 0 k))).
Lemma win0_in a k p t q : In q (win0 a k p t) <-> q < a /\ exists j, j < k /\ q + p = j * t.
Proof.
  unfold win0. rewrite filter_In, in_map_iff. setoid_rewrite filter_In. setoid_rewrite in_seq. split.
  - intros [(j & <- & Hj & Hp) Hq]. apply Nat.leb_le in Hp. apply Nat.ltb_lt in Hq. split; [exact Hq|]. exists j. lia.
  - intros [Hq (j & Hj & E)]. split; [|apply Nat.ltb_lt; exact Hq]. exists j. split; [lia|]. split; [lia|]. apply Nat.leb_le. lia.
Qed.
Lemma NoDup_map_on {A B} (f : A -> B) l : NoDup l -> (forall x y, In x l -> In y l -> f x = f y -> x = y) -> NoDup (map f l).
Proof.
  induction 1 as [|x l Hx Hl IH]; intros Hf; [constructor|]. cbn. constructor.
  - intros Hin. apply in_map_iff in Hin. destruct Hin as (y & E & Hy). apply Hx. rewrite (Hf x y); [exact Hy|left; reflexivity|right; exact Hy|symmetry; exact E].
  - apply IH. intros y z Hy Hz. apply Hf; right; assumption.
Qed.
Lemma win0_NoDup a k p t : 0 < t -> NoDup (win0 a k p t).
Proof.
  intros Ht. unfold win0. apply NoDup_filter, NoDup_map_on; [apply NoDup_filter, seq_NoDup|].
  intros i j Hi Hj E. apply filter_In in Hi, Hj. destruct Hi as [_ Hi], Hj as [_ Hj]. apply Nat.leb_le in Hi, Hj.
  assert (i * t = j * t) by lia. nia.
Qed.

Lemma NoDup_app_intro {A} (l m : list A) : NoDup l -> NoDup m -> (forall x, In x l -> ~ In x m) -> NoDup (l ++ m).
Proof.
  induction 1 as [|x l Hx Hl IH]; intros Hm H; [exact Hm|]. cbn. constructor.
  - rewrite in_app_iff. intros [|Q]; [contradiction|]. apply (H x); [left; reflexivity|exact Q].
  - apply IH; [exact Hm|]. intros y Hy. apply H. right. exact Hy.
Qed.
Lemma cart_in ws q : In q (cart ws) <-> Forall2 (fun x w => In x w) q ws.
Proof.
  revert q; induction ws as [|w ws IH]; intros q; cbn [cart].
  - split; [intros [<-|[]]; constructor|]. intros H. inversion H. left; reflexivity.
  - rewrite in_flat_map. split.
    + intros (x & Hx & Hq). apply in_map_iff in Hq. destruct Hq as (r & <- & Hr). constructor; [exact Hx|apply IH; exact Hr].
    + intros H. inversion H as [|x w' r ws' Hx Hr]; subst. exists x. split; [exact Hx|]. apply in_map, IH. exact Hr.
Qed.
Lemma cart_NoDup ws : Forall (@NoDup nat) ws -> NoDup (cart ws).
Proof.
  induction 1 as [|w ws Hw _ IH]; cbn [cart]; [constructor; [intros []|constructor]|].
  induction Hw as [|x w Hx _ IHw]; cbn [flat_map]; [constructor|]. apply NoDup_app_intro; [|exact IHw|].
  - apply NoDup_map_on; [exact IH|]. intros y z _ _ E. injection E as E. exact E.
  - intros y Hy Hy'. apply in_map_iff in Hy. destruct Hy as (r & <- & _). apply in_flat_map in Hy'. destruct Hy' as (x' & Hx' & Hr).
    apply in_map_iff in Hr. destruct Hr as (r' & E & _). injection E as -> _. contradiction.
Qed.
Lemma Forall2_nth_iff {A B} (P : A -> B -> Prop) (l : list A) (m : list B) a b :
  Forall2 P l m <-> List.length l = List.length m /\ forall i, i < List.length l -> P (nth i l a) (nth i m b).
Proof.
  split.
  - induction 1 as [|x y l m Hxy _ [IH1 IH2]]; [split; [reflexivity|cbn; lia]|]. split; [cbn; congruence|].
    intros [|i] Hi; [exact Hxy|]. apply IH2. cbn in Hi. lia.
  - revert m; induction l as [|x l IH]; intros [|y m] [E H]; try discriminate; constructor; [exact (H 0 ltac:(cbn; lia))|].
    apply IH. split; [cbn in E; congruence|]. intros i Hi. exact (H (S i) ltac:(cbn; lia)).
Qed.
Lemma window_reads_iff k p t q : window_reads k p t q = true <->
  forall i, i < List.length q -> exists j, j < nth i k 0 /\ nth i q 0 + nth i p 0 = j * nth i t 0.
Proof.
  unfold window_reads. rewrite forallb_forall. split; intros H i Hi.
  - specialize (H i ltac:(apply in_seq; lia)). apply existsb_exists in H. destruct H as (j & Hj & E). apply in_seq in Hj. apply Nat.eqb_eq in E. exists j. lia.
  - apply in_seq in Hi. destruct (H i ltac:(lia)) as (j & Hj & E). apply existsb_exists. exists j. split; [apply in_seq; lia|apply Nat.eqb_eq; exact E].
Qed.
Lemma windows_perm d sp k p t : List.length sp = d -> (forall i, i < d -> 0 < nth i t 0) ->
  Permutation (cart (axes d (fun i => win0 (nth i sp 0) (nth i k 0) (nth i p 0) (nth i t 0)))) (filter (window_reads k p t) (indices sp)).
Proof.
  intros Hd Ht. apply NoDup_Permutation.
  - apply cart_NoDup, Forall_forall. intros w Hw. apply in_map_iff in Hw. destruct Hw as (i & <- & Hi). apply in_seq in Hi. apply win0_NoDup, Ht. lia.
  - apply NoDup_filter, indices_NoDup.
  - intros q. rewrite cart_in, filter_In, in_indices, window_reads_iff. unfold Tensor.valid.
    rewrite (Forall2_nth_iff _ _ _ 0 []), (Forall2_nth_iff _ _ _ 0 0). unfold axes. rewrite map_length, seq_length, Hd. split.
    + intros [E H]. assert (Q : forall i, i < List.length q -> nth i q 0 < nth i sp 0 /\ exists j, j < nth i k 0 /\ nth i q 0 + nth i p 0 = j * nth i t 0).
      { intros i Hi. specialize (H i Hi). rewrite nth_map_seq in H by lia. apply win0_in in H. exact H. }
      split; [split; [exact E|]|]; intros i Hi; apply (Q i Hi).
    + intros [[E H1] H2]. split; [exact E|]. intros i Hi. rewrite nth_map_seq by lia. apply win0_in. auto.
Qed.

Lemma pool_out_one a k s p t ceil : 0 < a -> 0 < k -> 0 < s -> 0 < t -> 2 * p <= k -> (pool_out a k s p t ceil = 1%Z <-> one_window a k s p t ceil).
Proof.
  intros Ha Hk Hs Ht Hp. unfold pool_out, one_window. set (e := t * (k - 1) + 1).
  assert (Ee : (Z.of_nat t * (Z.of_nat k - 1) + 1)%Z = Z.of_nat e) by (unfold e; nia).
  replace (Z.of_nat a + 2 * Z.of_nat p - Z.of_nat t * (Z.of_nat k - 1) - 1)%Z with (Z.of_nat a + 2 * Z.of_nat p - Z.of_nat e)%Z by lia.
  set (num := (Z.of_nat a + 2 * Z.of_nat p - Z.of_nat e)%Z).
  assert (D : forall z, (z / Z.of_nat s = 0 <-> 0 <= z < Z.of_nat s)%Z /\ (z / Z.of_nat s = 1 <-> Z.of_nat s <= z < 2 * Z.of_nat s)%Z).
  { intros z. pose proof (Z.div_mod z (Z.of_nat s) ltac:(lia)) as Q. pose proof (Z.mod_pos_bound z (Z.of_nat s) ltac:(lia)) as B.
    set (u := (z / Z.of_nat s)%Z) in *. set (v := (z mod Z.of_nat s)%Z) in *. clearbody u v. split; split; intros H; nia. }
  destruct ceil; cbn [andb].
  - destruct (D (num + Z.of_nat s - 1)%Z) as [D0 D1]. set (o := ((num + Z.of_nat s - 1) / Z.of_nat s)%Z) in *. clearbody o.
    replace (o + 1 - 1)%Z with o by lia. unfold Z.geb. destruct (Z.compare_spec (o * Z.of_nat s) (Z.of_nat a + Z.of_nat p)) as [C|C|C]; split; intros H; nia.
  - destruct (D num) as [D0 _]. split; intros H; lia.
Qed.
Lemma window_axis_one a k s p t ceil : 0 < a ->
  (one_window a k s p t ceil -> exists ax, window_axis a k s p t ceil = Some ax /\ px_out ax = 1 /\ px_win ax 0 = win0 a k p t /\ px_full ax 0 = Nat.min k (a + 2 * p)) /\
  (forall ax, window_axis a k s p t ceil = Some ax -> px_out ax = 1 -> one_window a k s p t ceil).
Proof.
  intros Ha. unfold window_axis. split.
  - intros H. pose proof H as [(Hk & Hs & Ht & Hp) _]. apply (pool_out_one a k s p t ceil Ha Hk Hs Ht Hp) in H. rewrite H.
    assert (p <= k / 2) by (apply Nat.div_le_lower_bound; lia).
    rewrite (proj2 (Nat.ltb_lt 0 k) Hk), (proj2 (Nat.ltb_lt 0 s) Hs), (proj2 (Nat.ltb_lt 0 t) Ht), (proj2 (Nat.leb_le p _) ltac:(eassumption)). cbn [andb Z.leb Z.compare].
    eexists. split; [reflexivity|]. cbn [px_out px_win px_full]. split; [reflexivity|]. split; [reflexivity|lia].
  - intros ax H Ho. destruct (_ && _) eqn:E in H; [|discriminate]. injection H as <-. cbn [px_out] in Ho.
    apply andb_prop in E as [E E5]. apply andb_prop in E as [E E4]. apply andb_prop in E as [E E3]. apply andb_prop in E as [E1 E2].
    apply Nat.ltb_lt in E1, E2, E3. apply Nat.leb_le in E4. apply Z.leb_le in E5.
    apply pool_out_one; auto; [|lia]. pose proof (Nat.mul_div_le k 2 ltac:(lia)). lia.
Qed.

(** all axes at once *)
Lemma window_axes d sp k s p t ceil : List.length sp = d -> (forall i, i < d -> 0 < nth i sp 0) ->
  let F := fun j => window_axis (nth j sp 0) (nth j k 0) (nth j s 0) (nth j p 0) (nth j t 0) ceil in
  ((forall i, i < d -> one_window (nth i sp 0) (nth i k 0) (nth i s 0) (nth i p 0) (nth i t 0) ceil) ->
     exists axs, sequence (axes d F) = Some axs /\ prodn (map px_out axs) = 1 /\
       map (fun a => px_win a 0) axs = axes d (fun i => win0 (nth i sp 0) (nth i k 0) (nth i p 0) (nth i t 0)) /\
       map (fun a => px_full a 0) axs = axes d (fun i => Nat.min (nth i k 0) (nth i sp 0 + 2 * nth i p 0))) /\
  (forall axs, sequence (axes d F) = Some axs -> prodn (map px_out axs) = 1 ->
     forall i, i < d -> one_window (nth i sp 0) (nth i k 0) (nth i s 0) (nth i p 0) (nth i t 0) ceil).
Proof.
  intros Hd Hsp F. split.
  - intros H. pose (g := fun j => match F j with Some a => a | None => mkPax 0 (fun _ => []) (fun _ => 0) end).
    assert (Hg : forall j, j < d -> F j = Some (g j) /\ px_out (g j) = 1 /\ px_win (g j) 0 = win0 (nth j sp 0) (nth j k 0) (nth j p 0) (nth j t 0) /\
      px_full (g j) 0 = Nat.min (nth j k 0) (nth j sp 0 + 2 * nth j p 0)).
    { intros j Hj. destruct (proj1 (window_axis_one (nth j sp 0) (nth j k 0) (nth j s 0) (nth j p 0) (nth j t 0) ceil (Hsp j Hj)) (H j Hj)) as (ax & E & Q).
      unfold g, F. rewrite E. auto. }
    exists (axes d g). split; [apply sequence_axes_some; intros j Hj; apply (Hg j Hj)|]. unfold axes. rewrite !map_map. split; [|split].
    + apply prodn_one, Forall_forall. intros o Ho. apply in_map_iff in Ho. destruct Ho as (j & <- & Hj). apply in_seq in Hj. apply Hg. lia.
    + apply map_ext_in. intros j Hj. apply in_seq in Hj. apply Hg. lia.
    + apply map_ext_in. intros j Hj. apply in_seq in Hj. apply Hg. lia.
  - intros axs E Ho i Hi. apply prodn_one in Ho. rewrite Forall_forall in Ho.
    pose proof (sequence_inv _ _ E) as Q.
    assert (Qi : F i = nth i (axes d F) None) by (unfold axes; rewrite nth_map_seq by exact Hi; reflexivity).
    rewrite Q in Qi. assert (Li : i < List.length axs).
    { apply (f_equal (@List.length _)) in Q. unfold axes in Q. rewrite !map_length, seq_length in Q. lia. }
    rewrite (nth_indep _ None (Some (mkPax 0 (fun _ => []) (fun _ => 0)))), map_nth in Qi by (rewrite map_length; exact Li).
    apply (proj2 (window_axis_one _ _ _ _ _ ceil (Hsp i Hi)) _ Qi). apply Ho, in_map, nth_In, Li.
Qed.
Lemma prodn_pos_nth sp i : prodn sp <> 0 -> i < List.length sp -> 0 < nth i sp 0.
Proof.
  revert i; induction sp as [|a sp IH]; intros i H Hi; [cbn in Hi; lia|]. change (prodn (a :: sp)) with (a * prodn sp) in H.
  destruct i as [|i]; cbn [nth]; [destruct a; [cbn in H; lia|lia]|]. apply IH; [intros Q; rewrite Q in H; lia|cbn in Hi; lia].
Qed.
