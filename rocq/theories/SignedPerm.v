(** Signed coordinate permutations as index transformations (specification notion).
    [sp] lists, for every axis of the result, the axis it is read from and whether it is
    reversed. *)
From Coq Require Import Permutation.
From Verif Require Import Prelude RMath Mat Tensor TensorFacts.
Open Scope nat_scope.

Definition sperm := list (nat * bool).

(** The axes form a permutation of 0..n-1. *)
Definition sp_ok (n : nat) (sp : sperm) : Prop := Permutation (map fst sp) (seq 0 n).

(** Multi-index z is sent to the multi-index (into shape s) whose a-th entry is z at the source
    axis, reversed if asked. *)
Definition sp_idx (sp : sperm) (s z : list nat) : list nat :=
  map2 (fun (p : nat * bool) n => let i := nth (fst p) z 0 in if snd p then n - 1 - i else i) sp s.

(** s' is the shape on which [sp_idx sp s] is defined: axis lengths are permuted. *)
Definition sp_shape (sp : sperm) (s s' : list nat) : Prop :=
  length s' = length s /\ map (fun p => nth (fst p) s' 0) sp = s.

Lemma map2_length {A B C} (f : A -> B -> C) l r : length l = length r -> length (map2 f l r) = length l.
Proof. revert r; induction l; intros [|y r] H; simpl in *; try discriminate; auto. Qed.
Lemma nth_error_map2 {A B C} (f : A -> B -> C) l r k a b :
  nth_error l k = Some a -> nth_error r k = Some b -> nth_error (map2 f l r) k = Some (f a b).
Proof.
  revert r k; induction l as [|x l IH]; intros [|y r] [|k] Ha Hb; simpl in *; try discriminate.
  - congruence.
  - eapply IH; eauto.
Qed.
Lemma nth_of_nth_error {A} (l : list A) k x d : nth_error l k = Some x -> nth k l d = x.
Proof. revert k; induction l; intros [|k] H; simpl in *; try discriminate; [congruence|auto]. Qed.
Lemma nth_error_of_nth {A} (l : list A) k d : k < length l -> nth_error l k = Some (nth k l d).
Proof. apply nth_error_nth'. Qed.

Section SP.
  Context (n : nat) (sp : sperm) (Hok : sp_ok n sp).

  Lemma sp_length : length sp = n.
  Proof. rewrite <- (map_length fst), (Permutation_length Hok), seq_length. reflexivity. Qed.
  Lemma sp_axis a p : nth_error sp a = Some p -> fst p < n.
  Proof.
    intros H. apply nth_error_In in H. apply (in_map fst) in H.
    apply (Permutation_in _ Hok) in H. apply in_seq in H. lia.
  Qed.
  Lemma sp_axis_surj j : j < n -> exists a p, nth_error sp a = Some p /\ fst p = j.
  Proof.
    intros H. assert (In j (map fst sp)) as Hin.
    { apply (Permutation_in _ (Permutation_sym Hok)). apply in_seq. lia. }
    apply in_map_iff in Hin. destruct Hin as (p & Hp & Hin).
    apply In_nth_error in Hin. destruct Hin as [a Ha]. eauto.
  Qed.

  Context (s s' : list nat) (Hs : length s = n) (Hsh : sp_shape sp s s').

  Lemma sp_shape_nth a p : nth_error sp a = Some p -> nth (fst p) s' 0 = nth a s 0.
  Proof.
    intros H. destruct Hsh as [_ E]. rewrite <- E.
    symmetry. erewrite nth_of_nth_error; [reflexivity|]. rewrite nth_error_map, H. reflexivity.
  Qed.

  Lemma sp_idx_length z : length (sp_idx sp s z) = n.
  Proof. unfold sp_idx. rewrite map2_length; [apply sp_length|]. rewrite sp_length, Hs. reflexivity. Qed.
  Lemma sp_idx_nth z a p : nth_error sp a = Some p ->
    nth a (sp_idx sp s z) 0 = if snd p then nth a s 0 - 1 - nth (fst p) z 0 else nth (fst p) z 0.
  Proof.
    intros H. assert (a < length s) by (rewrite Hs, <- sp_length; apply nth_error_Some_lt in H; assumption).
    erewrite nth_of_nth_error; [reflexivity|]. unfold sp_idx.
    erewrite nth_error_map2; [| exact H | apply (nth_error_of_nth s a 0); assumption]. reflexivity.
  Qed.
  Lemma sp_get a : a < n -> exists p, nth_error sp a = Some p.
  Proof. intros H. rewrite <- sp_length in H. apply nth_error_Some in H. destruct (nth_error sp a); [eauto|contradiction]. Qed.

  Lemma sp_idx_valid z : valid s' z -> valid s (sp_idx sp s z).
  Proof.
    intros Hz. apply valid_nth. rewrite sp_idx_length. split; [auto|]. intros a Ha.
    destruct (sp_get a) as [p Hp]; [lia|]. rewrite (sp_idx_nth z a p Hp).
    apply valid_nth in Hz. destruct Hz as [_ Hz]. pose proof (sp_axis _ _ Hp).
    specialize (Hz (fst p)). rewrite (sp_shape_nth a p Hp) in Hz.
    destruct Hsh as [El _]. rewrite El, Hs in Hz.
    destruct (snd p); lia.
  Qed.

  Lemma sp_idx_inj z1 z2 : valid s' z1 -> valid s' z2 -> sp_idx sp s z1 = sp_idx sp s z2 -> z1 = z2.
  Proof.
    intros H1 H2 E. apply valid_nth in H1, H2. destruct H1 as [L1 H1], H2 as [L2 H2].
    destruct Hsh as [El _].
    apply nth_ext with (d := 0) (d' := 0); [congruence|]. intros j Hj.
    destruct (sp_axis_surj j) as (a & p & Hp & Hj'); [lia|].
    pose proof (sp_shape_nth a p Hp) as Ea.
    assert (j < length s') as Hj'' by lia.
    pose proof (H1 j Hj''). pose proof (H2 j Hj''). rewrite <- Hj' in *.
    assert (nth a (sp_idx sp s z1) 0 = nth a (sp_idx sp s z2) 0) as E' by congruence.
    rewrite !(sp_idx_nth _ a p Hp) in E'. destruct (snd p); lia.
  Qed.

  Lemma sp_shape_perm : Permutation s s'.
  Proof.
    destruct Hsh as [El E]. rewrite <- E at 1.
    rewrite <- (map_map fst (fun j => nth j s' 0)).
    rewrite (Permutation_map _ Hok). rewrite <- Hs, <- El.
    assert (forall (l : list nat), map (fun j => nth j l 0) (seq 0 (length l)) = l) as ->; [|reflexivity].
    clear. intros l. apply nth_ext with (d := 0) (d' := 0); [rewrite map_length, seq_length; reflexivity|].
    intros k Hk. rewrite map_length, seq_length in Hk.
    rewrite (nth_indep _ 0 (nth 0 l 0)) by (rewrite map_length, seq_length; assumption).
    rewrite (map_nth (fun j => nth j l 0)), seq_nth by assumption. reflexivity.
  Qed.
  Lemma prodn_perm a b : Permutation a b -> prodn a = prodn b.
  Proof. induction 1; unfold prodn in *; simpl in *; try lia; try nia. Qed.

  (** The transformed indices enumerate all of shape s. *)
  Lemma sp_idx_perm : Permutation (map (sp_idx sp s) (indices s')) (indices s).
  Proof.
    apply NoDup_Permutation_bis.
    - assert (forall l, NoDup l -> (forall z, In z l -> valid s' z) -> NoDup (map (sp_idx sp s) l)) as Hg.
      { induction l as [|z l IH]; intros Hn Hv; simpl; [constructor|].
        apply NoDup_cons_iff in Hn. destruct Hn as [Hni Hn]. constructor.
        - rewrite in_map_iff. intros (z' & E & Hin). apply sp_idx_inj in E; [congruence| |];
          apply Hv; simpl; auto.
        - apply IH; auto. intros; apply Hv; simpl; auto. }
      apply Hg; [apply indices_NoDup|]. intros z Hz. apply in_indices; assumption.
    - rewrite map_length, !indices_length. rewrite (prodn_perm _ _ sp_shape_perm). lia.
    - intros y Hy. apply in_map_iff in Hy. destruct Hy as (z & <- & Hz). apply in_indices.
      apply sp_idx_valid. apply in_indices; assumption.
  Qed.
End SP.

(** Cubic shapes are fixed. *)
Lemma sp_shape_cube n sp k : sp_ok n sp -> sp_shape sp (repeat k n) (repeat k n).
Proof.
  intros H. split; [reflexivity|].
  apply nth_ext with (d := 0) (d' := 0); [rewrite map_length, (sp_length n sp H), repeat_length; reflexivity|].
  intros a Ha. rewrite map_length in Ha.
  destruct (nth_error sp a) as [p|] eqn:E; [|apply nth_error_None in E; lia].
  erewrite nth_of_nth_error; [|rewrite nth_error_map, E; reflexivity]. 
  assert (forall j, j < n -> nth j (repeat k n) 0 = k) as Hr.
  { intros j Hj. apply (repeat_spec n k). apply nth_In. rewrite repeat_length. assumption. }
  rewrite !Hr; [reflexivity| |]. { rewrite <- (sp_length n sp H). assumption. } exact (sp_axis n sp H a p E).
Qed.

(** *** The matrices that act on coordinates. [sp] is in axis order. In 3d the coordinates are in
    reverse axis order (x is the last axis), in 2d in axis order (see create_grid_R2). *)
Definition sgn (b : bool) : R := if b then (-1)%R else 1%R.
Definition sp_mat3 (sp : sperm) : M3 :=
  let e j k := let p := nth (2 - j) sp (0, false) in if Nat.eqb (fst p) (2 - k) then sgn (snd p) else 0%R in
  mkM3 (e 0 0) (e 0 1) (e 0 2) (e 1 0) (e 1 1) (e 1 2) (e 2 0) (e 2 1) (e 2 2).
Definition sp_mat2 (sp : sperm) : M2 :=
  let e j k := let p := nth j sp (0, false) in if Nat.eqb (fst p) k then sgn (snd p) else 0%R in
  mkM2 (e 0 0) (e 0 1) (e 1 0) (e 1 1).
