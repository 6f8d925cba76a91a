(** The tutorial's operations are a group acting on the plane; sums of cosines over uniform grids. *)
From Coq Require Import String ZArith RelationClasses.
From Verif Require Import Prelude RMath Mat Interp SO2 SO2Facts Repulse RepulseFacts Tensor TensorFacts SignedPerm Functional FunctionalFacts Kernel KernelFacts
  GroupKernelFacts KernelMore SepProduct Conv Public Tutorial CustomSpec.
Open Scope R_scope.

Definition congruent (a b : R) : Prop := exists k : Z, a = b + 2 * PI * IZR k.
Lemma congruent_mod a : congruent (Rmod a (2 * PI)) a.
Proof. destruct (Rmod_decomp a (2 * PI)) as [k E]. exists (- k)%Z. rewrite opp_IZR. lra. Qed.
Lemma congruent_equiv : Equivalence congruent.
Proof.
  constructor.
  - intros a. exists 0%Z. lra.
  - intros a b [k ->]. exists (- k)%Z. rewrite opp_IZR. lra.
  - intros a b c [k ->] [l ->]. exists (k + l)%Z. rewrite plus_IZR. lra.
Qed.
Lemma congruent_matrix a b : congruent a b -> tut_matrix a = tut_matrix b.
Proof.
  intros [k ->]. unfold tut_matrix.
  rewrite cos_shift, sin_shift. reflexivity.
Qed.

Definition tut_mul (a b : R) : R := Rmod (a + b) (2 * PI).
Definition tut_act (h : R) (v : V2) : V2 := app2 (tut_matrix h) v.
Lemma tut_mod_eq a b : congruent a b -> Rmod a (2 * PI) = Rmod b (2 * PI).
Proof. intros [k E]. apply Rmod_congr with (k := k); [apply two_PI_pos|exact E]. Qed.
Lemma tut_mod_congr a b : congruent a b -> congruent (Rmod a (2 * PI)) (Rmod b (2 * PI)).
Proof. intros E. rewrite (tut_mod_eq _ _ E). apply congruent_equiv. Qed.
Lemma tut_group top2 : group_ops (tut_ops top2) (fun _ => True) congruent 0 Ropp tut_mul tut_act (Some (fun _ => 1)).
Proof.
  pose proof congruent_equiv as Q.
  constructor.
  - constructor; try reflexivity. intros H. reflexivity.
  - exact Q.
  - exact I.
  - auto.
  - auto.
  - intros a a' b b' _ _ _ _ [k ->] [l ->]. apply tut_mod_congr. exists (k + l)%Z. rewrite plus_IZR. lra.
  - intros a b c _ _ _. apply tut_mod_congr. destruct (congruent_mod (a + b)) as [k E]. destruct (congruent_mod (b + c)) as [l E'].
    unfold tut_mul. exists (k - l)%Z. rewrite minus_IZR. lra.
  - intros a _. unfold tut_mul. eapply (@Equivalence_Transitive _ _ Q); [apply congruent_mod|]. exists 0%Z. lra.
  - intros a _. unfold tut_mul. eapply (@Equivalence_Transitive _ _ Q); [apply congruent_mod|]. exists 0%Z. lra.
  - intros a b c d _ _ _ _ E. unfold tut_mul in *. apply tut_mod_eq.
    eapply (@Equivalence_Transitive _ _ Q); [apply (@Equivalence_Symmetric _ _ Q), congruent_mod|]. eapply (@Equivalence_Transitive _ _ Q); [exact E|apply congruent_mod].
  - intros a b v _ _ E. unfold tut_act. rewrite (congruent_matrix _ _ E). reflexivity.
  - intros [x y]. unfold tut_act, tut_matrix, app2. cbn. rewrite cos_0, sin_0. f_equal; ring.
  - intros a b v _ _. unfold tut_act, tut_mul. rewrite (congruent_matrix _ _ (congruent_mod (a + b))).
    destruct v as [x y]. unfold tut_matrix, app2. cbn. rewrite cos_plus, sin_plus. f_equal; ring.
  - intros a b _ _. cbn. ring.
Qed.

Lemma mapM_rows {A B} (f : A -> result B) l r : mapM f l = Ok r -> Forall2 (fun a b => f a = Ok b) l r.
Proof.
  revert r; induction l as [|a l IH]; cbn; intros r E.
  - injection E as <-. constructor.
  - destruct (f a) eqn:Ea; cbn in E; [|discriminate]. destruct (mapM f l) eqn:El; cbn in E; [|discriminate]. injection E as <-. constructor; auto.
Qed.
Lemma tut_rows top2 : row_by_row (tut_ops top2).
Proof.
  intros S queries signal grid rows HS E. cbn [tut_ops op_sample_H] in E. unfold tut_grid_sample in E.
  destruct (Nat.ltb _ 2); [discriminate|]. set (f := fun q : R => _) in E.
  exists (fun q => match f q with Ok r => r | Err _ => [] end). apply mapM_rows in E. split.
  - induction E as [|q r qs rs Hq _ IH]; [reflexivity|]. cbn [map]. rewrite Hq, <- IH. reflexivity.
  - intros q Hq. induction E as [|q' r qs rs Hr _ IH]; [destruct Hq|]. destruct Hq as [<-|Hq]; [|auto]. rewrite Hr.
    revert Hr. unfold f. destruct (top2 _) as [i j].
    destruct (nth_error signal i) as [ri|] eqn:Ei; cbn; [|discriminate]. destruct (nth_error signal j) as [rj|] eqn:Ej; cbn; [|discriminate].
    intros H. injection H as <-. apply nth_error_In, HS in Ei. apply nth_error_In, HS in Ej. rewrite map2_length; congruence.
Qed.

(** ** cosines over a uniform grid *)
Lemma tut_uniform n : tut_uniform_grid n = so2_uniform_grid n. Proof. reflexivity. Qed.
Lemma tut_dot_cos q s : tut_dot q s = cos (q - s). Proof. unfold tut_dot. rewrite cos_minus. reflexivity. Qed.
Lemma cos_telescope q x n : 2 * sin (x / 2) * sumR (map (fun i => cos (q - INR i * x)) (seq 0 n)) = sin (q + x / 2) - sin (q + x / 2 - INR n * x).
Proof.
  induction n as [|n IH].
  - cbn [seq map sumR fold_right INR]. replace (q + x / 2 - 0 * x) with (q + x / 2) by ring. unfold sumR. cbn. ring.
  - rewrite seq_S, map_app, sumR_app, Rmult_plus_distr_l, IH. cbn [map plus]. unfold sumR at 1. cbn [fold_right]. rewrite S_INR.
    set (t := q - INR n * x).
    replace (q + x / 2 - INR n * x) with (t + x / 2) by (unfold t; lra). replace (q + x / 2 - (INR n + 1) * x) with (t - x / 2) by (unfold t; lra).
    rewrite (sin_plus t), (sin_minus t). ring.
Qed.
Lemma uniform_step n : (2 <= n)%nat -> 0 < 2 * PI / INR n / 2 < PI.
Proof.
  intros H. pose proof PI_RGT_0. assert (2 <= INR n) by (replace 2 with (INR 2) by (cbn; lra); apply le_INR; lia).
  split; [apply Rdiv_lt_0_compat; [apply Rdiv_lt_0_compat|]; lra|].
  apply Rmult_lt_reg_r with (INR n); [lra|]. replace (2 * PI / INR n / 2 * INR n) with PI by (field; lra). nra.
Qed.
Lemma cos_sum_zero n q : (2 <= n)%nat -> sumR (map (tut_dot q) (tut_uniform_grid n)) = 0.
Proof.
  intros H. rewrite tut_uniform, so2_uniform_grid_eq, map_map.
  assert (Hn : INR n <> 0) by (apply not_0_INR; lia).
  set (x := 2 * PI / INR n). pose proof (uniform_step n H) as Hx. fold x in Hx.
  rewrite (map_ext _ (fun i => cos (q - INR i * x))).
  - pose proof (cos_telescope q x n) as E. replace (INR n * x) with (2 * PI) in E by (unfold x; field; assumption).
    replace (sin (q + x / 2 - 2 * PI)) with (sin (q + x / 2)) in E by (rewrite <- (sin_shift _ (-1)); f_equal; ring).
    pose proof (sin_gt_0 (x / 2) (proj1 Hx) (proj2 Hx)). apply Rmult_eq_reg_l with (2 * sin (x / 2)); [|lra]. lra.
  - intros i. rewrite tut_dot_cos. f_equal. unfold x. field. assumption.
Qed.

(** ** a torch.topk *)
Fixpoint scan2 (n : nat) (l : list R) (i : nat) (a : R) (j : nat) (b : R) : nat * nat :=
  match l with
  | [] => (i, j)
  | x :: r => if Rlt_dec x a then scan2 (S n) r n x i a else if Rlt_dec x b then scan2 (S n) r i a n x else scan2 (S n) r i a j b
  end.
Definition a_top2 (l : list R) : nat * nat :=
  match l with
  | x :: y :: r => if Rle_dec x y then scan2 2 r 0 x 1 y else scan2 2 r 1 y 0 x
  | _ => (0, 0)%nat
  end.
Definition best2 (l : list R) (i : nat) (a : R) (j : nat) (b : R) : Prop :=
  i <> j /\ nth_error l i = Some a /\ nth_error l j = Some b /\ a <= b /\ forall n z, nth_error l n = Some z -> n <> i -> b <= z.
Lemma scan2_ok r : forall pre i a j b, best2 pre i a j b ->
  exists i' j' a' b', scan2 (List.length pre) r i a j b = (i', j') /\ best2 (pre ++ r) i' a' j' b'.
Proof.
  induction r as [|x r IH]; intros pre i a j b H; cbn [scan2].
  - exists i, j, a, b. rewrite app_nil_r. auto.
  - replace (pre ++ x :: r) with ((pre ++ [x]) ++ r) by (rewrite <- app_assoc; reflexivity).
    replace (S (List.length pre)) with (List.length (pre ++ [x])) by (rewrite app_length; cbn; lia).
    destruct H as (Hij & Hi & Hj & Hab & Hall).
    assert (Li : (i < List.length pre)%nat) by (apply nth_error_Some; congruence). assert (Lj : (j < List.length pre)%nat) by (apply nth_error_Some; congruence).
    assert (Hn : nth_error (pre ++ [x]) (List.length pre) = Some x) by (rewrite nth_error_app2, Nat.sub_diag by lia; reflexivity).
    assert (Hc : forall n z, nth_error (pre ++ [x]) n = Some z -> (n < List.length pre)%nat /\ nth_error pre n = Some z \/ n = List.length pre /\ z = x).
    { intros n z E. destruct (Nat.lt_ge_cases n (List.length pre)) as [L|L]; [left; rewrite nth_error_app1 in E by exact L; auto|].
      right. assert (n < List.length (pre ++ [x]))%nat by (apply nth_error_Some; congruence). rewrite app_length in *. cbn in *.
      assert (n = List.length pre) as -> by lia. rewrite Hn in E. injection E as <-. auto. }
    assert (Hi' : nth_error (pre ++ [x]) i = Some a) by (rewrite nth_error_app1; assumption).
    assert (Hj' : nth_error (pre ++ [x]) j = Some b) by (rewrite nth_error_app1; assumption).
    destruct (Rlt_dec x a) as [Hx|Hx]; [|destruct (Rlt_dec x b) as [Hx'|Hx']]; apply IH; repeat split; try assumption; try lia; try lra.
    + intros n z E Hne. destruct (Hc n z E) as [[Ln En]|[-> ->]]; [|contradiction].
      destruct (Nat.eq_dec n i) as [->|Hni]; [right; congruence|]. pose proof (Hall n z En Hni). lra.
    + intros n z E Hne. destruct (Hc n z E) as [[Ln En]|[-> ->]]; [|lra]. pose proof (Hall n z En Hne). lra.
    + intros n z E Hne. destruct (Hc n z E) as [[Ln En]|[-> ->]]; [|lra]. exact (Hall n z En Hne).
Qed.
Lemma a_top2_ok : top2_ok a_top2.
Proof.
  intros [|x [|y r]] H; cbn in H; try lia. unfold a_top2. destruct (Rle_dec x y) as [Hxy|Hxy].
  - destruct (scan2_ok r [x; y] 0 x 1 y) as (i & j & a & b & E & Hij & Hi & Hj & Hab & Hall).
    + repeat split; try reflexivity; [discriminate|exact Hxy|]. intros [|[|[|n]]] z E Hn; cbn in E; try discriminate; [contradiction|]. right; congruence.
    + exists i, j, a, b. cbn [List.length] in E. split; [exact E|]. repeat split; try assumption; try (intros n z En Hn; apply (Hall n z En); assumption).
  - destruct (scan2_ok r [x; y] 1 y 0 x) as (i & j & a & b & E & Hij & Hi & Hj & Hab & Hall).
    + repeat split; try reflexivity; [discriminate|lra|]. intros [|[|[|n]]] z E Hn; cbn in E; try discriminate; [|contradiction]. right; congruence.
    + exists i, j, a, b. cbn [List.length] in E. split; [exact E|]. repeat split; try assumption; try (intros n z En Hn; apply (Hall n z En); assumption).
Qed.
