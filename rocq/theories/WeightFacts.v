(** Layers are linear in their parameters: every operation between parameter and output preserves linear combinations. *)
From Coq Require Import String.
From Verif Require Import Prelude RMath Mat Interp InterpFacts SO2 O2 SO3 O3 Repulse RepulseFacts Tensor TensorFacts Functional FunctionalFacts OSplit Kernel KernelFacts KernelMore
  Conv SepProduct LayersSpec WeightSpec SampleRn.
Open Scope R_scope.

Section Comb.
Variables a b : R.

(** Z = a X + b Y on the data. *)
Definition lc (x y : list R) : list R := map2 (fun u v => a * u + b * v) x y.
Record tc (X Y Z : tensor R) : Prop := {
  tc_s2 : shape Y = shape X; tc_s3 : shape Z = shape X; tc_len : List.length (data Y) = List.length (data X);
  tc_data : data Z = lc (data X) (data Y) }.

Lemma lc_nth x : forall y n, List.length y = List.length x -> nth n (lc x y) 0 = a * nth n x 0 + b * nth n y 0.
Proof.
  induction x as [|u x IH]; intros [|v y] n El; try discriminate; [destruct n; simpl; ring|].
  destruct n as [|n]; simpl; [reflexivity|]. apply IH. simpl in El. lia.
Qed.
Lemma lc_length x y : List.length y = List.length x -> List.length (lc x y) = List.length x.
Proof. intros E. unfold lc. apply map2_length. auto. Qed.
Lemma lc_app x : forall y x' y', List.length y = List.length x -> lc (x ++ x') (y ++ y') = lc x y ++ lc x' y'.
Proof. induction x as [|u x IH]; intros [|v y] x' y' El; try discriminate; [reflexivity|]. unfold lc in *. simpl. rewrite IH by (simpl in El; lia). reflexivity. Qed.
Lemma lc_combine x : forall y, lc x y = map (fun xy => a * fst xy + b * snd xy) (combine x y).
Proof. induction x as [|u x IH]; intros [|v y]; try reflexivity. unfold lc in *. simpl. rewrite IH. reflexivity. Qed.
Lemma lc_map {A} (f g h : A -> R) l : (forall i, In i l -> h i = a * f i + b * g i) -> map h l = lc (map f l) (map g l).
Proof. induction l as [|i l IH]; intros H; [reflexivity|]. unfold lc in *. simpl. rewrite (H i (or_introl eq_refl)), IH; [reflexivity|]. intros; apply H; right; assumption. Qed.

Lemma tc_at X Y Z i : tc X Y Z -> at_ Z i = a * at_ X i + b * at_ Y i.
Proof. intros [H2 H3 Hl Hd]. unfold at_. rewrite H2, H3, Hd. apply lc_nth. exact Hl. Qed.
Lemma tc_build s f g h : (forall i, valid s i -> h i = a * f i + b * g i) -> tc (build s f) (build s g) (build s h).
Proof.
  intros H. constructor; try reflexivity; simpl.
  - rewrite !map_length. reflexivity.
  - apply lc_map. intros i Hi. apply H. apply in_indices. exact Hi.
Qed.
Lemma tc_combines s X Y Z : combines a b s X Y Z -> tc X Y Z.
Proof.
  intros ([S1 W1] & [S2 W2] & [S3 W3] & A). constructor; try congruence.
  assert (forall (t : tensor R) f, shape t = s -> wft t -> (forall i, valid s i -> at_ t i = f i) -> data t = map f (indices s)) as K.
  { intros t f St Wt Hf. change (map f (indices s)) with (data (build s f)). f_equal. apply tensor_ext; [exact Wt|apply wft_build|exact St|].
    intros i V. rewrite St in V. rewrite at_build by exact V. apply Hf. exact V. }
  rewrite (K Z _ S3 W3 A), (K X (at_ X) S1 W1), (K Y (at_ Y) S2 W2) by reflexivity. apply lc_map. reflexivity.
Qed.
Lemma tc_has_shape X Y Z s : tc X Y Z -> has_shape X s -> combines a b s X Y Z.
Proof.
  intros [H2 H3 Hl Hd] [S1 W1]. split; [split; assumption|]. assert (shape Y = s) as S2 by (rewrite H2; exact S1). assert (shape Z = s) as S3 by (rewrite H3; exact S1). unfold wft in W1. split; [split; [exact S2|unfold wft; rewrite Hl, W1, H2; reflexivity]|].
  split; [split; [exact S3|unfold wft; rewrite Hd, lc_length by exact Hl; rewrite W1, H3; reflexivity]|]. intros i _. apply tc_at. constructor; assumption.
Qed.

(** On results: if the first succeeds all succeed. *)
Definition lin {A} (C : A -> A -> A -> Prop) (r1 r2 r3 : result A) : Prop :=
  forall x, r1 = Ok x -> exists y z, r2 = Ok y /\ r3 = Ok z /\ C x y z.
Lemma lin_ok {A} (C : A -> A -> A -> Prop) x y z : C x y z -> lin C (Ok x) (Ok y) (Ok z).
Proof. intros H x' [= <-]. exists y, z. auto. Qed.
Lemma lin_bind {A B} (C : A -> A -> A -> Prop) (D : B -> B -> B -> Prop) r1 r2 r3 f1 f2 f3 : lin C r1 r2 r3 ->
  (forall x y z, C x y z -> lin D (f1 x) (f2 y) (f3 z)) -> lin D (bind r1 f1) (bind r2 f2) (bind r3 f3).
Proof.
  intros H1 H2 w E. apply bind_ok in E. destruct E as (x & E1 & E2). destruct (H1 x E1) as (y & z & -> & -> & HC). exact (H2 x y z HC w E2).
Qed.
Lemma lin_bind_same {A B} (D : B -> B -> B -> Prop) (r : result A) f1 f2 f3 :
  (forall x, lin D (f1 x) (f2 x) (f3 x)) -> lin D (bind r f1) (bind r f2) (bind r f3).
Proof. intros H w E. apply bind_ok in E. destruct E as (x & -> & E2). exact (H x w E2). Qed.
Lemma lin_err {A} (C : A -> A -> A -> Prop) e r2 r3 : lin C (Err e) r2 r3.
Proof. intros x [=]. Qed.

(** ** Tensor operations *)
Lemma tc_view s X Y Z : tc X Y Z -> lin tc (view s X) (view s Y) (view s Z).
Proof. intros H. unfold view. rewrite (tc_s2 _ _ _ H), (tc_s3 _ _ _ H). destruct (Nat.eqb _ _); [|apply lin_err]. apply lin_ok. destruct H. constructor; try reflexivity; assumption. Qed.
Lemma tc_view_lead s X Y Z : tc X Y Z -> lin tc (view_lead s X) (view_lead s Y) (view_lead s Z).
Proof. intros H. unfold view_lead. rewrite (tc_s2 _ _ _ H), (tc_s3 _ _ _ H). destruct (Nat.eqb _ _); [apply lin_err|]. apply tc_view. exact H. Qed.
Lemma tc_view_trail d X Y Z : tc X Y Z -> lin tc (view_trail d X) (view_trail d Y) (view_trail d Z).
Proof. intros H. unfold view_trail. rewrite (tc_s2 _ _ _ H), (tc_s3 _ _ _ H). destruct (Nat.eqb _ _); [apply lin_err|]. apply tc_view. exact H. Qed.
Lemma tc_transpose i j X Y Z : tc X Y Z -> tc (transpose i j X) (transpose i j Y) (transpose i j Z).
Proof. intros H. unfold transpose. rewrite (tc_s2 _ _ _ H), (tc_s3 _ _ _ H). apply tc_build. intros. apply tc_at. exact H. Qed.
Lemma tc_repeat_interleave0 k X Y Z : tc X Y Z -> tc (repeat_interleave0 k X) (repeat_interleave0 k Y) (repeat_interleave0 k Z).
Proof. intros H. unfold repeat_interleave0. rewrite (tc_s2 _ _ _ H), (tc_s3 _ _ _ H). destruct (shape X); [exact H|]. apply tc_build. intros. apply tc_at. exact H. Qed.
Lemma tc_mult_l (m : tensor R) X Y Z : tc X Y Z -> lin tc (bcast2 Rmult m X) (bcast2 Rmult m Y) (bcast2 Rmult m Z).
Proof.
  intros H. unfold bcast2. rewrite (tc_s2 _ _ _ H), (tc_s3 _ _ _ H). destruct (bshape _ _); [|apply lin_err]. apply lin_ok. apply tc_build. intros i _.
  rewrite (tc_at _ _ _ _ H). ring.
Qed.
Lemma tc_div_r (m : tensor R) X Y Z : tc X Y Z -> lin tc (bcast2 Rdiv X m) (bcast2 Rdiv Y m) (bcast2 Rdiv Z m).
Proof.
  intros H. unfold bcast2. rewrite (tc_s2 _ _ _ H), (tc_s3 _ _ _ H). destruct (bshape _ _); [|apply lin_err]. apply lin_ok. apply tc_build. intros i _.
  rewrite (tc_at _ _ _ _ H). unfold Rdiv. ring.
Qed.
Lemma tc_plus X Y Z X' Y' Z' : tc X Y Z -> tc X' Y' Z' -> lin tc (bcast2 Rplus X X') (bcast2 Rplus Y Y') (bcast2 Rplus Z Z').
Proof.
  intros H H'. unfold bcast2. rewrite (tc_s2 _ _ _ H), (tc_s3 _ _ _ H), (tc_s2 _ _ _ H'), (tc_s3 _ _ _ H'). destruct (bshape _ _); [|apply lin_err].
  apply lin_ok. apply tc_build. intros i _. rewrite (tc_at _ _ _ _ H), (tc_at _ _ _ _ H'). ring.
Qed.
Lemma tc_mask m X Y Z : tc X Y Z -> lin tc (apply_mask m X) (apply_mask m Y) (apply_mask m Z).
Proof. intros H. unfold apply_mask. destruct m; [apply tc_mult_l; exact H|apply lin_ok; exact H]. Qed.
Lemma tc_det {G} (det : option (list G -> list R)) H wd X Y Z : tc X Y Z -> lin tc (apply_det det H wd X) (apply_det det H wd Y) (apply_det det H wd Z).
Proof. intros K. unfold apply_det. destruct det; [|apply lin_ok; exact K]. apply lin_bind_same. intros dv. apply tc_div_r. exact K. Qed.

Definition linear_sampler {P} (smp : sampler P) (s : list nat) : Prop := forall v x y, List.length y = List.length x -> smp s (lc x y) v = a * smp s x v + b * smp s y v.
Lemma tc_grid_sample {P} {D : Dflt P} (smp : sampler P) X Y Z (grid : tensor P) : linear_sampler smp (skipn 2 (shape X)) -> tc X Y Z ->
  lin tc (grid_sample smp X grid) (grid_sample smp Y grid) (grid_sample smp Z grid).
Proof.
  intros Hs H. unfold grid_sample. rewrite (tc_s2 _ _ _ H), (tc_s3 _ _ _ H). destruct (shape X) as [|n [|c s]]; try apply lin_err. destruct (shape grid) as [|n' s']; [apply lin_err|].
  destruct (andb _ _); [|apply lin_err]. apply lin_ok. apply tc_build. intros i _. rewrite <- Hs by (rewrite !slice_length; reflexivity). f_equal.
  unfold slice. apply lc_map. intros y _. apply tc_at. exact H.
Qed.
Lemma linear2 mode pm smp n m : sample_R2 mode pm = Ok smp -> linear_sampler smp [n; m].
Proof.
  intros E v x y El. destruct (sample2_good _ _ _ E n m v) as (ts & z & q & HT & HG & _). destruct (good_linear _ _ _ _ _ _ HT HG) as [c Hc].
  rewrite !Hc. change total with sumR. rewrite <- !sumR_scale, <- sumR_plus. apply sumR_ext. intros i _. unfold at_. simpl shape. simpl data. change (@dflt R Dflt_R) with 0. rewrite lc_nth by exact El. ring.
Qed.
Lemma linear3 mode pm smp n m l : sample_R3 mode pm = Ok smp -> linear_sampler smp [n; m; l].
Proof.
  intros E v x y El. destruct (sample3_good _ _ _ E n m l v) as (ts & z & HT & HG & _). destruct (good_linear _ _ _ _ _ _ HT HG) as [c Hc].
  rewrite !Hc. change total with sumR. rewrite <- !sumR_scale, <- sumR_plus. apply sumR_ext. intros i _. unfold at_. simpl shape. simpl data. change (@dflt R Dflt_R) with 0. rewrite lc_nth by exact El. ring.
Qed.

(** ** Group samplers *)
(** r = a r1 + b r2, rows of S entries. *)
Record rc (S : nat) (r1 r2 r3 : mat) : Prop := {
  rc_1 : forall r, In r r1 -> List.length r = S; rc_2 : wfm (List.length r1) S r2; rc_3 : r3 = mlin a b r1 r2 }.
Lemma rc_concat S r1 r2 r3 : rc S r1 r2 r3 -> List.length (concat r2) = List.length (concat r1) /\ concat r3 = lc (concat r1) (concat r2) /\ List.length r2 = List.length r1 /\ List.length r3 = List.length r1.
Proof.
  intros [H1 [H2 H2'] ->]. revert r2 H1 H2 H2'. induction r1 as [|x r1 IH]; intros [|y r2] H1 H2 H2'; try discriminate; [repeat split; reflexivity|].
  destruct (IH r2) as (L & E & L2 & L3); [intros; apply H1; right; assumption|simpl in H2; lia|intros; apply H2'; right; assumption|].
  assert (List.length y = List.length x) as Exy by (rewrite (H1 x), (H2' y) by (left; reflexivity); reflexivity).
  unfold mlin in *. cbn [combine map concat fst snd]. rewrite !app_length, lc_app by exact Exy. rewrite E, <- lc_combine. simpl. repeat split; try lia; auto.
Qed.
Definition linear_group_sampler {G} (smp : nat -> list G -> mat -> list G -> result mat) : Prop := forall S q s1 s2 g,
  wfm (List.length g) S s1 -> wfm (List.length g) S s2 -> lin (rc S) (smp S q s1 g) (smp S q s2 g) (smp S q (mlin a b s1 s2) g).

Lemma nth_error_mlin s1 : forall s2 k, List.length s2 = List.length s1 -> match nth_error s1 k, nth_error s2 k, nth_error (mlin a b s1 s2) k with
  | Some x, Some y, Some z => z = lc x y | None, None, None => True | _, _, _ => False end.
Proof.
  induction s1 as [|x s1 IH]; intros [|y s2] k El; try discriminate; [destruct k; exact I|].
  destruct k as [|k]; [simpl; symmetry; apply lc_combine|]. apply (IH s2 k). simpl in El. lia.
Qed.
Lemma lin_mapM {A} (f1 f2 f3 : A -> result (list R)) S l :
  (forall x, In x l -> lin (fun u v w => List.length u = S /\ List.length v = S /\ w = lc u v) (f1 x) (f2 x) (f3 x)) -> lin (rc S) (mapM f1 l) (mapM f2 l) (mapM f3 l).
Proof.
  induction l as [|x l IH]; intros H; cbn [mapM].
  - apply lin_ok. constructor; [intros ? []|split; [reflexivity|intros ? []]|reflexivity].
  - eapply lin_bind; [apply H; left; reflexivity|]. intros u v w (H1 & H2 & ->). eapply lin_bind; [apply IH; intros; apply H; right; assumption|].
    intros us vs ws [I1 [I2 I2'] ->]. apply lin_ok. constructor.
    + intros r [<-|Hr]; [exact H1|apply I1; exact Hr].
    + split; [simpl; rewrite I2; reflexivity|]. intros r [<-|Hr]; [exact H2|apply I2'; exact Hr].
    + unfold mlin. cbn [combine map fst snd]. rewrite lc_combine. reflexivity.
Qed.
Lemma lin_row S s1 s2 n k e : wfm n S s1 -> wfm n S s2 -> lin (fun u v w => List.length u = S /\ List.length v = S /\ w = lc u v)
  (of_option e (nth_error s1 k)) (of_option e (nth_error s2 k)) (of_option e (nth_error (mlin a b s1 s2) k)).
Proof.
  intros [L1 R1] [L2 R2]. pose proof (nth_error_mlin s1 s2 k) as K. rewrite L1, L2 in K. specialize (K eq_refl).
  destruct (nth_error s1 k) eqn:E1; destruct (nth_error s2 k) eqn:E2; destruct (nth_error (mlin a b s1 s2) k) eqn:E3; try contradiction; [|apply lin_err].
  apply lin_ok. split; [apply R1; eapply nth_error_In; exact E1|]. split; [apply R2; eapply nth_error_In; exact E2|exact K].
Qed.
Lemma NN_linear {G} T (dist : G -> G -> R) nodes grid S n s1 s2 : wfm n S s1 -> wfm n S s2 ->
  lin (rc S) (interpolate_NN T dist nodes grid s1) (interpolate_NN T dist nodes grid s2) (interpolate_NN T dist nodes grid (mlin a b s1 s2)).
Proof. intros H1 H2. unfold interpolate_NN. destruct grid; [apply lin_err|]. apply lin_mapM. intros x _. eapply lin_row; eassumption. Qed.
Lemma matmul_wf S p x : wfm (List.length p) S (matmul S p x).
Proof. unfold matmul. split; [apply map_length|]. intros r Hr. apply in_map_iff in Hr. destruct Hr as (row & <- & _). unfold rowmul. rewrite map_length, seq_length. reflexivity. Qed.
Lemma RBF_rows {G} T (dist : G -> G -> R) rbf w S nodes grid s out : interpolate_RBF T dist rbf w S nodes grid s = Ok out -> wfm (List.length nodes) S out.
Proof.
  unfold interpolate_RBF. intros E. apply bind_ok in E. destruct E as (c & _ & E). injection E as <-.
  pose proof (matmul_wf S (map (fun a0 => map (fun b0 => rbf (dist a0 b0) w) grid) nodes) c) as [L R]. rewrite map_length in L. split; assumption.
Qed.
Lemma RBF_lin {G} T (HT : torch_ok T) (dist : G -> G -> R) rbf w S nodes grid s1 s2 : wfm (List.length grid) S s1 -> wfm (List.length grid) S s2 ->
  lin (rc S) (interpolate_RBF T dist rbf w S nodes grid s1) (interpolate_RBF T dist rbf w S nodes grid s2) (interpolate_RBF T dist rbf w S nodes grid (mlin a b s1 s2)).
Proof.
  intros H1 H2 o1 E1. destruct (RBF_linear T HT dist rbf w S a b nodes grid s1 s2 o1 H1 H2 E1) as (o2 & E2 & E3).
  exists o2, (mlin a b o1 o2). split; [exact E2|]. split; [exact E3|]. apply RBF_rows in E1. apply RBF_rows in E2. destruct E1 as [L1 R1]. destruct E2 as [L2 R2].
  constructor; [exact R1|split; [congruence|exact R2]|reflexivity].
Qed.
Lemma so2_sample_linear T (HT : torch_ok T) mode w : linear_group_sampler (fun S q s g => so2_grid_sample T mode w S q s g).
Proof.
  intros S q s1 s2 g H1 H2. unfold so2_grid_sample. destruct (String.eqb mode "rbf"); [apply RBF_lin; assumption|].
  destruct (String.eqb mode "nearest"); [eapply NN_linear; eassumption|apply lin_err].
Qed.
Lemma so3_sample_linear T (HT : torch_ok T) mode w : linear_group_sampler (fun S q s g => so3_grid_sample_matrix T mode w S q s g).
Proof.
  intros S q s1 s2 g H1 H2. unfold so3_grid_sample_matrix, so3_grid_sample. rewrite <- (map_length so3_matrix_to_quat g) in H1, H2.
  destruct (String.eqb mode "nearest"); [eapply NN_linear; eassumption|].
  destruct (String.eqb mode "rbf"); [apply RBF_lin; assumption|apply lin_err].
Qed.
Lemma mlin_firstn n : forall s1 s2, mlin a b (firstn n s1) (firstn n s2) = firstn n (mlin a b s1 s2).
Proof. induction n as [|n IH]; intros [|x s1] [|y s2]; try reflexivity. unfold mlin in *. simpl. f_equal. apply IH. Qed.
Lemma mlin_skipn n : forall s1 s2, List.length s1 = List.length s2 -> mlin a b (skipn n s1) (skipn n s2) = skipn n (mlin a b s1 s2).
Proof. induction n as [|n IH]; intros [|x s1] [|y s2] E; try discriminate; try reflexivity. simpl. apply IH. simpl in E. lia. Qed.
Lemma mlin_app x : forall y x' y', List.length x = List.length y -> mlin a b (x ++ x') (y ++ y') = mlin a b x y ++ mlin a b x' y'.
Proof. induction x as [|u x IH]; intros [|v y] x' y' El; try discriminate; [reflexivity|]. unfold mlin in *. simpl. f_equal. apply IH. simpl in El. lia. Qed.
Lemma rc_wf S r1 r2 r3 : rc S r1 r2 r3 -> wfm (List.length r1) S r1 /\ wfm (List.length r1) S r2.
Proof. intros [H1 H2 _]. split; [split; [reflexivity|exact H1]|exact H2]. Qed.
Lemma split_linear {E G} (coeff : E -> R) (part : E -> G) (srot sref : nat -> list G -> mat -> list G -> result mat) n m :
  linear_group_sampler srot -> linear_group_sampler sref ->
  linear_group_sampler (fun S q s g => split_sample coeff part (srot S) (sref S) q s g n m).
Proof.
  intros Hrot Href S q s1 s2 g W1 W2. unfold split_sample.
  assert (forall s, wfm (List.length g) S s -> wfm (List.length (map part (firstn n g))) S (firstn n s) /\ wfm (List.length (map part (skipn n g))) S (skipn n s)) as K.
  { intros s [L RR]. split; (split; [rewrite map_length, ?firstn_length, ?skipn_length; lia|]); intros r Hr; apply RR.
    - rewrite <- (firstn_skipn n s). apply in_or_app. left. exact Hr.
    - rewrite <- (firstn_skipn n s). apply in_or_app. right. exact Hr. }
  destruct (K _ W1) as [F1 K1]. destruct (K _ W2) as [F2 K2]. destruct W1 as [L1 R1]. destruct W2 as [L2 R2].
  rewrite <- mlin_firstn, <- mlin_skipn by lia.
  assert (forall k (s s' : mat), wfm k S s -> wfm k S s' -> rc S s s' (mlin a b s s')) as RC.
  { intros k s s' [A1 A2] [B1 B2]. constructor; [exact A2|split; [congruence|exact B2]|reflexivity]. }
  eapply lin_bind with (C := rc S).
  { destruct (Nat.eqb n 0); [apply lin_ok; eapply RC; eassumption|]. apply lin_bind_same. intros x. apply Hrot; assumption. }
  intros o1 o2 o3 HO. eapply lin_bind with (C := rc S).
  { destruct (Nat.eqb m 0); [apply lin_ok; eapply RC; eassumption|]. apply lin_bind_same. intros x. apply Href; assumption. }
  intros p1 p2 p3 HP. destruct (rc_wf _ _ _ _ HO) as [[_ O1] [O2 O2']]. destruct (rc_wf _ _ _ _ HP) as [[_ P1] [P2 P2']].
  rewrite (rc_3 _ _ _ _ HO), (rc_3 _ _ _ _ HP), <- mlin_app by auto. unfold take_idx. apply lin_mapM. intros i _.
  apply (lin_row S (o1 ++ p1) (o2 ++ p2) (List.length (o1 ++ p1)) i IndexError).
  - split; [reflexivity|]. intros r Hr. apply in_app_iff in Hr. destruct Hr; auto.
  - split; [rewrite !app_length; lia|]. intros r Hr. apply in_app_iff in Hr. destruct Hr; auto.
Qed.

(** ** Kernels *)
Section Kernels.
Context {G P : Type} {D : Dflt P} (k : gkernel G P).
Hypothesis HSn : forall smp s, op_sample_Rn (k_ops k) = Ok smp -> List.length s = List.length (k_size k) -> linear_sampler smp s.

Lemma lifting_kernel_linear X Y Z H : List.length (shape X) = (2 + List.length (k_size k))%nat -> tc X Y Z ->
  lin tc (lifting_kernel_forward k X H) (lifting_kernel_forward k Y H) (lifting_kernel_forward k Z H).
Proof using HSn.
  intros HX HC. unfold lifting_kernel_forward. destruct (op_sample_Rn (k_ops k)) as [smp|] eqn:Es; [|apply lin_err]. cbn [bind].
  eapply lin_bind; [apply tc_grid_sample; [|apply tc_repeat_interleave0; exact HC]|].
  { apply HSn; [reflexivity|]. unfold repeat_interleave0. destruct (shape X) as [|? [|? ?]] eqn:Esx; try discriminate. simpl in HX |- *. lia. }
  intros x y z C1. eapply lin_bind; [apply tc_view; exact C1|]. intros x1 y1 z1 C2. eapply lin_bind; [apply tc_mask; exact C2|]. intros x2 y2 z2 C3.
  rewrite (tc_s2 _ _ _ HC), (tc_s3 _ _ _ HC). apply tc_det. exact C3.
Qed.

Hypothesis HSH : forall S q s1 s2, wfm (k_gdim k) S s1 -> wfm (k_gdim k) S s2 ->
  lin (rc S) (op_sample_H (k_ops k) S q s1 (k_grid_H k)) (op_sample_H (k_ops k) S q s2 (k_grid_H k)) (op_sample_H (k_ops k) S q (mlin a b s1 s2) (k_grid_H k)).

Lemma to_rows_wf (t : tensor R) r c : shape t = [r; c] -> wfm r c (to_rows t).
Proof.
  intros E. unfold to_rows. rewrite E. split; [rewrite map_length, seq_length; reflexivity|]. intros row Hr. apply in_map_iff in Hr. destruct Hr as (i & <- & _).
  rewrite map_length, seq_length. reflexivity.
Qed.
Lemma to_rows_lin X Y Z r c : shape X = [r; c] -> tc X Y Z -> to_rows Z = mlin a b (to_rows X) (to_rows Y).
Proof.
  intros E H. unfold to_rows. rewrite (tc_s2 _ _ _ H), (tc_s3 _ _ _ H), E. unfold mlin. rewrite combine_map_seq, map_map. apply map_ext. intros i. cbn [fst snd].
  rewrite <- lc_combine. apply lc_map. intros j _. apply tc_at. exact H.
Qed.
Lemma sample_group_linear X Y Z in_H out_H : tc X Y Z -> lin tc (sample_group k X in_H out_H) (sample_group k Y in_H out_H) (sample_group k Z in_H out_H).
Proof using HSH.
  intros H. unfold sample_group. intros w E. apply bind_ok in E. destruct E as (x & Ex & E).
  destruct (tc_view_trail (k_gdim k) _ _ _ H x Ex) as (y & z & -> & -> & C1). cbn [bind].
  assert (exists c, shape x = [k_gdim k; c]) as [c Sx].
  { unfold view_trail, view in Ex. destruct (Nat.eqb _ 0); [discriminate|]. destruct (Nat.eqb _ _); [|discriminate]. injection Ex as <-. eexists. reflexivity. }
  revert w E. fold (lin tc (rows <- op_sample_H (k_ops k) (nth 1 (shape x) 0%nat) (concat (op_left_apply_to_H (k_ops k) (op_inverse (k_ops k) out_H) in_H)) (to_rows x) (k_grid_H k);;
    Ok (mkT [List.length rows; nth 1 (shape x) 0%nat] (concat rows)))). 
  match goal with |- forall w, ?A = Ok w -> exists y0 z0, ?B = Ok y0 /\ ?E = Ok z0 /\ tc w y0 z0 => change (lin tc A B E) end.
  rewrite (tc_s2 _ _ _ C1), (tc_s3 _ _ _ C1), Sx. cbn [nth].
  rewrite (to_rows_lin _ _ _ _ _ Sx C1). eapply lin_bind; [apply HSH; apply to_rows_wf; rewrite ?(tc_s2 _ _ _ C1); exact Sx|].
  intros r1 r2 r3 HR. apply lin_ok. destruct (rc_concat _ _ _ _ HR) as (A1 & A2 & A3 & A4). constructor; simpl; congruence.
Qed.
Lemma full_kernel_linear X Y Z in_H out_H : tc X Y Z ->
  lin tc (full_kernel_forward k X in_H out_H) (full_kernel_forward k Y in_H out_H) (full_kernel_forward k Z in_H out_H).
Proof using HSn HSH.
  intros H. unfold full_kernel_forward. eapply lin_bind; [apply sample_group_linear; exact H|]. intros x y z C1.
  intros w E. apply bind_ok in E. destruct E as (x1 & Ex & E). destruct (tc_view _ _ _ _ C1 x1 Ex) as (y1 & z1 & -> & -> & C2). cbn [bind].
  assert (skipn 2 (shape x1) = k_size k) as Sx.
  { unfold view in Ex. destruct (Nat.eqb _ _); [|discriminate]. injection Ex as <-. reflexivity. }
  revert w E. match goal with |- forall w, ?A = Ok w -> exists y0 z0, ?B = Ok y0 /\ ?E = Ok z0 /\ tc w y0 z0 => change (lin tc A B E) end.
  destruct (op_sample_Rn (k_ops k)) as [smp|] eqn:Es; [|apply lin_err]. cbn [bind].
  eapply lin_bind; [apply tc_grid_sample; [|exact C2]|].
  { rewrite Sx. apply HSn; reflexivity. }
  intros x2 y2 z2 C3. eapply lin_bind; [apply tc_view; exact C3|]. intros x3 y3 z3 C4. eapply lin_bind; [apply tc_mask; do 2 apply tc_transpose; exact C4|].
  intros x4 y4 z4 C5. rewrite (tc_s2 _ _ _ H), (tc_s3 _ _ _ H). apply tc_det. exact C5.
Qed.
Lemma subgroup_kernel_linear X Y Z in_H out_H : tc X Y Z ->
  lin tc (subgroup_kernel_forward k X in_H out_H) (subgroup_kernel_forward k Y in_H out_H) (subgroup_kernel_forward k Z in_H out_H).
Proof using HSH.
  intros H. unfold subgroup_kernel_forward. eapply lin_bind; [apply sample_group_linear; exact H|]. intros x y z C1.
  eapply lin_bind; [apply tc_view; exact C1|]. intros x1 y1 z1 C2. apply lin_ok. do 2 apply tc_transpose. exact C2.
Qed.
Definition pc {A B} (C : A -> A -> A -> Prop) (E : B -> B -> B -> Prop) (x y z : A * B) : Prop := C (fst x) (fst y) (fst z) /\ E (snd x) (snd y) (snd z).
Definition same {A} (x y z : A) : Prop := y = x /\ z = x.
Lemma separable_kernel_linear_H X Y Z W in_H out_H : tc X Y Z ->
  lin (pc tc same) (separable_kernel_forward k X W in_H out_H) (separable_kernel_forward k Y W in_H out_H) (separable_kernel_forward k Z W in_H out_H).
Proof using HSH.
  intros H. unfold separable_kernel_forward. eapply lin_bind; [apply sample_group_linear; exact H|]. intros x y z C1.
  eapply lin_bind; [apply tc_view; exact C1|]. intros x1 y1 z1 C2. do 5 (apply lin_bind_same; intros ?). apply lin_ok. split; [do 2 apply tc_transpose; exact C2|split; reflexivity].
Qed.
Lemma separable_kernel_linear X Y Z WH in_H out_H : List.length (shape X) = (2 + List.length (k_size k))%nat -> tc X Y Z ->
  lin (pc same tc) (separable_kernel_forward k WH X in_H out_H) (separable_kernel_forward k WH Y in_H out_H) (separable_kernel_forward k WH Z in_H out_H).
Proof using HSn.
  intros HX HC. unfold separable_kernel_forward. do 2 (apply lin_bind_same; let q := fresh "wq" in intros q). destruct (op_sample_Rn (k_ops k)) as [smp|] eqn:Es; [|apply lin_err]. cbn [bind].
  eapply lin_bind; [apply tc_grid_sample; [|apply tc_repeat_interleave0; exact HC]|].
  { apply HSn; [reflexivity|]. unfold repeat_interleave0. destruct (shape X) as [|? [|? ?]] eqn:Esx; try discriminate HX. clear HSH; simpl in HX |- *; lia. }
  intros x y z C1. eapply lin_bind; [apply tc_view; exact C1|]. intros x1 y1 z1 C2. eapply lin_bind; [apply tc_mask; exact C2|]. intros x2 y2 z2 C3.
  eapply lin_bind; [apply tc_det; exact C3|]. intros x3 y3 z3 C4. apply lin_ok. split; [split; reflexivity|exact C4].
Qed.
End Kernels.

(** ** Convolutions *)
Lemma conv_linear_weight st dl groups I X Y Z : tc X Y Z -> lin tc (conv_nd st dl groups I X) (conv_nd st dl groups I Y) (conv_nd st dl groups I Z).
Proof.
  intros H. unfold conv_nd. rewrite (tc_s2 _ _ _ H), (tc_s3 _ _ _ H). destruct (shape I) as [|N [|C sp]]; try apply lin_err. destruct (shape X) as [|Co [|Cg ks]]; try apply lin_err.
  cbv zeta. match goal with |- context [if ?c then _ else _] => destruct c end; [|apply lin_err]. apply lin_ok. apply tc_build. intros i _.
  rewrite <- !sumR_scale, <- sumR_plus. apply sumR_ext. intros c _. rewrite <- !sumR_scale, <- sumR_plus. apply sumR_ext. intros x _. rewrite (tc_at _ _ _ _ H). ring.
Qed.
Lemma conv_linear_input st dl groups W X Y Z : tc X Y Z -> lin tc (conv_nd st dl groups X W) (conv_nd st dl groups Y W) (conv_nd st dl groups Z W).
Proof.
  intros H. unfold conv_nd. rewrite (tc_s2 _ _ _ H), (tc_s3 _ _ _ H). destruct (shape X) as [|N [|C sp]]; try apply lin_err. destruct (shape W) as [|Co [|Cg ks]]; try apply lin_err.
  cbv zeta. match goal with |- context [if ?c then _ else _] => destruct c end; [|apply lin_err]. apply lin_ok. apply tc_build. intros i _.
  rewrite <- !sumR_scale, <- sumR_plus. apply sumR_ext. intros c _. rewrite <- !sumR_scale, <- sumR_plus. apply sumR_ext. intros x _. rewrite (tc_at _ _ _ _ H). ring.
Qed.
Lemma pad_linear m pads X Y Z : tc X Y Z -> lin tc (pad_axes m pads X) (pad_axes m pads Y) (pad_axes m pads Z).
Proof.
  intros H. unfold pad_axes. rewrite (tc_s2 _ _ _ H), (tc_s3 _ _ _ H). destruct (shape X) as [|N [|C sp]]; try apply lin_err.
  match goal with |- context [if ?c then _ else _] => destruct c end; [|apply lin_err]. apply lin_ok. apply tc_build. intros i _.
  destruct (pad_index _ _ _ _); [apply tc_at; exact H|ring].
Qed.
Lemma fpad_linear m flat X Y Z : tc X Y Z -> lin tc (fpad m flat X) (fpad m flat Y) (fpad m flat Z).
Proof. intros H. unfold fpad. rewrite (tc_s2 _ _ _ H), (tc_s3 _ _ _ H). apply lin_bind_same. intros pads. apply pad_linear. exact H. Qed.

Lemma tc_unsqueeze0 X Y Z : tc X Y Z -> tc (unsqueeze0 X) (unsqueeze0 Y) (unsqueeze0 Z).
Proof. intros [H2 H3 Hl Hd]. constructor; cbn [shape data unsqueeze0]; congruence. Qed.
Lemma tc_squeeze0 X Y Z : tc X Y Z -> tc (squeeze0 X) (squeeze0 Y) (squeeze0 Z).
Proof. intros [H2 H3 Hl Hd]. constructor; cbn [shape data squeeze0]; congruence. Qed.
Lemma lin_rmap {A B} (C : A -> A -> A -> Prop) (D : B -> B -> B -> Prop) (f : A -> B) r1 r2 r3 :
  (forall x y z, C x y z -> D (f x) (f y) (f z)) -> lin C r1 r2 r3 -> lin D (rmap f r1) (rmap f r2) (rmap f r3).
Proof.
  intros Hf H x E. destruct r1 as [u|e]; [|discriminate]. cbn [rmap] in E. injection E as <-.
  destruct (H u eq_refl) as (y & z & -> & -> & HC). exists (f y), (f z). cbn [rmap]. auto.
Qed.

Section Layer.
Context {G P : Type} {D : Dflt P} (L : gconv G P).
Lemma conv_batched_weight I X Y Z groups : tc X Y Z -> lin tc (conv_batched L I X groups) (conv_batched L I Y groups) (conv_batched L I Z groups).
Proof.
  intros H. unfold conv_batched. rewrite (tc_s2 _ _ _ H), (tc_s3 _ _ _ H). destruct (l_mode L); apply lin_bind_same; intros p; apply conv_linear_weight; exact H.
Qed.
Lemma conv_batched_input W X Y Z groups : tc X Y Z -> lin tc (conv_batched L X W groups) (conv_batched L Y W groups) (conv_batched L Z W groups).
Proof.
  intros H. unfold conv_batched. destruct (l_mode L); (eapply lin_bind; [first [apply pad_linear|apply fpad_linear]; exact H|]); intros p q r C; apply conv_linear_input; exact C.
Qed.
Lemma conv_forward_weight I X Y Z groups : tc X Y Z -> lin tc (conv_forward L I X groups) (conv_forward L I Y groups) (conv_forward L I Z groups).
Proof.
  intros H. unfold conv_forward. rewrite (tc_s2 _ _ _ H), (tc_s3 _ _ _ H). destruct (Nat.eqb _ _); [apply (lin_rmap tc tc); [apply tc_squeeze0|]|]; apply conv_batched_weight; exact H.
Qed.
Lemma conv_forward_input W X Y Z groups : tc X Y Z -> lin tc (conv_forward L X W groups) (conv_forward L Y W groups) (conv_forward L Z W groups).
Proof.
  intros H. unfold conv_forward. rewrite (tc_s2 _ _ _ H), (tc_s3 _ _ _ H). destruct (Nat.eqb _ _); [apply (lin_rmap tc tc); [apply tc_squeeze0|]|]; apply conv_batched_input; [apply tc_unsqueeze0|]; exact H.
Qed.
Lemma add_bias_linear b1 b2 b3 X Y Z : bias_combines a b b1 b2 b3 -> tc X Y Z ->
  lin tc (add_bias (with_bias L b1) X) (add_bias (with_bias L b2) Y) (add_bias (with_bias L b3) Z).
Proof.
  intros HB H. unfold add_bias, with_bias. cbn [l_bias]. destruct b1, b2, b3; try contradiction; [|apply lin_ok; exact H].
  destruct HB as [s HB]. apply tc_plus; [exact H|]. eapply tc_combines. exact HB.
Qed.

(** conv, view, bias *)
Lemma tail_linear (H : list G) b1 b2 b3 v X Y Z : bias_combines a b b1 b2 b3 -> tc X Y Z ->
  lin (pc tc same) (x <- view (v (shape X)) X ;; x <- add_bias (with_bias L b1) x ;; Ok (x, H))
                   (x <- view (v (shape Y)) Y ;; x <- add_bias (with_bias L b2) x ;; Ok (x, H))
                   (x <- view (v (shape Z)) Z ;; x <- add_bias (with_bias L b3) x ;; Ok (x, H)).
Proof.
  intros HB HC. rewrite (tc_s2 _ _ _ HC), (tc_s3 _ _ _ HC). eapply lin_bind; [apply tc_view; exact HC|]. intros x y z C1.
  eapply lin_bind; [apply add_bias_linear; [exact HB|exact C1]|]. intros x1 y1 z1 C2. apply lin_ok. split; [exact C2|split; reflexivity].
Qed.
Lemma lifting_layer_linear b1 b2 b3 w1 w2 w3 X H : bias_combines a b b1 b2 b3 ->
  lin tc (lifting_kernel_forward (l_kernel L) w1 H) (lifting_kernel_forward (l_kernel L) w2 H) (lifting_kernel_forward (l_kernel L) w3 H) ->
  lin (pc tc same) (lifting_forward (with_bias L b1) w1 X H) (lifting_forward (with_bias L b2) w2 X H) (lifting_forward (with_bias L b3) w3 X H).
Proof.
  intros HB HK. unfold lifting_forward. eapply lin_bind; [exact HK|]. intros x y z C1. eapply lin_bind; [apply tc_view_lead; exact C1|]. intros x1 y1 z1 C2.
  eapply lin_bind; [apply (conv_forward_weight X _ _ _ _ C2)|]. intros x2 y2 z2 C3.
  exact (tail_linear H b1 b2 b3 (fun s => nth 0 (shape X) 0%nat :: l_out L :: List.length H :: skipn 2 s) x2 y2 z2 HB C3).
Qed.
Lemma group_layer_linear b1 b2 b3 K1 K2 K3 X in_H out_H : bias_combines a b b1 b2 b3 ->
  lin tc (K1 in_H out_H) (K2 in_H out_H) (K3 in_H out_H) ->
  lin (pc tc same) (group_forward_with (with_bias L b1) K1 X in_H out_H) (group_forward_with (with_bias L b2) K2 X in_H out_H)
    (group_forward_with (with_bias L b3) K3 X in_H out_H).
Proof.
  intros HB HK. unfold group_forward_with. destruct (shape X) as [|N [|c [|h dims]]]; try apply lin_err. cbv zeta. eapply lin_bind; [exact HK|]. intros x y z C1.
  apply lin_bind_same. intros i. eapply lin_bind; [apply tc_view; exact C1|]. intros x1 y1 z1 C2.
  eapply lin_bind; [apply (conv_forward_weight i _ _ _ _ C2)|]. intros x2 y2 z2 C3.
  exact (tail_linear out_H b1 b2 b3 (fun s => N :: l_out L :: List.length out_H :: skipn 2 s) x2 y2 z2 HB C3).
Qed.
Lemma separable_layer_linear_H b1 b2 b3 w1 w2 w3 W X in_H out_H : bias_combines a b b1 b2 b3 ->
  lin (pc tc same) (separable_kernel_forward (l_kernel L) w1 W in_H out_H) (separable_kernel_forward (l_kernel L) w2 W in_H out_H) (separable_kernel_forward (l_kernel L) w3 W in_H out_H) ->
  lin (pc tc same) (separable_forward (with_bias L b1) w1 W X in_H out_H) (separable_forward (with_bias L b2) w2 W X in_H out_H)
    (separable_forward (with_bias L b3) w3 W X in_H out_H).
Proof.
  intros HB HK. unfold separable_forward. destruct (shape X) as [|N [|c [|h dims]]]; try apply lin_err. cbv zeta. eapply lin_bind; [exact HK|].
  intros [x x'] [y y'] [z z'] [C1 [E1 E2]]. cbn [fst snd] in *. subst y' z'. apply lin_bind_same. intros i.
  rewrite (tc_s2 _ _ _ C1), (tc_s3 _ _ _ C1). eapply lin_bind; [apply tc_view; exact C1|]. intros x1 y1 z1 C2.
  eapply lin_bind; [apply (conv_forward_weight i _ _ _ _ C2)|]. intros x2 y2 z2 C3. apply lin_bind_same. intros w.
  eapply lin_bind; [apply (conv_forward_input w _ _ _ _ C3)|]. intros x3 y3 z3 C4.
  exact (tail_linear out_H b1 b2 b3 (fun s => N :: l_out L :: List.length out_H :: skipn 2 s) x3 y3 z3 HB C4).
Qed.
Lemma separable_layer_linear b1 b2 b3 w1 w2 w3 WH X in_H out_H : bias_combines a b b1 b2 b3 ->
  lin (pc same tc) (separable_kernel_forward (l_kernel L) WH w1 in_H out_H) (separable_kernel_forward (l_kernel L) WH w2 in_H out_H) (separable_kernel_forward (l_kernel L) WH w3 in_H out_H) ->
  lin (pc tc same) (separable_forward (with_bias L b1) WH w1 X in_H out_H) (separable_forward (with_bias L b2) WH w2 X in_H out_H)
    (separable_forward (with_bias L b3) WH w3 X in_H out_H).
Proof.
  intros HB HK. unfold separable_forward. destruct (shape X) as [|N [|c [|h dims]]]; try apply lin_err. cbv zeta. eapply lin_bind; [exact HK|].
  intros [x' x] [y' y] [z' z] [[E1 E2] C1]. cbn [fst snd] in *. subst y' z'. do 2 (apply lin_bind_same; let q := fresh "wq" in intros q).
  apply lin_bind_same. intros xx. eapply lin_bind; [apply tc_view; exact C1|]. intros x1 y1 z1 C2.
  eapply lin_bind; [apply (conv_forward_weight xx _ _ _ _ C2)|]. intros x2 y2 z2 C3.
  exact (tail_linear out_H b1 b2 b3 (fun s => N :: l_out L :: List.length out_H :: skipn 2 s) x2 y2 z2 HB C3).
Qed.
End Layer.
End Comb.

(** ** Outputs are well-formed tensors *)
Lemma view_wf {E} s (t u : tensor E) : wft t -> view s t = Ok u -> wft u.
Proof. unfold view, wft. intros H E0. destruct (Nat.eqb_spec (prodn s) (prodn (shape t))) as [Q|]; [|discriminate]. injection E0 as <-. simpl. congruence. Qed.
Lemma conv_wf st dl g X W Y : conv_nd st dl g X W = Ok Y -> wft Y.
Proof.
  unfold conv_nd. destruct (shape X) as [|? [|? ?]]; try discriminate. destruct (shape W) as [|? [|? ?]]; try discriminate. cbv zeta.
  match goal with |- context [if ?c then _ else _] => destruct c end; [|discriminate]. intros [= <-]. apply wft_build.
Qed.
Lemma conv_batched_wf {G P} (L : gconv G P) X W g Y : conv_batched L X W g = Ok Y -> wft Y.
Proof. unfold conv_batched. destruct (l_mode L); intros E; apply bind_ok in E; destruct E as (p & _ & E); eapply conv_wf; exact E. Qed.
Lemma conv_batched_head {G P} (L : gconv G P) X W g Y : conv_batched L X W g = Ok Y -> exists r, shape Y = List.hd 0%nat (shape X) :: r.
Proof.
  assert (forall m pads p, pad_axes m pads X = Ok p -> exists r, shape p = List.hd 0%nat (shape X) :: r) as HP.
  { intros m pads p. unfold pad_axes. destruct (shape X) as [|n [|c sp]]; try discriminate.
    match goal with |- context [if ?c then _ else _] => destruct c end; [|discriminate]. intros [= <-]. cbn [shape build List.hd]. eexists. reflexivity. }
  assert (forall p st dl, conv_nd st dl g p W = Ok Y -> exists r, shape Y = List.hd 0%nat (shape p) :: r) as HC.
  { intros p st dl. unfold conv_nd. destruct (shape p) as [|n [|c sp]]; try discriminate. destruct (shape W) as [|Co [|Cg ks]]; try discriminate. cbv zeta.
    match goal with |- context [if ?c then _ else _] => destruct c end; [|discriminate]. intros [= <-]. cbn [shape build List.hd]. eexists. reflexivity. }
  unfold conv_batched, fpad. destruct (l_mode L); intros E; apply bind_ok in E; destruct E as (p & Ep & E);
    try (apply bind_ok in Ep; destruct Ep as (fl & _ & Ep)); destruct (HP _ _ _ Ep) as (r & Er); destruct (HC _ _ _ E) as (r' & Er'); rewrite Er in Er'; exists r'; exact Er'.
Qed.
Lemma conv_forward_wf {G P} (L : gconv G P) X W g Y : conv_forward L X W g = Ok Y -> wft Y.
Proof.
  unfold conv_forward. destruct (Nat.eqb _ _); [|apply conv_batched_wf]. intros E. destruct (conv_batched _ _ _ _) as [y|] eqn:E1; [|discriminate].
  cbn [rmap] in E. injection E as <-. pose proof (conv_batched_wf _ _ _ _ _ E1) as Hw. destruct (conv_batched_head _ _ _ _ _ E1) as (r & Er). cbn [unsqueeze0 shape List.hd] in Er.
  unfold wft in *. cbn [squeeze0 shape data]. rewrite Hw, Er. cbn [tl]. rewrite prodn_cons. lia.
Qed.
Lemma add_bias_wf {G P} (L : gconv G P) X Y : wft X -> add_bias L X = Ok Y -> wft Y.
Proof.
  unfold add_bias. destruct (l_bias L); [|intros H [= <-]; exact H]. unfold bcast2. destruct (bshape _ _); [|discriminate]. intros _ [= <-]. apply wft_build.
Qed.
Lemma tail_wf {G P} (L : gconv G P) (H : list G) s X Y H' : wft X -> (x <- view s X ;; x <- add_bias L x ;; Ok (x, H)) = Ok (Y, H') -> wft Y.
Proof.
  intros W E. apply bind_ok in E. destruct E as (x & E1 & E). apply bind_ok in E. destruct E as (y & E2 & E). injection E as <- <-.
  eapply add_bias_wf; [|exact E2]. eapply view_wf; eassumption.
Qed.
Lemma lifting_wf {G P} {D : Dflt P} (L : gconv G P) w X H Y H' : lifting_forward L w X H = Ok (Y, H') -> wft Y.
Proof.
  unfold lifting_forward. intros E. apply bind_ok in E. destruct E as (k & _ & E). apply bind_ok in E. destruct E as (k' & _ & E). apply bind_ok in E.
  destruct E as (x & E1 & E). eapply tail_wf; [eapply conv_forward_wf; exact E1|exact E].
Qed.
Lemma group_wf {G P} (L : gconv G P) K X H1 H2 Y H' : group_forward_with L K X H1 H2 = Ok (Y, H') -> wft Y.
Proof.
  unfold group_forward_with. destruct (shape X) as [|N [|c [|h dims]]]; try discriminate. cbv zeta. intros E. apply bind_ok in E. destruct E as (k & _ & E).
  apply bind_ok in E. destruct E as (k' & _ & E). apply bind_ok in E. destruct E as (k'' & _ & E). apply bind_ok in E.
  destruct E as (x & E1 & E). eapply tail_wf; [eapply conv_forward_wf; exact E1|exact E].
Qed.
Lemma separable_wf {G P} {D : Dflt P} (L : gconv G P) wh w X H1 H2 Y H' : separable_forward L wh w X H1 H2 = Ok (Y, H') -> wft Y.
Proof.
  unfold separable_forward. destruct (shape X) as [|N [|c [|h dims]]]; try discriminate. cbv zeta. intros E. do 5 (apply bind_ok in E; let q := fresh "q" in destruct E as (q & _ & E)).
  apply bind_ok in E. destruct E as (x & E1 & E). eapply tail_wf; [eapply conv_forward_wf; exact E1|exact E].
Qed.
