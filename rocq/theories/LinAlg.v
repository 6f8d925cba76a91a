(** Square real linear systems: a matrix with trivial kernel has exactly one solution for every right-hand side (Gaussian elimination), a test for a
    trivial kernel by an approximate inverse, and the same for the list matrices of Interp.v.  Nothing here models code. *)
From Coq Require Import Lia Lra.
From Verif Require Import Prelude RMath Interp SolveSpec.
Open Scope R_scope.

Fixpoint sm (n : nat) (f : nat -> R) : R := match n with O => 0 | S k => f O + sm k (fun i => f (S i)) end.

Lemma sm_ext n : forall f g, (forall i, (i < n)%nat -> f i = g i) -> sm n f = sm n g.
Proof.
  induction n; intros f g H; [reflexivity|]. cbn [sm]. rewrite (H 0%nat) by lia. f_equal. apply IHn. intros i Hi. apply H. lia.
Qed.
Lemma sm_plus n : forall f g, sm n (fun i => f i + g i) = sm n f + sm n g.
Proof. induction n; intros f g; cbn [sm]; [lra|]. rewrite IHn. lra. Qed.
Lemma sm_scal n : forall f c, sm n (fun i => c * f i) = c * sm n f.
Proof. induction n; intros f c; cbn [sm]; [lra|]. rewrite IHn. lra. Qed.
Lemma sm_zero n : forall f, (forall i, (i < n)%nat -> f i = 0) -> sm n f = 0.
Proof. induction n; intros f H; cbn [sm]; [reflexivity|]. rewrite IHn by (intros; apply H; lia). rewrite H by lia. lra. Qed.
Lemma sm_minus n f g : sm n (fun i => f i - g i) = sm n f - sm n g.
Proof. rewrite (sm_ext n _ (fun i => f i + (-1) * g i)) by (intros; lra). rewrite sm_plus, sm_scal. lra. Qed.
Lemma sm_swap n : forall m (f : nat -> nat -> R), sm n (fun i => sm m (f i)) = sm m (fun j => sm n (fun i => f i j)).
Proof.
  induction n; intros m f; cbn [sm].
  - symmetry. apply sm_zero. reflexivity.
  - rewrite IHn. rewrite <- sm_plus. reflexivity.
Qed.
Lemma sm_le n : forall f g, (forall i, (i < n)%nat -> f i <= g i) -> sm n f <= sm n g.
Proof. induction n; intros f g H; cbn [sm]; [lra|]. apply Rplus_le_compat; [apply H; lia|]. apply IHn. intros. apply H. lia. Qed.
Lemma sm_abs n : forall f, Rabs (sm n f) <= sm n (fun i => Rabs (f i)).
Proof.
  induction n; intros f; cbn [sm]; [rewrite Rabs_R0; lra|]. eapply Rle_trans; [apply Rabs_triang|].
  apply Rplus_le_compat_l. apply IHn.
Qed.
Lemma sm_one n : forall f k, (k < n)%nat -> sm n (fun i => (if Nat.eqb i k then 1 else 0) * f i) = f k.
Proof.
  induction n; intros f k Hk; [lia|]. cbn [sm]. destruct k.
  - cbn [Nat.eqb]. rewrite sm_zero by (intros; cbn [Nat.eqb]; lra). lra.
  - cbn [Nat.eqb]. rewrite (IHn (fun i => f (S i)) k) by lia. lra.
Qed.

(** [A x = b], coordinates below n. *)
Definition sys (n : nat) (A : nat -> nat -> R) (x b : nat -> R) : Prop := forall i, (i < n)%nat -> sm n (fun j => A i j * x j) = b i.
Definition trivial_kernel (n : nat) (A : nat -> nat -> R) : Prop := forall x, sys n A x (fun _ => 0) -> forall j, (j < n)%nat -> x j = 0.

Lemma search (P : nat -> Prop) (dec : forall i, {P i} + {~ P i}) n : (exists p, (p < n)%nat /\ P p) \/ (forall p, (p < n)%nat -> ~ P p).
Proof.
  induction n as [|n [IH|IH]].
  - right. intros; lia.
  - left. destruct IH as (p & Hp & HP). exists p. split; [lia|exact HP].
  - destruct (dec n) as [H|H]; [left; exists n; split; [lia|exact H]|]. right. intros p Hp. destruct (Nat.eq_dec p n) as [->|]; [exact H|]. apply IH. lia.
Qed.

Lemma solvable n : forall A, trivial_kernel n A -> forall b, exists x, sys n A x b.
Proof.
  induction n as [|n IH]; intros A HK b. { exists (fun _ => 0). intros i Hi. lia. }
  assert (forall A b, A 0%nat 0%nat <> 0 -> trivial_kernel (S n) A -> exists x, sys (S n) A x b) as Main.
  { clear A HK b. intros A b Hp HK.
    pose (A' := fun i j => A (S i) (S j) - A (S i) 0%nat / A 0%nat 0%nat * A 0%nat (S j)).
    assert (forall b' x', sys n A' x' (fun i => b' (S i) - A (S i) 0%nat / A 0%nat 0%nat * b' 0%nat) ->
            sys (S n) A (fun j => match j with O => (b' 0%nat - sm n (fun j => A 0%nat (S j) * x' j)) / A 0%nat 0%nat | S j => x' j end) b') as Back.
    { intros b' x' Hx [|i] Hi; cbn [sm]; [field; exact Hp|].
      specialize (Hx i ltac:(lia)). unfold A' in Hx.
      rewrite (sm_ext n _ (fun j => A (S i) (S j) * x' j - A (S i) 0%nat / A 0%nat 0%nat * (A 0%nat (S j) * x' j))) in Hx by (intros; lra).
      rewrite sm_minus, sm_scal in Hx.
      replace (sm n (fun j => A (S i) (S j) * x' j)) with (b' (S i) - A (S i) 0%nat / A 0%nat 0%nat * b' 0%nat + A (S i) 0%nat / A 0%nat 0%nat * sm n (fun j => A 0%nat (S j) * x' j)) by lra.
      field. exact Hp. }
    destruct (IH A') with (b := fun i => b (S i) - A (S i) 0%nat / A 0%nat 0%nat * b 0%nat) as [x' Hx'].
    - intros x Hx j Hj.
      assert (sys (S n) A (fun j => match j with O => (0 - sm n (fun j => A 0%nat (S j) * x j)) / A 0%nat 0%nat | S j => x j end) (fun _ => 0)) as H0.
      { apply (Back (fun _ => 0)). intros i Hi. rewrite (Hx i Hi). ring. }
      exact (HK _ H0 (S j) ltac:(lia)).
    - eexists. apply Back. exact Hx'. }
  destruct (search (fun p => A p 0%nat <> 0)) with (n := S n) as [(p & Hp & HA)|HA].
  { intros i. destruct (Req_EM_T (A i 0%nat) 0); [right; lra|left; assumption]. }
  - pose (sg := fun i => if Nat.eqb i 0 then p else if Nat.eqb i p then 0%nat else i).
    assert (forall i, (i < S n)%nat -> (sg i < S n)%nat) as Hs.
    { intros i Hi. unfold sg. destruct (Nat.eqb_spec i 0); [lia|]. destruct (Nat.eqb_spec i p); lia. }
    assert (forall i, sg (sg i) = i) as Hss.
    { intros i. unfold sg. destruct (Nat.eqb_spec i 0).
      - destruct (Nat.eqb_spec p 0); [lia|]. rewrite Nat.eqb_refl. lia.
      - destruct (Nat.eqb_spec i p); [rewrite Nat.eqb_refl; lia|]. destruct (Nat.eqb_spec i 0); [lia|]. destruct (Nat.eqb_spec i p); lia. }
    destruct (Main (fun i => A (sg i)) (fun i => b (sg i))) as [x Hx].
    + unfold sg. cbn [Nat.eqb]. exact HA.
    + intros x Hx. apply HK. intros i Hi. rewrite <- (Hss i). apply (Hx (sg i)). apply Hs, Hi.
    + exists x. intros i Hi. rewrite <- (Hss i). apply (Hx (sg i)). apply Hs, Hi.
  - exfalso. assert (sys (S n) A (fun j => if Nat.eqb j 0 then 1 else 0) (fun _ => 0)) as H0.
    { intros i Hi. specialize (HA i Hi). destruct (Req_EM_T (A i 0%nat) 0) as [E|E]; [|contradiction].
      cbn [sm Nat.eqb]. rewrite E. rewrite sm_zero by (intros; lra). lra. }
    specialize (HK _ H0 0%nat ltac:(lia)). cbn [Nat.eqb] in HK. lra.
Qed.

(** An approximate inverse B: if every row of I - B A has absolute sum at most rho < 1, then A has a trivial kernel and |x| <= beta / (1 - rho) * |A x|. *)
Fixpoint mx (n : nat) (f : nat -> R) : R := match n with O => 0 | S k => Rmax (Rabs (f O)) (mx k (fun i => f (S i))) end.
Lemma mx_ge n : forall f i, (i < n)%nat -> Rabs (f i) <= mx n f.
Proof.
  induction n; intros f i Hi; [lia|]. cbn [mx]. destruct i; [apply Rmax_l|]. eapply Rle_trans; [|apply Rmax_r]. apply (IHn (fun i => f (S i)) i). lia.
Qed.
Lemma mx_le n : forall f c, 0 <= c -> (forall i, (i < n)%nat -> Rabs (f i) <= c) -> mx n f <= c.
Proof.
  induction n; intros f c Hc H; cbn [mx]; [exact Hc|]. apply Rmax_lub; [apply H; lia|]. apply IHn; [exact Hc|]. intros. apply H. lia.
Qed.
Lemma mx_nonneg n f : 0 <= mx n f.
Proof. destruct n; cbn [mx]; [lra|]. eapply Rle_trans; [apply Rabs_pos|apply Rmax_l]. Qed.

Definition delta (i j : nat) : R := if Nat.eqb j i then 1 else 0.
Lemma bounded_below n A B rho beta : rho < 1 -> 0 <= beta ->
  (forall i, (i < n)%nat -> sm n (fun j => Rabs (delta i j - sm n (fun k => B i k * A k j))) <= rho) ->
  (forall i, (i < n)%nat -> sm n (fun k => Rabs (B i k)) <= beta) ->
  forall x b c, sys n A x b -> 0 <= c -> (forall i, (i < n)%nat -> Rabs (b i) <= c) -> forall j, (j < n)%nat -> Rabs (x j) <= beta / (1 - rho) * c.
Proof.
  intros Hr Hbeta HR HB x b c Hx Hc Hb.
  assert (mx n x <= rho * mx n x + beta * c) as K.
  { destruct n as [|n']; [cbn [mx]; pose proof (Rmult_le_pos _ _ Hbeta Hc); lra|]. set (n := S n') in *.
    assert (0 <= rho) as Hr0. { eapply Rle_trans; [|apply (HR 0%nat); unfold n; lia]. rewrite <- (sm_zero n (fun _ => 0)) by reflexivity. apply sm_le. intros; apply Rabs_pos. }
    apply mx_le. { pose proof (Rmult_le_pos _ _ Hbeta Hc). pose proof (Rmult_le_pos _ _ Hr0 (mx_nonneg n x)). lra. }
    intros i Hi.
    assert (x i = sm n (fun j => (delta i j - sm n (fun k => B i k * A k j)) * x j) + sm n (fun k => B i k * b k)) as E.
    { rewrite (sm_ext n _ (fun j => delta i j * x j - sm n (fun k => B i k * A k j) * x j)) by (intros; ring). rewrite sm_minus.
      unfold delta. rewrite sm_one by exact Hi.
      rewrite (sm_ext n (fun j => sm n (fun k => B i k * A k j) * x j) (fun j => sm n (fun k => B i k * (A k j * x j)))).
      2: { intros j Hj. rewrite Rmult_comm, <- sm_scal. apply sm_ext. intros; ring. }
      rewrite sm_swap. rewrite (sm_ext n (fun k => B i k * b k) (fun k => sm n (fun j => B i k * (A k j * x j)))).
      2: { intros k Hk. rewrite sm_scal. rewrite (Hx k Hk). reflexivity. }
      ring. }
    rewrite E. eapply Rle_trans; [apply Rabs_triang|]. apply Rplus_le_compat.
    - eapply Rle_trans; [apply sm_abs|]. apply Rle_trans with (sm n (fun j => mx n x * Rabs (delta i j - sm n (fun k => B i k * A k j)))).
      + apply sm_le. intros j Hj. rewrite Rabs_mult. rewrite Rmult_comm. apply Rmult_le_compat_r; [apply Rabs_pos|]. apply mx_ge, Hj.
      + rewrite sm_scal. rewrite (Rmult_comm rho). apply Rmult_le_compat_l; [apply mx_nonneg|]. apply HR, Hi.
    - eapply Rle_trans; [apply sm_abs|]. apply Rle_trans with (sm n (fun k => c * Rabs (B i k))).
      + apply sm_le. intros k Hk. rewrite Rabs_mult. rewrite (Rmult_comm c). apply Rmult_le_compat_l; [apply Rabs_pos|]. apply Hb, Hk.
      + rewrite sm_scal. rewrite (Rmult_comm beta). apply Rmult_le_compat_l; [exact Hc|]. apply HB, Hi. }
  intros j Hj. eapply Rle_trans; [apply mx_ge, Hj|]. apply Rmult_le_reg_l with (1 - rho); [lra|].
  replace ((1 - rho) * (beta / (1 - rho) * c)) with (beta * c) by (field; lra). lra.
Qed.
Lemma approximate_inverse n A B rho beta : rho < 1 -> 0 <= beta ->
  (forall i, (i < n)%nat -> sm n (fun j => Rabs (delta i j - sm n (fun k => B i k * A k j))) <= rho) ->
  (forall i, (i < n)%nat -> sm n (fun k => Rabs (B i k)) <= beta) -> trivial_kernel n A.
Proof.
  intros Hr Hb HR HB x Hx j Hj.
  pose proof (bounded_below n A B rho beta Hr Hb HR HB x (fun _ => 0) 0 Hx (Rle_refl 0)) as K.
  assert (Rabs (x j) <= 0) as K'. { rewrite <- (Rmult_0_r (beta / (1 - rho))). apply K; [|exact Hj]. intros. rewrite Rabs_R0. lra. }
  destruct (Req_EM_T (x j) 0) as [E|E]; [exact E|]. pose proof (Rabs_pos_lt _ E). lra.
Qed.

(** ** Matrices as lists of rows. *)
Definition ent (m : mat) (i j : nat) : R := nth j (nth i m []) 0.

Lemma dotl_sm n : forall a b, length a = n -> length b = n -> dotl a b = sm n (fun k => nth k a 0 * nth k b 0).
Proof.
  induction n; intros [|x a] [|y b] Ha Hb; try discriminate; [reflexivity|].
  change (dotl (x :: a) (y :: b)) with (x * y + dotl a b). cbn [sm nth]. f_equal. apply IHn; simpl in *; lia.
Qed.
Lemma nth_col j (x : mat) k : (k < length x)%nat -> nth k (col j x) 0 = ent x k j.
Proof.
  intros Hk. unfold col, ent. rewrite (nth_indep _ 0 (nth j [] 0)) by (rewrite map_length; exact Hk). rewrite (map_nth (fun v => nth j v 0)). reflexivity.
Qed.
Lemma nth_map_seq {A} (f : nat -> A) n i d : (i < n)%nat -> nth i (map f (seq 0 n)) d = f i.
Proof. intros Hi. rewrite (nth_indep _ d (f 0%nat)) by (rewrite map_length, seq_length; exact Hi). rewrite (map_nth f), seq_nth by exact Hi. reflexivity. Qed.
Lemma ent_matmul n s m x i j : wfm n n m -> wfm n s x -> (i < n)%nat -> (j < s)%nat ->
  ent (matmul s m x) i j = sm n (fun k => ent m i k * ent x k j).
Proof.
  intros [Lm Rm] [Lx Rx] Hi Hj. unfold ent at 1, matmul.
  rewrite (nth_indep _ [] (rowmul s [] x)) by (rewrite map_length; lia). rewrite (map_nth (fun row => rowmul s row x)).
  unfold rowmul. rewrite nth_map_seq by exact Hj. rewrite (dotl_sm n).
  - apply sm_ext. intros k Hk. rewrite nth_col by lia. reflexivity.
  - apply Rm. apply nth_In. lia.
  - unfold col. rewrite map_length. exact Lx.
Qed.
Lemma wfm_matmul n s m x : length m = n -> wfm n s (matmul s m x).
Proof.
  intros Lm. split; [unfold matmul; rewrite map_length; exact Lm|]. intros r Hr. unfold matmul in Hr. apply in_map_iff in Hr. destruct Hr as (row & <- & _).
  unfold rowmul. rewrite map_length, seq_length. reflexivity.
Qed.
Lemma mat_ext n s (x y : mat) : wfm n s x -> wfm n s y -> (forall i j, (i < n)%nat -> (j < s)%nat -> ent x i j = ent y i j) -> x = y.
Proof.
  intros [Lx Rx] [Ly Ry] H. apply (nth_ext _ _ [] []); [lia|]. intros i Hi.
  assert (length (nth i x []) = s) as E1 by (apply Rx, nth_In; lia). assert (length (nth i y []) = s) as E2 by (apply Ry, nth_In; lia).
  apply (nth_ext _ _ 0 0); [lia|]. intros j Hj. apply (H i j); lia.
Qed.

Lemma finite_choice {A} (P : nat -> A -> Prop) (a0 : A) n : (forall j, (j < n)%nat -> exists a, P j a) -> exists f, forall j, (j < n)%nat -> P j (f j).
Proof.
  induction n as [|n IH]; intros H. { exists (fun _ => a0). intros; lia. }
  destruct IH as [f Hf]. { intros j Hj. apply H. lia. }
  destruct (H n ltac:(lia)) as [a Ha]. exists (fun j => if Nat.eqb j n then a else f j). intros j Hj.
  destruct (Nat.eqb_spec j n) as [->|]; [exact Ha|]. apply Hf. lia.
Qed.

Lemma trivial_kernel_nonsingular n m : wfm n n m -> trivial_kernel n (ent m) -> nonsingular n m.
Proof.
  intros Hm HK. split; [exact Hm|]. intros s b Hb.
  destruct (finite_choice (fun j x => sys n (ent m) x (fun i => ent b i j)) (fun _ => 0) s) as [X HX].
  { intros j _. apply solvable. exact HK. }
  assert (wfm n s (map (fun k => map (fun j => X j k) (seq 0 s)) (seq 0 n))) as Wx.
  { split; [rewrite map_length, seq_length; reflexivity|]. intros r Hr. apply in_map_iff in Hr. destruct Hr as (k & <- & _). rewrite map_length, seq_length. reflexivity. }
  exists (map (fun k => map (fun j => X j k) (seq 0 s)) (seq 0 n)). split; [exact Wx|]. split.
  - apply (mat_ext n s); [apply wfm_matmul, Hm|exact Hb|]. intros i j Hi Hj. rewrite (ent_matmul n) by assumption.
    rewrite <- (HX j Hj i Hi). apply sm_ext. intros k Hk. f_equal. unfold ent. rewrite nth_map_seq by exact Hk. rewrite nth_map_seq by exact Hj. reflexivity.
  - intros y Wy Ey. apply (mat_ext n s); [exact Wy|exact Wx|]. intros i j Hi Hj.
    set (x := map _ (seq 0 n)).
    assert (forall k, (k < n)%nat -> ent y k j - X j k = 0) as Z.
    { apply (HK (fun k => ent y k j - X j k)). intros i' Hi'.
      rewrite (sm_ext n _ (fun k => ent m i' k * ent y k j - ent m i' k * X j k)) by (intros; ring). rewrite sm_minus.
      rewrite (HX j Hj i' Hi'). rewrite <- (ent_matmul n s) by assumption. rewrite Ey. ring. }
    assert (ent x i j = X j i) as ->. { unfold ent, x. rewrite nth_map_seq by exact Hi. rewrite nth_map_seq by exact Hj. reflexivity. }
    specialize (Z i Hi). lra.
Qed.
