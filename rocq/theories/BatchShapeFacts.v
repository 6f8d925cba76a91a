(** Facts about BatchShape.v. *)
From Verif Require Import Prelude RMath Mat SO3 BatchShape.
Open Scope nat_scope.

Lemma shape_eqb_eq a b : shape_eqb a b = true <-> a = b.
Proof.
  revert b; induction a as [|x a IH]; intros [|y b]; cbn [shape_eqb]; try (split; [discriminate|intros H; inversion H]); try (split; reflexivity).
  rewrite andb_true_iff, Nat.eqb_eq, IH. split; [intros [-> ->]; reflexivity|intros H; inversion H; split; reflexivity].
Qed.

(** Sliding a list by two places leaves it unchanged only if it is constant. *)
Lemma slide_two (n p : nat) (l : list nat) :
  l ++ [3; 3] = n :: p :: l -> n = 3 /\ p = 3 /\ l = repeat 3 (length l).
Proof.
  revert n p; induction l as [|x l IH]; intros n p H; cbn [app] in H.
  - inversion H; subst; repeat split.
  - inversion H as [[Hx Hl]]. subst n. destruct (IH _ _ Hl) as [-> [-> Hr]]. repeat split.
    cbn [length repeat]. congruence.
Qed.

Lemma broadcast_slide (p : nat) (l : list nat) :
  broadcasts (l ++ [3; 3]) (p :: l ++ [3]) = true -> p = 3 /\ l = repeat 3 (length l).
Proof.
  revert p; induction l as [|x l IH]; intros p H; cbn [app broadcasts] in H; apply andb_prop in H; destruct H as [H1 H2].
  - change (Nat.eqb 3 1) with false in H1. rewrite orb_false_r in H1. apply Nat.eqb_eq in H1. split; [congruence|reflexivity].
  - destruct (IH _ H2) as [-> Hr]. change (Nat.eqb 3 1) with false in H1. rewrite orb_false_r in H1. apply Nat.eqb_eq in H1.
    split; [congruence|]. cbn [length repeat]. congruence.
Qed.

Lemma repeat_snoc {A} (x : A) n : repeat x n ++ [x] = repeat x (S n).
Proof. induction n as [|n IH]; [reflexivity|]. cbn [repeat app]. rewrite IH. reflexivity. Qed.
Lemma repeat_snoc2 {A} (x : A) n : repeat x n ++ [x; x] = repeat x (S (S n)).
Proof. change [x; x] with ([x] ++ [x]). rewrite app_assoc, !repeat_snoc. reflexivity. Qed.

Lemma broadcasts_refl l : broadcasts l l = true.
Proof. induction l as [|x l IH]; [reflexivity|]. cbn [broadcasts]. rewrite Nat.eqb_refl, IH. reflexivity. Qed.

Lemma mask_index_ok s ms bounds :
  mask_index s ms bounds = Ok tt <->
  length ms + length bounds <= length s /\ firstn (length ms) s = ms /\
  forallb (fun p => Nat.ltb (fst p) (snd p)) (combine bounds (skipn (length ms) s)) = true.
Proof.
  unfold mask_index. rewrite <- shape_eqb_eq, <- Nat.leb_le.
  destruct (Nat.leb _ _); destruct (shape_eqb _ _); destruct (forallb _ _); cbn [andb]; intuition discriminate.
Qed.
Lemma mask_index_cases s ms bounds : mask_index s ms bounds = Ok tt \/ mask_index s ms bounds = Err IndexError.
Proof. unfold mask_index. destruct (_ && _ && _)%bool; [left|right]; reflexivity. Qed.

Lemma mask_index_app ms r bounds :
  length bounds <= length r ->
  forallb (fun p => Nat.ltb (fst p) (snd p)) (combine bounds r) = true ->
  mask_index (ms ++ r) ms bounds = Ok tt.
Proof.
  intros Hl Hb. apply mask_index_ok. rewrite app_length, firstn_app, firstn_all, Nat.sub_diag, firstn_O, app_nil_r.
  rewrite skipn_app, skipn_all, Nat.sub_diag, skipn_O. repeat split; [lia|assumption].
Qed.

(** ** matrix_to_quat *)
Definition threes (b : list nat) := exists m j, b = m :: repeat 3 j.

Lemma m2q_threes m j : matrix_to_quat_shape (m :: repeat 3 j) = Ok (m :: repeat 3 j ++ [4]).
Proof.
  unfold matrix_to_quat_shape. cbn [app]. rewrite repeat_snoc2. cbn [repeat diagonal12 bind].
  set (ms := m :: repeat 3 j). replace (m :: repeat 3 j ++ [Nat.min 3 3]) with (ms ++ [3]) by reflexivity.
  rewrite removelast_last, last_last. unfold ms at 1 2.
  rewrite (mask_index_app _ [3 + 1] [3]) by (cbn; [lia|reflexivity] || reflexivity || (cbn; lia)). cbn [bind].
  assert (E : m :: 3 :: 3 :: repeat 3 j = ms ++ [3; 3]) by (unfold ms; cbn [app]; rewrite repeat_snoc2; reflexivity).
  rewrite E, (mask_index_app _ [3; 3] [2; 2]) by (reflexivity || (cbn; lia)). cbn [bind].
  rewrite app_comm_cons. fold ms. rewrite (mask_index_app _ [4] [3]) by (reflexivity || (cbn; lia)).
  cbn [bind]. rewrite (mask_index_app _ [4] [0]) by (reflexivity || (cbn; lia)). reflexivity.
Qed.

Lemma m2q_shape_inv b : matrix_to_quat_shape b = Err IndexError \/ threes b.
Proof.
  unfold matrix_to_quat_shape. destruct b as [|m b]; [left; reflexivity|].
  destruct b as [|n b]; [right; exists m, 0; reflexivity|].
  destruct b as [|p b].
  - (* two axes *)
    change ((m :: n :: nil) ++ [3; 3]) with (m :: n :: 3 :: 3 :: nil).
    cbn [diagonal12 bind app removelast last].
    destruct (mask_index_cases [m; 3; Nat.min n 3 + 1] [m; 3] [3]) as [-> | ->]; cbn [bind]; [|left; reflexivity].
    destruct (mask_index_cases [m; n; 3; 3] [m; 3] [2; 2]) as [H | ->]; cbn [bind]; [|left; reflexivity].
    apply mask_index_ok in H. destruct H as (_ & H & _). cbn [length firstn] in H. inversion H; subst n.
    right. exists m, 1. reflexivity.
  - change ((m :: n :: p :: b) ++ [3; 3]) with (m :: n :: p :: (b ++ [3; 3])). cbn [diagonal12 bind].
    rewrite app_comm_cons, removelast_last, last_last.
    destruct (mask_index_cases ((m :: b ++ [3; 3]) ++ [Nat.min n p + 1]) (m :: b ++ [3; 3]) [3]) as [-> | ->]; cbn [bind]; [|left; reflexivity].
    destruct (mask_index_cases (m :: n :: p :: (b ++ [3; 3])) (m :: b ++ [3; 3]) [2; 2]) as [H | ->]; cbn [bind]; [|left; reflexivity].
    right. apply mask_index_ok in H. destruct H as (_ & H & _).
    cbn [length] in H. rewrite app_length in H. cbn [length] in H. rewrite Nat.add_comm in H. cbn [firstn Nat.add] in H.
    rewrite firstn_app, firstn_all, Nat.sub_diag, firstn_O, app_nil_r in H.
    inversion H as [[Hs]]. destruct (slide_two n p b) as (-> & -> & Hb); [symmetry; assumption|].
    exists m, (S (S (length b))). cbn [repeat]. congruence.
Qed.

(** ** matrix_to_euler *)
Lemma m2e_threes m j : matrix_to_euler_shape (m :: repeat 3 j) = Ok (m :: repeat 3 j ++ [3]).
Proof.
  unfold matrix_to_euler_shape. cbn [app]. rewrite repeat_snoc2, repeat_snoc. cbn [repeat index12 index1].
  change (Nat.ltb 2 3 && Nat.ltb 2 3)%bool with true. change (Nat.ltb 1 3) with true. cbn [bind].
  unfold assign. rewrite broadcasts_refl. cbn [bind].
  assert (E : m :: 3 :: 3 :: repeat 3 j = (m :: repeat 3 j) ++ [3; 3]) by (cbn [app]; rewrite repeat_snoc2; reflexivity).
  assert (E' : m :: 3 :: repeat 3 j = (m :: repeat 3 j) ++ [3]) by (cbn [app]; rewrite repeat_snoc; reflexivity).
  rewrite E, E'. rewrite (mask_index_app _ [3; 3] [0; 2]) by (reflexivity || (cbn; lia)). cbn [bind].
  rewrite (mask_index_app _ [3] [2]) by (reflexivity || (cbn; lia)). reflexivity.
Qed.

Lemma m2e_shape_inv b :
  (matrix_to_euler_shape b = Err IndexError \/ matrix_to_euler_shape b = Err RuntimeError) \/ threes b.
Proof.
  unfold matrix_to_euler_shape. destruct b as [|m b]; [left; left; reflexivity|].
  destruct b as [|n b]; [right; exists m, 0; reflexivity|].
  destruct b as [|p b].
  - change ((m :: n :: nil) ++ [3; 3]) with (m :: n :: 3 :: 3 :: nil).
    change ((m :: n :: nil) ++ [3]) with (m :: n :: 3 :: nil). cbn [index12 index1].
    destruct (Nat.ltb 2 n && Nat.ltb 2 3)%bool; cbn [bind]; [|left; left; reflexivity].
    destruct (Nat.ltb 1 n); cbn [bind]; [|left; left; reflexivity].
    unfold assign. destruct (broadcasts [m; 3] [m; 3]); cbn [bind]; [|left; right; reflexivity].
    destruct (mask_index_cases [m; n; 3; 3] [m; 3] [0; 2]) as [H | ->]; cbn [bind]; [|left; left; reflexivity].
    apply mask_index_ok in H. destruct H as (_ & H & _). cbn [length firstn] in H. inversion H; subst n.
    right. exists m, 1. reflexivity.
  - change ((m :: n :: p :: b) ++ [3; 3]) with (m :: n :: p :: (b ++ [3; 3])).
    change ((m :: n :: p :: b) ++ [3]) with (m :: n :: p :: (b ++ [3])). cbn [index12 index1].
    destruct (Nat.ltb 2 n && Nat.ltb 2 p)%bool; cbn [bind]; [|left; left; reflexivity].
    destruct (Nat.ltb 1 n); cbn [bind]; [|left; left; reflexivity].
    unfold assign. destruct (broadcasts (m :: b ++ [3; 3]) (m :: p :: b ++ [3])) eqn:Eb; cbn [bind]; [|left; right; reflexivity].
    cbn [broadcasts] in Eb. apply andb_prop in Eb. destruct Eb as [_ Eb].
    destruct (broadcast_slide _ _ Eb) as [-> Hb].
    destruct (mask_index_cases (m :: n :: 3 :: (b ++ [3; 3])) (m :: 3 :: b ++ [3]) [0; 2]) as [H | ->]; cbn [bind]; [|left; left; reflexivity].
    right. apply mask_index_ok in H. destruct H as (_ & H & _). cbn [length firstn] in H. inversion H as [[Hn Hr]]. subst n.
    exists m, (S (S (length b))). cbn [repeat]. congruence.
Qed.

(** ** Values *)
Open Scope R_scope.

Lemma pivot_with_link i r : pivot_with i (a00 r + a11 r + a22 r) r = so3_m2q_pivot i r.
Proof. destruct i as [|[|[|i]]]; reflexivity. Qed.

Definition axis_quat (j : nat) : Q4 :=
  match j with 0%nat => mkQ 0 1 0 0 | 1%nat => mkQ 0 0 1 0 | _ => mkQ 0 0 0 1 end.

Lemma qnorm_2 a b c d : a * a + b * b + c * c + d * d = 4 -> qnorm (mkQ a b c d) = 2.
Proof.
  intros H. unfold qnorm. cbn [qw qx qy qz].
  match goal with |- sqrt ?e = _ => replace e with (2 * 2) by (rewrite <- ?H; ring_simplify; lra) end.
  apply sqrt_square; lra.
Qed.

Lemma m2q_m3_identity (r : nat -> nat -> M3) i j : (j < 3)%nat ->
  (forall k, (k < 3)%nat -> r i k = I3) -> matrix_to_quat_m3 r i j = axis_quat j.
Proof.
  intros Hj Hr. unfold matrix_to_quat_m3. rewrite (Hr 0%nat), (Hr 1%nat), (Hr 2%nat), (Hr j) by lia.
  destruct j as [|[|[|j]]]; [| | |lia]; cbn [entry3 I3 a00 a01 a02 a10 a11 a12 a20 a21 a22];
    unfold argmax4; repeat (destruct Rle_dec; try lra); cbn [pivot_with I3 a00 a01 a02 a10 a11 a12 a20 a21 a22];
    unfold qnormalize; rewrite qnorm_2 by lra; cbn [qw qx qy qz axis_quat]; f_equal; lra.
Qed.

Lemma axis_quat_half_turn j : (j < 3)%nat -> so3_quat_to_matrix (axis_quat j) <> I3.
Proof.
  intros Hj H. destruct j as [|[|[|j]]]; [| | |lia]; apply (f_equal a00) in H as H0; apply (f_equal a11) in H as H1;
    cbn [axis_quat so3_quat_to_matrix a00 a11 I3] in H0, H1; lra.
Qed.

Lemma m2e_m3_identity mem (r : nat -> nat -> M3) eps i :
  0 < eps <= PI / 2 -> (forall k, (k < 3)%nat -> r i k = I3) ->
  matrix_to_euler_m3 mem r eps i 0 = mkV3 0 (wrap_pi (mem i 0%nat 1%nat)) 0 /\
  matrix_to_euler_m3 mem r eps i 1 = mkV3 0 (PI / 2) 0 /\
  matrix_to_euler_m3 mem r eps i 2 = mkV3 0 (wrap_pi (mem i 2%nat 1%nat)) 0.
Proof.
  intros He Hr. pose proof PI_RGT_0 as Hpi.
  assert (Hc : mul3 (mul3 so3_m2e_c I3) (tr3 so3_m2e_c) = I3).
  { unfold so3_m2e_c, I3, tr3, mul3. cbn [a00 a01 a02 a10 a11 a12 a20 a21 a22]. f_equal; ring. }
  assert (Hk1 : clamp 1 (-1) 1 = 1) by (unfold clamp; rewrite Rmax_left by lra; apply Rmin_left; lra).
  assert (Hk0 : clamp 0 (-1) 1 = 0) by (unfold clamp; rewrite Rmax_left by lra; apply Rmin_left; lra).
  assert (A00 : forall x, 0 < x -> atan2 0 x = 0).
  { intros x Hx. unfold atan2. destruct Rlt_dec; [|lra]. unfold Rdiv. rewrite Rmult_0_l. apply atan_0. }
  assert (A0 : atan2 0 0 = 0) by (unfold atan2; repeat (destruct Rlt_dec; try lra)).
  assert (W0 : wrap_pi 0 = 0).
  { unfold wrap_pi. destruct Rlt_dec; [lra|]. destruct Rle_dec; lra. }
  assert (W2 : wrap_pi (PI / 2) = PI / 2).
  { unfold wrap_pi. destruct Rlt_dec; [lra|]. destruct Rle_dec; lra. }
  assert (P1 : Rabs (PI / 2) = PI / 2) by (apply Rabs_right; lra).
  assert (P2 : Rabs (PI / 2 - PI) = PI / 2) by (rewrite Rabs_left1; lra).
  assert (P3 : Rabs (0 - PI) = PI) by (rewrite Rabs_left1; lra).
  unfold matrix_to_euler_m3. rewrite (Hr 0%nat), (Hr 1%nat), (Hr 2%nat) by lia. rewrite Hc.
  cbn [entry3 I3 a00 a01 a02 a10 a11 a12 a20 a21 a22 Nat.eqb andb]. rewrite ?Hk1, ?Hk0, ?acos_0, ?acos_1, ?P1, ?P2, ?P3, ?Rabs_R0.
  destruct (Rle_dec eps (PI / 2)) as [_|n]; [|lra]. destruct (Rle_dec eps 0) as [n|_]; [lra|].
  destruct (Rle_dec eps PI) as [_|n]; [|lra].
  replace (- (0)) with 0 by ring. replace (0 - 0) with 0 by ring. cbn [andb].
  rewrite ?A0. rewrite (A00 (1 + 1)) by lra.
  destruct (Rlt_dec 0 0) as [n|_]; [lra|]. destruct (Rlt_dec PI 0) as [n|_]; [lra|].
  destruct (Rlt_dec (PI / 2) 0) as [n|_]; [lra|]. destruct (Rlt_dec PI (PI / 2)) as [n|_]; [lra|].
  cbn [andb]. rewrite ?W0, ?W2. repeat split.
Qed.
