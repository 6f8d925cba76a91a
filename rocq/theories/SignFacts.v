(** Proofs for C102. *)
From Coq Require Import String ZArith Lra.
From Verif Require Import Prelude RMath Mat SO2 O2 O3 Tensor TensorFacts Functional FunctionalFacts KernelFacts LipFacts SampleRn SignSpec.
Open Scope R_scope.

(** ** Interpolation along an axis, turned around *)
Lemma lin1_ext f g u : (forall z, f z = g z) -> lin1 f u = lin1 g u.
Proof. intros H. unfold lin1. rewrite !H. reflexivity. Qed.
Lemma lin1_flip f k u : lin1 f (IZR k - u) = lin1 (fun z => f (k - z)%Z) u.
Proof.
  pose proof (floor_bounds u) as B. set (n := Int_part u) in *.
  rewrite (lin1_cell _ u n) by lra.
  rewrite (lin1_cell f (IZR k - u) (k - n - 1)) by (rewrite !minus_IZR; lra).
  replace (k - n - 1 + 1)%Z with (k - n)%Z by lia. replace (k - (n + 1))%Z with (k - n - 1)%Z by lia. rewrite !minus_IZR. ring.
Qed.

Definition flipR (s : list nat) (cs : list R) : list R := map2 (fun n c => INR n - 1 - c) s cs.
Definition flipZ (s : list nat) (z : list Z) : list Z := map2 (fun n c => (Z.of_nat n - 1 - c)%Z) s z.
Lemma multi_flip s : forall cs g g' acc acc', List.length cs = List.length s ->
  (forall z, List.length z = List.length s -> g (rev acc ++ flipZ s z) = g' (rev acc' ++ z)) ->
  multi g (flipR s cs) acc = multi g' cs acc'.
Proof.
  induction s as [|n s IH]; intros [|c cs] g g' acc acc' L H; try discriminate.
  - cbn [flipR map2 multi]. specialize (H [] eq_refl). cbn [flipZ map2] in H. rewrite !app_nil_r in H. exact H.
  - change (flipR (n :: s) (c :: cs)) with ((INR n - 1 - c) :: flipR s cs). cbn [multi].
    replace (INR n - 1 - c) with (IZR (Z.of_nat n - 1) - c) by (rewrite minus_IZR, <- INR_IZR_INZ; reflexivity).
    rewrite lin1_flip. apply lin1_ext. intros z. apply IH; [injection L; auto|]. intros z' Hz'. cbn [rev]. rewrite <- !app_assoc. cbn [app].
    exact (H (z :: z') (f_equal S Hz')).
Qed.

(** ** The coordinates *)
Lemma clamp_flip x k : 0 <= k -> clamp (k - x) 0 k = k - clamp x 0 k.
Proof.
  intros Hk. destruct (Rle_dec x 0); [rewrite (clamp_lo x), clamp_hi by lra; lra|].
  destruct (Rle_dec k x); [rewrite (clamp_hi x), clamp_lo by lra; lra|]. rewrite !clamp_mid by lra. reflexivity.
Qed.
Definition parity (z : Z) : R := if Z.even z then 0 else 1.
Lemma parity_abs t : lin1 parity (Rabs t) = lin1 parity t.
Proof.
  unfold Rabs. destruct (Rcase_abs t); [|reflexivity]. replace (- t) with (IZR 0 - t) by (cbn; ring). rewrite lin1_flip. apply lin1_ext.
  intros z. unfold parity. rewrite Z.sub_0_l, Z.even_opp. reflexivity.
Qed.
Lemma parity_flip t : lin1 parity (1 - t) = 1 - lin1 parity t.
Proof.
  change 1 with (IZR 1) at 1. rewrite lin1_flip. pose proof (floor_bounds t) as B. set (n := Int_part t) in *.
  rewrite !(lin1_cell _ t n) by lra. unfold parity. rewrite !Z.even_sub, !Z.even_add. change (Z.even 1) with false.
  destruct (Z.even n); cbn; ring.
Qed.
Lemma reflect_flip n u : (0 < n)%nat -> gs_reflect n (INR n - 1 - u) = INR n - 1 - gs_reflect n u.
Proof.
  intros Hn. rewrite !reflect_lin1 by exact Hn. apply lt_INR in Hn. cbn [INR] in Hn. fold parity.
  assert (forall x, Rabs x / INR n = Rabs (x / INR n)) as A.
  { intros x. unfold Rdiv. rewrite Rabs_mult, (Rabs_right (/ INR n)); [reflexivity|]. apply Rle_ge, Rlt_le, Rinv_0_lt_compat. exact Hn. }
  rewrite !A. change (fun z : Z => if Z.even z then 0 else 1) with parity. rewrite !parity_abs.
  replace ((INR n - 1 - u + 1 / 2) / INR n) with (1 - (u + 1 / 2) / INR n) by (field; lra). rewrite parity_flip. lra.
Qed.
Lemma coord_flip pm n x : (0 < n)%nat -> gs_coord pm n (- x) = INR n - 1 - gs_coord pm n x.
Proof.
  intros Hn. unfold gs_coord. replace (gs_unnormalize n (- x)) with (INR n - 1 - gs_unnormalize n x) by (unfold gs_unnormalize; field).
  assert (1 <= INR n) by (apply (le_INR 1); lia).
  unfold gs_place. destruct pm; [reflexivity| |rewrite reflect_flip by exact Hn]; rewrite clamp_flip by lra; reflexivity.
Qed.

(** ** The images *)
Lemma read_flip s im im' : (forall x, valid s x -> at_ (mkT s im') x = at_ (mkT s im) (opposite s x)) ->
  forall z, List.length z = List.length s -> gs_read s im (flipZ s z) = gs_read s im' z.
Proof.
  intros H z Hz. unfold gs_read.
  assert (forall (s : list nat) z, List.length z = List.length s ->
    forallb (fun nz => in_range (fst nz) (snd nz)) (combine s (flipZ s z)) = forallb (fun nz => in_range (fst nz) (snd nz)) (combine s z)) as E.
  { clear. induction s as [|n s IH]; intros [|c z] L; try discriminate; [reflexivity|]. change (flipZ (n :: s) (c :: z)) with ((Z.of_nat n - 1 - c)%Z :: flipZ s z).
    cbn [combine forallb fst snd]. rewrite IH by (injection L; auto). f_equal. unfold in_range.
    destruct (Z.leb_spec 0 (Z.of_nat n - 1 - c)), (Z.ltb_spec (Z.of_nat n - 1 - c) (Z.of_nat n)), (Z.leb_spec 0 c), (Z.ltb_spec c (Z.of_nat n)); cbn; lia || reflexivity. }
  rewrite E by exact Hz. destruct (forallb _ (combine s z)) eqn:F; [|reflexivity].
  assert (valid s (map Z.to_nat z) /\ map Z.to_nat (flipZ s z) = opposite s (map Z.to_nat z)) as [V O].
  { clear -F Hz. revert z Hz F. induction s as [|n s IH]; intros [|c z] L F; try discriminate; [split; [constructor|reflexivity]|].
    cbn [combine forallb fst snd] in F. apply andb_prop in F. destruct F as [F1 F2]. destruct (IH z ltac:(injection L; auto) F2) as [V O].
    unfold in_range in F1. apply andb_prop in F1. destruct F1 as [A B]. apply Z.leb_le in A. apply Z.ltb_lt in B. split.
    - cbn [map]. apply valid_cons; [lia|exact V].
    - change (flipZ (n :: s) (c :: z)) with ((Z.of_nat n - 1 - c)%Z :: flipZ s z). cbn [map].
      change (opposite (n :: s) (Z.to_nat c :: map Z.to_nat z)) with ((n - 1 - Z.to_nat c)%nat :: opposite s (map Z.to_nat z)). rewrite O. f_equal. lia. }
  rewrite O. symmetry. apply H. exact V.
Qed.

Lemma linear_flip pm s im im' u : (forall x, valid s x -> at_ (mkT s im') x = at_ (mkT s im) (opposite s x)) ->
  List.length u = List.length s -> Forall (fun n => (0 < n)%nat) s ->
  gs_linear pm s im (map Ropp u) = gs_linear pm s im' u.
Proof.
  intros H L P. unfold gs_linear. rewrite !corners_multi, !Rmult_1_l.
  replace (map2 (fun n x => gs_coord pm n x) s (map Ropp u)) with (flipR s (map2 (fun n x => gs_coord pm n x) s u)).
  - apply multi_flip.
    + clear -L. revert u L. induction s as [|n s IH]; intros [|x u] L; try discriminate; [reflexivity|]. cbn [map2 List.length]. f_equal. apply IH. injection L. auto.
    + intros z Hz. cbn [rev app]. apply read_flip; assumption.
  - clear -L P. revert u L. induction P as [|n s Hn P IH]; intros [|x u] L; try discriminate; [reflexivity|]. cbn [map map2].
    change (flipR (n :: s) (gs_coord pm n x :: map2 (fun n x => gs_coord pm n x) s u)) with (INR n - 1 - gs_coord pm n x :: flipR s (map2 (fun n x => gs_coord pm n x) s u)).
    rewrite IH by (injection L; auto). rewrite coord_flip by exact Hn. reflexivity.
Qed.
