From Verif Require Import Prelude RMath Mat Tensor TensorFacts Layers Kernel Conv Strides StridesSpec.
Open Scope nat_scope.

(** ** Reversed addressing *)
Fixpoint roff (rsh rst : list nat) (k : nat) : nat :=
  match rsh, rst with n :: rsh', s :: rst' => (k mod n) * s + roff rsh' rst' (k / n) | _, _ => 0 end.

Lemma prodn_rev s : prodn (rev s) = prodn s.
Proof. induction s as [|n s IH]; [reflexivity|]. cbn [rev]. rewrite prodn_app, IH, !prodn_cons, prodn_nil. lia. Qed.

Lemma unravel_snoc s n k : k < prodn s * n -> unravel (s ++ [n]) k = unravel s (k / n) ++ [k mod n].
Proof.
  revert k. induction s as [|m s IH]; intros k Hk.
  - rewrite prodn_nil in Hk. cbn [app unravel]. rewrite prodn_nil, Nat.div_1_r, Nat.mod_small by lia. reflexivity.
  - assert (Hn : n <> 0) by (intro; subst; lia).
    assert (Hs : prodn s <> 0) by (intro E; rewrite prodn_cons, E in Hk; lia).
    cbn [app unravel]. f_equal.
    + rewrite prodn_app. cbn [prodn fold_right]. rewrite Nat.mul_1_r, Nat.mul_comm, <- Nat.div_div by assumption. reflexivity.
    + rewrite prodn_app. cbn [prodn fold_right]. rewrite Nat.mul_1_r.
      assert (Hb : k mod (prodn s * n) < prodn s * n) by (apply Nat.mod_upper_bound; lia).
      rewrite IH by exact Hb. f_equal.
      * f_equal. rewrite (Nat.mul_comm (prodn s) n), Nat.mod_mul_r by assumption.
        rewrite Nat.mul_comm, Nat.div_add by assumption. rewrite Nat.div_small by (apply Nat.mod_upper_bound; assumption). reflexivity.
      * f_equal. rewrite (Nat.mul_comm (prodn s) n), Nat.mod_mul_r by assumption.
        rewrite Nat.mul_comm, Nat.mod_add by assumption. apply Nat.mod_mod; assumption.
Qed.
Lemma dot_snoc st idx s i : length st = length idx -> dot (st ++ [s]) (idx ++ [i]) = dot st idx + s * i.
Proof.
  revert idx. induction st as [|a st IH]; intros [|b idx] H; try discriminate; cbn.
  - lia.
  - rewrite IH by (injection H; auto). lia.
Qed.
Lemma dot_roff rsh rst k : length rst = length rsh -> k < prodn rsh ->
  dot (rev rst) (unravel (rev rsh) k) = roff rsh rst k.
Proof.
  revert rst k. induction rsh as [|n rsh IH]; intros [|s rst] k Hl Hk; try discriminate; [reflexivity|].
  cbn [rev roff]. rewrite prodn_cons in Hk.
  assert (Hn : n <> 0) by (intro; subst; lia).
  rewrite unravel_snoc by (rewrite prodn_rev; lia).
  rewrite dot_snoc by (rewrite unravel_length, !rev_length; injection Hl; auto).
  rewrite IH; [lia|injection Hl; auto|]. apply Nat.div_lt_upper_bound; lia.
Qed.
Lemma dot_roff' sh st k : length st = length sh -> k < prodn sh -> dot st (unravel sh k) = roff (rev sh) (rev st) k.
Proof.
  intros Hl Hk. rewrite <- dot_roff; [rewrite !rev_involutive; reflexivity|rewrite !rev_length; exact Hl|rewrite prodn_rev; exact Hk].
Qed.

(** ** Filling one chunk *)
Lemma fill_chunk_spec numel base rnew : forall vn st v rest, fill_chunk numel base vn rnew = (st, v, rest) ->
  exists pre, rnew = pre ++ rest /\ length st = length pre /\ v = vn * prodn pre /\
    forall more k, prodn rnew <> 0 -> roff rnew (st ++ more) k = (k mod prodn pre) * (vn * base) + roff rest more (k / prodn pre).
Proof.
  induction rnew as [|n r IH]; intros vn st v rest; cbn [fill_chunk].
  - intros E. injection E as <- <- <-. exists []. split; [reflexivity|split; [reflexivity|split; [rewrite prodn_nil; lia|]]].
    intros more k _. cbn [app]. rewrite prodn_nil, Nat.div_1_r, Nat.mod_1_r. cbn. reflexivity.
  - destruct (_ || _).
    + destruct (fill_chunk numel base (vn * n) r) as [[st' v'] rest'] eqn:E. intros E'. injection E' as <- <- <-.
      destruct (IH _ _ _ _ E) as [pre [Hr [Hl [Hv Hk]]]].
      exists (n :: pre). split; [|split; [|split]].
      * cbn. rewrite <- Hr. reflexivity.
      * cbn. rewrite Hl. reflexivity.
      * rewrite prodn_cons, Hv. lia.
      * intros more k H0. cbn [app roff]. rewrite Hk by (rewrite prodn_cons in H0; lia).
        assert (Hn : n <> 0) by (intro; subst; cbn in H0; lia).
        assert (Hp : prodn pre <> 0) by (intro E0; rewrite prodn_cons, Hr, prodn_app, E0 in H0; lia).
        rewrite prodn_cons, Nat.div_div by assumption.
        rewrite (Nat.mod_mul_r k n (prodn pre)) by assumption. lia.
    + intros E. injection E as <- <- <-. exists []. split; [reflexivity|split; [reflexivity|split; [rewrite prodn_nil; lia|]]].
      intros more k _. change (([] ++ more)) with more. rewrite prodn_nil, Nat.div_1_r, Nat.mod_1_r. reflexivity.
Qed.

(** ** Soundness: an accepted view addresses the same entries *)
Lemma fill_chunks_sound rsh : forall rst base numel rnew out, length rst = length rsh ->
  fill_chunks base numel rsh rst rnew = Some out -> numel * prodn rsh <> 0 -> prodn rnew <> 0 ->
  length out = length rnew /\
  forall k, k < numel * prodn rsh -> roff (numel :: rsh) (base :: rst) k = roff rnew out k.
Proof.
  induction rsh as [|n rsh IH]; intros [|s rst] base numel rnew out Hl H Hne Hnn; try discriminate; cbn [fill_chunks] in H.
  - destruct (fill_chunk numel base 1 rnew) as [[st vn] rest] eqn:E.
    destruct (fill_chunk_spec _ _ _ _ _ _ _ E) as [pre [Hr [Hs [Hv Hk]]]].
    destruct (Nat.eqb_spec vn numel) as [->|]; [|discriminate]. destruct rest; [|discriminate]. injection H as <-.
    split; [rewrite Hs, Hr, app_length; cbn; lia|].
    intros k Hk'. cbn in Hk'. rewrite Nat.mul_1_l in Hv.
    generalize (Hk [] k Hnn). rewrite app_nil_r. intros ->. cbn. rewrite <- Hv. lia.
  - rewrite prodn_cons in Hne.
    destruct (Nat.eqb n 1 || Nat.eqb s (numel * base)) eqn:Em.
    + destruct (IH rst base (numel * n) rnew out) as [Ho Hk]; try assumption; try lia; [injection Hl; auto|].
      split; [exact Ho|]. intros k Hk'. rewrite prodn_cons in Hk'. rewrite <- Hk by lia. cbn [roff].
      assert (Hn : n <> 0) by (intro; subst; lia).
      assert (Hm : numel <> 0) by (intro; subst; lia).
      rewrite <- Nat.div_div by assumption.
      rewrite (Nat.mod_mul_r k numel n) by assumption.
      apply orb_prop in Em. destruct Em as [Em|Em]; apply Nat.eqb_eq in Em; subst.
      * rewrite Nat.mod_1_r. lia.
      * lia.
    + destruct (fill_chunk numel base 1 rnew) as [[st vn] rest] eqn:E.
      destruct (fill_chunk_spec _ _ _ _ _ _ _ E) as [pre [Hr [Hs [Hv Hk]]]].
      destruct (Nat.eqb_spec vn numel) as [->|]; [|discriminate].
      destruct (fill_chunks s n rsh rst rest) as [more|] eqn:Ec; [|discriminate]. injection H as <-.
      rewrite Nat.mul_1_l in Hv.
      destruct (IH rst s n rest more) as [Ho Hk2]; try assumption; [injection Hl; auto|lia| |].
      { intro E0. apply Hnn. rewrite Hr, prodn_app, E0. lia. }
      split; [rewrite app_length, Ho, Hs, Hr, app_length; reflexivity|].
      intros k Hk'. rewrite prodn_cons in Hk'. rewrite Hk by exact Hnn.
      assert (Hm : numel <> 0) by (intro; subst; lia).
      rewrite <- Hv, Nat.mul_1_l. rewrite <- Hk2 by (apply Nat.div_lt_upper_bound; lia). reflexivity.
Qed.

Lemma packed_length sh : length (packed sh) = length sh.
Proof. induction sh; cbn; auto. Qed.

Lemma view_strides_sound sh st new out : length st = length sh -> prodn new = prodn sh ->
  view_strides sh st new = Some out ->
  length out = length new /\ forall k, k < prodn sh -> dot out (unravel new k) = dot st (unravel sh k).
Proof.
  intros Hl Hp. unfold view_strides.
  destruct (Nat.eqb_spec (prodn sh) 0) as [E0|E0].
  - intros H. split; [|intros k Hk; lia].
    destruct (list_eq_dec Nat.eq_dec sh new) as [->|]; injection H as <-; [exact Hl|]. rewrite packed_length, map_length. reflexivity.
  - destruct (rev sh) as [|n rsh] eqn:Es.
    + intros H. assert (sh = []) by (rewrite <- (rev_involutive sh), Es; reflexivity). subst sh.
      destruct st; [|discriminate]. change (prodn []) with 1 in *.
      assert (Ho : out = map (fun _ => 1) new) by congruence. subst out. split; [apply map_length|].
      intros k Hk. assert (k = 0) by lia. subst k. change (dot [] (unravel [] 0)) with 0.
      assert (forall s, prodn s = 1 -> dot (map (fun _ => 1) s) (unravel s 0) = 0) as Hz.
      { induction s as [|a s IHs]; [reflexivity|]. intros Ha. rewrite prodn_cons in Ha. cbn [map unravel dot].
        assert (Hs1 : prodn s = 1) by (apply Nat.eq_mul_1 in Ha; lia). rewrite Hs1. change (0 mod 1) with 0. rewrite IHs by assumption. reflexivity. }
      apply Hz. exact Hp.
    + destruct (rev st) as [|s rst] eqn:Et.
      { assert (length (rev st) = length (rev sh)) by (rewrite !rev_length; exact Hl). rewrite Et, Es in H. discriminate. }
      destruct (fill_chunks s n rsh rst (rev new)) as [r|] eqn:Ef; [|discriminate]. intros H. injection H as <-.
      assert (Hlr : length rst = length rsh).
      { assert (length (rev st) = length (rev sh)) by (rewrite !rev_length; exact Hl). rewrite Et, Es in H. injection H; auto. }
      assert (Hps : n * prodn rsh = prodn sh) by (rewrite <- (prodn_rev sh), Es; reflexivity).
      destruct (fill_chunks_sound _ _ _ _ _ _ Hlr Ef) as [Ho Hk]; [lia|rewrite prodn_rev; lia|].
      rewrite rev_length, Ho, rev_length. split; [reflexivity|].
      intros k Hk'. rewrite dot_roff' by (try (rewrite rev_length, Ho, rev_length; reflexivity); lia).
      rewrite rev_involutive. rewrite <- Hk by lia. rewrite (dot_roff' sh st) by assumption. rewrite Es, Et. reflexivity.
Qed.

(** ** Completeness: a view is refused only if no strides address the new shape *)
Lemma roff_0 rsh : forall rst, roff rsh rst 0 = 0.
Proof.
  induction rsh as [|n rsh IH]; intros [|s rst]; cbn [roff]; try reflexivity.
  destruct n; [cbn; apply IH|]. rewrite Nat.div_0_l, Nat.mod_0_l, IH by lia. lia.
Qed.


Lemma roff_merge n m s rsh rst k b : n <> 0 -> m <> 0 -> (m = 1 \/ s = n * b) ->
  roff (n :: m :: rsh) (b :: s :: rst) k = roff (n * m :: rsh) (b :: rst) k.
Proof.
  intros Hn Hm H. cbn [roff]. rewrite <- Nat.div_div by assumption.
  rewrite (Nat.mod_mul_r k n m) by assumption.
  destruct H as [->| ->]; [rewrite Nat.mod_1_r|]; lia.
Qed.
Lemma prodn_1_hd s : prodn s = 1 -> s = [] \/ hd 0 s = 1.
Proof. destruct s as [|n s]; [auto|]. rewrite prodn_cons. intros H. right. cbn. apply Nat.eq_mul_1 in H. lia. Qed.

Lemma fill_chunk_complete numel base total (F : nat -> nat) rnew : forall vn rst,
  length rst = length rnew -> vn * prodn rnew = total -> total <> 0 -> numel <= total -> vn <= numel ->
  (forall j, j < total -> F j = roff (vn :: rnew) (base :: rst) j) ->
  (forall j, j < numel -> F j = j * base) ->
  (numel < total -> F numel <> numel * base) ->
  exists st rest rst', fill_chunk numel base vn rnew = (st, numel, rest) /\ length rst' = length rest /\
    numel * prodn rest = total /\ (rest = [] \/ hd 0 rest <> 1) /\
    forall j, j < total -> F j = roff (numel :: rest) (base :: rst') j.
Proof.
  induction rnew as [|n r IH]; intros vn rst Hl Ht H0 Hnt Hvn HF Hlin Hend; cbn [fill_chunk].
  - rewrite prodn_nil in Ht. assert (vn = numel) by lia. subst vn. destruct rst; [|discriminate].
    exists [], [], []. repeat split; auto; cbn; lia.
  - destruct rst as [|s rst]; [discriminate|]. rewrite prodn_cons in Ht.
    assert (Hv : vn <> 0) by (intro; subst; lia).
    assert (Hn : n <> 0) by (intro; subst; lia).
    assert (Hr : prodn r <> 0) by (intro E; rewrite E in Ht; lia).
    destruct (Nat.ltb_spec vn numel) as [Hlt|Hge]; [|destruct (Nat.eqb_spec n 1) as [H1|H1]]; cbn [orb].
    + assert (Hs : n = 1 \/ s = vn * base).
      { destruct (Nat.eq_dec n 1) as [|Hn1]; [auto|right].
        assert (E1 : F vn = vn * base) by (apply Hlin; exact Hlt).
        rewrite HF in E1 by lia. cbn [roff] in E1.
        rewrite Nat.mod_same, Nat.div_same, Nat.mod_small, Nat.div_small, roff_0 in E1 by lia. lia. }
      assert (HF' : forall j, j < total -> F j = roff (vn * n :: r) (base :: rst) j).
      { intros j Hj. rewrite HF by exact Hj. apply roff_merge; assumption. }
      assert (Hle : vn * n <= numel).
      { destruct (Nat.le_gt_cases (vn * n) numel) as [|Hgt]; [assumption|exfalso].
        assert (Hx : numel < total) by nia. apply (Hend Hx). rewrite HF' by exact Hx. cbn [roff].
        rewrite Nat.mod_small, Nat.div_small, roff_0 by exact Hgt. lia. }
      destruct (IH (vn * n) rst) as [st [rest [rst' [E [A [B [C Dd]]]]]]]; try assumption; try lia; [injection Hl; auto|].
      rewrite E. exists (vn * base :: st), rest, rst'. auto.
    + subst n. destruct (IH (vn * 1) rst) as [st [rest [rst' [E [A [B [C Dd]]]]]]]; try assumption; try lia; [injection Hl; auto| |].
      { intros j Hj. rewrite HF by exact Hj. apply roff_merge; auto. }
      rewrite E. exists (vn * base :: st), rest, rst'. auto.
    + assert (vn = numel) by lia. subst vn.
      exists [], (n :: r), (s :: rst). repeat split; auto.
Qed.

Lemma fill_chunks_complete rsh : forall rst base numel rnew nst, length rst = length rsh -> length nst = length rnew ->
  numel * prodn rsh <> 0 -> prodn rnew = numel * prodn rsh ->
  (forall k, k < numel * prodn rsh -> roff (numel :: rsh) (base :: rst) k = roff rnew nst k) ->
  exists out, fill_chunks base numel rsh rst rnew = Some out.
Proof.
  induction rsh as [|n rsh IH]; intros [|s rst] base numel rnew nst Hl Hln Hne Hnn HF; try discriminate; cbn [fill_chunks].
  - rewrite prodn_nil in *.
    destruct (fill_chunk_complete numel base (numel * 1) (roff [numel] [base]) rnew 1 nst)
      as [st [rest [rst' [E [A [B [C Dd]]]]]]]; try assumption; try lia.
    + intros j Hj. rewrite HF by exact Hj. cbn [roff]. rewrite Nat.mod_1_r, Nat.div_1_r. lia.
    + intros j Hj. cbn [roff]. rewrite Nat.mod_small by exact Hj. lia.
    + rewrite E, Nat.eqb_refl. assert (Hr1 : prodn rest = 1) by nia.
      destruct (prodn_1_hd _ Hr1) as [->|Hh]; [eauto|]. destruct C as [->|C]; [eauto|contradiction].
  - rewrite prodn_cons in *.
    assert (Hn : n <> 0) by (intro; subst; lia).
    assert (Hm : numel <> 0) by (intro; subst; lia).
    assert (Hp : prodn rsh <> 0) by (intro E; rewrite E in Hne; lia).
    destruct (Nat.eqb_spec n 1) as [H1|H1]; [|destruct (Nat.eqb_spec s (numel * base)) as [H2|H2]]; cbn [orb].
    + apply (IH rst base (numel * n) rnew nst); try assumption; try lia; [injection Hl; auto|].
      intros k Hk. rewrite <- HF by lia. symmetry. apply roff_merge; auto.
    + apply (IH rst base (numel * n) rnew nst); try assumption; try lia; [injection Hl; auto|].
      intros k Hk. rewrite <- HF by lia. symmetry. apply roff_merge; auto.
    + assert (Hge : numel <= numel * (n * prodn rsh)).
      { rewrite <- (Nat.mul_1_r numel) at 1. apply Nat.mul_le_mono_l. destruct n, (prodn rsh); cbn; lia. }
      destruct (fill_chunk_complete numel base (numel * (n * prodn rsh)) (roff (numel :: n :: rsh) (base :: s :: rst)) rnew 1 nst)
        as [st [rest [rst' [E [A [B [C Dd]]]]]]]; try assumption; try lia; try nia.
      * intros j Hj. rewrite HF by exact Hj. cbn [roff]. rewrite Nat.mod_1_r, Nat.div_1_r. lia.
      * intros j Hj. cbn [roff]. rewrite (Nat.mod_small j), (Nat.div_small j), Nat.mod_0_l, Nat.div_0_l, roff_0 by assumption. lia.
      * intros _. cbn [roff]. rewrite Nat.mod_same, Nat.div_same by assumption.
        rewrite (Nat.mod_small 1 n), (Nat.div_small 1 n), roff_0 by lia. lia.
      * rewrite E, Nat.eqb_refl.
        destruct (IH rst s n rest rst') as [out Ho]; try assumption; try lia; try nia; [injection Hl; auto| |].
        { intros k Hk. assert (Hk' : numel * k < numel * (n * prodn rsh)) by nia.
          generalize (Dd _ Hk'). cbn [roff].
          rewrite (Nat.mul_comm numel k), Nat.mod_mul, Nat.div_mul by assumption. lia. }
        rewrite Ho. eauto.
Qed.

Lemma view_strides_complete sh st new : length st = length sh -> prodn new = prodn sh ->
  (exists ns, length ns = length new /\ forall k, k < prodn sh -> dot ns (unravel new k) = dot st (unravel sh k)) ->
  exists out, view_strides sh st new = Some out.
Proof.
  intros Hl Hp [ns [Hln HF]]. unfold view_strides.
  destruct (Nat.eqb_spec (prodn sh) 0) as [E0|E0].
  - destruct (list_eq_dec Nat.eq_dec sh new); eauto.
  - destruct (rev sh) as [|n rsh] eqn:Es; [eauto|].
    destruct (rev st) as [|s rst] eqn:Et; [eauto|].
    assert (Hlr : length rst = length rsh).
    { assert (length (rev st) = length (rev sh)) by (rewrite !rev_length; exact Hl). rewrite Et, Es in H. injection H; auto. }
    assert (Hps : n * prodn rsh = prodn sh) by (rewrite <- (prodn_rev sh), Es; reflexivity).
    destruct (fill_chunks_complete rsh rst s n (rev new) (rev ns)) as [out Ho]; try assumption.
    + rewrite !rev_length. exact Hln.
    + lia.
    + rewrite prodn_rev. lia.
    + intros k Hk. rewrite <- Es, <- Et, <- dot_roff' by (try assumption; lia).
      rewrite <- HF by lia. apply dot_roff'; [exact Hln|lia].
    + rewrite Ho. eauto.
Qed.

(** ** view *)
Lemma sview_addressable new x : laid_out x -> prodn new = prodn (s_shape x) ->
  ((exists y, sview new x = Ok y) <-> addressable new x).
Proof.
  intros Hl Hp. unfold sview. rewrite Hp, Nat.eqb_refl. split.
  - intros [y H]. destruct (view_strides _ _ _) as [st|] eqn:E; [|discriminate].
    destruct (view_strides_sound _ _ _ _ Hl Hp E) as [A B]. exists st. auto.
  - intros H. destruct (view_strides_complete _ _ _ Hl Hp H) as [out ->]. eauto.
Qed.
Lemma dense_shape x : shape (dense x) = s_shape x. Proof. reflexivity. Qed.
Lemma dense_wft x : wft (dense x). Proof. apply wft_build. Qed.

Lemma sview_ok new x y : laid_out x -> sview new x = Ok y ->
  prodn new = prodn (s_shape x) /\ s_shape y = new /\ laid_out y /\ dense y = mkT new (data (dense x)).
Proof.
  intros Hl. unfold sview. destruct (Nat.eqb_spec (prodn new) (prodn (s_shape x))) as [Hp|]; [|discriminate].
  destruct (view_strides _ _ _) as [st|] eqn:E; [|discriminate]. intros H. injection H as <-.
  destruct (view_strides_sound _ _ _ _ Hl Hp E) as [A B]. split; [exact Hp|]. split; [reflexivity|]. split; [exact A|].
  unfold dense, build, indices. cbn [s_shape s_strides s_offset s_memory data]. f_equal.
  rewrite Hp, !map_map. apply map_ext_in. intros k Hk. apply in_seq in Hk. rewrite B by lia. reflexivity.
Qed.
Lemma sview_err new x e : sview new x = Err e -> e = RuntimeError.
Proof. unfold sview. destruct (Nat.eqb _ _); [destruct (view_strides _ _ _)|]; congruence. Qed.

(** When the shape is addressable, view is the view of the values. *)
Lemma sview_dense new x : laid_out x -> (prodn new = prodn (s_shape x) -> addressable new x) ->
  rmap dense (sview new x) = view new (dense x).
Proof.
  intros Hl Ha. destruct (Nat.eq_dec (prodn new) (prodn (s_shape x))) as [Hp|Hp].
  - destruct (proj2 (sview_addressable new x Hl Hp) (Ha Hp)) as [y Hy]. rewrite Hy. cbn [rmap].
    destruct (sview_ok _ _ _ Hl Hy) as [_ [_ [_ ->]]]. rewrite view_ok by (rewrite dense_shape; exact Hp). reflexivity.
  - rewrite view_err by (rewrite dense_shape; exact Hp). unfold sview.
    destruct (Nat.eqb_spec (prodn new) (prodn (s_shape x))); [contradiction|reflexivity].
Qed.
