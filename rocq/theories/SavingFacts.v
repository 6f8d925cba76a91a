(** Facts about layers on the heap (Saving.v). *)
From Coq Require Import String ZArith.
From Verif Require Import Prelude RMath Mat Interp SO2 O2 O3 Tensor TensorFacts Kernel Conv Public Network Saving.
Open Scope R_scope.

Lemma Forall2_in_l {A B} (P : A -> B -> Prop) l m x : Forall2 P l m -> In x l -> exists y, In y m /\ P x y.
Proof. induction 1; intros []; [subst; eexists; split; [left; reflexivity|assumption]|]. destruct (IHForall2 H1) as (z & ? & ?). exists z. split; [right|]; assumption. Qed.
Lemma Forall2_compose {A B C} (P : A -> B -> Prop) (Q : B -> C -> Prop) (S : A -> C -> Prop) l m n :
  (forall a b c, P a b -> Q b c -> S a c) -> Forall2 P l m -> Forall2 Q m n -> Forall2 S l n.
Proof. intros H HP. revert n. induction HP; intros n HQ; inversion HQ; subst; constructor; eauto. Qed.

Section Facts.
  Context {G P : Type} {D : Dflt P}.
  Context (fam : family) (mul : G -> G -> G) (edim d : nat) (make : kind -> sargs -> list G -> (list nat -> R) -> result (gmodule G P)).
  Notation gt := (gtens G P).
  Notation hp := (@heap G P).
  Notation obj := (@object G P).
  Notation at0 s l := (nth l s (GGrid [])).
  Notation fits_into := (fits_into edim d).
  Notation gshape := (gshape edim d).
  Notation load_all := (load_all edim d).
  Notation load := (load edim d).
  Notation construct := (construct make).
  Notation act := (act edim d make).
  Notation execute := (execute edim d make).
  Notation trained := (trained edim d).

  Lemma fits_iff (a b : gt) : fits_into a b = true <-> same_sort a b = true /\ gshape a = gshape b.
  Proof.
    unfold Saving.fits_into. destruct (list_eq_dec Nat.eq_dec (gshape a) (gshape b)) as [E|E].
    - rewrite Bool.andb_true_r. tauto.
    - rewrite Bool.andb_false_r. split; [discriminate|tauto].
  Qed.
  Lemma fits_refl (a : gt) : fits_into a a = true.
  Proof. apply fits_iff. split; [destruct a; reflexivity|reflexivity]. Qed.
  Lemma fits_sym (a b : gt) : fits_into a b = true -> fits_into b a = true.
  Proof. rewrite !fits_iff. intros [H E]. split; [destruct a, b; try discriminate; reflexivity|congruence]. Qed.
  Lemma fits_trans (a b c : gt) : fits_into a b = true -> fits_into b c = true -> fits_into a c = true.
  Proof. rewrite !fits_iff. intros [H E] [H' E']. split; [destruct a, b; try discriminate; destruct c; try discriminate; reflexivity|congruence]. Qed.
  Lemma build_fits sh f g : fits_into (GReal (build sh f) : gt) (GReal (build sh g) : gt) = true.
  Proof. apply fits_iff. split; reflexivity. Qed.

  (** ** the heap *)
  Lemma put_length (s : hp) l t : List.length (put s l t) = List.length s.
  Proof.
    unfold put. rewrite app_length. rewrite <- (firstn_skipn l s) at 3. rewrite app_length. f_equal. destruct (skipn l s); reflexivity.
  Qed.
  Lemma put_same (s : hp) l t : (l < List.length s)%nat -> at0 (put s l t) l = t.
  Proof.
    intros H. unfold put. rewrite app_nth2; rewrite firstn_length_le by lia; [|lia]. rewrite Nat.sub_diag.
    destruct (skipn l s) eqn:E; [|reflexivity]. apply (f_equal (@List.length gt)) in E. rewrite skipn_length in E. cbn in E. lia.
  Qed.
  Lemma put_other (s : hp) l l' t : l <> l' -> at0 (put s l t) l' = at0 s l'.
  Proof.
    intros H. unfold put. destruct (Nat.lt_ge_cases l (List.length s)) as [L|L].
    2:{ rewrite skipn_all2, firstn_all2, app_nil_r by lia. reflexivity. }
    rewrite <- (firstn_skipn l s) at 3. destruct (Nat.lt_ge_cases l' l) as [Q|Q].
    - rewrite !app_nth1 by (rewrite firstn_length_le; lia). reflexivity.
    - rewrite !app_nth2 by (rewrite firstn_length_le; lia). rewrite firstn_length_le by lia.
      destruct (l' - l)%nat eqn:E; [lia|]. destruct (skipn l s); reflexivity.
  Qed.

  (** s' has at least the tensors of s, each of its old shape. *)
  Definition evolved (s s' : hp) : Prop :=
    (List.length s <= List.length s')%nat /\ forall l, (l < List.length s)%nat -> fits_into (at0 s l) (at0 s' l) = true.
  Lemma evolved_refl s : evolved s s.
  Proof. split; [lia|]. intros. apply fits_refl. Qed.
  Lemma evolved_trans a b c : evolved a b -> evolved b c -> evolved a c.
  Proof. intros [L1 H1] [L2 H2]. split; [lia|]. intros l Hl. apply fits_trans with (at0 b l); [apply H1; lia|apply H2; lia]. Qed.
  Lemma evolved_put s l t : fits_into (at0 s l) t = true -> evolved s (put s l t).
  Proof.
    intros H. split; [rewrite put_length; lia|]. intros l' Hl'. destruct (Nat.eq_dec l l') as [<-|N].
    - rewrite put_same by assumption. assumption.
    - rewrite put_other by assumption. apply fits_refl.
  Qed.
  Lemma evolved_app s t : evolved s (s ++ t).
  Proof. split; [rewrite app_length; lia|]. intros l Hl. rewrite app_nth1 by assumption. apply fits_refl. Qed.

  (** ** loading *)
  Lemma load_all_frame es f : forall s, let s' := fst (load_all es f s) in
    evolved s s' /\ List.length s' = List.length s /\ (forall l, ~ In l (map snd es) -> at0 s' l = at0 s l).
  Proof.
    induction es as [|[k l] r IH]; intros s; cbn [Saving.load_all].
    - cbn [fst]. repeat split; auto. intros; apply fits_refl.
    - assert (Skip : let s' := fst (load_all r f s) in
        evolved s s' /\ List.length s' = List.length s /\ (forall l', ~ In l' (map snd ((k, l) :: r)) -> at0 s' l' = at0 s l')).
      { destruct (IH s) as (A & B & C). split; [exact A|]. split; [exact B|]. intros l' Hl'. apply C. intros Hin. apply Hl'. right. assumption. }
      destruct (find_key k f) as [t|]; [|exact Skip]. destruct (fits_into (at0 s l) t) eqn:E; [|exact Skip].
      destruct (IH (put s l t)) as (A & B & C). split; [eapply evolved_trans; [apply evolved_put; exact E|exact A]|].
      split; [rewrite B; apply put_length|]. intros l' Hl'. rewrite C; [|intros Hin; apply Hl'; right; assumption].
      apply put_other. intros ->. apply Hl'. left. reflexivity.
  Qed.
  (** Entry by entry: what a load stores. *)
  Definition after_load (f : @file G P) (k : string) (old : gt) : gt :=
    match find_key k f with Some t => if fits_into old t then t else old | None => old end.
  Lemma load_all_entries es f : forall s, NoDup (map snd es) -> (forall k l, In (k, l) es -> (l < List.length s)%nat) ->
    (forall k l, In (k, l) es -> at0 (fst (load_all es f s)) l = after_load f k (at0 s l)) /\
    (snd (load_all es f s) = true <-> forall k l, In (k, l) es -> exists t, find_key k f = Some t /\ fits_into (at0 s l) t = true).
  Proof.
    induction es as [|[k l] r IH]; intros s Hn Hb; cbn [Saving.load_all].
    - split; [intros ? ? []|]. split; [intros _ ? ? []|reflexivity].
    - cbn [map snd] in Hn. inversion Hn as [|? ? Hni Hn']; subst.
      assert (Hb' : forall s1 : hp, List.length s1 = List.length s -> forall k l, In (k, l) r -> (l < List.length s1)%nat) by (intros s1 E k' l' Hin; rewrite E; apply (Hb k'); right; assumption).
      assert (Skip : after_load f k (at0 s l) = at0 s l -> (forall t, find_key k f = Some t -> fits_into (at0 s l) t = true -> False) ->
        (forall k' l', In (k', l') ((k, l) :: r) -> at0 (fst (load_all r f s)) l' = after_load f k' (at0 s l')) /\
        (false = true <-> forall k' l', In (k', l') ((k, l) :: r) -> exists t, find_key k' f = Some t /\ fits_into (at0 s l') t = true)).
      { intros E Hno. destruct (IH s Hn' (Hb' s eq_refl)) as [A _]. split.
        - intros k' l' [Hin|Hin]; [injection Hin as <- <-; rewrite E; apply (load_all_frame r f s); assumption|apply A; assumption].
        - split; [discriminate|]. intros Ha. destruct (Ha k l (or_introl eq_refl)) as (t & H1 & H2). destruct (Hno t H1 H2). }
      unfold after_load in Skip. destruct (find_key k f) as [t|] eqn:Ek; [destruct (fits_into (at0 s l) t) eqn:Ef|].
      2:{ cbn [fst snd]. apply Skip; [reflexivity|]. intros t' Ht'. injection Ht' as <-. congruence. }
      2:{ cbn [fst snd]. apply Skip; [reflexivity|]. discriminate. }
      clear Skip. destruct (IH (put s l t) Hn' (Hb' _ (put_length s l t))) as [A B].
      assert (Hne : forall k' l', In (k', l') r -> l <> l') by (intros k' l' Hin ->; apply Hni; apply in_map_iff; exists (k', l'); auto).
      split.
      + intros k' l' [Hin|Hin].
        * injection Hin as <- <-. rewrite (proj2 (proj2 (load_all_frame r f (put s l t)))) by assumption. rewrite put_same by (apply (Hb k); left; reflexivity).
          unfold after_load. rewrite Ek, Ef. reflexivity.
        * rewrite (A k' l' Hin), put_other; [reflexivity|eapply Hne; exact Hin].
      + rewrite B. split; intros Ha k' l' Hin.
        * destruct Hin as [Hin|Hin]; [injection Hin as <- <-; exists t; auto|]. specialize (Ha k' l' Hin). rewrite put_other in Ha; [exact Ha|eapply Hne; exact Hin].
        * rewrite put_other by (eapply Hne; exact Hin). apply Ha. right. assumption.
  Qed.

  (** ** the shape of a layer *)
  Definition slots (y : obj) : list nat := map snd (dict y).
  Definition own (y : obj) : list nat := map snd (filter (fun kl => negb (String.eqb (fst kl) "kernel.grid_H")) (dict y)).
  Definition opt_named (k : string) (t : option (tensor R)) : @file G P := match t with Some t => [(k, GReal t)] | None => [] end.
  Definition proto (y : obj) : @file G P :=
    let L := gm_layer (o_attr y) in let k := l_kernel L in
    opt_named "bias" (l_bias L) ++
    opt_named "kernel.weight_H" (match o_kind y with KSeparable => Some (build (group_weight_shape k) (fun _ => 0)) | _ => None end) ++
    [("kernel.weight"%string, GReal (build (weight_dims (o_kind y) k) (fun _ => 0))); ("kernel.grid_H"%string, GGrid (k_grid_H k));
     ("kernel.grid_Rn"%string, GSpace (k_grid_Rn k))] ++
    opt_named "kernel.mask" (k_mask k).
  Definition typed (s : hp) (y : obj) : Prop :=
    Forall2 (fun kl kt => fst kl = fst kt /\ (snd kl < List.length s)%nat /\ fits_into (snd kt) (at0 s (snd kl)) = true) (dict y) (proto y).

  Lemma typed_in s y l : typed s y -> In l (slots y) -> (l < List.length s)%nat.
  Proof.
    intros T Hl. apply in_map_iff in Hl as ([k l'] & E & Hin). cbn in E. subst l'.
    destruct (Forall2_in_l _ _ _ _ T Hin) as ([k' t] & Hp & _ & Hb & _). exact Hb.
  Qed.
  Lemma typed_evolved s s' y : typed s y -> evolved s s' -> typed s' y.
  Proof.
    intros T [L E]. unfold typed in *. induction T as [|[k l] [k' t] es ps (H1 & H2 & H3) _ IH]; constructor; [|exact IH].
    cbn [fst snd] in *. split; [assumption|]. split; [lia|]. eapply fits_trans; [exact H3|]. apply E. assumption.
  Qed.
  Definition made (y : obj) : Prop := exists g fb, make (o_kind y) (o_args y) g fb = Ok (o_attr y).
  Definition layer_ok (s : hp) (y : obj) : Prop := typed s y /\ NoDup (slots y) /\ made y.

  Lemma keys_nodup (y : obj) : NoDup (map fst (dict y)).
  Proof. unfold dict. rewrite !map_app. cbn [map fst]. destruct (o_bias y), (o_weight_H y), (o_mask y); cbn; repeat (constructor; [simpl; intuition discriminate|]); constructor. Qed.
  Lemma find_in k t (f : @file G P) : NoDup (map fst f) -> In (k, t) f -> find_key k f = Some t.
  Proof.
    unfold find_key. induction f as [|[k' t'] r IH]; intros N []; cbn [find fst].
    - injection H as -> ->. rewrite String.eqb_refl. reflexivity.
    - cbn [map fst] in N. inversion N as [|? ? Hni N']; subst. destruct (String.eqb_spec k' k) as [->|_]; [|auto].
      exfalso. apply Hni. apply in_map_iff. exists (k, t). auto.
  Qed.
  Lemma stored_keys (s : hp) y : map fst (stored s y) = map fst (dict y).
  Proof. unfold stored. rewrite map_map. reflexivity. Qed.

  Lemma slots_split (y : obj) x : In x (slots y) <-> In x (own y) \/ x = o_grid_H y.
  Proof. unfold slots, own, dict. destruct (o_bias y), (o_weight_H y), (o_mask y); cbn; intuition. Qed.
  Lemma grid_entry (y : obj) : In ("kernel.grid_H"%string, o_grid_H y) (dict y).
  Proof. unfold dict. rewrite !in_app_iff. cbn. intuition. Qed.
  Lemma space_entry (y : obj) : In ("kernel.grid_Rn"%string, o_grid_Rn y) (dict y).
  Proof. unfold dict. rewrite !in_app_iff. cbn. intuition. Qed.

  (** ** construction *)
  Definition grid_stage (s : hp) (grid : nat + list G) : hp * nat := match grid with inl l => (s, l) | inr g => (s ++ [GGrid g], List.length s) end.
  Lemma stage_app (s : hp) grid : exists t, fst (grid_stage s grid) = s ++ t.
  Proof. destruct grid; [exists []; rewrite app_nil_r; reflexivity|eexists; reflexivity]. Qed.

  Context (make_fills : forall kd A g fb M, make kd A g fb = Ok M -> k_grid_H (l_kernel (gm_layer M)) = g /\ l_bias (gm_layer M) = new_bias d A fb).
  Context (make_alike : forall kd A g g' fb fb' M M', make kd A g fb = Ok M -> make kd A g' fb' = Ok M' -> List.length g = List.length g' ->
    let k := l_kernel (gm_layer M) in let k' := l_kernel (gm_layer M') in
    k_grid_Rn k = k_grid_Rn k' /\ k_mask k = k_mask k' /\ weight_dims kd k = weight_dims kd k' /\ group_weight_shape k = group_weight_shape k').

  Lemma construct_app s kd A grid fH f fb : exists t, fst (construct s kd A grid fH f fb) = s ++ t.
  Proof.
    unfold Saving.construct. fold (grid_stage s grid). destruct (stage_app s grid) as [t Ht]. destruct (grid_stage s grid) as [s0 l]. cbn [fst] in Ht. subst s0.
    destruct (g <- _ ;; _) as [M|e]; cbn [fst]; [|exists t; reflexivity]. rewrite <- app_assoc. eexists; reflexivity.
  Qed.
  Lemma construct_ok s kd A grid fH f fb s' y : construct s kd A grid fH f fb = (s', Ok y) ->
    o_kind y = kd /\ o_args y = A /\ o_grid_H y = snd (grid_stage s grid) /\
    (exists g, at0 s' (o_grid_H y) = GGrid g /\ make kd A g fb = Ok (o_attr y)) /\
    typed s' y /\ NoDup (slots y) /\ (forall x, In x (own y) -> (List.length s <= x)%nat) /\
    stored s' y = opt_named "bias" (l_bias (gm_layer (o_attr y))) ++
      (match kd with KSeparable => [("kernel.weight_H"%string, GReal (build (group_weight_shape (l_kernel (gm_layer (o_attr y)))) fH))] | _ => [] end) ++
      [("kernel.weight"%string, GReal (build (weight_dims kd (l_kernel (gm_layer (o_attr y)))) f));
       ("kernel.grid_H"%string, GGrid (k_grid_H (l_kernel (gm_layer (o_attr y)))));
       ("kernel.grid_Rn"%string, GSpace (k_grid_Rn (l_kernel (gm_layer (o_attr y)))))] ++
      opt_named "kernel.mask" (k_mask (l_kernel (gm_layer (o_attr y)))).
  Proof.
    unfold Saving.construct. fold (grid_stage s grid). destruct (stage_app s grid) as [t Ht]. destruct (grid_stage s grid) as [s0 l]. cbn [fst snd] in *.
    destruct (nth l s0 (GSpace (mkT [] []))) as [g|?|?] eqn:Eg; cbn [the_grid bind]; try discriminate.
    assert (Hl : (l < List.length s0)%nat) by (destruct (Nat.lt_ge_cases l (List.length s0)); [assumption|rewrite nth_overflow in Eg by assumption; discriminate]).
    rewrite (nth_indep _ _ (GGrid [])) in Eg by assumption.
    destruct (make kd A g fb) as [M|e] eqn:EM; [|discriminate]. intros H. injection H as Es Ey. subst y.
    destruct (make_fills _ _ _ _ _ EM) as [HgM _]. cbn [o_kind o_args o_grid_H o_attr].
    set (k := l_kernel (gm_layer M)) in *.
    lazymatch type of Es with s0 ++ ?x = _ => set (news := x) in Es end.
    assert (Hold : forall i, (i < List.length s0)%nat -> at0 s' i = at0 s0 i) by (intros i Hi; rewrite <- Es; apply app_nth1; exact Hi).
    assert (Hnew : forall i, at0 s' (List.length s0 + i) = at0 news i).
    { intros i. rewrite <- Es. rewrite app_nth2 by lia. f_equal. lia. }
    assert (Hsz : List.length s' = (List.length s0 + List.length news)%nat) by (rewrite <- Es, app_length; reflexivity).
    assert (Hs0 : (List.length s <= List.length s0)%nat) by (rewrite Ht, app_length; lia).
    assert (Hg' : at0 s' l = GGrid g) by (rewrite Hold; assumption).
    clear Es Ht. do 3 (split; [reflexivity|]). split; [exists g; split; [exact Hg'|exact EM]|].
    assert (Z0 := Hnew 0%nat). assert (Z1 := Hnew 1%nat). assert (Z2 := Hnew 2%nat). assert (Z3 := Hnew 3%nat). assert (Z4 := Hnew 4%nat). clear Hnew. subst news.
    set (n0 := List.length s0) in *. clearbody n0.
    rewrite ?Nat.add_0_r, ?Nat.add_1_r in *.
    replace (n0 + 2)%nat with (S (S n0)) in Z2 by lia. replace (n0 + 3)%nat with (S (S (S n0))) in Z3 by lia.
    replace (n0 + 4)%nat with (S (S (S (S n0)))) in Z4 by lia.
    destruct (k_mask k) as [mk|] eqn:Em; destruct (l_bias (gm_layer M)) as [bb|] eqn:Eb; destruct kd; cbn in Z0, Z1, Z2, Z3, Z4, Hsz;
      rewrite ?Nat.add_0_r, ?Nat.add_1_r in *; (split; [|split; [|split]]);
      lazymatch goal with
      | |- typed _ _ => unfold typed, dict, proto; cbn [o_kind o_attr o_bias o_weight_H o_weight o_grid_H o_grid_Rn o_mask]; fold k; rewrite Em, Eb, HgM; cbn;
          repeat (first [apply Forall2_nil | apply Forall2_cons]); cbn [fst snd]; (split; [reflexivity|split; [lia|rewrite ?Z0, ?Z1, ?Z2, ?Z3, ?Z4, ?Hg'; first [apply build_fits | apply fits_refl]]])
      | |- NoDup _ => unfold slots; cbn; repeat (constructor; [simpl; intuition lia|]); constructor
      | |- stored _ _ = _ => unfold stored, dict; cbn [o_kind o_attr o_bias o_weight_H o_weight o_grid_H o_grid_Rn o_mask]; cbn; rewrite ?Z0, ?Z1, ?Z2, ?Z3, ?Z4, ?Hg', ?HgM; reflexivity
      | |- _ => unfold own; cbn; intros x Hx; repeat destruct Hx as [<-|Hx]; try contradiction; lia
      end.
  Qed.

  (** ** every reachable process *)
  Record inv (w : @process G P) : Prop := {
    i_layers : forall i y, nth_error (p_layers w) i = Some y -> layer_ok (p_heap w) y;
    i_apart : forall i j y y', i <> j -> nth_error (p_layers w) i = Some y -> nth_error (p_layers w) j = Some y' ->
      forall x, In x (own y) -> ~ In x (slots y')
  }.
  Lemma layer_ok_evolved s s' y : layer_ok s y -> evolved s s' -> layer_ok s' y.
  Proof. intros (T & N & E) Ev. split; [eapply typed_evolved; eassumption|split; assumption]. Qed.
  Lemma inv_evolved w s' : inv w -> evolved (p_heap w) s' -> inv (mkProcess s' (p_layers w)).
  Proof. intros [L A] E. constructor; cbn [p_heap p_layers]; [|exact A]. intros i y Hy. eapply layer_ok_evolved; eauto. Qed.

  Lemma typed_grid s y : typed s y -> exists g, at0 s (o_grid_H y) = GGrid g /\ List.length g = List.length (kernel_grid (o_attr y)).
  Proof.
    intros T. destruct (Forall2_in_l _ _ _ _ T (grid_entry y)) as ([k' t] & Hp & E & _ & Hc). cbn [fst snd] in *. subst k'.
    assert (t = GGrid (kernel_grid (o_attr y))) as ->.
    { revert Hp. unfold proto, kernel_grid. destruct (l_bias _), (o_kind y), (k_mask _); cbn; intros Hp; repeat (destruct Hp as [Hp|Hp]); try contradiction; try discriminate; congruence. }
    apply fits_iff in Hc as [Hk Hs]. destruct (at0 s (o_grid_H y)) as [g|?|?]; try discriminate. exists g. split; [reflexivity|]. cbn in Hs. congruence.
  Qed.
  Lemma Forall2_filtered {A B} (Q : A -> B -> Prop) (f : A -> bool) (g : B -> bool) l m :
    Forall2 Q l m -> (forall a b, Q a b -> f a = g b) -> Forall2 Q (filter f l) (filter g m).
  Proof.
    intros H Hfg. induction H as [|a b l m Hab _ IH]; cbn [filter]; [constructor|]. rewrite (Hfg a b Hab).
    destruct (g b); [constructor; assumption|assumption].
  Qed.
  Lemma own_not_grid s y x : typed s y -> In x (own y) -> forall g, at0 s x <> GGrid g.
  Proof.
    intros T Hx g Eg. apply in_map_iff in Hx as ([k l] & E & Hin). cbn in E. subst l.
    pose proof (Forall2_filtered _ (fun kl => negb (String.eqb (fst kl) "kernel.grid_H")) (fun kt => negb (String.eqb (fst kt) "kernel.grid_H")) _ _ T
      (fun a b (H : fst a = fst b /\ _) => f_equal (fun z => negb (String.eqb z "kernel.grid_H")) (proj1 H))) as F.
    destruct (Forall2_in_l _ _ _ _ F Hin) as ([k' t] & Hp & _ & _ & Hc). cbn [fst snd] in Hc. rewrite Eg in Hc.
    apply fits_iff in Hc as [Hk _]. revert Hp. unfold proto.
    destruct (l_bias _), (o_kind y), (k_mask _); cbn; intros Hp; repeat (destruct Hp as [Hp|Hp]); try contradiction; injection Hp as <- <-; discriminate.
  Qed.

  Lemma load_frame s y f : let s' := fst (load s y f) in
    evolved s s' /\ List.length s' = List.length s /\ (forall l, ~ In l (slots y) -> at0 s' l = at0 s l).
  Proof. unfold Saving.load. pose proof (load_all_frame (dict y) f s) as H. destruct (load_all (dict y) f s) as [s1 ok]. exact H. Qed.
  Lemma train_frame es (new : string -> gt) : forall s : hp,
    let s' := fold_left (fun s kl => if fits_into (at0 s (snd kl)) (new (fst kl)) then put s (snd kl) (new (fst kl)) else s) es s in
    evolved s s' /\ List.length s' = List.length s /\ (forall l, ~ In l (map snd es) -> at0 s' l = at0 s l).
  Proof.
    induction es as [|[k l] r IH]; intros s; cbn [fold_left].
    - repeat split; auto. intros; apply fits_refl.
    - cbn [fst snd]. destruct (fits_into (at0 s l) (new k)) eqn:E.
      + destruct (IH (put s l (new k))) as (A & B & C). split; [eapply evolved_trans; [apply evolved_put; exact E|exact A]|].
        split; [rewrite B; apply put_length|]. intros l' Hl'. rewrite C; [|intros Hin; apply Hl'; right; assumption].
        apply put_other. intros ->. apply Hl'. left. reflexivity.
      + destruct (IH s) as (A & B & C). split; [exact A|]. split; [exact B|]. intros l' Hl'. apply C. intros Hin. apply Hl'. right. assumption.
  Qed.
  Lemma params_own (y : obj) l : In l (map snd (filter (fun kl => trainable (fst kl)) (dict y))) -> In l (own y).
  Proof.
    intros H. apply in_map_iff in H as ([k l'] & E & Hin). cbn in E. subst l'. apply filter_In in Hin as [Hin Hk]. cbn [fst] in Hk.
    apply in_map_iff. exists (k, l). split; [reflexivity|]. apply filter_In. split; [assumption|]. cbn [fst].
    destruct (String.eqb_spec k "kernel.grid_H") as [->|_]; [discriminate|reflexivity].
  Qed.

  Lemma act_inv w a : inv w -> inv (act w a).
  Proof.
    intros I. destruct a as [kd A grid fH f fb|i f|i new|t|l t]; cbn [Saving.act].
    - destruct (construct_app (p_heap w) kd A grid fH f fb) as [t Ht].
      destruct (construct (p_heap w) kd A grid fH f fb) as [s' [y|e]] eqn:E; cbn [fst] in Ht; subst s'.
      + destruct (construct_ok _ _ _ _ _ _ _ _ _ E) as (Ek & EA & El & (g & Eg & Em) & Ht & Hn & Hfr & _).
        pose proof (inv_evolved _ _ I (evolved_app (p_heap w) t)) as [L A']. cbn [p_heap p_layers] in *.
        assert (Hnew : layer_ok (p_heap w ++ t) y).
        { split; [exact Ht|]. split; [exact Hn|]. exists g, fb. rewrite Ek, EA. exact Em. }
        assert (Hnth : forall i z, nth_error (p_layers w ++ [y]) i = Some z ->
                  (nth_error (p_layers w) i = Some z) \/ (i = List.length (p_layers w) /\ z = y)).
        { intros i z Hz. destruct (Nat.lt_ge_cases i (List.length (p_layers w))) as [Hi|Hi].
          - rewrite nth_error_app1 in Hz by assumption. left. assumption.
          - rewrite nth_error_app2 in Hz by assumption. right. destruct (i - List.length (p_layers w))%nat as [|q] eqn:Ed; cbn in Hz.
            + injection Hz as <-. split; [lia|reflexivity].
            + destruct q; discriminate. }
        assert (Hold : forall i z x, nth_error (p_layers w) i = Some z -> In x (slots z) -> (x < List.length (p_heap w))%nat).
        { intros i z x Hz Hx. eapply typed_in; [|exact Hx]. apply (i_layers _ I i z Hz). }
        constructor; cbn [p_heap p_layers].
        * intros i z Hz. apply Hnth in Hz as [Hz|[_ ->]]; [eapply L; exact Hz|exact Hnew].
        * intros i j z z' Hij Hz Hz' x Hx Hx'. apply Hnth in Hz as [Hz|[Hi ->]]; apply Hnth in Hz' as [Hz'|[Hj ->]].
          -- exact (A' i j z z' Hij Hz Hz' x Hx Hx').
          -- apply slots_split in Hx' as [Hx'|Hx'].
             ++ apply Hfr in Hx'. assert (x < List.length (p_heap w))%nat by (eapply Hold; [exact Hz|apply slots_split; left; exact Hx]). lia.
             ++ apply (own_not_grid _ z x (proj1 (L i z Hz)) Hx g). rewrite Hx'. exact Eg.
          -- apply Hfr in Hx. assert (x < List.length (p_heap w))%nat by (eapply Hold; [exact Hz'|exact Hx']). lia.
          -- lia.
      + exact (inv_evolved _ _ I (evolved_app (p_heap w) t)).
    - destruct (nth_error (p_layers w) i) as [y|]; [|exact I]. exact (inv_evolved w _ I (proj1 (load_frame (p_heap w) y f))).
    - destruct (nth_error (p_layers w) i) as [y|]; [|exact I].
      exact (inv_evolved w _ I (proj1 (train_frame (filter (fun kl => trainable (fst kl)) (dict y)) new (p_heap w)))).
    - exact (inv_evolved w _ I (evolved_app _ _)).
    - destruct (Nat.ltb l (List.length (p_heap w)) && fits_into (at0 (p_heap w) l) t)%bool eqn:E; [|exact I]. apply andb_prop in E as [_ E].
      exact (inv_evolved w _ I (evolved_put _ _ _ E)).
  Qed.
  Lemma execute_inv acts : inv (execute acts).
  Proof.
    unfold Saving.execute. assert (I0 : inv (mkProcess [] [])) by (constructor; cbn; intros i; intros; destruct i; discriminate).
    revert I0. generalize (@mkProcess G P [] []). induction acts as [|a r IH]; intros w I; [exact I|]. cbn [fold_left]. apply IH, act_inv, I.
  Qed.

  (** ** load what was saved *)
  Definition matching (a b : @file G P) : Prop := Forall2 (fun x y => fst x = fst y /\ fits_into (snd x) (snd y) = true) a b.
  Lemma proto_match s s0 y y0 : layer_ok s y -> layer_ok s0 y0 -> o_kind y = o_kind y0 -> o_args y = o_args y0 ->
    List.length (kernel_grid (o_attr y)) = List.length (kernel_grid (o_attr y0)) -> matching (proto y) (proto y0).
  Proof.
    intros (_ & _ & g & fb & Ha) (_ & _ & g0 & fb0 & Ha0) Ek EA. rewrite <- Ek, <- EA in Ha0. unfold kernel_grid.
    destruct (make_fills _ _ _ _ _ Ha) as [Hg Hb]. destruct (make_fills _ _ _ _ _ Ha0) as [Hg0 Hb0]. intros El.
    rewrite Hg, Hg0 in El. destruct (make_alike _ _ _ _ _ _ _ _ Ha Ha0 El) as (E1 & E2 & E3 & E4).
    unfold proto. rewrite <- Ek, Hg, Hg0, Hb, Hb0, E1, E2, E3, E4.
    assert (Eg : fits_into (GGrid g : gt) (GGrid g0 : gt) = true) by (apply fits_iff; split; [reflexivity|cbn; congruence]).
    unfold matching, new_bias.
    destruct (s_bias (o_args y)), (o_kind y), (k_mask (l_kernel (gm_layer (o_attr y0)))); cbn [opt_named app];
      repeat (first [apply Forall2_nil | apply Forall2_cons]); cbn [fst snd]; (split; [reflexivity|first [exact Eg|apply build_fits|apply fits_refl]]).
  Qed.
  Lemma stored_match s y : typed s y -> matching (proto y) (stored s y).
  Proof.
    unfold typed, matching, stored. induction 1 as [|[k l] [k' t] es ps (H1 & _ & H2) _ IH]; cbn [map]; constructor; [|exact IH]. cbn [fst snd] in *. auto.
  Qed.
  Lemma match_sym a b : matching a b -> matching b a.
  Proof. unfold matching. induction 1 as [|x y l m [E C] _ IH]; constructor; [split; [congruence|apply fits_sym, C]|exact IH]. Qed.
  Lemma match_trans a b c : matching a b -> matching b c -> matching a c.
  Proof. apply Forall2_compose. intros x y z [E1 C1] [E2 C2]. split; [congruence|eapply fits_trans; eassumption]. Qed.

  Lemma stored_ext (s' : hp) y f : map fst f = map fst (dict y) ->
    (forall k l t, In (k, l) (dict y) -> find_key k f = Some t -> at0 s' l = t) -> stored s' y = f.
  Proof.
    intros Hk H. assert (N : NoDup (map fst f)) by (rewrite Hk; apply keys_nodup). unfold stored.
    assert (K : forall k l t, In (k, l) (dict y) -> In (k, t) f -> at0 s' l = t).
    { intros k l t H1 H2. eapply H; [exact H1|]. apply find_in; assumption. }
    clear H N. revert Hk K. generalize (dict y). induction f as [|[k t] r IH]; intros [|[k' l] es]; cbn [map fst]; try discriminate; [reflexivity|].
    intros Hk K. injection Hk as E Hk. subst k'. f_equal.
    - cbn [fst snd]. f_equal. apply (K k l t); left; reflexivity.
    - apply IH; [exact Hk|]. intros. eapply K; right; eassumption.
  Qed.
  Lemma load_stored s s0 y y0 : layer_ok s y -> layer_ok s0 y0 -> o_kind y = o_kind y0 -> o_args y = o_args y0 ->
    List.length (kernel_grid (o_attr y)) = List.length (kernel_grid (o_attr y0)) ->
    exists s', load s y (stored s0 y0) = (s', Ok tt) /\ stored s' y = stored s0 y0.
  Proof.
    intros L L0 Ek EA El. pose proof (proto_match s s0 y y0 L L0 Ek EA El) as HM.
    assert (HS : matching (stored s y) (stored s0 y0)).
    { eapply match_trans; [apply match_sym, stored_match, L|]. eapply match_trans; [exact HM|]. apply stored_match, L0. }
    assert (Keys : map fst (stored s0 y0) = map fst (dict y)).
    { rewrite <- (stored_keys s y). clear -HS. induction HS as [|a b l m [E _] _ IH]; cbn [map]; congruence. }
    assert (N0 : NoDup (map fst (stored s0 y0))) by (rewrite Keys; apply keys_nodup).
    assert (Hfit : forall k l, In (k, l) (dict y) -> exists t, find_key k (stored s0 y0) = Some t /\ fits_into (at0 s l) t = true).
    { intros k l Hin. assert (Hin' : In (k, at0 s l) (stored s y)) by (apply in_map_iff; exists (k, l); auto).
      destruct (Forall2_in_l _ _ _ _ HS Hin') as ([k' t] & Ht & E & C). cbn [fst snd] in *. subst k'. exists t. split; [apply find_in; assumption|exact C]. }
    destruct (load_all_entries (dict y) (stored s0 y0) s) as [Hget Hok].
    - apply L.
    - intros k l Hin. apply (typed_in s y); [apply L|apply in_map_iff; exists (k, l); auto].
    - unfold Saving.load. apply proj2 in Hok. specialize (Hok Hfit). destruct (load_all (dict y) (stored s0 y0) s) as [s' ok] eqn:E. cbn [fst snd] in *. subst ok.
      exists s'. split.
      + assert (F : forallb (fun e => existsb (fun kl => String.eqb (fst kl) (fst e)) (dict y)) (stored s0 y0) = true).
        { apply forallb_forall. intros [k t] Hin. apply existsb_exists. assert (Hk : In k (map fst (dict y))) by (rewrite <- Keys; apply in_map_iff; exists (k, t); auto).
          apply in_map_iff in Hk as ([k' l] & E' & Hin'). exists (k', l). split; [assumption|]. cbn [fst] in *. subst k'. apply String.eqb_refl. }
        rewrite F. reflexivity.
      + apply stored_ext; [exact Keys|]. intros k l t Hin Hf. rewrite (Hget k l Hin). unfold after_load. rewrite Hf.
        destruct (Hfit k l Hin) as (t' & Hf' & C). assert (t' = t) by congruence. subst t'. rewrite C. reflexivity.
  Qed.

  (** ** a call depends on the contents of the entries and on the attributes *)
  Notation answer := (answer fam mul).
  Lemma stored_parts (s s0 : hp) y y0 : stored s y = stored s0 y0 ->
    at0 s (o_grid_H y) = at0 s0 (o_grid_H y0) /\ at0 s (o_grid_Rn y) = at0 s0 (o_grid_Rn y0) /\ at0 s (o_weight y) = at0 s0 (o_weight y0) /\
    option_map (fun l => at0 s l) (o_mask y) = option_map (fun l => at0 s0 l) (o_mask y0) /\ option_map (fun l => at0 s l) (o_bias y) = option_map (fun l => at0 s0 l) (o_bias y0) /\
    option_map (fun l => at0 s l) (o_weight_H y) = option_map (fun l => at0 s0 l) (o_weight_H y0).
  Proof.
    assert (K : forall (s : hp) y,
      find_key "kernel.grid_H" (stored s y) = Some (at0 s (o_grid_H y)) /\ find_key "kernel.grid_Rn" (stored s y) = Some (at0 s (o_grid_Rn y)) /\
      find_key "kernel.weight" (stored s y) = Some (at0 s (o_weight y)) /\ find_key "kernel.mask" (stored s y) = option_map (fun l => at0 s l) (o_mask y) /\
      find_key "bias" (stored s y) = option_map (fun l => at0 s l) (o_bias y) /\ find_key "kernel.weight_H" (stored s y) = option_map (fun l => at0 s l) (o_weight_H y)).
    { intros s1 y1. unfold stored, dict. destruct (o_bias y1), (o_weight_H y1), (o_mask y1); repeat split. }
    intros H. destruct (K s y) as (K1 & K2 & K3 & K4 & K5 & K6). destruct (K s0 y0) as (J1 & J2 & J3 & J4 & J5 & J6). rewrite H in *.
    repeat split; congruence.
  Qed.
  Lemma the_opt_map (s : hp) l : the_opt s l = match option_map (fun l => at0 s l) l with None => Ok None | Some t => u <- the_real t ;; Ok (Some u) end.
  Proof. destruct l; reflexivity. Qed.
  Definition with_attr (y0 y : obj) : obj :=
    mkObject (o_kind y0) (o_args y0) (o_attr y) (o_grid_H y0) (o_grid_Rn y0) (o_mask y0) (o_weight_H y0) (o_weight y0) (o_bias y0).
  Lemma answer_stored s s0 y y0 : o_kind y = o_kind y0 -> stored s y = stored s0 y0 ->
    forall q X in_H H, answer s y q X in_H H = answer s0 (with_attr y0 y) q X in_H H.
  Proof.
    intros Ek Es q X in_H H. destruct (stored_parts _ _ _ _ Es) as (E1 & E2 & E3 & E4 & E5 & E6).
    unfold Saving.answer, current. rewrite !the_opt_map. cbn [with_attr o_kind o_attr o_grid_H o_grid_Rn o_mask o_weight_H o_weight o_bias].
    rewrite E1, E2, E3, E4, E5, Ek.
    destruct (o_weight_H y) as [l|], (o_weight_H y0) as [l0|]; cbn in E6; try discriminate; [|reflexivity].
    injection E6 as ->. reflexivity.
  Qed.
  Lemma answer_with_attr s0 y0 y : (forall grid space mask bias, refilled (o_attr y) grid space mask bias = refilled (o_attr y0) grid space mask bias) ->
    forall q X in_H H, answer s0 (with_attr y0 y) q X in_H H = answer s0 y0 q X in_H H.
  Proof.
    intros E q X in_H H. unfold Saving.answer, current. cbn [with_attr o_kind o_attr o_grid_H o_grid_Rn o_mask o_weight_H o_weight o_bias].
    destruct (the_grid (at0 s0 (o_grid_H y0))); cbn [bind]; [|reflexivity].
    destruct (the_space (at0 s0 (o_grid_Rn y0))); cbn [bind]; [|reflexivity].
    destruct (the_opt s0 (o_mask y0)); cbn [bind]; [|reflexivity].
    destruct (the_opt s0 (o_bias y0)); cbn [bind]; [|reflexivity]. rewrite E. reflexivity.
  Qed.

  (** ** frames *)
  Lemma answer_frame s s' y : (forall x, In x (slots y) -> at0 s' x = at0 s x) ->
    stored s' y = stored s y /\ forall q X in_H H, answer s' y q X in_H H = answer s y q X in_H H.
  Proof.
    intros H. assert (E : stored s' y = stored s y).
    { unfold stored. apply map_ext_in. intros [k l] Hin. cbn [fst snd]. f_equal. apply H. apply in_map_iff. exists (k, l). auto. }
    split; [exact E|]. intros q X in_H K. rewrite (answer_stored s' s y y eq_refl E). destruct y; reflexivity.
  Qed.
  Lemma nth_layers_act w a i y : nth_error (p_layers w) i = Some y -> nth_error (p_layers (act w a)) i = Some y.
  Proof.
    intros Hy. destruct a; cbn [Saving.act]; try exact Hy.
    - destruct (construct _ _ _ _ _ _ _) as [s' [y'|e]]; cbn [p_layers]; [|exact Hy]. rewrite nth_error_app1; [exact Hy|].
      apply nth_error_Some. congruence.
    - destruct (nth_error (p_layers w) i0); exact Hy.
    - destruct (nth_error (p_layers w) i0); exact Hy.
    - destruct (_ && _)%bool; exact Hy.
  Qed.
  Definition writes (w : @process G P) (a : @action G P) (x : nat) : Prop :=
    match a with
    | ALoad j _ => exists y, nth_error (p_layers w) j = Some y /\ In x (slots y)
    | ATrain j _ => exists y, nth_error (p_layers w) j = Some y /\ In x (own y)
    | AWrite l _ => x = l
    | _ => False
    end.
  Lemma act_frame w a x : (x < List.length (p_heap w))%nat -> ~ writes w a x -> at0 (p_heap (act w a)) x = at0 (p_heap w) x.
  Proof.
    intros Hx Hw. destruct a as [kd A grid fH f fb|i f|i new|t|l t]; cbn [Saving.act writes] in *.
    - destruct (construct_app (p_heap w) kd A grid fH f fb) as [t Ht]. destruct (construct _ _ _ _ _ _ _) as [s' r]. cbn [fst p_heap] in *. subst s'.
      apply app_nth1. exact Hx.
    - destruct (nth_error (p_layers w) i) as [y|]; [|reflexivity]. destruct (load_frame (p_heap w) y f) as (_ & _ & F).
      apply F. intros Hin. apply Hw. exists y. auto.
    - destruct (nth_error (p_layers w) i) as [y|]; [|reflexivity].
      destruct (train_frame (filter (fun kl => trainable (fst kl)) (dict y)) new (p_heap w)) as (_ & _ & F).
      apply F. intros Hin. apply Hw. exists y. split; [reflexivity|]. apply params_own. exact Hin.
    - apply app_nth1. exact Hx.
    - destruct (_ && _)%bool; [|reflexivity]. apply put_other. congruence.
  Qed.
  Lemma act_isolated w a i y : inv w -> nth_error (p_layers w) i = Some y ->
    (match a with
     | ALoad j _ => j <> i /\ forall y', nth_error (p_layers w) j = Some y' -> o_grid_H y' <> o_grid_H y
     | ATrain j _ => j <> i
     | AWrite l _ => ~ In l (map snd (dict y))
     | _ => True
     end) ->
    forall x, In x (slots y) -> at0 (p_heap (act w a)) x = at0 (p_heap w) x.
  Proof.
    intros I Hy Ha x Hx. apply act_frame; [apply (typed_in _ y); [apply (i_layers _ I i y Hy)|exact Hx]|].
    intros Hw. destruct a as [kd A grid fH f fb|j f|j new|t|l t]; cbn [writes] in Hw; try contradiction.
    - destruct Ha as [Hij Hg]. destruct Hw as (y' & Hy' & Hx'). apply slots_split in Hx' as [Hx'|Hx'].
      + exact (i_apart _ I j i y' y Hij Hy' Hy x Hx' Hx).
      + apply slots_split in Hx as [Hx|Hx]; [|apply (Hg y' Hy'); congruence].
        refine (i_apart _ I i j y y' (not_eq_sym Hij) Hy Hy' x Hx _). apply slots_split. right. exact Hx'.
    - destruct Hw as (y' & Hy' & Hx'). exact (i_apart _ I j i y' y Ha Hy' Hy x Hx' Hx).
    - subst l. apply Ha. exact Hx.
  Qed.
  Lemma act_shared w j f i y x : inv w -> nth_error (p_layers w) i = Some y -> j <> i -> In x (slots y) -> x <> o_grid_H y ->
    at0 (p_heap (act w (ALoad j f))) x = at0 (p_heap w) x.
  Proof.
    intros I Hy Hij Hx Hg. apply act_frame; [apply (typed_in _ y); [apply (i_layers _ I i y Hy)|exact Hx]|].
    intros (y' & Hy' & Hx'). apply slots_split in Hx as [Hx|Hx]; [|contradiction].
    exact (i_apart _ I i j y y' (not_eq_sym Hij) Hy Hy' x Hx Hx').
  Qed.

  (** ** training *)
  Lemma trained_entries es (new : string -> gt) : forall s : hp, NoDup (map snd es) -> (forall k l, In (k, l) es -> (l < List.length s)%nat) ->
    forall k l, In (k, l) es ->
    at0 (fold_left (fun s kl => if fits_into (at0 s (snd kl)) (new (fst kl)) then put s (snd kl) (new (fst kl)) else s) (filter (fun kl => trainable (fst kl)) es) s) l =
    if trainable k then if fits_into (at0 s l) (new k) then new k else at0 s l else at0 s l.
  Proof.
    assert (Fr : forall es (s0 : hp) l, ~ In l (map snd es) ->
        at0 (fold_left (fun s kl => if fits_into (at0 s (snd kl)) (new (fst kl)) then put s (snd kl) (new (fst kl)) else s)
                       (filter (fun kl => trainable (fst kl)) es) s0) l = at0 s0 l).
    { intros es0 s0 l Hl. apply (proj2 (proj2 (train_frame (filter (fun kl => trainable (fst kl)) es0) new s0))).
      intros Hin. apply Hl. apply in_map_iff in Hin as (x & Ex & Hin). apply filter_In in Hin as [Hin _]. apply in_map_iff. exists x. auto. }
    induction es as [|[k l] r IH]; intros s N Hs k' l' Hin; [destruct Hin|]. cbn [map snd] in N. inversion N as [|? ? Hni N']; subst.
    assert (Hne : In (k', l') r -> l <> l') by (intros Hi ->; apply Hni; apply in_map_iff; exists (k', l'); auto).
    cbn [filter fst]. destruct (trainable k) eqn:Ek.
    - cbn [fold_left fst snd]. destruct (fits_into (at0 s l) (new k)) eqn:Ef.
      + destruct Hin as [Hin|Hin].
        * injection Hin as <- <-. rewrite Ek, Ef, Fr by assumption. apply put_same. apply (Hs k). left; reflexivity.
        * rewrite (IH (put s l (new k)) N' ltac:(intros k1 l1 Hi; rewrite put_length; apply (Hs k1); right; assumption) k' l' Hin).
          rewrite put_other by (apply Hne; exact Hin). reflexivity.
      + destruct Hin as [Hin|Hin].
        * injection Hin as <- <-. rewrite Ek, Ef. apply Fr. assumption.
        * apply (IH s N'); [|exact Hin]. intros k1 l1 Hi. apply (Hs k1). right; assumption.
    - destruct Hin as [Hin|Hin].
      + injection Hin as <- <-. rewrite Ek. apply Fr. assumption.
      + apply (IH s N'); [|exact Hin]. intros k1 l1 Hi. apply (Hs k1). right; assumption.
  Qed.

  (** ** a layer of a reachable process can be read *)
  Lemma real_entry s y k l : typed s y -> In (k, l) (dict y) -> k <> "kernel.grid_H"%string -> k <> "kernel.grid_Rn"%string ->
    exists u, the_real (at0 s l) = Ok u.
  Proof.
    intros T Hin N1 N2. destruct (Forall2_in_l _ _ _ _ T Hin) as ([k' t'] & Hp' & E & _ & C). cbn [fst snd] in *. subst k'.
    apply fits_iff in C as [C _].
    assert (exists u, t' = GReal u) as [u ->].
    { revert Hp'. unfold proto. destruct (l_bias _), (o_kind y), (k_mask _); cbn; intros Hp; repeat (destruct Hp as [Hp|Hp]); try contradiction; injection Hp as <- <-; try contradiction; try congruence; eexists; reflexivity. }
    destruct (at0 s l); try discriminate. eexists. reflexivity.
  Qed.
  Lemma current_ok s y : layer_ok s y -> exists g sp mk b, at0 s (o_grid_H y) = GGrid g /\ current s y = Ok (refilled (o_attr y) g sp mk b).
  Proof.
    intros (T & _). destruct (typed_grid s y T) as (g & Eg & _).
    assert (exists sp, at0 s (o_grid_Rn y) = GSpace sp) as [sp Esp].
    { destruct (Forall2_in_l _ _ _ _ T (space_entry y)) as ([k' t'] & Hp' & E & _ & C). cbn [fst snd] in *. subst k'. apply fits_iff in C as [C _].
      assert (t' = GSpace (k_grid_Rn (l_kernel (gm_layer (o_attr y))))) as ->.
      { revert Hp'. unfold proto. destruct (l_bias _), (o_kind y), (k_mask _); cbn; intros Hp; repeat (destruct Hp as [Hp|Hp]); try contradiction; try discriminate; congruence. }
      destruct (at0 s (o_grid_Rn y)); try discriminate. eexists. reflexivity. }
    assert (exists mk, the_opt s (o_mask y) = Ok mk) as [mk Emk].
    { destruct (o_mask y) as [l|] eqn:E; [|eexists; reflexivity]. destruct (real_entry s y "kernel.mask" l T) as [u Hu]; try discriminate.
      - unfold dict. rewrite E, !in_app_iff. cbn. intuition.
      - cbn. rewrite Hu. eexists. reflexivity. }
    assert (exists b, the_opt s (o_bias y) = Ok b) as [b Eb].
    { destruct (o_bias y) as [l|] eqn:E; [|eexists; reflexivity]. destruct (real_entry s y "bias" l T) as [u Hu]; try discriminate.
      - unfold dict. rewrite E, !in_app_iff. cbn. intuition.
      - cbn. rewrite Hu. eexists. reflexivity. }
    exists g, sp, mk, b. split; [exact Eg|]. unfold current. rewrite Eg, Esp, Emk, Eb. reflexivity.
  Qed.
End Facts.
