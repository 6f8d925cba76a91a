(** The claims of SavingSpec.v, for every class whose constructor keeps the grid and derives shapes from its length. *)
From Coq Require Import String ZArith.
From Verif Require Import Prelude RMath Mat Interp SO2 O2 O3 Tensor TensorFacts Kernel Conv Public Network Saving SavingFacts SavingSpec.
Open Scope R_scope.

Section Proofs.
  Context {G P : Type} {D : Dflt P}.
  Context (fam : family) (mul : G -> G -> G) (edim d : nat) (make : kind -> sargs -> list G -> (list nat -> R) -> result (gmodule G P)).
  Notation memory := (memory edim d make).
  Notation layers := (layers edim d make).
  Notation restores := (restores fam mul edim d make).
  Notation rolls_back := (rolls_back fam mul edim d make).
  Notation loads_entrywise := (loads_entrywise edim d make).
  Notation isolates := (isolates fam mul edim d make).
  Notation owns_its_tensors := (owns_its_tensors edim d make).
  Notation trains_parameters_only := (trains_parameters_only edim d make).
  Notation saves_these := (saves_these edim d make).
  Context (make_fills : forall kd A g fb M, make kd A g fb = Ok M -> k_grid_H (l_kernel (gm_layer M)) = g /\ l_bias (gm_layer M) = new_bias d A fb).
  Context (make_alike : forall kd A g g' fb fb' M M', make kd A g fb = Ok M -> make kd A g' fb' = Ok M' -> List.length g = List.length g' ->
    let k := l_kernel (gm_layer M) in let k' := l_kernel (gm_layer M') in
    k_grid_Rn k = k_grid_Rn k' /\ k_mask k = k_mask k' /\ weight_dims kd k = weight_dims kd k' /\ group_weight_shape k = group_weight_shape k').

  Lemma layer_fine acts y : In y (layers acts) -> layer_ok edim d make (memory acts) y.
  Proof.
    intros H. apply In_nth_error in H as [i H]. exact (i_layers edim d make _ (execute_inv edim d make make_fills acts) i y H).
  Qed.
  Lemma later_layer acts more y : In y (layers acts) -> In y (layers (acts ++ more)).
  Proof.
    intros H. apply In_nth_error in H as [i H]. apply nth_error_In with i. unfold layers, execute in *. rewrite fold_left_app. revert H.
    generalize (fold_left (act edim d make) acts (mkProcess [] [])). induction more as [|a r IH]; intros w Hy; [exact Hy|]. cbn [fold_left]. apply IH.
    apply nth_layers_act. exact Hy.
  Qed.
  Lemma restores_gen (same : kind -> sargs -> list G -> list G -> Prop) :
    (forall kd A g g' fb fb' M M', make kd A g fb = Ok M -> make kd A g' fb' = Ok M' -> List.length g = List.length g' -> same kd A g g' ->
      forall grid space mask bias, refilled M grid space mask bias = refilled M' grid space mask bias) -> restores same.
  Proof.
    intros HR acts0 y0 acts y H0 H Ek EA El. pose proof (layer_fine _ _ H0) as L0. pose proof (layer_fine _ _ H) as L.
    destruct (load_stored edim d make make_fills make_alike _ _ y y0 L L0 Ek EA El) as (s' & E & Es). exists s'. split; [exact E|]. split; [exact Es|].
    intros Hs rs X in_H K. rewrite (answer_stored fam mul s' _ y y0 Ek Es). apply answer_with_attr.
    destruct L as (_ & _ & g & fb & Ha). destruct L0 as (_ & _ & g0 & fb0 & Ha0). rewrite <- Ek, <- EA in Ha0.
    destruct (make_fills _ _ _ _ _ Ha) as [Hg _]. destruct (make_fills _ _ _ _ _ Ha0) as [Hg0 _]. unfold built_with, kernel_grid in *. rewrite Hg, Hg0 in *.
    eapply HR; eassumption.
  Qed.
  Lemma rolls_back_gen : rolls_back.
  Proof.
    intros acts more y H. pose proof (layer_fine _ _ H) as L0. pose proof (layer_fine _ _ (later_layer acts more y H)) as L.
    destruct (load_stored edim d make make_fills make_alike _ _ y y L L0 eq_refl eq_refl eq_refl) as (s' & E & Es). exists s'. split; [exact E|]. split; [exact Es|].
    intros rs X in_H K. rewrite (answer_stored fam mul s' _ y y eq_refl Es). destruct y; reflexivity.
  Qed.
  Lemma loads_entrywise_gen : loads_entrywise.
  Proof.
    intros acts y f s' r H E. pose proof (layer_fine _ _ H) as (T & N & _).
    assert (Hb : forall k l, In (k, l) (dict y) -> (l < List.length (memory acts))%nat) by (intros k l Hin; apply (typed_in edim d _ y l T); apply in_map_iff; exists (k, l); auto).
    destruct (load_all_entries edim d (dict y) f (memory acts) N Hb) as [A B].
    destruct (load_all_frame edim d (dict y) f (memory acts)) as (_ & _ & C).
    unfold load in E. destruct (load_all edim d (dict y) f (memory acts)) as [s1 ok]. cbn [fst snd] in *. injection E as E1 E2. subst s1.
    assert (F : forallb (fun e => existsb (fun kl => String.eqb (fst kl) (fst e)) (dict y)) f = true <-> forall k t, In (k, t) f -> In k (map fst (dict y))).
    { rewrite forallb_forall. split.
      - intros Hf k t Hin. specialize (Hf (k, t) Hin). apply existsb_exists in Hf as ([k' l] & Hi & He). cbn [fst] in He. apply String.eqb_eq in He. subst k'.
        apply in_map_iff. exists (k, l). auto.
      - intros Hf [k t] Hin. specialize (Hf k t Hin). apply in_map_iff in Hf as ([k' l] & He & Hi). cbn [fst] in He. subst k'. apply existsb_exists. exists (k, l).
        split; [exact Hi|apply String.eqb_refl]. }
    split; [exact A|]. split; [exact C|].
    assert (R : r = Ok tt <-> ok = true /\ forallb (fun e => existsb (fun kl => String.eqb (fst kl) (fst e)) (dict y)) f = true).
    { rewrite <- E2. destruct ok, (forallb _ f); cbn [andb]; split; intros; try discriminate; try tauto; destruct H0; discriminate. }
    split; [rewrite <- E2; destruct (_ && _)%bool; auto|]. rewrite R, F, B. split; intros [Q1 Q2]; (split; [|exact Q2]); intros k l Hin; destruct (Q1 k l Hin) as (t & Ht & Hf); exists t.
    - split; [exact Ht|]. apply fits_iff. exact Hf.
    - split; [exact Ht|]. apply fits_iff. exact Hf.
  Qed.
  Lemma isolates_gen : isolates.
  Proof.
    intros acts a i y Hy Hs. unfold memory, layers, execute in *. rewrite fold_left_app. cbn [fold_left]. split; [apply nth_layers_act; exact Hy|].
    apply answer_frame. apply (act_isolated edim d make _ a i y (execute_inv edim d make make_fills acts) Hy Hs).
  Qed.
  Lemma owns_gen : owns_its_tensors.
  Proof.
    intros acts kd A grid fH f fb s' y E. destruct (construct_ok edim d make make_fills _ _ _ _ _ _ _ _ _ E) as (_ & _ & El & (g & Eg & Em) & _ & _ & Hfr & _).
    assert (Hin : forall y' l, In y' (layers acts) -> In l (map snd (dict y')) -> (l < List.length (memory acts))%nat).
    { intros y' l Hy' Hl. apply (typed_in edim d _ y' l); [apply layer_fine; exact Hy'|exact Hl]. }
    destruct (construct_app make (memory acts) kd A grid fH f fb) as [t Ht]. rewrite E in Ht. cbn [fst] in Ht. split; [|split].
    - destruct grid as [l|g0]; cbn [grid_stage snd] in El; [exact El|]. split.
      + revert E. unfold construct. cbn [fst snd]. 
        rewrite app_nth2, Nat.sub_diag by lia. cbn [nth the_grid bind]. destruct (make kd A g0 fb) as [M|] eqn:EM; [|discriminate].
        intros E. injection E as E _. unfold contents. rewrite El, <- E, app_nth1 by (rewrite app_length; cbn; lia).
        rewrite app_nth2, Nat.sub_diag by lia. reflexivity.
      + intros y' Hy' Hl. apply (Hin y' _ Hy') in Hl. rewrite El in Hl. lia.
    - intros k l Hk Hne. assert (Ho : In l (own y)).
      { apply in_map_iff. exists (k, l). split; [reflexivity|]. apply filter_In. split; [exact Hk|]. cbn [fst]. destruct (String.eqb_spec k "kernel.grid_H"); [contradiction|reflexivity]. }
      apply Hfr in Ho. split; [exact Ho|]. intros y' Hy' Hl. apply (Hin y' _ Hy') in Hl. lia.
    - intros l Hl. unfold contents. rewrite Ht. apply app_nth1. exact Hl.
  Qed.
  Lemma trains_gen : trains_parameters_only.
  Proof.
    intros acts i y new Hy. pose proof (layer_fine acts y (nth_error_In _ _ Hy)) as (T & N & _).
    assert (E : memory (acts ++ [ATrain i new]) = trained edim d (memory acts) y new).
    { unfold memory, layers, execute in *. rewrite fold_left_app. cbn [fold_left act]. rewrite Hy. reflexivity. }
    rewrite E. unfold trained. split.
    - assert (Hb : forall k1 l1, In (k1, l1) (dict y) -> (l1 < List.length (memory acts))%nat).
      { intros k1 l1 Hi. apply (typed_in edim d _ y l1 T). apply in_map_iff. exists (k1, l1). auto. }
      intros k l Hin. unfold contents. rewrite (trained_entries edim d (dict y) new (memory acts) N Hb k l Hin).
      replace (trainable k) with (if in_dec string_dec k ["bias"; "kernel.weight_H"; "kernel.weight"]%string then true else false); [destruct (in_dec _ _ _); reflexivity|].
        unfold trainable. destruct (in_dec _ _ _) as [Hi|Hn]; cbn [In] in *.
        * destruct Hi as [<-|[<-|[<-|[]]]]; reflexivity.
        * destruct (String.eqb_spec k "bias") as [->|_]; [exfalso; apply Hn; auto|].
          destruct (String.eqb_spec k "kernel.weight_H") as [->|_]; [exfalso; apply Hn; auto|].
          destruct (String.eqb_spec k "kernel.weight") as [->|_]; [exfalso; apply Hn; auto|]. reflexivity.
    - intros l Hl. apply (proj2 (proj2 (train_frame edim d (filter (fun kl => trainable (fst kl)) (dict y)) new (memory acts)))).
      intros Hin. apply Hl. apply in_map_iff in Hin as (x & Ex & Hin). apply filter_In in Hin as [Hin _]. apply in_map_iff. exists x. auto.
  Qed.
  Lemma saves_gen (has_mask : sargs -> bool) (gdim : sargs -> nat -> nat) :
    (forall kd A g fb M, make kd A g fb = Ok M -> let k := l_kernel (gm_layer M) in
      shape (k_grid_Rn k) = repeat (s_size A) d /\ option_map shape (k_mask k) = (if has_mask A then Some (repeat (s_size A) d) else None) /\
      group_weight_shape k = [gdim A (List.length g); s_out A; (s_in A / Z.to_nat (s_groups A))%nat] /\
      weight_dims kd k = match kd with
                         | KLifting => s_out A :: (s_in A / Z.to_nat (s_groups A))%nat :: repeat (s_size A) d
                         | KSeparable => s_out A :: 1%nat :: repeat (s_size A) d
                         | KFull => gdim A (List.length g) :: s_out A :: (s_in A / Z.to_nat (s_groups A))%nat :: repeat (s_size A) d
                         end) -> saves_these has_mask gdim.
  Proof.
    intros HM acts y Hy. destruct (layer_fine acts y Hy) as (T & _ & g & fb & Ha). apply (stored_match edim d) in T. revert T. generalize (stored (memory acts) y). intros ck T.
    transitivity (map (fun e => (fst e, gshape edim d (snd e))) (proto y)).
    { induction T as [|a b l m [H1 H2] _ IH]; cbn [map]; [reflexivity|]. rewrite IH, H1. apply fits_iff in H2 as [_ H2]. rewrite H2. reflexivity. }
    destruct (make_fills _ _ _ _ _ Ha) as [Hg Hb]. destruct (HM _ _ _ _ _ Ha) as (S1 & S2 & S3 & S4).
    unfold proto, named_shapes, built_with, kernel_grid. rewrite Hg, Hb. rewrite !map_app. unfold new_bias.
    f_equal; [destruct (s_bias (o_args y)); reflexivity|]. f_equal; [destruct (o_kind y); try reflexivity; cbn [map opt_named fst snd gshape build shape]; rewrite S3; reflexivity|].
    cbn [map fst snd gshape shape build app]. rewrite S4, S1. do 3 f_equal.
    destruct (k_mask _) as [mk|]; cbn [option_map] in S2; destruct (has_mask (o_args y)); try discriminate; [|reflexivity].
    injection S2 as S2. cbn [opt_named map fst snd gshape]. rewrite S2. reflexivity.
  Qed.
End Proofs.
