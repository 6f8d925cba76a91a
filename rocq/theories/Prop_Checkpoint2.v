(** Property theorems C72, continued: what a layer saves, and what a training step changes.

    [run ops], [memory ops], [alive ops y], [saved s y], [built_with y] as in Prop_Checkpoint.v. *)
From Coq Require Import String ZArith.
From Verif Require Import Prelude RMath Mat Interp InterpExample SO3 Repulse GridTables GridCache GridCacheFacts Tensor Functional Kernel Conv Public Checkpoint CheckpointFacts
  CheckpointExample Prop_Checkpoint.
Open Scope R_scope.

(** The names and shapes in a checkpoint of a layer with these arguments and a group kernel of n rotations. *)
Definition spatial (A : args) : list nat := [a_size A; a_size A; a_size A].
Definition entries (kd : kind) (A : args) (n : nat) : list (string * list nat) :=
  let cin := (a_in A / Z.to_nat (a_groups A))%nat in
  (if a_bias A then [("bias"%string, [a_out A; 1; 1; 1; 1]%nat)] else []) ++
  (match kd with KSeparable => [("kernel.weight_H"%string, [n; a_out A; cin])] | _ => [] end) ++
  [("kernel.weight"%string, match kd with
                            | KLifting => a_out A :: cin :: spatial A
                            | KSeparable => a_out A :: 1%nat :: spatial A
                            | KFull => n :: a_out A :: cin :: spatial A
                            end);
   ("kernel.grid_H"%string, [n; 3; 3]%nat); ("kernel.grid_Rn"%string, spatial A ++ [3%nat])] ++
  (if a_mask A then [("kernel.mask"%string, spatial A)] else []).

(** In every reachable state a checkpoint has exactly these entries, in this order. *)
Theorem C72_entries_of_a_checkpoint : forall ops y, alive ops y ->
  map (fun e => (fst e, tshape (snd e))) (saved (memory ops) y) = entries (y_kind y) (y_args y) (List.length (built_with y)).
Proof.
  intros ops y [i Hy]. unfold memory, built_with. destruct (i_layers _ (run_inv ops) i y Hy) as (T & _ & g & fb & Ha).
  apply saved_match in T. apply attributes_inv in Ha as (w & EM & _). revert T. generalize (saved (w_mem (run ops)) y). intros ck T.
  transitivity (map (fun e => (fst e, tshape (snd e))) (proto y)).
  { induction T as [|a b l m [H1 H2] _ IH]; cbn [map]; [reflexivity|]. rewrite IH, H1. apply copyable_iff in H2 as [_ H2]. rewrite H2. reflexivity. }
  unfold proto, entries, spatial, kernel_grid. rewrite EM. cbn [gm_layer shell l_kernel k_grid_H l_bias k_mask k_grid_Rn].
  unfold group_weight_shape, weight_shape, lifting_weight_shape, separable_weight_shape, full_weight_shape, k_gdim, k_cin, bias_tensor.
  cbn [gm_layer shell l_kernel k_grid_H l_bias k_mask k_grid_Rn k_gsize k_out k_in k_groups k_size].
  replace (List.length g * 1)%nat with (List.length g) by lia.
  destruct (a_bias (y_args y)), (y_kind y), (a_mask (y_args y)); cbn; rewrite ?Nat.mul_1_r, ?Nat.add_0_r; reflexivity.
Qed.
Print Assumptions C72_entries_of_a_checkpoint.

(** An in-place update of the parameters of a layer (an optimizer step, or reset_parameters) stores the new bias and weights and leaves
    the buffers: the group grid, the spatial grid and the mask are not trained. Everything else in memory is as before. *)
Theorem C72_training_updates_the_parameters : forall ops i y new, nth_error (w_layers (run ops)) i = Some y ->
  (forall k t, In (k, t) (saved (memory ops) y) -> k = "bias"%string \/ k = "kernel.weight_H"%string \/ k = "kernel.weight"%string ->
     same_kind t (new k) = true /\ tshape t = tshape (new k)) ->
  saved (memory (ops ++ [OTrain i new])) y =
    map (fun e => if in_dec string_dec (fst e) ["bias"; "kernel.weight_H"; "kernel.weight"]%string then (fst e, new (fst e)) else e)
        (saved (memory ops) y) /\
  forall l, ~ In l (map snd (state_dict y)) -> get (memory (ops ++ [OTrain i new])) l = get (memory ops) l.
Proof.
  intros ops i y new Hy Hn. unfold memory in *. unfold run at 1 3. rewrite fold_left_app. cbn [fold_left]. fold (run ops). cbn [do]. rewrite Hy. cbn [w_mem].
  destruct (i_layers _ (run_inv ops) i y Hy) as (T & N & _). set (s := w_mem (run ops)) in *. unfold slots in N.
  assert (Hsz : forall k l, In (k, l) (state_dict y) -> (l < size s)%nat).
  { intros k l Hin. apply (typed_in s y l T). apply in_map_iff. exists (k, l). auto. }
  assert (Hp : forall k, is_param k = if in_dec string_dec k ["bias"; "kernel.weight_H"; "kernel.weight"]%string then true else false).
  { intros k. unfold is_param. destruct (in_dec _ _ _) as [Hin|Hni]; cbn [In] in *.
    - destruct Hin as [<-|[<-|[<-|[]]]]; reflexivity.
    - destruct (String.eqb_spec k "bias") as [->|_]; [exfalso; apply Hni; auto|].
      destruct (String.eqb_spec k "kernel.weight_H") as [->|_]; [exfalso; apply Hni; auto|].
      destruct (String.eqb_spec k "kernel.weight") as [->|_]; [exfalso; apply Hni; auto|]. reflexivity. }
  assert (Hc : forall k l, In (k, l) (state_dict y) -> is_param k = true -> copyable (get s l) (new k) = true).
  { intros k l Hin Hk. apply copyable_iff. apply Hn.
    - unfold saved. apply in_map_iff. exists (k, l). auto.
    - rewrite Hp in Hk. destruct (in_dec _ _ _) as [Hin'|]; [|discriminate]. cbn [In] in Hin'. intuition congruence. }
  split.
  - unfold train, saved. rewrite map_map. cbn [fst].
    assert (G : forall es s0, NoDup (map snd es) -> (forall k l, In (k, l) es -> (l < size s0)%nat) ->
       (forall k l, In (k, l) es -> is_param k = true -> copyable (get s0 l) (new k) = true) ->
       map (fun kl => (fst kl, get (fold_left (fun s kl => if copyable (get s (snd kl)) (new (fst kl)) then assign s (snd kl) (new (fst kl)) else s)
                                  (filter (fun kl => is_param (fst kl)) es) s0) (snd kl))) es =
       map (fun x => if in_dec string_dec (fst x) ["bias"; "kernel.weight_H"; "kernel.weight"]%string then (fst x, new (fst x)) else (fst x, get s0 (snd x))) es).
    { clear. intros es.
      assert (Fr : forall es s0 l, ~ In l (map snd es) ->
        get (fold_left (fun s kl => if copyable (get s (snd kl)) (new (fst kl)) then assign s (snd kl) (new (fst kl)) else s)
                       (filter (fun kl => is_param (fst kl)) es) s0) l = get s0 l).
      { intros es0 s0 l Hl. apply (proj1 (proj2 (proj2 (train_frame (filter (fun kl => is_param (fst kl)) es0) new s0)))).
        intros Hin. apply Hl. apply in_map_iff in Hin as (x & Ex & Hin). apply filter_In in Hin as [Hin _]. apply in_map_iff. exists x. auto. }
      induction es as [|[k l] r IH]; intros s0 N Hs Hc; [reflexivity|]. cbn [map snd] in N. inversion N as [|? ? Hni N']; subst.
      cbn [filter map fst snd]. specialize (Hc k l (or_introl eq_refl)) as Hk.
      assert (Hp : is_param k = if in_dec string_dec k ["bias"; "kernel.weight_H"; "kernel.weight"]%string then true else false).
      { unfold is_param. destruct (in_dec _ _ _) as [Hin|Hn]; cbn [In] in *.
        - destruct Hin as [<-|[<-|[<-|[]]]]; reflexivity.
        - destruct (String.eqb_spec k "bias") as [->|_]; [exfalso; apply Hn; auto|].
          destruct (String.eqb_spec k "kernel.weight_H") as [->|_]; [exfalso; apply Hn; auto|].
          destruct (String.eqb_spec k "kernel.weight") as [->|_]; [exfalso; apply Hn; auto|]. reflexivity. }
      destruct (is_param k) eqn:Ek; destruct (in_dec _ _ _) as [Hin|Hn]; try discriminate.
      - cbn [fold_left fst snd]. rewrite (Hk eq_refl).
        rewrite IH; [|assumption| |].
        + f_equal.
          * f_equal. rewrite Fr by assumption. apply get_assign_same. apply (Hs k). left; reflexivity.
          * apply map_ext_in. intros [k' l'] Hin'. cbn [fst snd]. rewrite get_assign_other; [reflexivity|].
            intros ->. apply Hni. apply in_map_iff. exists (k', l'). auto.
        + intros k' l' Hin'. rewrite size_assign. apply (Hs k'). right; assumption.
        + intros k' l' Hin' Hk'. rewrite get_assign_other; [apply Hc; [right; assumption|assumption]|].
          intros ->. apply Hni. apply in_map_iff. exists (k', l'). auto.
      - rewrite IH; [|assumption| |].
        + f_equal. f_equal. apply Fr. assumption.
        + intros k' l' Hin'. apply (Hs k'). right; assumption.
        + intros k' l' Hin' Hk'. apply Hc; [right; assumption|assumption]. }
    rewrite G by assumption. apply map_ext. intros [k l]. cbn [fst snd]. reflexivity.
  - intros l Hl. unfold train. apply (proj1 (proj2 (proj2 (train_frame (filter (fun kl => is_param (fst kl)) (state_dict y)) new s)))).
    intros Hin. apply Hl. apply in_map_iff in Hin as (x & Ex & Hin). apply filter_In in Hin as [Hin _]. apply in_map_iff. exists x. auto.
Qed.
Print Assumptions C72_training_updates_the_parameters.

(** Non-vacuity: the layer of Prop_Checkpoint.v is alive; a step that doubles its weights is possible, and changes them. *)
Example a_training_step : exists ops y new, nth_error (w_layers (run ops)) 0 = Some y /\
  (forall k t, In (k, t) (saved (memory ops) y) -> k = "bias"%string \/ k = "kernel.weight_H"%string \/ k = "kernel.weight"%string ->
     same_kind t (new k) = true /\ tshape t = tshape (new k)) /\
  exists w, In ("kernel.weight"%string, TReal w) (saved (memory (ops ++ [OTrain 0 new])) y) /\ w = build (shape exW) (fun _ => 2).
Proof.
  pose proof (run_ex I3 mB wB width_B) as R0. set (ops := exops [I3; mB]) in *.
  assert (S0 : saved (memory ops) (exy [I3; mB] wB) =
    [("kernel.weight"%string, TReal exW); ("kernel.grid_H"%string, TMat [I3; mB]); ("kernel.grid_Rn"%string, TSpace (create_grid_R3 1))]).
  { unfold memory. rewrite R0. unfold saved, exy, state_dict, get, exheap. cbn [y_bias y_weight_H y_weight y_grid_H y_grid_Rn y_mask entry app map fst snd w_mem gs_heap].
    rewrite !app_nth2 by (rewrite heap_length; lia). rewrite heap_length. reflexivity. }
  assert (Hy : nth_error (w_layers (run ops)) 0 = Some (exy [I3; mB] wB)) by (rewrite R0; reflexivity).
  set (new := fun _ : string => TReal (build (shape exW) (fun _ => 2))).
  assert (Hn : forall k t, In (k, t) (saved (memory ops) (exy [I3; mB] wB)) -> k = "bias"%string \/ k = "kernel.weight_H"%string \/ k = "kernel.weight"%string ->
     same_kind t (new k) = true /\ tshape t = tshape (new k)).
  { rewrite S0. intros k t Hin Hk. destruct Hin as [E|[E|[E|[]]]]; injection E as <- <-; destruct Hk as [Hk|[Hk|Hk]]; try discriminate. split; reflexivity. }
  exists ops, (exy [I3; mB] wB), new. split; [exact Hy|]. split; [exact Hn|].
  exists (build (shape exW) (fun _ => 2)). split; [|reflexivity].
  destruct (C72_training_updates_the_parameters ops 0 _ new Hy Hn) as [E _]. rewrite E, S0. left. reflexivity.
Qed.

(** Any file, well-formed or not: an entry of the layer whose name is in the file with the same shape takes the value of the file, even when the
    load raises; every other tensor of the program is unchanged; the load raises (RuntimeError) exactly if an entry is missing or has another
    shape, or the file has a name the layer does not have. *)
Theorem C72_loads_are_entrywise : forall ops y ck s' r, alive ops y -> load_state_dict (memory ops) y ck = (s', r) ->
  (forall k l, In (k, l) (state_dict y) -> get s' l =
     match lookup k ck with
     | Some t => if copyable (get (memory ops) l) t then t else get (memory ops) l
     | None => get (memory ops) l
     end) /\
  (forall l, ~ In l (map snd (state_dict y)) -> get s' l = get (memory ops) l) /\
  (r = Ok tt \/ r = Err RuntimeError) /\
  (r = Ok tt <->
    (forall k l, In (k, l) (state_dict y) -> exists t, lookup k ck = Some t /\
       same_kind (get (memory ops) l) t = true /\ tshape (get (memory ops) l) = tshape t) /\
    (forall k t, In (k, t) ck -> In k (map fst (state_dict y)))).
Proof.
  intros ops y ck s' r [i Hy] E. destruct (i_layers _ (run_inv ops) i y Hy) as (T & N & _). unfold memory in *. set (s := w_mem (run ops)) in *.
  assert (Hb : forall k l, In (k, l) (state_dict y) -> (l < size s)%nat) by (intros k l Hin; apply (typed_in s y l T); apply in_map_iff; exists (k, l); auto).
  assert (L : forall es s, NoDup (map snd es) -> (forall k l, In (k, l) es -> (l < size s)%nat) ->
    (forall k l, In (k, l) es -> get (fst (load_entries es ck s)) l =
       match lookup k ck with Some t => if copyable (get s l) t then t else get s l | None => get s l end) /\
    (snd (load_entries es ck s) = true <-> forall k l, In (k, l) es -> exists t, lookup k ck = Some t /\ copyable (get s l) t = true)).
  { clear. induction es as [|[k l] r IH]; intros s Hn Hb; cbn [load_entries].
    - split; [intros ? ? []|]. split; [intros _ ? ? []|reflexivity].
    - cbn [map snd] in Hn. inversion Hn as [|? ? Hni Hn']; subst.
      assert (Hb' : forall s1, size s1 = size s -> forall k l, In (k, l) r -> (l < size s1)%nat) by (intros s1 E k' l' Hin; rewrite E; apply (Hb k'); right; assumption).
      destruct (lookup k ck) as [t|] eqn:Ek; [destruct (copyable (get s l) t) eqn:Ef|].
      + destruct (IH (assign s l t) Hn' (Hb' _ (size_assign s l t))) as [A B].
        assert (Hne : forall k' l', In (k', l') r -> l <> l') by (intros k' l' Hin ->; apply Hni; apply in_map_iff; exists (k', l'); auto).
        split.
        * intros k' l' [Hin|Hin].
          -- injection Hin as <- <-. rewrite (proj1 (proj2 (proj2 (load_entries_frame r ck (assign s l t))))) by assumption.
             rewrite get_assign_same by (apply (Hb k); left; reflexivity). rewrite Ek, Ef. reflexivity.
          -- rewrite (A k' l' Hin), get_assign_other; [reflexivity|eapply Hne; exact Hin].
        * rewrite B. split; intros Ha k' l' Hin.
          -- destruct Hin as [Hin|Hin]; [injection Hin as <- <-; exists t; auto|]. specialize (Ha k' l' Hin). rewrite get_assign_other in Ha; [exact Ha|eapply Hne; exact Hin].
          -- rewrite get_assign_other by (eapply Hne; exact Hin). apply Ha. right. assumption.
      + cbn [fst snd]. destruct (IH s Hn' (Hb' s eq_refl)) as [A _]. split.
        * intros k' l' [Hin|Hin]; [injection Hin as <- <-; rewrite Ek, Ef; apply (load_entries_frame r ck s); assumption|apply A; assumption].
        * split; [discriminate|]. intros Ha. destruct (Ha k l (or_introl eq_refl)) as (t' & H1 & H2). congruence.
      + cbn [fst snd]. destruct (IH s Hn' (Hb' s eq_refl)) as [A _]. split.
        * intros k' l' [Hin|Hin]; [injection Hin as <- <-; rewrite Ek; apply (load_entries_frame r ck s); assumption|apply A; assumption].
        * split; [discriminate|]. intros Ha. destruct (Ha k l (or_introl eq_refl)) as (t' & H1 & H2). congruence. }
  destruct (L (state_dict y) s N Hb) as [A B]. clear L. destruct (load_entries_frame (state_dict y) ck s) as (_ & _ & C & _).
  unfold load_state_dict in E. destruct (load_entries (state_dict y) ck s) as [s1 ok]. cbn [fst snd] in *. injection E as E1 E2. subst s1.
  assert (F : forallb (fun e => existsb (fun kl => String.eqb (fst kl) (fst e)) (state_dict y)) ck = true <-> forall k t, In (k, t) ck -> In k (map fst (state_dict y))).
  { rewrite forallb_forall. split.
    - intros Hf k t Hin. specialize (Hf (k, t) Hin). apply existsb_exists in Hf as ([k' l] & Hi & He). cbn [fst] in He. apply String.eqb_eq in He. subst k'.
      apply in_map_iff. exists (k, l). auto.
    - intros Hf [k t] Hin. specialize (Hf k t Hin). apply in_map_iff in Hf as ([k' l] & He & Hi). cbn [fst] in He. subst k'. apply existsb_exists. exists (k, l).
      split; [exact Hi|apply String.eqb_refl]. }
  split; [exact A|]. split; [exact C|].
  assert (R : r = Ok tt <-> ok = true /\ forallb (fun e => existsb (fun kl => String.eqb (fst kl) (fst e)) (state_dict y)) ck = true).
  { rewrite <- E2. destruct ok, (forallb _ ck); cbn [andb]; split; intros Q; try discriminate; try tauto; destruct Q; discriminate. }
  split; [rewrite <- E2; destruct (_ && _)%bool; auto|]. rewrite R, F, B. split; intros [Q1 Q2]; (split; [|exact Q2]); intros k l Hin; destruct (Q1 k l Hin) as (t & Ht & Hf); exists t.
  - split; [exact Ht|]. apply copyable_iff. exact Hf.
  - split; [exact Ht|]. apply copyable_iff. exact Hf.
Qed.
Print Assumptions C72_loads_are_entrywise.
