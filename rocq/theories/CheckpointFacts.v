(** Facts about layers on the heap (Checkpoint.v). *)
From Coq Require Import String ZArith.
From Verif Require Import Prelude RMath Mat Interp InterpFacts SO3 Repulse RepulseFacts GridTables GridCache GridCacheFacts Tensor TensorFacts Kernel Functional Conv Public Checkpoint.
Open Scope R_scope.

(** ** copyable is an equivalence *)
Lemma copyable_iff a b : copyable a b = true <-> same_kind a b = true /\ tshape a = tshape b.
Proof.
  unfold copyable. destruct (list_eq_dec Nat.eq_dec (tshape a) (tshape b)) as [E|E].
  - rewrite Bool.andb_true_r. tauto.
  - rewrite Bool.andb_false_r. split; [discriminate|tauto].
Qed.
Lemma copyable_refl a : copyable a a = true.
Proof. apply copyable_iff. split; [destruct a; reflexivity|reflexivity]. Qed.
Lemma copyable_sym a b : copyable a b = true -> copyable b a = true.
Proof. rewrite !copyable_iff. intros [H E]. split; [destruct a, b; try discriminate; reflexivity|congruence]. Qed.
Lemma copyable_trans a b c : copyable a b = true -> copyable b c = true -> copyable a c = true.
Proof. rewrite !copyable_iff. intros [H E] [H' E']. split; [destruct a, b; try discriminate; destruct c; try discriminate; reflexivity|congruence]. Qed.

(** ** the heap *)
Definition size (s : gstate) : nat := List.length (gs_heap s).
Lemma get_oob s l : (size s <= l)%nat -> get s l = TEmpty.
Proof. intros H. unfold get. apply nth_overflow. exact H. Qed.
Lemma get_in s l : get s l <> TEmpty -> (l < size s)%nat.
Proof. intros H. destruct (Nat.lt_ge_cases l (size s)) as [|G]; [assumption|]. rewrite get_oob in H by assumption. congruence. Qed.
Lemma size_assign s l t : size (assign s l t) = size s.
Proof. apply upd_length. Qed.
Lemma get_assign_same s l t : (l < size s)%nat -> get (assign s l t) l = t.
Proof. intros H. unfold get, assign; cbn [gs_heap]. apply upd_same. exact H. Qed.
Lemma get_assign_other s l l' t : l <> l' -> get (assign s l t) l' = get s l'.
Proof. intros H. unfold get, assign; cbn [gs_heap]. apply upd_other. exact H. Qed.
Lemma get_alloc_old s t l : (l < size s)%nat -> get (fst (alloc s t)) l = get s l.
Proof. intros H. unfold get, alloc; cbn [gs_heap fst]. apply app_nth1. exact H. Qed.
Lemma get_alloc_new s t : get (fst (alloc s t)) (snd (alloc s t)) = t.
Proof. unfold get, alloc; cbn [gs_heap fst snd]. rewrite app_nth2, Nat.sub_diag by lia. reflexivity. Qed.
Lemma size_alloc s t : size (fst (alloc s t)) = S (size s).
Proof. unfold size, alloc; cbn [gs_heap fst]. rewrite app_length. simpl. lia. Qed.

(** s' has at least the tensors of s, each of its old shape. *)
Definition evolves (s s' : gstate) : Prop :=
  (size s <= size s')%nat /\ forall l, (l < size s)%nat -> copyable (get s l) (get s' l) = true.
Lemma evolves_refl s : evolves s s.
Proof. split; [lia|]. intros. apply copyable_refl. Qed.
Lemma evolves_trans a b c : evolves a b -> evolves b c -> evolves a c.
Proof.
  intros [L1 H1] [L2 H2]. split; [lia|]. intros l Hl. apply copyable_trans with (get b l); [apply H1; lia|apply H2; lia].
Qed.
Lemma evolves_assign s l t : copyable (get s l) t = true -> evolves s (assign s l t).
Proof.
  intros H. split; [rewrite size_assign; lia|]. intros l' Hl'. destruct (Nat.eq_dec l l') as [<-|N].
  - rewrite get_assign_same by assumption. assumption.
  - rewrite get_assign_other by assumption. apply copyable_refl.
Qed.
Lemma evolves_alloc s t : evolves s (fst (alloc s t)).
Proof. split; [rewrite size_alloc; lia|]. intros l Hl. rewrite get_alloc_old by assumption. apply copyable_refl. Qed.

(** Extension by new tensors only. *)
Definition grows (s s' : gstate) : Prop := (size s <= size s')%nat /\ forall l, (l < size s)%nat -> get s' l = get s l.
Lemma grows_refl s : grows s s. Proof. split; auto. Qed.
Lemma grows_trans a b c : grows a b -> grows b c -> grows a c.
Proof. intros [L1 H1] [L2 H2]. split; [lia|]. intros l Hl. rewrite H2 by lia. apply H1. assumption. Qed.
Lemma grows_alloc s t : grows s (fst (alloc s t)).
Proof. split; [rewrite size_alloc; lia|]. intros. apply get_alloc_old. assumption. Qed.
Lemma grows_evolves s s' : grows s s' -> evolves s s'.
Proof. intros [L H]. split; [assumption|]. intros l Hl. rewrite H by assumption. apply copyable_refl. Qed.

Lemma look_get s l t : look s l = Some t -> get s l = t /\ (l < size s)%nat.
Proof. intros H. split; [unfold get; apply nth_error_nth; exact H|apply nth_error_Some; unfold look in H; unfold size; congruence]. Qed.
Lemma get_look s l : (l < size s)%nat -> look s l = Some (get s l).
Proof. intros H. unfold look, get. apply nth_error_nth'. exact H. Qed.

Lemma extends_grows s s' : extends s s' -> grows s s'.
Proof.
  intros (H & _). split.
  - unfold size. destruct (gs_heap s) as [|x h] eqn:E; [simpl; lia|].
    assert (L : (List.length (gs_heap s) - 1 < size s)%nat) by (unfold size; rewrite E; simpl; lia).
    pose proof (H _ _ (get_look s _ L)) as K. apply look_get in K as [_ K]. unfold size in K. rewrite E in K. simpl in K. simpl. lia.
  - intros l Hl. apply (look_get s' l). apply H. apply get_look. assumption.
Qed.
Lemma call_grows s n p c o : grows s (fst (so3_uniform_grid s n p c o)).
Proof. apply extends_grows. apply call_extends. Qed.

(** ** loading *)
Lemma load_entries_frame es ck : forall s, let s' := fst (load_entries es ck s) in
  evolves s s' /\ size s' = size s /\ (forall l, ~ In l (map snd es) -> get s' l = get s l) /\
  gs_quat s' = gs_quat s /\ gs_matrix s' = gs_matrix s.
Proof.
  induction es as [|[k l] r IH]; intros s; cbn [load_entries].
  - cbn [fst]. repeat split; auto. intros; apply copyable_refl.
  - assert (Skip : let s' := fst (load_entries r ck s) in
      evolves s s' /\ size s' = size s /\ (forall l', ~ In l' (map snd ((k, l) :: r)) -> get s' l' = get s l') /\
      gs_quat s' = gs_quat s /\ gs_matrix s' = gs_matrix s).
    { destruct (IH s) as (A & B & C & D). split; [exact A|]. split; [exact B|]. split; [|exact D].
      intros l' Hl'. apply C. intros Hin. apply Hl'. right. assumption. }
    destruct (lookup k ck) as [t|]; [|exact Skip]. destruct (copyable (get s l) t) eqn:E; [|exact Skip].
    destruct (IH (assign s l t)) as (A & B & C & D). split; [eapply evolves_trans; [apply evolves_assign; exact E|exact A]|].
    split; [rewrite B; apply size_assign|]. split; [|exact D].
    intros l' Hl'. rewrite C; [|intros Hin; apply Hl'; right; assumption].
    apply get_assign_other. intros ->. apply Hl'. left. reflexivity.
Qed.

Lemma load_entries_all es ck : forall s,
  NoDup (map snd es) ->
  (forall k l, In (k, l) es -> (l < size s)%nat /\ exists t, lookup k ck = Some t /\ copyable (get s l) t = true) ->
  snd (load_entries es ck s) = true /\
  forall k l t, In (k, l) es -> lookup k ck = Some t -> get (fst (load_entries es ck s)) l = t.
Proof.
  induction es as [|[k l] r IH]; intros s Hn H; cbn [load_entries]; [split; [reflexivity|intros ? ? ? []]|].
  destruct (H k l (or_introl eq_refl)) as (Hl & t & Ht & Hc). rewrite Ht, Hc. cbn [map snd] in Hn. inversion Hn as [|? ? Hni Hn']; subst.
  destruct (IH (assign s l t) Hn') as [Hok Hget].
  { intros k' l' Hin. destruct (H k' l' (or_intror Hin)) as (Hl' & t' & Ht' & Hc'). split; [rewrite size_assign; assumption|].
    exists t'. split; [assumption|]. rewrite get_assign_other; [assumption|]. intros ->. apply Hni. apply in_map_iff. exists (k', l'). auto. }
  split; [exact Hok|]. intros k' l' t' [Hin|Hin] Hlk.
  - injection Hin as <- <-. rewrite Ht in Hlk. injection Hlk as <-.
    destruct (load_entries_frame r ck (assign s l t)) as (_ & _ & C & _). rewrite C by assumption.
    apply get_assign_same. assumption.
  - eapply Hget; eassumption.
Qed.

(** ** the shape of a layer *)
Definition slots (y : layer) : list nat := map snd (state_dict y).
Definition private (y : layer) : list nat := map snd (filter (fun kl => negb (String.eqb (fst kl) "kernel.grid_H")) (state_dict y)).
Definition opt_entry (k : string) (t : option tens) : checkpoint := match t with Some t => [(k, t)] | None => [] end.
(** Name and shape of the entries, as the attributes determine them. *)
Definition proto (y : layer) : checkpoint :=
  let L := gm_layer (y_attr y) in let k := l_kernel L in
  opt_entry "bias" (option_map TReal (l_bias L)) ++
  opt_entry "kernel.weight_H" (match y_kind y with KSeparable => Some (TReal (build (group_weight_shape k) (fun _ => 0))) | _ => None end) ++
  [("kernel.weight"%string, TReal (build (weight_shape (y_kind y) k) (fun _ => 0))); ("kernel.grid_H"%string, TMat (k_grid_H k));
   ("kernel.grid_Rn"%string, TSpace (k_grid_Rn k))] ++
  opt_entry "kernel.mask" (option_map TReal (k_mask k)).
Definition typed (s : gstate) (y : layer) : Prop :=
  Forall2 (fun kl kt => fst kl = fst kt /\ copyable (snd kt) (get s (snd kl)) = true) (state_dict y) (proto y).

Lemma proto_not_empty y k t : In (k, t) (proto y) -> t <> TEmpty.
Proof.
  unfold proto. rewrite !in_app_iff. intros [H|[H|[H|H]]].
  - destruct (l_bias (gm_layer (y_attr y))); [|contradiction]. destruct H as [H|[]]. injection H as <- <-. discriminate.
  - destruct (y_kind y); try contradiction. destruct H as [H|[]]. injection H as <- <-. discriminate.
  - destruct H as [H|[H|[H|[]]]]; injection H as <- <-; discriminate.
  - destruct (k_mask _); [|contradiction]. destruct H as [H|[]]. injection H as <- <-. discriminate.
Qed.

Lemma Forall2_In_l {A B} (P : A -> B -> Prop) l m x : Forall2 P l m -> In x l -> exists y, In y m /\ P x y.
Proof. induction 1; intros []; [subst; eexists; split; [left; reflexivity|assumption]|]. destruct (IHForall2 H1) as (z & ? & ?). exists z. split; [right|]; assumption. Qed.

Lemma typed_in s y l : typed s y -> In l (slots y) -> (l < size s)%nat.
Proof.
  intros T Hl. apply in_map_iff in Hl as ([k l'] & E & Hin). cbn in E. subst l'.
  destruct (Forall2_In_l _ _ _ _ T Hin) as ([k' t] & Hp & _ & Hc). cbn [fst snd] in Hc. apply get_in. intros E. rewrite E in Hc.
  pose proof (proto_not_empty y k' t Hp). apply copyable_iff in Hc as [Hk _]. destruct t; discriminate || congruence.
Qed.
Lemma typed_evolves s s' y : typed s y -> evolves s s' -> typed s' y.
Proof.
  intros T E. pose proof (fun l => typed_in s y l T) as B. unfold slots in B. unfold typed in *. revert B.
  induction T as [|[k l] [k' t] es ps [H1 H2] _ IH]; intros B; constructor.
  - cbn [fst snd] in *. split; [assumption|]. eapply copyable_trans; [exact H2|]. apply (proj2 E). apply B. left. reflexivity.
  - apply IH. intros l' Hl'. apply B. right. assumption.
Qed.

Definition layer_ok (s : gstate) (y : layer) : Prop :=
  typed s y /\ NoDup (slots y) /\ exists g fb, attributes (y_kind y) (y_args y) g fb = Ok (y_attr y).

Lemma keys_nodup y : NoDup (map fst (state_dict y)).
Proof.
  assert (N : NoDup ["bias"; "kernel.weight_H"; "kernel.weight"; "kernel.grid_H"; "kernel.grid_Rn"; "kernel.mask"]%string).
  { repeat (constructor; [simpl; intuition discriminate|]). constructor. }
  unfold state_dict. rewrite !map_app. cbn [map fst].
  destruct (y_bias y), (y_weight_H y), (y_mask y); cbn; repeat (constructor; [simpl; intuition discriminate|]); constructor.
Qed.

Lemma lookup_in k t ck : NoDup (map fst ck) -> In (k, t) ck -> lookup k ck = Some t.
Proof.
  unfold lookup. induction ck as [|[k' t'] r IH]; intros N []; cbn [find fst].
  - injection H as -> ->. rewrite String.eqb_refl. reflexivity.
  - cbn [map fst] in N. inversion N as [|? ? Hni N']; subst. destruct (String.eqb_spec k' k) as [->|_]; [|auto].
    exfalso. apply Hni. apply in_map_iff. exists (k, t). auto.
Qed.
Lemma saved_keys s y : map fst (saved s y) = map fst (state_dict y).
Proof. unfold saved. rewrite map_map. reflexivity. Qed.

(** ** making a layer *)
Lemma build_copyable sh f g : copyable (TReal (build sh f)) (TReal (build sh g)) = true.
Proof. apply copyable_iff. split; reflexivity. Qed.

Lemma attributes_grid kd A g fb M : attributes kd A g fb = Ok M -> k_grid_H (l_kernel (gm_layer M)) = g.
Proof.
  unfold attributes, lifting_SE3, group_SE3, make3, gconv_init3, gconv_init, pick_grid.
  destruct kd; cbn [bind]; intros H.
  - destruct (kernel_weight_groups _ _) as [gr|]; cbn [bind] in H; [|discriminate].
    destruct (check_config _ _ _ _ _ _ _); cbn [bind] in H; [|discriminate]. cbn in H. injection H as <-. reflexivity.
  - unfold kernel_SE3 in H. destruct (width_SE3 _ _) as [w|]; cbn [bind] in H; [|discriminate].
    destruct (kernel_weight_groups _ _) as [gr|]; cbn [bind] in H; [|discriminate].
    destruct (check_config _ _ _ _ _ _ _); cbn [bind] in H; [|discriminate]. cbn in H. injection H as <-. reflexivity.
  - unfold kernel_SE3 in H. destruct (width_SE3 _ _) as [w|]; cbn [bind] in H; [|discriminate].
    destruct (kernel_weight_groups _ _) as [gr|]; cbn [bind] in H; [|discriminate].
    destruct (check_config _ _ _ _ _ _ _); cbn [bind] in H; [|discriminate]. cbn in H. injection H as <-. reflexivity.
Qed.

(** The grid the constructor uses. *)
Definition grid_stage (s : gstate) (A : args) (given : option nat) (o : oracle) : gstate * result nat :=
  match given with Some l => (s, Ok l) | None => so3_uniform_grid s (a_gsize A) "matrix" false o end.

Lemma grid_stage_grows s A given o : grows s (fst (grid_stage s A given o)).
Proof. destruct given; [apply grows_refl|apply call_grows]. Qed.

Lemma alloc_opt_grows s t : grows s (fst (alloc_opt s t)).
Proof. destruct t; [apply grows_alloc|apply grows_refl]. Qed.

Record made (s s0 s' : gstate) (kd : kind) (A : args) (l : nat) (g : list M3) (fb : list nat -> R) (y : layer) : Prop := {
  m_grid_grows : grows s s0;
  m_grows : grows s0 s';
  m_grid : get s0 l = TMat g;
  m_loc : y_grid_H y = l;
  m_kind : y_kind y = kd;
  m_args : y_args y = A;
  m_attr : attributes kd A g fb = Ok (y_attr y);
  m_typed : typed s' y;
  m_fresh : forall x, In x (private y) -> (size s0 <= x)%nat;
  m_nodup : NoDup (slots y);
  m_dicts : gs_quat s' = gs_quat s0 /\ gs_matrix s' = gs_matrix s0
}.

Lemma new_layer_made s kd A given o fH f fb s' y :
  new_layer s kd A given o fH f fb = (s', Ok y) ->
  exists l g, snd (grid_stage s A given o) = Ok l /\ made s (fst (grid_stage s A given o)) s' kd A l g fb y.
Proof.
  unfold new_layer. fold (grid_stage s A given o). pose proof (grid_stage_grows s A given o) as G0.
  destruct (grid_stage s A given o) as [s0 [l|e]] eqn:Eg; cbn [bind]; [|discriminate]. cbn [fst snd] in *.
  destruct (get s0 l) as [| |g| | |] eqn:Egl; cbn [as_grid bind]; try discriminate.
  destruct (attributes kd A g fb) as [M|e] eqn:EM; cbn [bind]; [|discriminate].
  intros H. exists l, g. split; [reflexivity|].
  assert (Hl : (l < size s0)%nat) by (apply get_in; rewrite Egl; discriminate).
  pose proof (attributes_grid kd A g fb M EM) as HgM.
  (* expand the allocations into one heap *)
  set (k := l_kernel (gm_layer M)) in *.
  set (ext := [TSpace (k_grid_Rn k)] ++ match option_map TReal (k_mask k) with Some t => [t] | None => [] end ++
     (match kd with KSeparable => [TReal (build (group_weight_shape k) fH)] | _ => [] end) ++
     [TReal (build (weight_shape kd k) f)] ++ match option_map TReal (l_bias (gm_layer M)) with Some t => [t] | None => [] end).
  assert (Hs' : s' = mkG (gs_heap s0 ++ ext) (gs_quat s0) (gs_matrix s0)).
  { revert H. unfold ext. destruct kd, (k_mask k), (l_bias (gm_layer M)); cbn; intros H; injection H as <- _; f_equal; rewrite <- ?app_assoc; reflexivity. }
  assert (Hat : forall i, get s' (size s0 + i) = nth i ext TEmpty).
  { intros i. rewrite Hs'. unfold get, size; cbn [gs_heap]. rewrite app_nth2 by lia. f_equal. lia. }
  assert (Hold : forall i, (i < size s0)%nat -> get s' i = get s0 i).
  { intros i Hi. rewrite Hs'. unfold get; cbn [gs_heap]. apply app_nth1. exact Hi. }
  assert (Hsz : (size s0 <= size s')%nat) by (rewrite Hs'; unfold size; cbn [gs_heap]; rewrite app_length; lia).
  assert (Hg' : get s' l = TMat g) by (rewrite Hold; assumption).
  assert (Z0 := Hat 0%nat). assert (Z1 := Hat 1%nat). assert (Z2 := Hat 2%nat). assert (Z3 := Hat 3%nat). assert (Z4 := Hat 4%nat).
  clear Hat. rewrite Nat.add_0_r in Z0. rewrite Nat.add_1_r in Z1.
  replace (size s0 + 2)%nat with (S (S (size s0))) in Z2 by lia. replace (size s0 + 3)%nat with (S (S (S (size s0)))) in Z3 by lia.
  replace (size s0 + 4)%nat with (S (S (S (S (size s0))))) in Z4 by lia.
  assert (Len : forall h (t : tens), List.length (h ++ [t]) = S (List.length h)) by (intros; rewrite app_length; simpl; lia).
  assert (Hdict : gs_quat s' = gs_quat s0 /\ gs_matrix s' = gs_matrix s0) by (rewrite Hs'; split; reflexivity).
  clear Hs'.
  revert H. unfold ext in *. clear ext.
  destruct (k_mask k) as [mk|] eqn:Em; destruct (l_bias (gm_layer M)) as [bb|] eqn:Eb; destruct kd; cbn in Z0, Z1, Z2, Z3, Z4 |- *;
    rewrite ?Len; fold (size s0); intros H; injection H as Es <-.
  all: constructor; cbn [y_grid_H y_kind y_args y_attr]; try assumption; try reflexivity; try (split; assumption).
  all: cbn.
  all: lazymatch goal with
       | |- typed _ _ => unfold typed, state_dict, proto; cbn [y_kind y_attr y_bias y_weight_H y_weight y_grid_H y_grid_Rn y_mask];
           fold k; rewrite Em, Eb, HgM;
           cbn; 
           repeat (first [apply Forall2_nil | apply Forall2_cons]);
           cbn [fst snd]; (split; [reflexivity|rewrite ?Z0, ?Z1, ?Z2, ?Z3, ?Z4, ?Hg'; first [apply build_copyable | apply copyable_refl]])
       | |- NoDup _ => unfold slots; cbn; repeat (constructor; [simpl; intuition lia|]); constructor
       | |- _ => idtac
       end.
  all: unfold private; cbn; intros x Hx; repeat destruct Hx as [<-|Hx]; try contradiction; lia.
Qed.

Lemma new_layer_fst s kd A given o fH f fb :
  let s0 := fst (grid_stage s A given o) in
  let s' := fst (new_layer s kd A given o fH f fb) in
  grows s0 s' /\ gs_quat s' = gs_quat s0 /\ gs_matrix s' = gs_matrix s0.
Proof.
  intros s0 s'. destruct (new_layer s kd A given o fH f fb) as [s1 [y|e]] eqn:E.
  - destruct (new_layer_made _ _ _ _ _ _ _ _ _ _ E) as (l & g & _ & Hm). subst s0 s'. cbn [fst].
    split; [apply (m_grows _ _ _ _ _ _ _ _ _ Hm)|apply (m_dicts _ _ _ _ _ _ _ _ _ Hm)].
  - subst s'. cbn [fst]. assert (s1 = s0) as ->.
    { revert E. unfold new_layer. fold (grid_stage s A given o). subst s0. destruct (grid_stage s A given o) as [s0 rl]; cbn [fst].
      destruct (l <- rl ;; g <- as_grid (get s0 l) ;; M <- attributes kd A g fb ;; Ok (l, M)) as [[l M]|e']; [|intros E; injection E; congruence].
      cbn. destruct (option_map TReal (k_mask _)); destruct kd; destruct (option_map TReal (l_bias _)); cbn; discriminate. }
    split; [apply grows_refl|split; reflexivity].
Qed.

(** ** the parts of a layer *)
Lemma slots_split y x : In x (slots y) <-> In x (private y) \/ x = y_grid_H y.
Proof.
  unfold slots, private, state_dict. destruct (y_bias y), (y_weight_H y), (y_mask y); cbn; intuition.
Qed.
Lemma grid_in_slots y : In (y_grid_H y) (slots y). Proof. apply slots_split. right; reflexivity. Qed.

Lemma Forall2_filter {A B} (P : A -> B -> Prop) (f : A -> bool) (g : B -> bool) l m :
  Forall2 P l m -> (forall a b, P a b -> f a = g b) -> Forall2 P (filter f l) (filter g m).
Proof.
  intros H Hfg. induction H as [|a b l m Hab _ IH]; cbn [filter]; [constructor|]. rewrite (Hfg a b Hab).
  destruct (g b); [constructor; assumption|assumption].
Qed.

Definition plain (t : tens) : Prop := match t with TReal _ | TSpace _ => True | _ => False end.
Lemma private_plain s y x : typed s y -> In x (private y) -> plain (get s x).
Proof.
  intros T Hx. apply in_map_iff in Hx as ([k l] & E & Hin). cbn in E. subst l.
  pose proof (Forall2_filter _ (fun kl => negb (String.eqb (fst kl) "kernel.grid_H")) (fun kt => negb (String.eqb (fst kt) "kernel.grid_H")) _ _ T) as F.
  assert (F' := F (fun a b (H : fst a = fst b /\ _) => f_equal (fun z => negb (String.eqb z "kernel.grid_H")) (proj1 H))). clear F.
  destruct (Forall2_In_l _ _ _ _ F' Hin) as ([k' t] & Hp & _ & Hc). cbn [fst snd] in Hc.
  apply copyable_iff in Hc as [Hk _].
  assert (plain t).
  { revert Hp. unfold proto. destruct (l_bias _), (y_kind y), (k_mask _); cbn; intros Hp; repeat (destruct Hp as [Hp|Hp]); try contradiction; injection Hp as <- <-; exact I. }
  destruct t; try contradiction; destruct (get s x); try discriminate; exact I.
Qed.
Lemma grid_matrices s y : typed s y -> exists g, get s (y_grid_H y) = TMat g /\ List.length g = List.length (kernel_grid (y_attr y)).
Proof.
  intros T.
  assert (Hin : In ("kernel.grid_H"%string, y_grid_H y) (state_dict y)) by (unfold state_dict; rewrite !in_app_iff; cbn; intuition).
  destruct (Forall2_In_l _ _ _ _ T Hin) as ([k' t] & Hp & E & Hc). cbn [fst snd] in *. subst k'.
  assert (t = TMat (kernel_grid (y_attr y))) as ->.
  { revert Hp. unfold proto, kernel_grid. destruct (l_bias _), (y_kind y), (k_mask _); cbn; intros Hp; repeat (destruct Hp as [Hp|Hp]); try contradiction; try discriminate; congruence. }
  apply copyable_iff in Hc as [Hk Hs]. destruct (get s (y_grid_H y)) as [| |g| | |]; try discriminate. exists g. split; [reflexivity|].
  cbn in Hs. congruence.
Qed.

(** ** every reachable world *)
Record inv (w : world) : Prop := {
  i_valid : GridCacheFacts.valid (w_mem w);
  i_table : forall n, (1 <= n <= 24)%nat -> gs_matrix (w_mem w) n = Some (24 + (n - 1))%nat;
  i_large : forall n l, (24 < n)%nat -> gs_matrix (w_mem w) n = Some l -> exists e, get (w_mem w) l = TRows3 e;
  i_layers : forall i y, nth_error (w_layers w) i = Some y -> layer_ok (w_mem w) y;
  i_apart : forall i j y y', i <> j -> nth_error (w_layers w) i = Some y -> nth_error (w_layers w) j = Some y' ->
    forall x, In x (private y) -> ~ In x (slots y')
}.

Lemma layer_ok_evolves s s' y : layer_ok s y -> evolves s s' -> layer_ok s' y.
Proof. intros (T & N & E) Ev. split; [eapply typed_evolves; eassumption|split; assumption]. Qed.

Lemma valid_evolves s s' : GridCacheFacts.valid s -> (size s <= size s')%nat -> gs_quat s' = gs_quat s -> gs_matrix s' = gs_matrix s -> GridCacheFacts.valid s'.
Proof. intros [V1 V2] L Eq Em. unfold GridCacheFacts.valid, size in *. rewrite Eq, Em. split; intros n l H; [apply V1 in H|apply V2 in H]; lia. Qed.

(** Same layers, same dicts, evolved memory. *)
Lemma inv_evolves w s' : inv w -> evolves (w_mem w) s' -> gs_quat s' = gs_quat (w_mem w) -> gs_matrix s' = gs_matrix (w_mem w) ->
  inv (mkW s' (w_layers w)).
Proof.
  intros [V T B L A] E Eq Em. constructor; cbn [w_mem w_layers].
  - apply (valid_evolves (w_mem w)); try assumption. apply E.
  - rewrite Em. exact T.
  - intros n l Hn Hl. rewrite Em in Hl. destruct (B n l Hn Hl) as [e He]. pose proof (proj2 E l (proj2 V n l Hl)) as C. rewrite He in C.
    apply copyable_iff in C as [C _]. destruct (get s' l) as [| | |e'| |]; try discriminate. exists e'. reflexivity.
  - intros i y Hy. eapply layer_ok_evolves; eauto.
  - exact A.
Qed.
Lemma inv_call w n p c o : inv w -> inv (mkW (fst (so3_uniform_grid (w_mem w) n p c o)) (w_layers w)).
Proof.
  intros [V T B L A]. constructor; cbn [w_mem w_layers].
  - exact (gstep_valid (w_mem w) (GCall n p c o) V).
  - intros k Hk. apply (call_extends (w_mem w) n p c o). apply T. assumption.
  - intros k l Hk Hl.
    assert (Hold : gs_matrix (w_mem w) k = Some l -> exists e, get (fst (so3_uniform_grid (w_mem w) n p c o)) l = TRows3 e).
    { intros Hm. destruct (B k l Hk Hm) as [e He]. exists e. rewrite <- He. apply call_grows. apply (proj2 V k l Hm). }
    revert Hl Hold. pose proof (call_spec_ok (w_mem w) n p c o) as Hc. revert Hc. generalize (fst (so3_uniform_grid (w_mem w) n p c o)), (snd (so3_uniform_grid (w_mem w) n p c o)).
    intros s' r Hc. destruct Hc; cbn [gs_matrix]; auto. destruct c; auto. unfold set_at. destruct (Nat.eqb_spec k n) as [->|_]; auto.
    intros Hl _. injection Hl as <-. exists (so3_optimised o). unfold get; cbn [gs_heap]. rewrite app_nth1 by (rewrite app_length; simpl; lia).
    rewrite app_nth2, Nat.sub_diag by lia. reflexivity.
  - intros i y Hy. eapply layer_ok_evolves; eauto. apply grows_evolves, call_grows.
  - exact A.
Qed.

Lemma train_frame es (new : string -> tens) : forall s,
  let s' := fold_left (fun s kl => if copyable (get s (snd kl)) (new (fst kl)) then assign s (snd kl) (new (fst kl)) else s) es s in
  evolves s s' /\ size s' = size s /\ (forall l, ~ In l (map snd es) -> get s' l = get s l) /\
  gs_quat s' = gs_quat s /\ gs_matrix s' = gs_matrix s.
Proof.
  induction es as [|[k l] r IH]; intros s; cbn [fold_left].
  - repeat split; auto. intros; apply copyable_refl.
  - cbn [fst snd]. destruct (copyable (get s l) (new k)) eqn:E.
    + destruct (IH (assign s l (new k))) as (A & B & C & D). split; [eapply evolves_trans; [apply evolves_assign; exact E|exact A]|].
      split; [rewrite B; apply size_assign|]. split; [|exact D]. intros l' Hl'. rewrite C; [|intros Hin; apply Hl'; right; assumption].
      apply get_assign_other. intros ->. apply Hl'. left. reflexivity.
    + destruct (IH s) as (A & B & C & D). split; [exact A|]. split; [exact B|]. split; [|exact D].
      intros l' Hl'. apply C. intros Hin. apply Hl'. right. assumption.
Qed.

Lemma params_private y l : In l (map snd (filter (fun kl => is_param (fst kl)) (state_dict y))) -> In l (private y).
Proof.
  intros H. apply in_map_iff in H as ([k l'] & E & Hin). cbn in E. subst l'. apply filter_In in Hin as [Hin Hk]. cbn [fst] in Hk.
  apply in_map_iff. exists (k, l). split; [reflexivity|]. apply filter_In. split; [assumption|]. cbn [fst].
  destruct (String.eqb_spec k "kernel.grid_H") as [->|_]; [discriminate|reflexivity].
Qed.

Lemma load_frame s y ck : let s' := fst (load_state_dict s y ck) in
  evolves s s' /\ size s' = size s /\ (forall l, ~ In l (slots y) -> get s' l = get s l) /\
  gs_quat s' = gs_quat s /\ gs_matrix s' = gs_matrix s.
Proof.
  unfold load_state_dict. pose proof (load_entries_frame (state_dict y) ck s) as H.
  destruct (load_entries (state_dict y) ck s) as [s1 ok]. exact H.
Qed.

Lemma do_inv w a : inv w -> inv (do w a).
Proof.
  intros I. destruct a as [kd A given o fH f fb|i ck|i new|t|l t|n p c o]; cbn [do].
  - destruct (new_layer_fst (w_mem w) kd A given o fH f fb) as (G & Eq & Em).
    assert (I0 : inv (mkW (fst (grid_stage (w_mem w) A given o)) (w_layers w))).
    { destruct given; cbn [grid_stage fst]; [destruct w; exact I|apply inv_call; exact I]. }
    destruct (new_layer (w_mem w) kd A given o fH f fb) as [s' [y|e]] eqn:E; cbn [fst] in *.
    + destruct (new_layer_made _ _ _ _ _ _ _ _ _ _ E) as (l & g & Hst & Hm).
      pose proof (inv_evolves _ s' I0 (grows_evolves _ _ G) Eq Em) as [V T B L A']. cbn [w_mem w_layers] in *.
      assert (Hnew : layer_ok s' y).
      { split; [apply Hm|]. split; [apply Hm|]. exists g, fb. rewrite (m_kind _ _ _ _ _ _ _ _ _ Hm), (m_args _ _ _ _ _ _ _ _ _ Hm). apply Hm. }
      assert (Hnth : forall i z, nth_error (w_layers w ++ [y]) i = Some z ->
                (nth_error (w_layers w) i = Some z) \/ (i = List.length (w_layers w) /\ z = y)).
      { intros i z Hz. destruct (Nat.lt_ge_cases i (List.length (w_layers w))) as [Hi|Hi].
        - rewrite nth_error_app1 in Hz by assumption. left. assumption.
        - rewrite nth_error_app2 in Hz by assumption. right. destruct (i - List.length (w_layers w))%nat as [|d] eqn:Ed; cbn in Hz.
          + injection Hz as <-. split; [lia|reflexivity].
          + destruct d; discriminate. }
      assert (Hold : forall i z x, nth_error (w_layers w) i = Some z -> In x (slots z) -> (x < size (w_mem w))%nat).
      { intros i z x Hz Hx. eapply typed_in; [|exact Hx]. apply (i_layers _ I i z Hz). }
      assert (Hfr : forall x, In x (private y) -> (size (w_mem w) <= x)%nat).
      { intros x Hx. apply (m_fresh _ _ _ _ _ _ _ _ _ Hm) in Hx. pose proof (m_grid_grows _ _ _ _ _ _ _ _ _ Hm) as [Gs _]. lia. }
      constructor; cbn [w_mem w_layers]; [exact V|exact T|exact B| |].
      * intros i z Hz. apply Hnth in Hz as [Hz|[_ ->]]; [eapply L; exact Hz|exact Hnew].
      * intros i j z z' Hij Hz Hz' x Hx Hx'. apply Hnth in Hz as [Hz|[Hi ->]]; apply Hnth in Hz' as [Hz'|[Hj ->]].
        -- exact (A' i j z z' Hij Hz Hz' x Hx Hx').
        -- apply slots_split in Hx' as [Hx'|Hx'].
           ++ apply Hfr in Hx'. assert (x < size (w_mem w))%nat by (eapply Hold; [exact Hz|apply slots_split; left; exact Hx]). lia.
           ++ pose proof (private_plain s' z x (proj1 (L i z Hz)) Hx) as Hp.
              destruct (grid_matrices s' y (proj1 Hnew)) as (g' & Hg' & _). rewrite <- Hx' in Hg'. rewrite Hg' in Hp. exact Hp.
        -- apply Hfr in Hx. assert (x < size (w_mem w))%nat by (eapply Hold; [exact Hz'|exact Hx']). lia.
        -- lia.
    + exact (inv_evolves _ s' I0 (grows_evolves _ _ G) Eq Em).
  - destruct (nth_error (w_layers w) i) as [y|]; [|exact I]. destruct (load_frame (w_mem w) y ck) as (E & _ & _ & Eq & Em).
    exact (inv_evolves w _ I E Eq Em).
  - destruct (nth_error (w_layers w) i) as [y|]; [|exact I].
    destruct (train_frame (filter (fun kl => is_param (fst kl)) (state_dict y)) new (w_mem w)) as (E & _ & _ & Eq & Em).
    exact (inv_evolves w _ I E Eq Em).
  - exact (inv_evolves w _ I (evolves_alloc _ _) eq_refl eq_refl).
  - destruct (copyable (get (w_mem w) l) t) eqn:E; [|exact I]. exact (inv_evolves w _ I (evolves_assign _ _ _ E) eq_refl eq_refl).
  - apply inv_call. exact I.
Qed.

Lemma run_inv ops : inv (run ops).
Proof.
  unfold run. assert (I0 : inv start).
  { constructor.
    - exact ginit_valid.
    - exact ginit_matrix_in.
    - intros n l Hn. cbn [start w_mem ginit gs_matrix]. replace (Nat.leb n 24) with false by (symmetry; apply Nat.leb_gt; exact Hn).
      rewrite Bool.andb_false_r. discriminate.
    - intros i y H. destruct i; discriminate.
    - intros i j y y' _ H. destruct i; discriminate. }
  revert I0. generalize start. induction ops as [|a r IH]; intros w I; [exact I|]. cbn [fold_left]. apply IH, do_inv, I.
Qed.

(** ** what the attributes depend on *)
Definition shell (kd : kind) (A : args) (g : list M3) (w : R) (bias : option (tensor R)) : gmodule M3 V3 :=
  let gmode := match kd with KLifting => ""%string | _ => a_gmode A end in
  let ks := [a_size A; a_size A; a_size A] in
  let pad := match a_padding A with PInt p => PadTuple (repeat p 3) | PTuple l => PadTuple l | PStr s => PadStr s end in
  let k := {| k_in := a_in A; k_out := a_out A; k_groups := Z.to_nat (a_groups A); k_size := ks;
              k_gsize := [List.length g]; k_grid_H := g; k_grid_Rn := create_grid_R3 (a_size A);
              k_mask := if a_mask A then Some (create_spherical_mask_R3 (a_size A)) else None;
              k_ops := ops_SE3 (a_env A) gmode w (a_mode A) (a_pm A) |} in
  mkModule
    {| l_kernel := k; l_in := a_in A; l_out := a_out A; l_ks := ntuple 3 (AInt (a_size A)); l_gks := GkInt (Z.of_nat (a_gsize A)); l_groups := Z.to_nat (a_groups A);
       l_stride := ntuple 3 (AInt (a_stride A)); l_padding := pad; l_dil := ntuple 3 (AInt (a_dilation A));
       l_mode := match padmode_of (a_padding_mode A) with Some m => m | None => Zeros end;
       l_rev := reversed_padding pad (ntuple 3 (AInt (a_dilation A))) ks; l_bias := bias |} (a_permute A).
Lemma kernel_weight_groups_ok c z g : kernel_weight_groups c z = Ok g -> g = Z.to_nat z.
Proof. unfold kernel_weight_groups. destruct (Z.eqb _ _); [discriminate|]. destruct (Z.ltb _ _); [discriminate|]. congruence. Qed.
Lemma attributes_inv kd A g fb M : attributes kd A g fb = Ok M ->
  exists w, M = shell kd A g w (if a_bias A then Some (bias_tensor A fb) else None) /\
    match kd with KLifting => w = 0 | _ => width_SE3 (a_width A) g = Ok w end.
Proof.
  unfold attributes, lifting_SE3, group_SE3, make3, gconv_init3, gconv_init, pick_grid.
  destruct kd; cbn [bind]; intros H.
  - destruct (kernel_weight_groups _ _) as [gr|] eqn:Eg; cbn [bind] in H; [|discriminate]. apply kernel_weight_groups_ok in Eg as ->.
    destruct (check_config _ _ _ _ _ _ _); cbn [bind] in H; [|discriminate]. exists 0. split; [|reflexivity]. injection H as <-. reflexivity.
  - unfold kernel_SE3 in H. destruct (width_SE3 _ _) as [w|]; cbn [bind] in H; [|discriminate].
    destruct (kernel_weight_groups _ _) as [gr|]; cbn [bind] in H; [|discriminate].
    destruct (check_config _ _ _ _ _ _ _); cbn [bind] in H; [|discriminate]. exists w. split; [|reflexivity]. injection H as <-. reflexivity.
  - unfold kernel_SE3 in H. destruct (width_SE3 _ _) as [w|]; cbn [bind] in H; [|discriminate].
    destruct (kernel_weight_groups _ _) as [gr|]; cbn [bind] in H; [|discriminate].
    destruct (check_config _ _ _ _ _ _ _); cbn [bind] in H; [|discriminate]. exists w. split; [|reflexivity]. injection H as <-. reflexivity.
Qed.

Definition match_entries (a b : checkpoint) : Prop :=
  Forall2 (fun x y => fst x = fst y /\ copyable (snd x) (snd y) = true) a b.

Lemma proto_match s s0 y y0 : layer_ok s y -> layer_ok s0 y0 -> y_kind y = y_kind y0 -> y_args y = y_args y0 ->
  List.length (kernel_grid (y_attr y)) = List.length (kernel_grid (y_attr y0)) -> match_entries (proto y) (proto y0).
Proof.
  intros (_ & _ & g & fb & Ha) (_ & _ & g0 & fb0 & Ha0) Ek EA. rewrite <- Ek, <- EA in Ha0.
  apply attributes_inv in Ha as (w & EM & _). apply attributes_inv in Ha0 as (w0 & EM0 & _).
  unfold proto, kernel_grid. rewrite EM, EM0, <- Ek. cbn [gm_layer shell l_kernel k_grid_H l_bias k_mask k_grid_Rn]. intros El.
  unfold group_weight_shape, weight_shape, lifting_weight_shape, separable_weight_shape, full_weight_shape, k_gdim, k_cin.
  cbn [gm_layer shell l_kernel k_grid_H l_bias k_mask k_grid_Rn k_gsize k_out k_in k_groups k_size].
  rewrite El.
  assert (Eg : copyable (TMat g) (TMat g0) = true) by (apply copyable_iff; split; [reflexivity|cbn; congruence]).
  unfold match_entries, bias_tensor.
  destruct (a_bias (y_args y)), (y_kind y), (a_mask (y_args y)); cbn [opt_entry option_map app];
    repeat (first [apply Forall2_nil | apply Forall2_cons]); cbn [fst snd]; (split; [reflexivity|first [exact Eg|apply build_copyable|apply copyable_refl]]).
Qed.

Lemma Forall2_trans3 {A B C} (P : A -> B -> Prop) (Q : B -> C -> Prop) (S : A -> C -> Prop) l m n :
  (forall a b c, P a b -> Q b c -> S a c) -> Forall2 P l m -> Forall2 Q m n -> Forall2 S l n.
Proof. intros H HP. revert n. induction HP; intros n HQ; inversion HQ; subst; constructor; eauto. Qed.

Lemma saved_match s y : typed s y -> match_entries (proto y) (saved s y).
Proof.
  unfold typed, match_entries, saved. induction 1 as [|[k l] [k' t] es ps [H1 H2] _ IH]; cbn [map]; constructor; [|exact IH].
  cbn [fst snd] in *. auto.
Qed.
Lemma match_sym a b : match_entries a b -> match_entries b a.
Proof. unfold match_entries. induction 1 as [|x y l m [E C] _ IH]; constructor; [split; [congruence|apply copyable_sym, C]|exact IH]. Qed.
Lemma match_trans a b c : match_entries a b -> match_entries b c -> match_entries a c.
Proof. apply Forall2_trans3. intros x y z [E1 C1] [E2 C2]. split; [congruence|eapply copyable_trans; eassumption]. Qed.

Lemma saved_ext s' y ck : map fst ck = map fst (state_dict y) ->
  (forall k l t, In (k, l) (state_dict y) -> lookup k ck = Some t -> get s' l = t) -> saved s' y = ck.
Proof.
  intros Hk H. assert (N : NoDup (map fst ck)) by (rewrite Hk; apply keys_nodup). unfold saved.
  assert (G : forall k l t, In (k, l) (state_dict y) -> In (k, t) ck -> get s' l = t).
  { intros k l t H1 H2. eapply H; [exact H1|]. apply lookup_in; assumption. }
  clear H N. revert Hk G. generalize (state_dict y). induction ck as [|[k t] r IH]; intros [|[k' l] es]; cbn [map fst]; try discriminate; [reflexivity|].
  intros Hk G. injection Hk as E Hk. subst k'. f_equal.
  - cbn [fst snd]. f_equal. apply (G k l t); left; reflexivity.
  - apply IH; [exact Hk|]. intros. eapply G; right; eassumption.
Qed.

Lemma load_saved s s0 y y0 : layer_ok s y -> layer_ok s0 y0 -> y_kind y = y_kind y0 -> y_args y = y_args y0 ->
  List.length (kernel_grid (y_attr y)) = List.length (kernel_grid (y_attr y0)) ->
  exists s', load_state_dict s y (saved s0 y0) = (s', Ok tt) /\ saved s' y = saved s0 y0.
Proof.
  intros L L0 Ek EA El. pose proof (proto_match s s0 y y0 L L0 Ek EA El) as HM.
  assert (HS : match_entries (saved s y) (saved s0 y0)).
  { eapply match_trans; [apply match_sym, saved_match, L|]. eapply match_trans; [exact HM|]. apply saved_match, L0. }
  assert (Keys : map fst (saved s0 y0) = map fst (state_dict y)).
  { rewrite <- (saved_keys s y). clear -HS. induction HS as [|a b l m [E _] _ IH]; cbn [map]; congruence. }
  assert (N0 : NoDup (map fst (saved s0 y0))) by (rewrite Keys; apply keys_nodup).
  destruct (load_entries_all (state_dict y) (saved s0 y0) s) as [Hok Hget].
  - apply L.
  - intros k l Hin. split; [apply (typed_in s y); [apply L|apply in_map_iff; exists (k, l); auto]|].
    assert (Hin' : In (k, get s l) (saved s y)) by (apply in_map_iff; exists (k, l); auto).
    destruct (Forall2_In_l _ _ _ _ HS Hin') as ([k' t] & Ht & E & C). cbn [fst snd] in *. subst k'. exists t. split; [apply lookup_in; assumption|exact C].
  - unfold load_state_dict. destruct (load_entries (state_dict y) (saved s0 y0) s) as [s' ok] eqn:E. cbn [fst snd] in *. subst ok.
    exists s'. split.
    + assert (F : forallb (fun e => existsb (fun kl => String.eqb (fst kl) (fst e)) (state_dict y)) (saved s0 y0) = true).
      { apply forallb_forall. intros [k t] Hin. apply existsb_exists. assert (Hk : In k (map fst (state_dict y))) by (rewrite <- Keys; apply in_map_iff; exists (k, t); auto).
        apply in_map_iff in Hk as ([k' l] & E' & Hin'). exists (k', l). split; [assumption|]. cbn [fst] in *. subst k'. apply String.eqb_refl. }
      rewrite F. reflexivity.
    + apply saved_ext; assumption.
Qed.

(** ** a call depends on the contents of the entries and on the attributes *)
Lemma saved_parts s s0 y y0 : saved s y = saved s0 y0 ->
  get s (y_grid_H y) = get s0 (y_grid_H y0) /\ get s (y_grid_Rn y) = get s0 (y_grid_Rn y0) /\ get s (y_weight y) = get s0 (y_weight y0) /\
  option_map (get s) (y_mask y) = option_map (get s0) (y_mask y0) /\ option_map (get s) (y_bias y) = option_map (get s0) (y_bias y0) /\
  option_map (get s) (y_weight_H y) = option_map (get s0) (y_weight_H y0).
Proof.
  unfold saved, state_dict. destruct (y_bias y), (y_weight_H y), (y_mask y), (y_bias y0), (y_weight_H y0), (y_mask y0); cbn; intros H;
    injection H; intros; subst; try discriminate; repeat split; congruence.
Qed.
Lemma as_opt_map s l : as_opt s l = match option_map (get s) l with None => Ok None | Some t => u <- as_real t ;; Ok (Some u) end.
Proof. destruct l; reflexivity. Qed.

(** The module of y with the attributes of y0's. *)
Definition with_attr (y0 y : layer) : layer :=
  mkLayer (y_kind y0) (y_args y0) (y_attr y) (y_grid_H y0) (y_grid_Rn y0) (y_mask y0) (y_weight_H y0) (y_weight y0) (y_bias y0).
Lemma call_saved s s0 y y0 : y_kind y = y_kind y0 -> saved s y = saved s0 y0 ->
  forall q X in_H H, call s y q X in_H H = call s0 (with_attr y0 y) q X in_H H.
Proof.
  intros Ek Es q X in_H H. destruct (saved_parts _ _ _ _ Es) as (E1 & E2 & E3 & E4 & E5 & E6).
  unfold call, module_at. rewrite !as_opt_map. cbn [with_attr y_kind y_attr y_grid_H y_grid_Rn y_mask y_weight_H y_weight y_bias].
  rewrite E1, E2, E3, E4, E5, Ek.
  destruct (y_weight_H y) as [l|], (y_weight_H y0) as [l0|]; cbn in E6; try discriminate; [|reflexivity].
  injection E6 as ->. reflexivity.
Qed.

(** Attributes of layers built from the same arguments, with other grids of the same length. *)
Lemma with_tensors_shell kd A g g' w b b' grid space mask bias : List.length g = List.length g' ->
  with_tensors (shell kd A g w b) grid space mask bias = with_tensors (shell kd A g' w b') grid space mask bias.
Proof. intros E. unfold with_tensors, shell. cbn. rewrite E. reflexivity. Qed.
Lemma call_with_attr s0 y0 y : (forall grid space mask bias, with_tensors (y_attr y) grid space mask bias = with_tensors (y_attr y0) grid space mask bias) ->
  forall q X in_H H, call s0 (with_attr y0 y) q X in_H H = call s0 y0 q X in_H H.
Proof.
  intros E q X in_H H. unfold call, module_at. cbn [with_attr y_kind y_attr y_grid_H y_grid_Rn y_mask y_weight_H y_weight y_bias].
  destruct (as_grid (get s0 (y_grid_H y0))); cbn [bind]; [|reflexivity].
  destruct (as_space (get s0 (y_grid_Rn y0))); cbn [bind]; [|reflexivity].
  destruct (as_opt s0 (y_mask y0)); cbn [bind]; [|reflexivity].
  destruct (as_opt s0 (y_bias y0)); cbn [bind]; [|reflexivity]. rewrite E. reflexivity.
Qed.

(** Nothing the group interpolation of the two layers uses differs. *)
Definition same_bandwidth (y y0 : layer) : Prop :=
  y_kind y = KLifting \/ a_gmode (y_args y) = "nearest"%string \/ a_width (y_args y) <> 0 \/
  width_SE3 0 (kernel_grid (y_attr y)) = width_SE3 0 (kernel_grid (y_attr y0)).

Lemma same_modules s s0 y y0 : layer_ok s y -> layer_ok s0 y0 -> y_kind y = y_kind y0 -> y_args y = y_args y0 ->
  List.length (kernel_grid (y_attr y)) = List.length (kernel_grid (y_attr y0)) -> same_bandwidth y y0 ->
  forall grid space mask bias, with_tensors (y_attr y) grid space mask bias = with_tensors (y_attr y0) grid space mask bias.
Proof.
  intros (_ & _ & g & fb & Ha) (_ & _ & g0 & fb0 & Ha0) Ek EA. rewrite <- Ek, <- EA in Ha0. unfold same_bandwidth, kernel_grid.
  apply attributes_inv in Ha as (w & EM & Hw). apply attributes_inv in Ha0 as (w0 & EM0 & Hw0).
  rewrite EM, EM0. cbn [gm_layer shell l_kernel k_grid_H]. intros El Hb grid space mask bias.
  assert (Same : w = w0 -> with_tensors (shell (y_kind y) (y_args y) g w (if a_bias (y_args y) then Some (bias_tensor (y_args y) fb) else None)) grid space mask bias =
    with_tensors (shell (y_kind y) (y_args y) g0 w0 (if a_bias (y_args y) then Some (bias_tensor (y_args y) fb0) else None)) grid space mask bias).
  { intros ->. apply with_tensors_shell. exact El. }
  destruct Hb as [Hb|[Hb|[Hb|Hb]]].
  - rewrite Hb in Hw, Hw0. apply Same. congruence.
  - unfold with_tensors, shell. cbn [gm_layer gm_permute l_kernel k_in k_out k_groups k_size k_gsize k_grid_H k_ops l_in l_out l_ks l_groups l_stride l_padding l_dil l_mode l_rev].
    rewrite El. assert (Eo : forall T w mode pm, ops_SE3 T "nearest" w mode pm = ops_SE3 T "nearest" w0 mode pm) by reflexivity.
    destruct (y_kind y); [rewrite Hw, Hw0; reflexivity| |]; rewrite Hb, (Eo _ w); reflexivity.
  - apply Same. destruct (y_kind y); [congruence| |]; unfold width_SE3, default_width in Hw, Hw0; destruct (Req_EM_T _ 0); try contradiction; congruence.
  - apply Same. destruct (y_kind y); [congruence| |]; destruct (Req_EM_T (a_width (y_args y)) 0) as [E|E].
    1, 3: rewrite E, Hb in Hw; rewrite E in Hw0; congruence.
    all: unfold width_SE3, default_width in Hw, Hw0; destruct (Req_EM_T (a_width (y_args y)) 0); try contradiction; congruence.
Qed.

(** ** frames *)
Lemma saved_frame s s' y : (forall x, In x (slots y) -> get s' x = get s x) -> saved s' y = saved s y.
Proof.
  intros H. unfold saved. apply map_ext_in. intros [k l] Hin. cbn [fst snd]. f_equal. apply H. apply in_map_iff. exists (k, l). auto.
Qed.
Lemma call_frame s s' y : (forall x, In x (slots y) -> get s' x = get s x) ->
  saved s' y = saved s y /\ forall q X in_H H, call s' y q X in_H H = call s y q X in_H H.
Proof.
  intros H. split; [apply saved_frame; exact H|]. intros q X in_H G. rewrite (call_saved s' s y y eq_refl (saved_frame _ _ _ H)).
  destruct y; reflexivity.
Qed.
Lemma call_saved_self s s' y : saved s' y = saved s y -> forall q X in_H H, call s' y q X in_H H = call s y q X in_H H.
Proof. intros E q X in_H G. rewrite (call_saved s' s y y eq_refl E). destruct y; reflexivity. Qed.

Lemma nth_layers_do w a i y : nth_error (w_layers w) i = Some y -> nth_error (w_layers (do w a)) i = Some y.
Proof.
  intros Hy. destruct a; cbn [do]; try exact Hy.
  - destruct (new_layer _ _ _ _ _ _ _ _) as [s' [y'|e]]; cbn [w_layers]; [|exact Hy]. rewrite nth_error_app1; [exact Hy|].
    apply nth_error_Some. congruence.
  - destruct (nth_error (w_layers w) i0); exact Hy.
  - destruct (nth_error (w_layers w) i0); exact Hy.
  - destruct (copyable _ _); exact Hy.
Qed.

(** What an operation may write to. *)
Definition writes (w : world) (a : op) (x : nat) : Prop :=
  match a with
  | OLoad j _ => exists y, nth_error (w_layers w) j = Some y /\ In x (slots y)
  | OTrain j _ => exists y, nth_error (w_layers w) j = Some y /\ In x (private y)
  | OWrite l _ => x = l
  | _ => False
  end.
Lemma do_frame w a x : (x < size (w_mem w))%nat -> ~ writes w a x -> get (w_mem (do w a)) x = get (w_mem w) x.
Proof.
  intros Hx Hw. destruct a as [kd A given o fH f fb|i ck|i new|t|l t|n p c o]; cbn [do writes] in *.
  - pose proof (grid_stage_grows (w_mem w) A given o) as G0. destruct (new_layer_fst (w_mem w) kd A given o fH f fb) as (G1 & _).
    pose proof (proj2 (grows_trans _ _ _ G0 G1) x Hx) as K. destruct (new_layer _ _ _ _ _ _ _ _) as [s' r]. exact K.
  - destruct (nth_error (w_layers w) i) as [y|]; [|reflexivity]. destruct (load_frame (w_mem w) y ck) as (_ & _ & F & _).
    apply F. intros Hin. apply Hw. exists y. auto.
  - destruct (nth_error (w_layers w) i) as [y|]; [|reflexivity].
    destruct (train_frame (filter (fun kl => is_param (fst kl)) (state_dict y)) new (w_mem w)) as (_ & _ & F & _).
    apply F. intros Hin. apply Hw. exists y. split; [reflexivity|]. apply params_private. exact Hin.
  - apply get_alloc_old. exact Hx.
  - destruct (copyable _ _); [|reflexivity]. apply get_assign_other. congruence.
  - apply (call_grows (w_mem w) n p c o). exact Hx.
Qed.

Lemma do_isolated w a i y : inv w -> nth_error (w_layers w) i = Some y ->
  (match a with
   | OLoad j _ => j <> i /\ forall y', nth_error (w_layers w) j = Some y' -> y_grid_H y' <> y_grid_H y
   | OTrain j _ => j <> i
   | OWrite l _ => ~ In l (map snd (state_dict y))
   | _ => True
   end) ->
  forall x, In x (slots y) -> get (w_mem (do w a)) x = get (w_mem w) x.
Proof.
  intros I Hy Ha x Hx. apply do_frame; [apply (typed_in _ y); [apply (i_layers _ I i y Hy)|exact Hx]|].
  intros Hw. destruct a as [kd A given o fH f fb|j ck|j new|t|l t|n p c o]; cbn [writes] in Hw; try contradiction.
  - destruct Ha as [Hij Hg]. destruct Hw as (y' & Hy' & Hx'). apply slots_split in Hx' as [Hx'|Hx'].
    + exact (i_apart _ I j i y' y Hij Hy' Hy x Hx' Hx).
    + apply slots_split in Hx as [Hx|Hx]; [|apply (Hg y' Hy'); congruence].
      refine (i_apart _ I i j y y' (not_eq_sym Hij) Hy Hy' x Hx _). apply slots_split. right. exact Hx'.
  - destruct Hw as (y' & Hy' & Hx'). exact (i_apart _ I j i y' y Ha Hy' Hy x Hx' Hx).
  - subst l. apply Ha. exact Hx.
Qed.

(** Sharing the grid: only the grid can change. *)
Lemma do_shared w j ck i y x : inv w -> nth_error (w_layers w) i = Some y -> j <> i -> In x (slots y) -> x <> y_grid_H y ->
  get (w_mem (do w (OLoad j ck))) x = get (w_mem w) x.
Proof.
  intros I Hy Hij Hx Hg. apply do_frame; [apply (typed_in _ y); [apply (i_layers _ I i y Hy)|exact Hx]|].
  intros (y' & Hy' & Hx'). apply slots_split in Hx as [Hx|Hx]; [|contradiction].
  exact (i_apart _ I i j y y' (not_eq_sym Hij) Hy Hy' x Hx Hx').
Qed.

(** ** default grids *)
Lemma default_stage ops A o : (2 <= a_gsize A <= 24)%nat ->
  grid_stage (w_mem (run ops)) A None o = (w_mem (run ops), Ok (24 + (a_gsize A - 1))%nat).
Proof.
  intros Hn. unfold grid_stage. apply hit_matrix; [lia|reflexivity|]. apply (i_table _ (run_inv ops)). lia.
Qed.

Lemma load_entries_ok es ck : forall s, NoDup (map snd es) -> snd (load_entries es ck s) = true ->
  forall k l, In (k, l) es -> exists t, lookup k ck = Some t /\ copyable (get s l) t = true.
Proof.
  induction es as [|[k l] r IH]; intros s Hn H k' l' Hin; [destruct Hin|]. cbn [load_entries] in H. cbn [map snd] in Hn. inversion Hn as [|? ? Hni Hn']; subst.
  destruct (lookup k ck) as [t|] eqn:Et; [|discriminate]. destruct (copyable (get s l) t) eqn:Ec; [|discriminate].
  destruct Hin as [Hin|Hin]; [injection Hin as <- <-; exists t; auto|].
  destruct (IH _ Hn' H k' l' Hin) as (t' & Ht' & Hc'). exists t'. split; [assumption|]. rewrite get_assign_other in Hc'; [assumption|].
  intros ->. apply Hni. apply in_map_iff. exists (k', l'). auto.
Qed.
(** A load that does not raise stored every entry. *)
Lemma load_ok s y ck s' : typed s y -> NoDup (slots y) -> load_state_dict s y ck = (s', Ok tt) ->
  forall k l, In (k, l) (state_dict y) -> lookup k ck = Some (get s' l).
Proof.
  intros Ht Hn H k l Hin. unfold load_state_dict in H.
  destruct (load_entries (state_dict y) ck s) as [s1 ok] eqn:E. destruct ok; cbn [andb] in H; [|discriminate].
  assert (s1 = s') by (destruct (forallb _ _); congruence). subst s1.
  assert (Hok : snd (load_entries (state_dict y) ck s) = true) by (rewrite E; reflexivity).
  pose proof (load_entries_ok _ _ s Hn Hok) as A.
  destruct (load_entries_all (state_dict y) ck s Hn) as [_ G].
  - intros k' l' Hin'. split; [apply (typed_in s y _ Ht); apply in_map_iff; exists (k', l'); auto|apply A; assumption].
  - destruct (A k l Hin) as (t & Hl & _). rewrite Hl. f_equal. specialize (G k l t Hin Hl). rewrite E in G. cbn [fst] in G. congruence.
Qed.
Lemma load_dicts s y ck : gs_matrix (fst (load_state_dict s y ck)) = gs_matrix s.
Proof. apply (load_frame s y ck). Qed.
Lemma grid_entry y : In ("kernel.grid_H"%string, y_grid_H y) (state_dict y).
Proof. unfold state_dict. rewrite !in_app_iff. cbn. intuition. Qed.

Lemma large_stage ops A o s0 l g : (24 < a_gsize A)%nat ->
  grid_stage (w_mem (run ops)) A None o = (s0, Ok l) -> get s0 l = TMat g -> (size (w_mem (run ops)) <= l)%nat.
Proof.
  intros Hn H Hg. pose proof (run_inv ops) as I. set (s := w_mem (run ops)) in *. unfold grid_stage in H.
  pose proof (call_spec_ok s (a_gsize A) "matrix" false o) as Hc. rewrite H in Hc. cbn [fst snd] in Hc.
  inversion Hc; subst; try discriminate; try lia.
  - destruct (i_large _ I (a_gsize A) l Hn) as [e He]; [assumption|]. fold s in He. rewrite Hg in He. discriminate.
  - unfold size. lia.
Qed.

(** A well-formed layer can be read. *)
Lemma entry_kind s y k l t : typed s y -> In (k, l) (state_dict y) -> In (k, t) (proto y) -> NoDup (map fst (proto y)) -> copyable t (get s l) = true.
Proof.
  intros T Hin Hp N. destruct (Forall2_In_l _ _ _ _ T Hin) as ([k' t'] & Hp' & E & C). cbn [fst snd] in *. subst k'.
  pose proof (lookup_in _ _ _ N Hp). pose proof (lookup_in _ _ _ N Hp'). assert (t = t') by congruence. subst t'. exact C.
Qed.
Lemma typed_keys s y : typed s y -> map fst (proto y) = map fst (state_dict y).
Proof. unfold typed. induction 1 as [|a b l m [E _] _ IH]; cbn [map]; congruence. Qed.
Lemma real_entry s y k l t : typed s y -> In (k, l) (state_dict y) -> In (k, TReal t) (proto y) -> exists u, as_real (get s l) = Ok u.
Proof.
  intros T Hin Hp. pose proof (entry_kind s y k l _ T Hin Hp) as C. rewrite (typed_keys s y T) in C. specialize (C (keys_nodup y)).
  apply copyable_iff in C as [C _]. destruct (get s l); try discriminate. eexists. reflexivity.
Qed.
Lemma in_proto_entry s y k l : typed s y -> In (k, l) (state_dict y) -> k <> "kernel.grid_H"%string -> k <> "kernel.grid_Rn"%string ->
  exists u, as_real (get s l) = Ok u.
Proof.
  intros T Hin N1 N2. destruct (Forall2_In_l _ _ _ _ T Hin) as ([k' t'] & Hp' & E & C). cbn [fst snd] in *. subst k'.
  apply copyable_iff in C as [C _].
  assert (exists u, t' = TReal u) as [u ->].
  { revert Hp'. unfold proto. destruct (l_bias _), (y_kind y), (k_mask _); cbn; intros Hp; repeat (destruct Hp as [Hp|Hp]); try contradiction; injection Hp as <- <-; try contradiction; try congruence; eexists; reflexivity. }
  destruct (get s l); try discriminate. eexists. reflexivity.
Qed.
Lemma module_ok s y : layer_ok s y -> exists g sp mk b, get s (y_grid_H y) = TMat g /\ module_at s y = Ok (with_tensors (y_attr y) g sp mk b).
Proof.
  intros (T & _). destruct (grid_matrices s y T) as (g & Eg & _).
  assert (exists sp, get s (y_grid_Rn y) = TSpace sp) as [sp Esp].
  { assert (Hin : In ("kernel.grid_Rn"%string, y_grid_Rn y) (state_dict y)) by (unfold state_dict; rewrite !in_app_iff; cbn; intuition).
    destruct (Forall2_In_l _ _ _ _ T Hin) as ([k' t'] & Hp' & E & C). cbn [fst snd] in *. subst k'. apply copyable_iff in C as [C _].
    assert (t' = TSpace (k_grid_Rn (l_kernel (gm_layer (y_attr y))))) as ->.
    { revert Hp'. unfold proto. destruct (l_bias _), (y_kind y), (k_mask _); cbn; intros Hp; repeat (destruct Hp as [Hp|Hp]); try contradiction; try discriminate; congruence. }
    destruct (get s (y_grid_Rn y)); try discriminate. eexists. reflexivity. }
  assert (exists mk, as_opt s (y_mask y) = Ok mk) as [mk Emk].
  { destruct (y_mask y) as [l|] eqn:E; [|eexists; reflexivity]. destruct (in_proto_entry s y "kernel.mask" l T) as [u Hu]; try discriminate.
    - unfold state_dict. rewrite E, !in_app_iff. cbn. intuition.
    - cbn. rewrite Hu. eexists. reflexivity. }
  assert (exists b, as_opt s (y_bias y) = Ok b) as [b Eb].
  { destruct (y_bias y) as [l|] eqn:E; [|eexists; reflexivity]. destruct (in_proto_entry s y "bias" l T) as [u Hu]; try discriminate.
    - unfold state_dict. rewrite E, !in_app_iff. cbn. intuition.
    - cbn. rewrite Hu. eexists. reflexivity. }
  exists g, sp, mk, b. split; [exact Eg|]. unfold module_at. rewrite Eg, Esp, Emk, Eb. reflexivity.
Qed.
