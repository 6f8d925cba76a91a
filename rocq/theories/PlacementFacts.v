(** Proofs about Placement.v. *)
From Coq Require Import String.
From Verif Require Import Prelude SO3 GridCacheFacts Placement.

Lemma dev_eqb_refl d : dev_eqb d d = true.
Proof. destruct d; [reflexivity|]. apply Nat.eqb_refl. Qed.
Lemma dev_eqb_eq a b : dev_eqb a b = true <-> a = b.
Proof.
  split; [|intros ->; apply dev_eqb_refl].
  destruct a, b; cbn; intros H; try discriminate; [reflexivity|].
  apply Nat.eqb_eq in H as ->. reflexivity.
Qed.
Lemma dt_eqb_refl t : dt_eqb t t = true.
Proof. destruct t; reflexivity. Qed.
Lemma dt_eqb_eq a b : dt_eqb a b = true <-> a = b.
Proof. split; [|intros ->; apply dt_eqb_refl]. destruct a, b; cbn; congruence. Qed.
Lemma promote_same t : promote t t = t.
Proof. destruct t; reflexivity. Qed.
Lemma promote_comm a b : promote a b = promote b a.
Proof. destruct a, b; reflexivity. Qed.
Lemma promote_I64 a : promote I64 a = a.
Proof. destruct a; reflexivity. Qed.

Lemma pointwise_same p : pointwise p p = Ok p.
Proof. destruct p as [d t]. unfold pointwise. cbn. rewrite dev_eqb_refl, promote_same. reflexivity. Qed.
Lemma strict_same p : strict p p = Ok p.
Proof. unfold strict. rewrite dev_eqb_refl, dt_eqb_refl. reflexivity. Qed.
Lemma strict_inv a b c : strict a b = Ok c -> a = b /\ c = a.
Proof.
  unfold strict. destruct (dev_eqb _ _) eqn:E1; [|discriminate]. destruct (dt_eqb _ _) eqn:E2; [|discriminate].
  cbn. intros H. injection H as <-. apply dev_eqb_eq in E1. apply dt_eqb_eq in E2.
  destruct a, b; cbn in *; subst. auto.
Qed.
Lemma strict_ne a b : a <> b -> strict a b = Err RuntimeError.
Proof.
  intros H. unfold strict. destruct (dev_eqb _ _) eqn:E1; [|reflexivity].
  destruct (dt_eqb _ _) eqn:E2; [|reflexivity]. exfalso; apply H.
  apply dev_eqb_eq in E1. apply dt_eqb_eq in E2. destruct a, b; cbn in *; subst; reflexivity.
Qed.
Lemma pointwise_dev a b : p_dev a = p_dev b -> pointwise a b = Ok (mkP (p_dev b) (promote (p_dt a) (p_dt b))).
Proof. intros H. unfold pointwise. rewrite H, dev_eqb_refl. reflexivity. Qed.
Lemma pointwise_ne a b : p_dev a <> p_dev b -> pointwise a b = Err RuntimeError.
Proof.
  intros H. unfold pointwise. destruct (dev_eqb _ _) eqn:E; [|reflexivity].
  apply dev_eqb_eq in E; contradiction.
Qed.
Lemma pointwise_err a b : (exists c, pointwise a b = Ok c) \/ pointwise a b = Err RuntimeError.
Proof. unfold pointwise. destruct (dev_eqb _ _); eauto. Qed.
Lemma dev_dec (a b : device) : {a = b} + {a <> b}.
Proof. destruct (dev_eqb a b) eqn:E; [left; apply dev_eqb_eq; assumption|right].
  intros ->. rewrite dev_eqb_refl in E; discriminate. Qed.
Lemma place_dec (a b : place) : {a = b} + {a <> b}.
Proof. decide equality; [decide equality|apply dev_dec]. Qed.

(** * The grid cache *)
Lemma load_quat c n p : lower p = "quat"%string -> load_place c n p = of_opt KeyError (pc_quat c n).
Proof. intros H. unfold load_place. rewrite H. reflexivity. Qed.
Lemma load_matrix c n p : lower p = "matrix"%string -> load_place c n p = of_opt KeyError (pc_matrix c n).
Proof. intros H. unfold load_place. rewrite H. reflexivity. Qed.
Lemma load_lower c n p : load_place c n (lower p) = load_place c n p.
Proof. unfold load_place. rewrite lower_idem. reflexivity. Qed.

Lemma place_call dd c n p cache d :
  n <> 0%nat ->
  so3_uniform_grid_place dd c n p cache d =
  match load_place c n p with
  | Ok x => (c, Ok x)
  | Err _ =>
    if (String.eqb (lower p) "quat" || String.eqb (lower p) "matrix")%bool then
      (if cache then
         if String.eqb (lower p) "quat" then mkPC (pset (pc_quat c) n (fresh dd d)) (pc_matrix c)
         else mkPC (pc_quat c) (pset (pc_matrix c) n (fresh dd d))
       else c, Ok (fresh dd d))
    else if String.eqb (lower p) "euler" then (c, if cache then Err KeyError else Ok (fresh dd d))
    else (c, Err ValueError)
  end.
Proof.
  intros Hn. unfold so3_uniform_grid_place. apply Nat.eqb_neq in Hn. rewrite Hn.
  destruct (load_place c n p) as [x|e] eqn:E; [reflexivity|].
  unfold save_place. rewrite load_lower, E, lower_idem.
  destruct (String.eqb_spec (lower p) "quat") as [H|H]; [destruct cache; reflexivity|].
  destruct (String.eqb_spec (lower p) "matrix") as [H'|H']; [destruct cache; reflexivity|].
  cbn [orb]. destruct (String.eqb (lower p) "euler"); destruct cache; reflexivity.
Qed.

(** The call that decides where a grid of this size and parameterization lives. *)
Definition caches (n : nat) (p : string) (a : pcall) : bool :=
  c_cache a && Nat.eqb (c_size a) n && String.eqb (lower (c_param a)) (lower p).

Lemma pstep_load dd c a n p : n <> 0%nat ->
  (lower p = "quat"%string \/ lower p = "matrix"%string) ->
  load_place (pstep dd c a) n p =
  match load_place c n p with
  | Ok x => Ok x
  | Err e => if caches n p a then Ok (fresh dd (c_dev a)) else Err e
  end.
Proof.
  intros Hn Hp. unfold pstep. destruct a as [m q cc d]. unfold caches. cbn [c_size c_param c_cache c_dev].
  destruct (Nat.eq_dec m 0) as [->|Hm].
  { assert (E : Nat.eqb 0 n = false) by (apply Nat.eqb_neq; lia). rewrite E, andb_false_r.
    unfold so3_uniform_grid_place. rewrite Nat.eqb_refl. cbn [fst andb].
    destruct (load_place c n p); reflexivity. }
  rewrite place_call by assumption.
  destruct Hp as [Hp|Hp]; (rewrite ?(load_quat _ _ p Hp), ?(load_matrix _ _ p Hp)); rewrite Hp.
  - destruct (String.eqb_spec (lower q) "quat") as [Hq|Hq].
    + rewrite (load_quat _ _ q Hq). destruct (pc_quat c m) as [x|] eqn:Em; cbn [of_opt].
      * cbn [fst]. destruct (Nat.eqb_spec m n) as [->|Hmn]; [rewrite Em; reflexivity|].
        rewrite !andb_false_r, ?andb_false_l. destruct (pc_quat c n); [reflexivity|].
        destruct cc; reflexivity.
      * cbn [orb fst]. destruct cc; cbn [pc_quat]; [|destruct (pc_quat c n); reflexivity].
        unfold pset. rewrite (Nat.eqb_sym n m).
        destruct (Nat.eqb_spec m n) as [->|Hmn]; [rewrite Em; reflexivity|].
        destruct (pc_quat c n); reflexivity.
    + assert (Hsame : pc_quat (fst (match load_place c m q with
         | Ok x => (c, Ok x)
         | Err _ => if (false || String.eqb (lower q) "matrix")%bool
             then (if cc then mkPC (pc_quat c) (pset (pc_matrix c) m (fresh dd d)) else c, Ok (fresh dd d))
             else if String.eqb (lower q) "euler" then (c, if cc then Err KeyError else Ok (fresh dd d))
             else (c, Err ValueError) end)) n = pc_quat c n).
      { destruct (load_place c m q); [reflexivity|]. cbn [orb].
        destruct (String.eqb (lower q) "matrix"); [destruct cc; reflexivity|].
        destruct (String.eqb (lower q) "euler"); reflexivity. }
      rewrite Hsame, andb_false_r. destruct (pc_quat c n); reflexivity.
  - destruct (String.eqb_spec (lower q) "matrix") as [Hq|Hq].
    + rewrite (load_matrix _ _ q Hq). rewrite Hq. cbn [String.eqb Ascii.eqb Bool.eqb orb].
      destruct (pc_matrix c m) as [x|] eqn:Em; cbn [of_opt].
      * cbn [fst]. destruct (Nat.eqb_spec m n) as [->|Hmn]; [rewrite Em; reflexivity|].
        rewrite !andb_false_r, ?andb_false_l. destruct (pc_matrix c n); [reflexivity|].
        destruct cc; reflexivity.
      * cbn [fst]. destruct cc; cbn [pc_matrix]; [|destruct (pc_matrix c n); reflexivity].
        unfold pset. rewrite (Nat.eqb_sym n m).
        destruct (Nat.eqb_spec m n) as [->|Hmn]; [rewrite Em; reflexivity|].
        destruct (pc_matrix c n); reflexivity.
    + assert (Hsame : pc_matrix (fst (match load_place c m q with
         | Ok x => (c, Ok x)
         | Err _ => if (String.eqb (lower q) "quat" || false)%bool
             then (if cc then if String.eqb (lower q) "quat" then mkPC (pset (pc_quat c) m (fresh dd d)) (pc_matrix c)
                              else mkPC (pc_quat c) (pset (pc_matrix c) m (fresh dd d)) else c, Ok (fresh dd d))
             else if String.eqb (lower q) "euler" then (c, if cc then Err KeyError else Ok (fresh dd d))
             else (c, Err ValueError) end)) n = pc_matrix c n).
      { destruct (load_place c m q); [reflexivity|]. rewrite orb_false_r.
        destruct (String.eqb (lower q) "quat"); [destruct cc; reflexivity|].
        destruct (String.eqb (lower q) "euler"); reflexivity. }
      rewrite Hsame, andb_false_r. destruct (pc_matrix c n); reflexivity.
Qed.

Lemma prun_load dd l : forall c n p, n <> 0%nat ->
  (lower p = "quat"%string \/ lower p = "matrix"%string) ->
  load_place (prun dd c l) n p =
  match load_place c n p with
  | Ok x => Ok x
  | Err e => match find (caches n p) l with Some a => Ok (fresh dd (c_dev a)) | None => Err e end
  end.
Proof.
  unfold prun. induction l as [|a l IH]; intros c n p Hn Hp; cbn [fold_left find].
  { destruct (load_place c n p); reflexivity. }
  rewrite IH by assumption. rewrite pstep_load by assumption.
  destruct (load_place c n p); [reflexivity|]. destruct (caches n p a); reflexivity.
Qed.

Lemma init_load dd n p : n <> 0%nat -> (lower p = "quat"%string \/ lower p = "matrix"%string) ->
  load_place (pinit dd) n p = if Nat.leb n 24 then Ok (mkP CPU dd) else Err KeyError.
Proof.
  intros Hn Hp. destruct Hp as [Hp|Hp]; [rewrite (load_quat _ _ p Hp)|rewrite (load_matrix _ _ p Hp)];
    cbn [pinit pc_quat pc_matrix]; (replace (Nat.leb 1 n) with true by (symmetry; apply Nat.leb_le; lia));
    cbn [andb]; destruct (Nat.leb n 24); reflexivity.
Qed.

Lemma uniform_grid_after dd l n p cache d : n <> 0%nat ->
  (lower p = "quat"%string \/ lower p = "matrix"%string) ->
  snd (so3_uniform_grid_place dd (prun dd (pinit dd) l) n p cache d) =
  Ok (if Nat.leb n 24 then mkP CPU dd
      else match find (caches n p) l with
           | Some a => fresh dd (c_dev a)
           | None => fresh dd d
           end).
Proof.
  intros Hn Hp. rewrite place_call by assumption. rewrite prun_load, init_load by assumption.
  destruct (Nat.leb n 24); [reflexivity|]. destruct (find _ l); [reflexivity|].
  destruct Hp as [Hp|Hp]; rewrite Hp; reflexivity.
Qed.

(** * Layers *)

Definition uniform (m : pmodule) (p : place) : Prop :=
  m_weight m = p /\ m_grid_H m = p /\ m_grid_Rn m = p /\
  (forall k, m_mask m = Some k -> k = p) /\ (forall b, m_bias m = Some b -> b = p).

Lemma moved_uniform m d t : uniform (module_to m (mkMove (Some d) (Some t))) (mkP d t).
Proof.
  unfold uniform, module_to, move_place. cbn. repeat split.
  - intros k. destruct (m_mask m); cbn; congruence.
  - intros k. destruct (m_bias m); cbn; congruence.
Qed.

Lemma finish_same m p h : uniform m p -> h = p -> finish_place m p h = Ok p.
Proof.
  intros (_ & _ & _ & Hk & _) ->. unfold finish_place. destruct (m_mask m) as [k|] eqn:E.
  - rewrite (Hk k eq_refl), pointwise_same. cbn [bind].
    destruct (m_fam m); try reflexivity; apply pointwise_same.
  - cbn [bind]. destruct (m_fam m); try reflexivity; apply pointwise_same.
Qed.

Lemma apply_Rn_same f p : apply_Rn_place f p p = Ok p.
Proof. destruct f; cbn [apply_Rn_place]; rewrite ?strict_same; cbn [bind]; rewrite ?pointwise_same; reflexivity. Qed.
Lemma product_same f p : product_place f p p = Ok p.
Proof.
  destruct f; cbn [product_place]; rewrite ?strict_same, ?pointwise_same; cbn [bind];
    rewrite ?pointwise_same; reflexivity.
Qed.
Lemma apply_Rn_inv f h p r : apply_Rn_place f h p = Ok r -> h = p /\ r = p.
Proof.
  destruct f; cbn [apply_Rn_place]; intros H.
  1,2: apply strict_inv in H as [-> ->]; auto.
  all: destruct (strict h p) eqn:E; [|discriminate]; apply strict_inv in E as [-> ->]; cbn [bind] in H;
    rewrite pointwise_same in H; injection H as <-; auto.
Qed.

Definition width_ok (m : pmodule) (d : device) : Prop :=
  m_rbf m = true -> forall w, m_width m = Some w -> w = CPU \/ w = d.

Lemma with_scalar_ok p w : w = CPU \/ w = p_dev p -> with_scalar p w = Ok p.
Proof. intros [->| ->]; unfold with_scalar; rewrite ?dev_eqb_refl, ?orb_true_r; reflexivity. Qed.
Lemma with_scalar_bad p w : ~ (w = CPU \/ w = p_dev p) -> with_scalar p w = Err RuntimeError.
Proof.
  intros H. unfold with_scalar. destruct (dev_eqb w (p_dev p)) eqn:E1; [exfalso; apply H; right; apply dev_eqb_eq; assumption|].
  destruct (dev_eqb w CPU) eqn:E2; [exfalso; apply H; left; apply dev_eqb_eq; assumption|]. reflexivity.
Qed.

Lemma sample_same m p : width_ok m (p_dev p) -> sample_H_place (m_rbf m) (m_width m) p p p = Ok p.
Proof.
  intros H. unfold sample_H_place. unfold width_ok in H. destruct (m_rbf m).
  - rewrite pointwise_same. cbn [bind]. destruct (m_width m) as [w|].
    + rewrite with_scalar_ok by (apply H; reflexivity). cbn [bind]. rewrite !strict_same. cbn [bind].
      reflexivity || (rewrite ?strict_same; reflexivity).
    + cbn [bind]. rewrite strict_same. cbn [bind]. rewrite strict_same. reflexivity.
  - rewrite pointwise_same. cbn [bind]. rewrite dev_eqb_refl. reflexivity.
Qed.
Lemma sample_bad m p : ~ width_ok m (p_dev p) -> sample_H_place (m_rbf m) (m_width m) p p p = Err RuntimeError.
Proof.
  intros H. unfold sample_H_place, width_ok in *. destruct (m_rbf m); [|exfalso; apply H; discriminate].
  destruct (m_width m) as [w|]; [|exfalso; apply H; discriminate].
  rewrite pointwise_same. cbn [bind]. rewrite with_scalar_bad; [reflexivity|].
  intros Hw. apply H. intros _ w' Hw'. injection Hw' as <-. assumption.
Qed.

Lemma bias_same m p : uniform m p -> add_bias_place m p = Ok p.
Proof.
  intros (_ & _ & _ & _ & Hb). unfold add_bias_place. destruct (m_bias m) as [b|]; [|reflexivity].
  rewrite (Hb b eq_refl). apply pointwise_same.
Qed.

Lemma conv_same m p : uniform m p -> (m_kind m <> Lifting -> width_ok m (p_dev p)) ->
  conv_place m p p p = Ok (p, p).
Proof.
  intros Hu Hw. pose proof Hu as (H1 & H2 & H3 & _). unfold conv_place.
  destruct (m_kind m) eqn:E.
  - unfold lifting_kernel_place. rewrite H3, apply_Rn_same. cbn [bind]. rewrite H1, strict_same. cbn [bind].
    rewrite (finish_same m p p Hu eq_refl). cbn [bind]. rewrite strict_same. cbn [bind]. rewrite bias_same by assumption. reflexivity.
  - unfold separable_kernel_place. rewrite product_same. cbn [bind]. rewrite H3, apply_Rn_same. cbn [bind].
    rewrite H1, H2, sample_same by (apply Hw; discriminate). cbn [bind]. rewrite strict_same. cbn [bind].
    rewrite (finish_same m p p Hu eq_refl). cbn [bind fst snd]. rewrite strict_same. cbn [bind]. rewrite strict_same. cbn [bind].
    rewrite bias_same by assumption. reflexivity.
  - unfold full_kernel_place. rewrite product_same. cbn [bind]. rewrite H3, apply_Rn_same. cbn [bind].
    rewrite H1, H2, sample_same by (apply Hw; discriminate). cbn [bind]. rewrite strict_same. cbn [bind].
    rewrite (finish_same m p p Hu eq_refl). cbn [bind]. rewrite strict_same. cbn [bind].
    rewrite bias_same by assumption. reflexivity.
Qed.

Lemma conv_bad_width m p : uniform m p -> m_kind m <> Lifting -> ~ width_ok m (p_dev p) ->
  conv_place m p p p = Err RuntimeError.
Proof.
  intros Hu Hk Hw. pose proof Hu as (H1 & H2 & H3 & _). unfold conv_place.
  destruct (m_kind m) eqn:E; [contradiction| |].
  - unfold separable_kernel_place. rewrite product_same. cbn [bind]. rewrite H3, apply_Rn_same. cbn [bind].
    rewrite H1, H2, sample_bad by assumption. reflexivity.
  - unfold full_kernel_place. rewrite product_same. cbn [bind]. rewrite H3, apply_Rn_same. cbn [bind].
    rewrite H1, H2, sample_bad by assumption. reflexivity.
Qed.

(** Whatever the other arguments, a successful call needs input and output grid at the module's place. *)
Lemma bind_inv {A B} (m : result A) (f : A -> result B) b :
  (x <- m ;; f x) = Ok b -> exists a, m = Ok a /\ f a = Ok b.
Proof. destruct m; cbn; [eauto|discriminate]. Qed.

Lemma finish_inv m p h w : uniform m p -> h = p -> finish_place m p h = Ok w -> w = p.
Proof. intros Hu Hh H. rewrite (finish_same m p h Hu Hh) in H. congruence. Qed.

Lemma conv_inv m p x hin hout y : uniform m p -> conv_place m x hin hout = Ok y -> x = p /\ hout = p /\ y = (p, p).
Proof.
  intros Hu H. pose proof Hu as (H1 & H2 & H3 & _). unfold conv_place in H. destruct (m_kind m).
  - apply bind_inv in H as (w & Hw & H). apply bind_inv in H as (z & Hz & H). apply bind_inv in H as (z' & Hz' & H).
    unfold lifting_kernel_place in Hw. apply bind_inv in Hw as (g & Hg & Hw). rewrite H3 in Hg.
    apply apply_Rn_inv in Hg as [-> ->]. apply bind_inv in Hw as (w' & Hw' & Hw). rewrite H1, strict_same in Hw'.
    injection Hw' as <-. apply (finish_inv m p p w Hu eq_refl) in Hw as ->. apply strict_inv in Hz as [-> ->].
    rewrite bias_same in Hz' by assumption. injection Hz' as <-. injection H as <-. auto.
  - apply bind_inv in H as (w & Hw & H). apply bind_inv in H as (z & Hz & H). apply bind_inv in H as (z2 & Hz2 & H).
    apply bind_inv in H as (z' & Hz' & H).
    unfold separable_kernel_place in Hw. apply bind_inv in Hw as (hh & _ & Hw). apply bind_inv in Hw as (g & Hg & Hw).
    rewrite H3 in Hg. apply apply_Rn_inv in Hg as [-> ->]. apply bind_inv in Hw as (wh & _ & Hw).
    apply bind_inv in Hw as (w1 & Hw1 & Hw). rewrite H1, strict_same in Hw1. injection Hw1 as <-.
    apply bind_inv in Hw as (w2 & Hw2 & Hw). apply (finish_inv m p p w2 Hu eq_refl) in Hw2 as ->. injection Hw as <-.
    cbn [fst snd] in *. apply strict_inv in Hz as [-> ->]. apply strict_inv in Hz2 as [-> ->].
    rewrite bias_same in Hz' by assumption. injection Hz' as <-. injection H as <-. auto.
  - apply bind_inv in H as (w & Hw & H). apply bind_inv in H as (z & Hz & H). apply bind_inv in H as (z' & Hz' & H).
    unfold full_kernel_place in Hw. apply bind_inv in Hw as (hh & _ & Hw). apply bind_inv in Hw as (g & Hg & Hw).
    rewrite H3 in Hg. apply apply_Rn_inv in Hg as [-> ->]. apply bind_inv in Hw as (wh & _ & Hw).
    apply bind_inv in Hw as (w1 & Hw1 & Hw). apply strict_inv in Hw1 as [-> ->].
    apply (finish_inv m p p w Hu eq_refl) in Hw as ->. apply strict_inv in Hz as [-> ->].
    rewrite bias_same in Hz' by assumption. injection Hz' as <-. injection H as <-. auto.
Qed.

(** The places where the random element can be drawn and multiplied to the output grid. *)
Definition can_permute (dd : dtype) (f : family) (p : place) : Prop :=
  match f with
  | SE2 => promote dd (p_dt p) = p_dt p
  | SE3 => p_dt p = dd
  | E2 => p_dev p = CPU /\ promote dd (p_dt p) = p_dt p
  | E3 => p_dev p = CPU /\ p_dt p = dd
  end.

Lemma permute_iff dd f p : dd <> I64 ->
  (q <- random_element dd f (p_dev p) ;; product_place f q p) = Ok p <-> can_permute dd f p.
Proof.
  intros Hdd. destruct p as [d t]. cbn [p_dev]. destruct f; cbn [random_element can_permute p_dev p_dt].
  - unfold so2_random_grid_place, fresh. cbn [bind on product_place]. rewrite pointwise_dev by reflexivity. cbn [p_dev p_dt].
    split; [intros H; injection H as H; assumption|intros ->; reflexivity].
  - unfold so3_random_place, fresh. cbn [bind on product_place]. split.
    + intros H. apply strict_inv in H as [H _]. congruence.
    + intros ->. apply strict_same.
  - unfold o2_random_grid_place, so2_random_grid_place, fresh. cbn [bind on]. destruct d as [|n].
    + rewrite pointwise_dev by reflexivity. cbn [p_dev p_dt bind product_place]. rewrite promote_I64.
      rewrite pointwise_dev by reflexivity. cbn [p_dev p_dt bind]. rewrite pointwise_same.
      split; [intros H; injection H as H; auto|intros [_ ->]; reflexivity].
    + rewrite pointwise_ne by discriminate. cbn [bind]. split; [discriminate|intros [H _]; discriminate].
  - unfold o3_random_grid_place, so3_random_place, fresh. cbn [bind on]. destruct d as [|n].
    + rewrite pointwise_dev by reflexivity. cbn [p_dev p_dt bind product_place]. rewrite promote_I64. split.
      * intros H. apply bind_inv in H as (r & Hr & _). apply strict_inv in Hr as [Hr _]. split; congruence.
      * intros [_ ->]. rewrite strict_same. cbn [bind]. rewrite pointwise_same. cbn [bind]. apply pointwise_same.
    + rewrite pointwise_ne by discriminate. cbn [bind]. split; [discriminate|intros [H _]; discriminate].
Qed.
Lemma permute_ok_or dd f p :
  (exists r, (q <- random_element dd f (p_dev p) ;; product_place f q p) = Ok r) \/
  (q <- random_element dd f (p_dev p) ;; product_place f q p) = Err RuntimeError.
Proof.
  assert (Hs : forall a b, (exists c, strict a b = Ok c) \/ strict a b = Err RuntimeError).
  { intros a b. unfold strict. destruct (_ && _)%bool; eauto. }
  assert (Hb : forall (A : Type) (m : result A) (k : A -> result place),
     ((exists c, m = Ok c) \/ m = Err RuntimeError) ->
     (forall c, (exists r, k c = Ok r) \/ k c = Err RuntimeError) ->
     (exists r, (x <- m ;; k x) = Ok r) \/ (x <- m ;; k x) = Err RuntimeError).
  { intros A m k [[c ->]| ->] Hk; cbn; [apply Hk|right; reflexivity]. }
  apply Hb.
  - destruct f; cbn [random_element]; unfold so2_random_grid_place, so3_random_place, o2_random_grid_place, o3_random_grid_place,
      so2_random_grid_place, so3_random_place; cbn [bind]; try (left; eexists; reflexivity); apply pointwise_err.
  - intros c. destruct f; cbn [product_place]; [apply pointwise_err|apply Hs| |];
      (apply Hb; [first [apply pointwise_err|apply Hs]|intros; apply Hb; [apply pointwise_err|intros; apply pointwise_err]]).
Qed.

(** All tensors at the module's place: exactly when the call works, and what it returns. *)
Lemma call_same dd m p hout : dd <> I64 -> uniform m p -> (forall h, hout = Some h -> h = p) ->
  ((m_permute m = true -> can_permute dd (m_fam m) p) /\ (m_kind m <> Lifting -> width_ok m (p_dev p)) ->
   call_place dd m p p hout = Ok (p, p)) /\
  (~ ((m_permute m = true -> can_permute dd (m_fam m) p) /\ (m_kind m <> Lifting -> width_ok m (p_dev p))) ->
   call_place dd m p p hout = Err RuntimeError).
Proof.
  intros Hdd Hu Hh. pose proof Hu as (H1 & H2 & H3 & _).
  assert (Hsel : match hout with Some h => h | None => match m_kind m, m_fam m with
      | Lifting, _ => m_grid_H m | _, (SE2 | SE3) => p | _, (E2 | E3) => m_grid_H m end end = p).
  { destruct hout as [h|]; [apply Hh; reflexivity|]. destruct (m_kind m), (m_fam m); auto. }
  unfold call_place. rewrite Hsel. cbv zeta. destruct (m_permute m) eqn:Ep.
  - pose proof (permute_iff dd (m_fam m) p Hdd) as Hi. destruct (permute_ok_or dd (m_fam m) p) as [[r Hr]|Hr].
    + rewrite Hr in *. cbn [bind]. split.
      * intros [Hc Hw]. apply Hi in Hc; [|reflexivity]. injection Hc as ->. apply conv_same; assumption.
      * intros Hn. destruct (place_dec r p) as [->|Hne].
        -- destruct (m_kind m) eqn:Ek.
           ++ exfalso; apply Hn. split; [intros _; apply Hi; reflexivity|congruence].
           ++ apply conv_bad_width; [assumption|rewrite Ek; discriminate|]. intros Hw. apply Hn. split; [intros _; apply Hi; reflexivity|auto].
           ++ apply conv_bad_width; [assumption|rewrite Ek; discriminate|]. intros Hw. apply Hn. split; [intros _; apply Hi; reflexivity|auto].
        -- (* a permuted grid at another place cannot be applied to the spatial grid *)
           assert (Hap : forall b, b = p -> apply_Rn_place (m_fam m) r b = Err RuntimeError).
           { intros b ->. destruct (m_fam m); cbn [apply_Rn_place]; rewrite strict_ne by assumption; reflexivity. }
           assert (Hpr : (exists c, product_place (m_fam m) r p = Ok c) \/ product_place (m_fam m) r p = Err RuntimeError).
           { destruct (m_fam m); cbn [product_place].
             - apply pointwise_err.
             - right; apply strict_ne; assumption.
             - destruct (pointwise_err r p) as [[c Hc]|Hc]; rewrite Hc; cbn [bind]; [apply pointwise_err|right; reflexivity].
             - rewrite strict_ne by assumption. right; reflexivity. }
           unfold conv_place. destruct (m_kind m).
           ++ unfold lifting_kernel_place. rewrite Hap by assumption. reflexivity.
           ++ unfold separable_kernel_place. destruct Hpr as [[c Hc]|Hc]; rewrite Hc; cbn [bind]; [|reflexivity].
              rewrite Hap by assumption. reflexivity.
           ++ unfold full_kernel_place. destruct Hpr as [[c Hc]|Hc]; rewrite Hc; cbn [bind]; [|reflexivity].
              rewrite Hap by assumption. reflexivity.
    + rewrite Hr in *. cbn [bind]. split; [|reflexivity]. intros [Hc _]. apply Hi in Hc; [discriminate|reflexivity].
  - cbn [bind]. split.
    + intros [_ Hw]. apply conv_same; assumption.
    + intros Hn. destruct (m_kind m) eqn:Ek.
      * exfalso; apply Hn. split; [discriminate|congruence].
      * apply conv_bad_width; [assumption|rewrite Ek; discriminate|]. intros Hw. apply Hn. split; [discriminate|auto].
      * apply conv_bad_width; [assumption|rewrite Ek; discriminate|]. intros Hw. apply Hn. split; [discriminate|auto].
Qed.

Lemma call_inv dd m p x hin hout y : uniform m p -> call_place dd m x hin hout = Ok y -> x = p /\ y = (p, p).
Proof.
  intros Hu H. unfold call_place in H. apply bind_inv in H as (h & _ & H).
  apply (conv_inv m p) in H as (-> & _ & ->); auto.
Qed.
