(** Property theorems C105: repulse in every gradient mode, interrupted at any point, and the optimised grids. *)
From Coq Require Import String.
From Verif Require Import Prelude RMath Mat Interp SO3 Repulse RepulseFacts S2 Tensor GridTables GridCache GridCacheFacts AutogradRun AutogradFacts.
Open Scope R_scope.

(** Tensor [l] of memory [s] is the object [a] with rows [x]; a possible torch tensor. *)
Definition is_tensor (s : mem) (l : nat) (a : ten) (x : rows) : Prop :=
  nth_error (m_obj s) l = Some a /\ nth_error (m_store s) (x_store a) = Some x /\
  (x_leaf a = false -> x_req a = true) /\ (x_req a = true -> x_float a = true).
(** The iterates of the documented update. *)
Definition iterates (c : rcall) (x : rows) (t : nat -> rows) : Prop :=
  t 0%nat = x /\ forall e, (e < c_steps c)%nat ->
    t (S e) = t_sub (t e) (t_scale (c_lr c) (t_add (c_grad c (t e)) (t_scale ((INR (c_steps c) - INR e) / INR (c_steps c) * c_alpha c) (c_noise c e)))).
(** What repulse can work on: floating point; in place a leaf (a parameter or a tensor that nothing computed), otherwise, while gradients are
    recorded, a tensor that requires none. *)
Definition workable (c : rcall) (a : ten) : Prop :=
  x_float a = true /\ if c_in_place c then x_leaf a = true else (c_on c = true -> x_req a = false).
Definition accepted (c : rcall) (a : ten) : Prop :=
  workable c a /\ 0 <= c_lr c /\ (c_steps c = 0%nat \/ c_on c = true).

Lemma iterates_track c x t e : iterates c x t -> (e <= c_steps c)%nat -> t e = track c x e.
Proof.
  intros (E0 & ES). induction e as [|e IH]; intros L; [exact E0|]. rewrite (ES e) by lia. rewrite IH, track_S by lia. reflexivity.
Qed.

(** The memory at line 68 and its grid. *)
Lemma at_line_68 c s a x : is_tensor s (c_arg c) a x -> exists base g t,
  repulse_after c s 1 = (base, HasGrid g) /\ nth_error (m_obj base) g = Some t /\ nth_error (m_store base) (x_store t) = Some x /\
  x_float t = x_float a /\ (x_leaf t = true <-> if c_in_place c then x_leaf a = true else (c_on c = true -> x_req a = false)) /\
  (c_in_place c = true -> base = s /\ g = c_arg c /\ t = a) /\
  (c_in_place c = false -> g = length (m_obj s) /\ x_store t = length (m_store s) /\
     (exists y, m_store base = m_store s ++ [y]) /\ (exists b, m_obj base = m_obj s ++ [b])).
Proof.
  intros (Ha & Hx & _ & _). destruct (c_in_place c) eqn:Ip.
  - exists s, (c_arg c), a. split; [exact (first_in_place c s Ip)|]. split; [exact Ha|]. split; [exact Hx|]. split; [reflexivity|].
    split; [tauto|]. split; [intros _; repeat split|discriminate].
  - destruct (first_clone c s a x Ip Ha Hx) as (E1 & E2 & E3). exists (cloned c s a x), (length (m_obj s)), (clone_of c s a).
    split; [exact E1|]. split; [exact E2|]. split; [exact E3|]. split; [reflexivity|]. split.
    { cbn [clone_of x_leaf]. destruct (c_on c), (x_req a); cbn; split; intros H; try reflexivity; try discriminate; try (intros; discriminate); auto; discriminate (H eq_refl). }
    split; [discriminate|]. intros _. split; [reflexivity|]. split; [reflexivity|]. split; eexists; reflexivity.
Qed.

Theorem C105_answers : forall (c : rcall) (s : mem) (a : ten) (x : rows) (t : nat -> rows),
  is_tensor s (c_arg c) a x -> accepted c a -> iterates c x t ->
  exists l b, snd (repulse_call c s) = Ok l /\
    is_tensor (fst (repulse_call c s)) l b (t (c_steps c)) /\ x_req b = false /\ x_grad b = None /\
    (if c_in_place c then x_store b = x_store a else (length (m_store s) <= x_store b)%nat).
Proof.
  intros c s a x t HT ((Hf & Hw) & Hlr & Hon) Hit.
  destruct (at_line_68 c s a x HT) as (base & g & b & E1 & Ho & Hs & Ef & El & Ip & Np).
  assert (Hl : x_leaf b = true) by (apply El; exact Hw). rewrite Hf in Ef.
  destruct (at_end c base g b x Ho Hs s E1 Hl Ef Hlr Hon) as (G & _ & E & _).
  unfold repulse_call. rewrite E. cbn [fst snd].
  exists (length (m_obj base)), (mkTen (x_store b) (x_float b) true false None). split; [reflexivity|]. split; [split; [|split; [|split]]|].
  - cbn [m_obj mem_at]. rewrite nth_error_app2 by (rewrite upd_length; lia). rewrite upd_length, Nat.sub_diag. reflexivity.
  - cbn [x_store]. change (m_store (mkMem ?p ?q)) with p. rewrite (mem_at_store base g b x Hs). f_equal. symmetry. apply (iterates_track c x t _ Hit). lia.
  - discriminate.
  - discriminate.
  - split; [reflexivity|]. split; [reflexivity|]. cbn [x_store]. destruct (c_in_place c).
    + destruct (Ip eq_refl) as (_ & _ & ->). reflexivity.
    + destruct (Np eq_refl) as (_ & -> & _). lia.
Qed.
Print Assumptions C105_answers.

Theorem C105_refusals : forall (c : rcall) (s : mem) (a : ten) (x : rows),
  is_tensor s (c_arg c) a x -> ~ accepted c a ->
  snd (repulse_call c s) = Err (if Rlt_dec (c_lr c) 0 then if x_float a then if c_in_place c then if x_leaf a then ValueError else RuntimeError
                                else if (c_on c && x_req a)%bool then RuntimeError else ValueError else RuntimeError else RuntimeError).
Proof.
  intros c s a x HT Hn. destruct (at_line_68 c s a x HT) as (base & g & b & E1 & Ho & Hs & Ef & El & Ip & Np).
  pose proof (after_2 c base g b x Ho Hs s E1) as E2. unfold repulse_call.
  assert (W : forall k m r, (k <= whole_call c)%nat -> repulse_after c s k = (m, Returned (Err r)) ->
    snd (match repulse_after c s (whole_call c) with (s', Returned r0) => (s', r0) | (s', _) => (s', Err RuntimeError) end) = Err r).
  { intros k m r L E. rewrite (after_returned_le c s k _ _ _ L E). reflexivity. }
  assert (Fl : x_leaf b = if c_in_place c then x_leaf a else negb (c_on c && x_req a)).
  { destruct (c_in_place c); [destruct (Ip eq_refl) as (_ & _ & ->); reflexivity|].
    destruct (x_leaf b), (c_on c), (x_req a); cbn in *; try reflexivity; exfalso; destruct El as (El1 & El2); try (specialize (El1 eq_refl eq_refl); discriminate);
      try (discriminate El2; intros; first [reflexivity|discriminate]). }
  rewrite Ef in E2. destruct (x_leaf b) eqn:Lb; cbn [negb] in E2.
  2: { rewrite (W 2%nat _ _ ltac:(unfold whole_call; lia) E2). destruct (Rlt_dec (c_lr c) 0), (x_float a), (c_in_place c); try reflexivity; try (rewrite <- Fl; reflexivity).
       all: destruct (c_on c && x_req a)%bool; [reflexivity|discriminate Fl]. }
  destruct (x_float a) eqn:Fa; cbn [negb] in E2.
  2: { rewrite (W 2%nat _ _ ltac:(unfold whole_call; lia) E2). destruct (Rlt_dec (c_lr c) 0); reflexivity. }
  destruct (Rlt_dec (c_lr c) 0) as [Ln|Lp].
  { rewrite (W 3%nat _ _ ltac:(unfold whole_call; lia) (after_3_negative c base g b x Ho Hs s E1 Lb Ef Ln)).
    destruct (c_in_place c); [rewrite <- Fl; reflexivity|]. destruct (c_on c && x_req a)%bool; [discriminate Fl|reflexivity]. }
  assert (Wk : workable c a) by (split; [exact Fa|apply El; reflexivity]).
  assert (Off : c_on c = false /\ (0 < c_steps c)%nat).
  { destruct (c_on c) eqn:On.
    - exfalso. apply Hn. split; [exact Wk|]. split; [lra|right; exact On].
    - split; [reflexivity|]. destruct (Nat.eq_dec (c_steps c) 0) as [Z|NZ]; [|lia].
      exfalso. apply Hn. split; [exact Wk|]. split; [lra|left; exact Z]. }
  destruct Off as (On & Sp).
  exact (W 5%nat _ _ ltac:(unfold whole_call; lia) (after_5_off c base g b x Ho Hs s E1 Lb Ef ltac:(lra) On Sp)).
Qed.
Print Assumptions C105_refusals.

Theorem C105_interrupted : forall (c : rcall) (s : mem) (a : ten) (x : rows) (t : nat -> rows) (k : nat),
  is_tensor s (c_arg c) a x -> iterates c x t ->
  let s' := fst (repulse_after c s k) in
  (forall i, i < length (m_store s) -> (c_in_place c = true -> i <> x_store a) -> nth_error (m_store s') i = nth_error (m_store s) i)%nat /\
  (forall i, i < length (m_obj s) -> (c_in_place c = true -> i <> c_arg c) -> nth_error (m_obj s') i = nth_error (m_obj s) i)%nat /\
  (c_in_place c = true -> exists e r G, (e <= c_steps c)%nat /\ nth_error (m_store s') (x_store a) = Some (t e) /\
     nth_error (m_obj s') (c_arg c) = Some (mkTen (x_store a) (x_float a) (x_leaf a) r G)).
Proof.
  intros c s a x t k HT Hit s'. destruct k as [|k].
  { subst s'. cbn [repulse_after fst]. split; [reflexivity|]. split; [reflexivity|]. intros _. destruct HT as (Ha & Hx & _).
    exists 0%nat, (x_req a), (x_grad a). split; [lia|]. split; [rewrite (proj1 Hit); exact Hx|]. rewrite Ha. destruct a; reflexivity. }
  destruct (at_line_68 c s a x HT) as (base & g & b & E1 & Ho & Hs & Ef & El & Ip & Np).
  destruct (interrupted_gen c base g b x s (S k) Ho Hs E1 ltac:(lia)) as (e & r & G & tail & Le & ES & EO). subst s'. rewrite ES, EO.
  assert (Lg : (g < length (m_obj base))%nat) by (apply nth_error_Some; congruence).
  destruct (c_in_place c) eqn:I.
  - destruct (Ip eq_refl) as (-> & -> & ->). split; [|split].
    + intros i _ N. apply mem_at_store_other. exact (N eq_refl).
    + intros i Li N. rewrite nth_error_app1 by (cbn [mem_at m_obj]; rewrite upd_length; exact Li). apply mem_at_obj_other. exact (N eq_refl).
    + intros _. exists e, r, G. split; [exact Le|]. split.
      * rewrite (mem_at_store s (c_arg c) a x Hs). f_equal. symmetry. exact (iterates_track c x t e Hit Le).
      * rewrite nth_error_app1 by (cbn [mem_at m_obj]; rewrite upd_length; exact Lg). exact (mem_at_obj s (c_arg c) a Ho _ _ _).
  - destruct (Np eq_refl) as (-> & Sb & (y & Ey) & (b' & Eb)). split; [|split; [|discriminate]].
    + intros i Li _. rewrite mem_at_store_other by (rewrite Sb; lia). rewrite Ey. apply nth_error_app1. exact Li.
    + intros i Li _. rewrite nth_error_app1 by (cbn [mem_at m_obj]; rewrite upd_length; lia). rewrite mem_at_obj_other by lia. rewrite Eb. apply nth_error_app1. exact Li.
Qed.
Print Assumptions C105_interrupted.

Theorem C105_interrupted_tensor_requires_gradient_defect : forall (c : rcall) (s : mem) (a : ten) (x : rows) (k : nat),
  is_tensor s (c_arg c) a x -> accepted c a -> c_in_place c = true -> (2 <= k <= 3 + 4 * c_steps c)%nat ->
  let s' := fst (repulse_after c s k) in
  exists b y, is_tensor s' (c_arg c) b y /\ x_leaf b = true /\ x_req b = true /\
    (forall c', c_arg c' = c_arg c -> c_in_place c' = false -> c_on c' = true -> snd (repulse_call c' s') = Err RuntimeError) /\
    (forall c', c_arg c' = c_arg c -> c_in_place c' = true -> 0 <= c_lr c' -> c_on c' = true -> accepted c' b).
Proof.
  intros c s a x k HT ((Hf & Hw) & Hlr & Hon) I K s'. rewrite I in Hw. destruct HT as (Ha & Hx & Ok1 & Ok2).
  pose proof (first_in_place c s I) as E1.
  assert (B : exists e G, s' = mem_at s (c_arg c) a (track c x e) true G).
  { subst s'. destruct (Nat.eq_dec k 2) as [->|N2].
    - rewrite (after_2_ok c s (c_arg c) a x Ha Hx s E1 Hw Hf). exists 0%nat, (x_grad a). reflexivity.
    - destruct (when c Hon k ltac:(lia)) as [(e & j & -> & Le & Lj)|[->|[->|Lw]]]; [| |lia|unfold whole_call in Lw; lia].
      + destruct (in_epoch c s (c_arg c) a x Ha Hx s E1 Hw Hf Hlr Hon e j Le Lj) as (G & p & -> & _). exists e, G. reflexivity.
      + destruct (at_epoch c s (c_arg c) a x Ha Hx s E1 Hw Hf Hlr Hon (c_steps c) (le_n _)) as (G & -> & _). exists (c_steps c), G. reflexivity. }
  destruct B as (e & G & ->). set (b := mkTen (x_store a) (x_float a) (x_leaf a) true G).
  assert (Tb : is_tensor (mem_at s (c_arg c) a (track c x e) true G) (c_arg c) b (track c x e)).
  { split; [exact (mem_at_obj s (c_arg c) a Ha _ _ _)|]. split; [exact (mem_at_store s (c_arg c) a x Hx _ _ _)|]. subst b. cbn [x_leaf x_req x_float]. rewrite Hf. split; reflexivity. }
  exists b, (track c x e). split; [exact Tb|]. split; [exact Hw|]. split; [reflexivity|]. split.
  - intros c' Ea I' On. rewrite (C105_refusals c' _ b (track c x e)).
    + subst b. cbn [x_float x_leaf x_req]. rewrite Hf, I', On. cbn [andb]. destruct (Rlt_dec (c_lr c') 0); reflexivity.
    + rewrite Ea. exact Tb.
    + intros ((_ & W) & _). rewrite I' in W. specialize (W On). discriminate W.
  - intros c' Ea I' L On. split; [split; [exact Hf|rewrite I'; exact Hw]|]. split; [exact L|right; exact On].
Qed.
Print Assumptions C105_interrupted_tensor_requires_gradient_defect.

Theorem C105_refused_in_place_requires_gradient_defect : forall (c : rcall) (s : mem) (a : ten) (x : rows),
  is_tensor s (c_arg c) a x -> workable c a -> ~ accepted c a -> c_in_place c = true ->
  exists b, is_tensor (fst (repulse_call c s)) (c_arg c) b x /\ x_req b = true.
Proof.
  intros c s a x (Ha & Hx & Ok1 & Ok2) (Hf & Hw) Hn I. pose proof (first_in_place c s I) as E1. assert (Hl : x_leaf a = true) by (rewrite I in Hw; exact Hw).
  assert (B : forall k G r, (k <= whole_call c)%nat -> repulse_after c s k = (mem_at s (c_arg c) a x true G, Returned r) ->
    exists b, is_tensor (fst (repulse_call c s)) (c_arg c) b x /\ x_req b = true).
  { intros k G r L E. unfold repulse_call. rewrite (after_returned_le c s k _ _ _ L E). cbn [fst].
    exists (mkTen (x_store a) (x_float a) (x_leaf a) true G). split; [|reflexivity].
    split; [exact (mem_at_obj s (c_arg c) a Ha _ _ _)|]. split; [exact (mem_at_store s (c_arg c) a x Hx _ _ _)|]. cbn [x_leaf x_req x_float]. rewrite Hf. split; reflexivity. }
  destruct (Rlt_dec (c_lr c) 0) as [Ln|Lp].
  { apply (B 3%nat _ _ ltac:(unfold whole_call; lia) (after_3_negative c s (c_arg c) a x Ha Hx s E1 Hl Hf Ln)). }
  assert (Off : c_on c = false /\ (0 < c_steps c)%nat).
  { destruct (c_on c) eqn:On.
    - exfalso. apply Hn. split; [split; [exact Hf|rewrite I; exact Hl]|]. split; [lra|right; exact On].
    - split; [reflexivity|]. destruct (Nat.eq_dec (c_steps c) 0) as [Z|NZ]; [|lia].
      exfalso. apply Hn. split; [split; [exact Hf|rewrite I; exact Hl]|]. split; [lra|left; exact Z]. }
  destruct Off as (On & Sp).
  apply (B 5%nat _ _ ltac:(unfold whole_call; lia) (after_5_off c s (c_arg c) a x Ha Hx s E1 Hl Hf ltac:(lra) On Sp)).
Qed.
Print Assumptions C105_refused_in_place_requires_gradient_defect.

Theorem C105_in_place_switches_gradients_off_defect : forall (c : rcall) (s : mem) (a : ten) (x : rows) (t : nat -> rows),
  is_tensor s (c_arg c) a x -> accepted c a -> c_in_place c = true -> iterates c x t ->
  exists b, is_tensor (fst (repulse_call c s)) (c_arg c) b (t (c_steps c)) /\ x_req b = false /\ (c_steps c <> 0%nat -> x_grad b <> None).
Proof.
  intros c s a x t (Ha & Hx & Ok1 & Ok2) ((Hf & Hw) & Hlr & Hon) I Hit. rewrite I in Hw. pose proof (first_in_place c s I) as E1.
  destruct (at_end c s (c_arg c) a x Ha Hx s E1 Hw Hf Hlr Hon) as (G & _ & E & HG). unfold repulse_call. rewrite E. cbn [fst].
  exists (mkTen (x_store a) (x_float a) (x_leaf a) false G). split; [split; [|split; [|split]]|split].
  - cbn [m_obj]. rewrite nth_error_app1 by (cbn [mem_at m_obj]; rewrite upd_length; apply nth_error_Some; congruence). exact (mem_at_obj s (c_arg c) a Ha _ _ _).
  - change (m_store (mkMem ?p ?q)) with p. cbn [x_store]. rewrite (mem_at_store s (c_arg c) a x Hx). f_equal. symmetry. apply (iterates_track c x t _ Hit). lia.
  - cbn [x_leaf]. rewrite Hw. discriminate.
  - discriminate.
  - reflexivity.
  - cbn [x_grad]. intros N. destruct HG as (G' & ->); [lia|]. discriminate.
Qed.
Print Assumptions C105_in_place_switches_gradients_off_defect.

(** The optimised grids, called while gradients are recorded ... *)
Theorem C105_grids_with_gradients :
  (forall s n p c o, 0 <= or_lr o -> so3_uniform_grid_in true s n p c o = so3_uniform_grid s n p c o) /\
  (forall p b steps lr grad noise draws, 0 <= lr ->
     s2_uniform_grid_in true p b steps lr grad noise draws = s2_uniform_grid p b steps lr grad noise draws).
Proof.
  split; intros.
  - apply so3_in_ok; [assumption|right; reflexivity].
  - apply s2_in_ok; [assumption|right; reflexivity].
Qed.
Print Assumptions C105_grids_with_gradients.

(** ... and under torch.no_grad(): a history of such calls since import. *)
Definition quiet_run (ops : list (nat * string * bool * oracle)) (s : gstate) : gstate :=
  fold_left (fun s q => fst (so3_uniform_grid_in false s (fst (fst (fst q))) (snd (fst (fst q))) (snd (fst q)) (snd q))) ops s.
Definition default_steps (o : oracle) : Prop := 0 <= or_lr o /\ (0 < or_steps o)%nat.

Lemma quiet_inv ops s : (forall q, In q ops -> default_steps (snd q)) ->
  (exists extra, gs_heap s = gs_heap ginit ++ extra) /\ gs_quat s = gs_quat ginit /\ gs_matrix s = gs_matrix ginit ->
  let s' := quiet_run ops s in (exists extra, gs_heap s' = gs_heap ginit ++ extra) /\ gs_quat s' = gs_quat ginit /\ gs_matrix s' = gs_matrix ginit.
Proof.
  revert s. induction ops as [|[[[n p] c] o] ops IH]; intros s Hd Hs; [exact Hs|]. cbn [quiet_run fold_left].
  apply IH; [intros q Hq; apply Hd; right; exact Hq|]. cbn [fst snd]. destruct (Hd _ (or_introl eq_refl)) as (Hlr & Sp). cbn [snd] in Hlr, Sp.
  destruct (Nat.eq_dec n 0) as [->|Hn].
  - unfold so3_uniform_grid_in, alloc. cbn [Nat.eqb fst gs_heap gs_quat gs_matrix]. destruct Hs as ((x & Ex) & Q & M). rewrite Ex, <- app_assoc. eauto.
  - destruct (load_grid s n p) as [l|e] eqn:El.
    + unfold so3_uniform_grid_in. rewrite (proj2 (Nat.eqb_neq n 0) Hn), El. exact Hs.
    + rewrite so3_in_off; [exact Hs|exact Hn| |exact Hlr|exact Sp]. intros l E. rewrite El in E. discriminate.
Qed.

Theorem C105_grids_without_gradients_defect : forall (ops : list (nat * string * bool * oracle)) (n : nat) (p : string) (c : bool) (o : oracle),
  (forall q, In q ops -> default_steps (snd q)) -> default_steps o ->
  let s := quiet_run ops ginit in
  let r := outcome (so3_uniform_grid_in false s n p c o) in
  (n = 0%nat -> r = Ok (Some TEmpty)) /\
  ((1 <= n <= 24)%nat -> lower p = "quat"%string -> r = Ok (Some (TQuat (table_quat n)))) /\
  ((2 <= n <= 24)%nat -> lower p = "matrix"%string -> r = Ok (Some (TMat (table_matrix n)))) /\
  ((24 < n)%nat -> lower p = "quat"%string \/ lower p = "matrix"%string -> r = Err RuntimeError) /\
  (n <> 0%nat -> lower p = "euler"%string -> r = Err RuntimeError) /\
  (n <> 0%nat -> lower p <> "quat"%string -> lower p <> "matrix"%string -> lower p <> "euler"%string -> r = Err ValueError).
Proof.
  intros ops n p c o Hd (Hlr & Sp) s r.
  destruct (quiet_inv ops ginit Hd) as ((x & Ex) & Q & M). { split; [exists []; rewrite app_nil_r; reflexivity|split; reflexivity]. }
  fold s in Ex, Q, M.
  assert (Hit : forall l t, n <> 0%nat -> load_grid s n p = Ok l -> look ginit l = Some t -> r = Ok (Some t)).
  { intros l t Hn El Et. unfold r, outcome, so3_uniform_grid_in. rewrite (proj2 (Nat.eqb_neq n 0) Hn), El. cbn [fst snd]. unfold look in *. rewrite Ex.
    rewrite nth_error_app1; [rewrite Et; reflexivity|]. apply nth_error_Some. rewrite Et. discriminate. }
  assert (Miss : n <> 0%nat -> (forall l, load_grid s n p <> Ok l) -> r = Err (match param_fn (lower p) [] with Ok _ => RuntimeError | Err _ => ValueError end)).
  { intros Hn Hm. unfold r, outcome. rewrite (so3_in_off s n p c o Hn Hm Hlr Sp). reflexivity. }
  split; [intros ->; unfold r, outcome, so3_uniform_grid_in, alloc; cbn [Nat.eqb fst snd]; unfold look; cbn [gs_heap]; rewrite nth_error_app2, Nat.sub_diag by lia; reflexivity|].
  split; [|split; [|split; [|split]]].
  - intros Ln Ep. apply (Hit (n - 1)%nat); [lia| |exact (look_init_quat n Ln)].
    unfold load_grid. rewrite Ep. cbn [String.eqb Ascii.eqb Bool.eqb]. rewrite Q, (ginit_quat_in n Ln). reflexivity.
  - intros Ln Ep. apply (Hit (24 + (n - 1))%nat); [lia| |rewrite look_init_matrix by lia; unfold init_matrix; replace (Nat.eqb n 1) with false by (symmetry; apply Nat.eqb_neq; lia); reflexivity].
    unfold load_grid. rewrite Ep. cbn [String.eqb Ascii.eqb Bool.eqb]. rewrite M, ginit_matrix_in by lia. reflexivity.
  - intros Ln [Ep|Ep]; (rewrite Miss; [rewrite Ep; reflexivity|lia|]); intros l; unfold load_grid; rewrite Ep; cbn [String.eqb Ascii.eqb Bool.eqb]; rewrite ?Q, ?M;
      unfold ginit; cbn [gs_quat gs_matrix]; replace (Nat.leb n 24) with false by (symmetry; apply Nat.leb_gt; lia); rewrite Bool.andb_false_r; discriminate.
  - intros Hn Ep. rewrite Miss; [rewrite Ep; reflexivity|exact Hn|]. intros l. unfold load_grid. rewrite Ep. discriminate.
  - intros Hn N1 N2 N3. apply String.eqb_neq in N1, N2, N3. rewrite Miss; [unfold param_fn; rewrite N1, N2, N3; reflexivity|exact Hn|].
    intros l. unfold load_grid. rewrite N1, N2. discriminate.
Qed.
Print Assumptions C105_grids_without_gradients_defect.

Theorem C105_sphere_without_gradients_defect : forall (p : string) (b : bool) (steps : nat) (lr : R) (grad : rows -> rows) (noise : nat -> rows) (draws : list V3),
  0 <= lr -> (0 < steps)%nat -> s2_uniform_grid_in false p b steps lr grad noise draws = Err RuntimeError.
Proof.
  intros p b steps lr grad noise draws Hlr Sp. unfold s2_uniform_grid_in. rewrite (optimise_new_err false _ _ _ _ _ (or_intror (conj eq_refl Sp))).
  destruct (Rlt_dec lr 0); [lra|reflexivity].
Qed.
Print Assumptions C105_sphere_without_gradients_defect.

(** A call in place on a tensor of two rows, interrupted in its second epoch, and one that succeeds. *)
Example C105_nonvacuous :
  let c := mkRcall 3 (1 / 2) 0 (fun x => x) (fun _ => [[0]; [0]]) true true 1 in
  let s := mkMem [[[5]]; [[1]; [2]]] [mkTen 0 true true false None; mkTen 1 true true false None] in
  let a := mkTen 1 true true false None in
  is_tensor s (c_arg c) a [[1]; [2]] /\ accepted c a /\ iterates c [[1]; [2]] (track c [[1]; [2]]) /\ (2 <= 9 <= 3 + 4 * c_steps c)%nat /\
  nth_error (m_store (fst (repulse_after c s 9))) 1 <> Some [[1]; [2]] /\
  ~ accepted (mkRcall 3 (1 / 2) 0 (fun x => x) (fun _ => [[0]; [0]]) true false 1) a.
Proof.
  cbv zeta. split; [|split; [|split; [|split; [|split]]]].
  - split; [reflexivity|]. split; [reflexivity|]. split; discriminate.
  - split; [split; reflexivity|]. split; [cbn; lra|right; reflexivity].
  - split; [reflexivity|]. intros e _. rewrite track_S. reflexivity.
  - cbn. lia.
  - cbn [repulse_after repulse_step c_in_place c_arg m_obj nth_error x_leaf x_float negb]. destruct (Rlt_dec _ 0) as [L|L]; [cbn in L; lra|].
    cbn. intros E. injection E. intros. lra.
  - intros (_ & _ & [E|E]); cbn in E; discriminate.
Qed.
