(** Facts about concurrent calls of so3.uniform_grid (Threads.v). *)
From Coq Require Import String.
From Verif Require Import Prelude RMath Mat Interp SO3 O3 Repulse S2 GridTables Tensor GridCache GridCacheFacts Threads.
Open Scope nat_scope.

(** what a call returns if nobody else is there *)
Definition alone (c : call) (cache : bool) : result (option tens) := outcome (so3_uniform_grid ginit (c_size c) (c_param c) cache (c_oracle c)).

(** the cache has an entry for the key of this call *)
Definition entry_of (s : gstate) (n : nat) (p : string) : option nat :=
  if String.eqb (lower p) "quat" then gs_quat s n else if String.eqb (lower p) "matrix" then gs_matrix s n else None.
Lemma load_entry s n p : load_grid s n p = of_option KeyError (entry_of s n p).
Proof. unfold load_grid, entry_of. cbv zeta. destruct (String.eqb (lower p) "quat"), (String.eqb (lower p) "matrix"); reflexivity. Qed.
Lemma entry_key s n p l : entry_of s n p = Some l -> lower p = "quat"%string \/ lower p = "matrix"%string.
Proof. unfold entry_of. destruct (String.eqb_spec (lower p) "quat"); [auto|]. destruct (String.eqb_spec (lower p) "matrix"); [auto|discriminate]. Qed.
Lemma entry_lower s n p : entry_of s n (lower p) = entry_of s n p.
Proof. unfold entry_of. rewrite lower_idem. reflexivity. Qed.
Lemma entry_same s n p p' : lower p = lower p' -> entry_of s n p = entry_of s n p'.
Proof. unfold entry_of. intros ->. reflexivity. Qed.

(** tensors stay *)
Definition heap_grows (s s' : gstate) : Prop := forall l t, look s l = Some t -> look s' l = Some t.
Lemma alloc_grows s t : heap_grows s (fst (alloc s t)).
Proof. intros l u H. unfold alloc. cbn [fst]. apply look_app. exact H. Qed.
Lemma alloc_look s t : look (fst (alloc s t)) (snd (alloc s t)) = Some t.
Proof. unfold alloc, look. cbn. apply nth_error_app_last. Qed.
Lemma alloc_entry s t n p : entry_of (fst (alloc s t)) n p = entry_of s n p.
Proof. reflexivity. Qed.

Lemma thread_grows s c ph : heap_grows s (fst (thread_step s c ph)).
Proof.
  intros l t H. unfold thread_step. destruct ph as [| |x|x|x|r]; cbn zeta.
  - destruct (Nat.eqb _ 0); [apply alloc_grows; exact H|]. destruct (load_grid _ _ _); exact H.
  - destruct (param_fn _ _); [apply alloc_grows|]; exact H.
  - destruct (load_grid _ _ _); exact H.
  - destruct (String.eqb _ "quat"); [exact H|]. destruct (String.eqb _ "matrix"); exact H.
  - destruct (look s x) as [[]|]; try exact H. destruct (param_fn _ _); [apply alloc_grows|]; exact H.
  - exact H.
Qed.
Lemma step_grows calls y i : heap_grows (y_state y) (y_state (sys_step calls y i)).
Proof.
  unfold sys_step. destruct (nth_error calls i) as [c|]; [|intros l t H; exact H].
  pose proof (thread_grows (y_state y) c (y_phase y i)) as G. destruct (thread_step _ _ _) as [s ph]. exact G.
Qed.
Lemma run_grows calls sched y : heap_grows (y_state y) (y_state (sys_run calls y sched)).
Proof.
  revert y. induction sched as [|i sched IH]; intros y l t H; [exact H|]. cbn [sys_run fold_left]. apply IH. apply step_grows. exact H.
Qed.

(** what a grid found in the cache can be: the table, or the Euler angles of a caching call with the same key *)
Definition cached_by (calls : list call) (n : nat) (p : string) (t : tens) : Prop :=
  exists j cj, nth_error calls j = Some cj /\ c_size cj = n /\ lower (c_param cj) = lower p /\ c_cache cj = true /\ t = TRows3 (so3_optimised (c_oracle cj)).
Definition tabulated (n : nat) (p : string) : Prop := 1 <= n <= 24 /\ (lower p = "quat"%string \/ lower p = "matrix"%string).

Definition answer_ok (calls : list call) (i : nat) (c : call) (s : gstate) (r : result nat) : Prop :=
  match r with
  | Ok l => exists t, look s l = Some t /\ (alone c false = Ok (Some t) \/ 24 < c_size c /\
      exists j cj, j <> i /\ nth_error calls j = Some cj /\ c_size cj = c_size c /\ lower (c_param cj) = lower (c_param c) /\ c_cache cj = true /\ t = TRows3 (so3_optimised (c_oracle cj)))
  | Err e => alone c (c_cache c) = Err e
  end.

Definition phase_ok (calls : list call) (i : nat) (c : call) (s : gstate) (ph : phase) : Prop :=
  match ph with
  | AtEntry => True
  | Missed => c_size c <> 0 /\ ~ tabulated (c_size c) (c_param c)
  | Optimised l | Unsaved l => c_size c <> 0 /\ ~ tabulated (c_size c) (c_param c) /\ known_param (c_param c) /\ c_cache c = true /\ look s l = Some (TRows3 (so3_optimised (c_oracle c)))
  | Converting l => c_size c <> 0 /\ ~ tabulated (c_size c) (c_param c) /\ known_param (c_param c) /\ (c_cache c = true -> ~ is_euler (c_param c)) /\ look s l = Some (TRows3 (so3_optimised (c_oracle c)))
  | Finished r => answer_ok calls i c s r
  end.

(** who put an entry there: a call that has stored it *)
Definition has_stored (ph : phase) : Prop := match ph with Converting _ | Finished (Ok _) => True | _ => False end.
Definition cache_ok (calls : list call) (y : system) : Prop :=
  forall n p l, entry_of (y_state y) n p = Some l ->
    (tabulated n p /\ entry_of ginit n p = Some l /\ exists t, look ginit l = Some t /\ look (y_state y) l = Some t) \/
    (~ tabulated n p /\ n <> 0 /\ exists j cj, nth_error calls j = Some cj /\ c_size cj = n /\ lower (c_param cj) = lower p /\ c_cache cj = true /\
       has_stored (y_phase y j) /\ look (y_state y) l = Some (TRows3 (so3_optimised (c_oracle cj)))).
Definition table_ok (s : gstate) : Prop := forall n p, tabulated n p -> entry_of s n p = entry_of ginit n p.
Definition Inv (calls : list call) (y : system) : Prop :=
  cache_ok calls y /\ table_ok (y_state y) /\ forall i c, nth_error calls i = Some c -> phase_ok calls i c (y_state y) (y_phase y i).

Lemma entry_init n p : entry_of ginit n p = if (Nat.leb 1 n && Nat.leb n 24)%bool then (if String.eqb (lower p) "quat" then Some (n - 1) else if String.eqb (lower p) "matrix" then Some (24 + (n - 1)) else None) else None.
Proof. unfold entry_of, ginit. cbn [gs_quat gs_matrix]. destruct (Nat.leb 1 n && Nat.leb n 24)%bool, (String.eqb (lower p) "quat"), (String.eqb (lower p) "matrix"); reflexivity. Qed.
Lemma entry_init_some n p : tabulated n p -> exists l t, entry_of ginit n p = Some l /\ look ginit l = Some t.
Proof.
  intros [Hn [E|E]]; rewrite entry_init, E; (replace (Nat.leb 1 n && Nat.leb n 24)%bool with true by (symmetry; apply andb_true_intro; split; apply Nat.leb_le; lia)).
  - exists (n - 1), (init_quat n). split; [reflexivity|apply look_init_quat; exact Hn].
  - exists (24 + (n - 1)), (init_matrix n). split; [reflexivity|apply look_init_matrix; exact Hn].
Qed.
Lemma entry_init_tab n p l : entry_of ginit n p = Some l -> tabulated n p.
Proof.
  rewrite entry_init. destruct (Nat.leb 1 n && Nat.leb n 24)%bool eqn:E; [|discriminate]. apply andb_prop in E. destruct E as [A B]. apply Nat.leb_le in A, B.
  intros H. split; [lia|]. destruct (String.eqb_spec (lower p) "quat"); [auto|]. destruct (String.eqb_spec (lower p) "matrix"); [auto|discriminate].
Qed.

Lemma answer_grows calls i c s s' r : heap_grows s s' -> answer_ok calls i c s r -> answer_ok calls i c s' r.
Proof. intros G. destruct r as [l|e]; cbn; [|auto]. intros (t & L & H). exists t. split; [apply G; exact L|exact H]. Qed.
Lemma phase_grows calls i c s s' ph : heap_grows s s' -> phase_ok calls i c s ph -> phase_ok calls i c s' ph.
Proof.
  intros G. destruct ph as [| |l|l|l|r]; cbn; auto.
  - intros (A & B & C & D & E). repeat (split; [assumption|]). apply G. exact E.
  - intros (A & B & C & D & E). repeat (split; [assumption|]). apply G. exact E.
  - intros (A & B & C & D & E). repeat (split; [assumption|]). apply G. exact E.
  - apply answer_grows. exact G.
Qed.

Lemma inv_start calls : Inv calls (sys_start ginit).
Proof.
  split; [|split].
  - intros n p l H. left. cbn [y_state sys_start] in *. pose proof (entry_init_tab n p l H) as T. split; [exact T|]. split; [exact H|].
    destruct (entry_init_some n p T) as (l' & t & E & L). rewrite H in E. injection E as <-. exists t. auto.
  - intros n p _. reflexivity.
  - intros i c _. exact I.
Qed.

(** the three kinds of parameterizations, and what a call alone returns *)
Lemma param_known c g : known_param (c_param c) -> exists t, param_fn (lower (c_param c)) g = Ok t.
Proof. unfold known_param, is_quat, is_matrix, is_euler, param_fn. intros [-> |[-> | ->]]; eexists; reflexivity. Qed.
Lemma param_unknown c g e : param_fn (lower (c_param c)) g = Err e -> ~ known_param (c_param c) /\ e = ValueError.
Proof.
  unfold param_fn, known_param, is_quat, is_matrix, is_euler.
  destruct (String.eqb_spec (lower (c_param c)) "quat"); [discriminate|]. destruct (String.eqb_spec (lower (c_param c)) "matrix"); [discriminate|]. destruct (String.eqb_spec (lower (c_param c)) "euler"); [discriminate|].
  intros E. injection E as <-. split; [tauto|reflexivity].
Qed.
Lemma alone_miss c : c_size c <> 0 -> ~ tabulated (c_size c) (c_param c) -> entry_of ginit (c_size c) (c_param c) = None.
Proof. intros _ T. destruct (entry_of ginit _ _) as [l|] eqn:E; [|reflexivity]. exfalso. exact (T (entry_init_tab _ _ _ E)). Qed.
Lemma alone_fresh c t : c_size c <> 0 -> ~ tabulated (c_size c) (c_param c) -> param_fn (lower (c_param c)) (so3_optimised (c_oracle c)) = Ok t -> alone c false = Ok (Some t).
Proof.
  intros Hn T E. unfold alone, so3_uniform_grid. destruct (Nat.eqb_spec (c_size c) 0) as [Z|_]; [tauto|]. rewrite load_entry, alone_miss by assumption. cbn [of_option]. cbv zeta.
  destruct (param_fn (lower (c_param c)) []) as [t0|e] eqn:P.
  - destruct (alloc ginit _) as [s1 lg]. rewrite E. destruct (alloc s1 t) as [s3 l] eqn:A. unfold outcome. cbn [fst snd]. f_equal.
    pose proof (alloc_look s1 t) as L. rewrite A in L. exact L.
  - destruct (param_unknown c [] e P) as [K _]. exfalso. apply K. unfold param_fn in E. unfold known_param, is_quat, is_matrix, is_euler.
    destruct (String.eqb_spec (lower (c_param c)) "quat"); [auto|]. destruct (String.eqb_spec (lower (c_param c)) "matrix"); [auto|]. destruct (String.eqb_spec (lower (c_param c)) "euler"); [auto|discriminate].
Qed.
Lemma alone_unknown c b : c_size c <> 0 -> ~ known_param (c_param c) -> alone c b = Err ValueError.
Proof. intros Hn K. unfold alone. rewrite unknown_raises by assumption. reflexivity. Qed.
Lemma alone_table c b l t : c_size c <> 0 -> entry_of ginit (c_size c) (c_param c) = Some l -> look ginit l = Some t -> alone c b = Ok (Some t).
Proof.
  intros Hn E L. unfold alone, so3_uniform_grid. destruct (Nat.eqb_spec (c_size c) 0) as [Z|_]; [tauto|]. rewrite load_entry, E. cbn [of_option]. unfold outcome. cbn [fst snd]. rewrite L. reflexivity.
Qed.
Lemma key_not_euler c : known_param (c_param c) -> ~ is_euler (c_param c) -> lower (c_param c) = "quat"%string \/ lower (c_param c) = "matrix"%string.
Proof. unfold known_param, is_quat, is_matrix. tauto. Qed.

(** ** one step keeps the invariant *)
Lemma phase_step calls y i c : Inv calls y -> nth_error calls i = Some c -> has_stored (y_phase y i) \/ True ->
  phase_ok calls i c (fst (thread_step (y_state y) c (y_phase y i))) (snd (thread_step (y_state y) c (y_phase y i))).
Proof.
  intros (C & T & P) Hc _. pose proof (P i c Hc) as Q. unfold thread_step. destruct (y_phase y i) as [| |l|l|l|r] eqn:Ep; cbn zeta.
  - destruct (Nat.eqb_spec (c_size c) 0) as [Z|Hn].
    + pose proof (alloc_look (y_state y) TEmpty) as L. destruct (alloc (y_state y) TEmpty) as [s' l]. cbn [fst snd] in *. exists TEmpty. split; [exact L|]. left. unfold alone. rewrite Z. apply size_zero.
    + rewrite load_entry. destruct (entry_of (y_state y) (c_size c) (c_param c)) as [l|] eqn:E; cbn [of_option fst snd phase_ok answer_ok].
      * destruct (C _ _ _ E) as [(Tb & E0 & t & L0 & L)|(Tb & Z0 & j & cj & Hj & Sj & Pj & Kj & Dj & L)].
        -- exists t. split; [exact L|]. left. exact (alone_table c false l t Hn E0 L0).
        -- eexists. split; [exact L|]. right. split.
           { destruct (le_lt_dec (c_size c) 24) as [Le|Lt]; [exfalso|exact Lt]. apply Tb. split; [lia|]. exact (entry_key _ _ _ _ E). }
           exists j, cj. split; [|tauto]. intros ->. rewrite Ep in Dj. exact Dj.
      * split; [exact Hn|]. intros Tb. rewrite (T _ _ Tb) in E. destruct (entry_init_some _ _ Tb) as (l & t & E' & _). congruence.
  - destruct Q as [Hn Tb]. destruct (param_fn (lower (c_param c)) []) as [t|e] eqn:Pf.
    + assert (known_param (c_param c)) as K.
      { unfold param_fn in Pf. unfold known_param, is_quat, is_matrix, is_euler.
        destruct (String.eqb_spec (lower (c_param c)) "quat"); [auto|]. destruct (String.eqb_spec (lower (c_param c)) "matrix"); [auto|]. destruct (String.eqb_spec (lower (c_param c)) "euler"); [auto|discriminate]. }
      pose proof (alloc_look (y_state y) (TRows3 (so3_optimised (c_oracle c)))) as L. destruct (alloc (y_state y) (TRows3 (so3_optimised (c_oracle c)))) as [s' l]. cbn [fst snd] in *.
      destruct (c_cache c) eqn:Ec; cbn [phase_ok].
      * auto.
      * rewrite Ec. repeat (split; [assumption|]). split; [discriminate|exact L].
    + cbn. destruct (param_unknown c _ _ Pf) as [K ->]. apply alone_unknown; assumption.
  - destruct Q as (Hn & Tb & K & Ec & L). rewrite load_entry, entry_lower. destruct (entry_of (y_state y) (c_size c) (c_param c)) as [l'|] eqn:E; cbn [of_option fst snd phase_ok].
    + repeat (split; [assumption|]). split; [|exact L]. intros _ Eu. unfold entry_of in E. unfold is_euler in Eu. rewrite Eu in E. discriminate.
    + auto.
  - destruct Q as (Hn & Tb & K & Ec & L). rewrite lower_idem. destruct (String.eqb_spec (lower (c_param c)) "quat") as [Eq|Nq]; [|destruct (String.eqb_spec (lower (c_param c)) "matrix") as [Em|Nm]]; cbn [fst snd phase_ok].
    + repeat (split; [assumption|]). split; [|exact L]. unfold is_euler. rewrite Eq. discriminate.
    + repeat (split; [assumption|]). split; [|exact L]. unfold is_euler. rewrite Em. discriminate.
    + cbn. rewrite Ec. unfold alone. apply euler_cache_raises; [exact Hn|]. unfold known_param, is_quat, is_matrix in K. tauto.
  - destruct Q as (Hn & Tb & K & _ & L). rewrite L. destruct (param_known c (so3_optimised (c_oracle c)) K) as (t & E). rewrite E.
    pose proof (alloc_look (y_state y) t) as L'. destruct (alloc (y_state y) t) as [s' l']. cbn [fst snd] in *. exists t. split; [exact L'|]. left. apply alone_fresh; assumption.
  - exact Q.
Qed.

Lemma thread_entries s c ph n p l : entry_of (fst (thread_step s c ph)) n p = Some l ->
  entry_of s n p = Some l \/
  (ph = Unsaved l /\ c_size c = n /\ lower (c_param c) = lower p).
Proof.
  unfold thread_step. destruct ph as [| |x|x|x|r]; cbn zeta.
  - destruct (Nat.eqb _ 0); [auto|]. destruct (load_grid _ _ _); auto.
  - destruct (param_fn _ _); auto.
  - destruct (load_grid _ _ _); auto.
  - rewrite lower_idem. destruct (String.eqb_spec (lower (c_param c)) "quat") as [Eq|Nq]; [|destruct (String.eqb_spec (lower (c_param c)) "matrix") as [Em|Nm]]; cbn [fst]; unfold entry_of at 1; cbn [gs_quat gs_matrix]; unfold set_at.
    + destruct (String.eqb_spec (lower p) "quat") as [Ep|Np]; [|unfold entry_of; apply String.eqb_neq in Np; rewrite Np; auto].
      destruct (Nat.eqb_spec n (c_size c)) as [->|]; [intros H; injection H as <-; right; split; [reflexivity|split; [reflexivity|congruence]]|intros H; left; unfold entry_of; rewrite Ep; exact H].
    + destruct (String.eqb_spec (lower p) "quat") as [Ep|Np]; [intros H; left; unfold entry_of; rewrite Ep; exact H|]. destruct (String.eqb_spec (lower p) "matrix") as [Ep|Nm]; [|discriminate].
      destruct (Nat.eqb_spec n (c_size c)) as [->|]; [intros H; injection H as <-; right; split; [reflexivity|split; [reflexivity|congruence]]|intros H; left; unfold entry_of; rewrite Ep; exact H].
    + auto.
  - destruct (look s x) as [[]|]; auto. destruct (param_fn _ _); auto.
  - auto.
Qed.
Lemma thread_keeps s c ph n p l : entry_of s n p = Some l -> (forall x, ph = Unsaved x -> c_size c = n -> lower (c_param c) = lower p -> False) ->
  entry_of (fst (thread_step s c ph)) n p = Some l.
Proof.
  intros H Hx. unfold thread_step. destruct ph as [| |x|x|x|r]; cbn zeta.
  - destruct (Nat.eqb _ 0); [exact H|]. destruct (load_grid _ _ _); exact H.
  - destruct (param_fn _ _); exact H.
  - destruct (load_grid _ _ _); exact H.
  - specialize (Hx x eq_refl). rewrite lower_idem. destruct (String.eqb_spec (lower (c_param c)) "quat") as [Eq|Nq]; [|destruct (String.eqb_spec (lower (c_param c)) "matrix") as [Em|Nm]]; cbn [fst]; [| |exact H];
      unfold entry_of in *; cbn [gs_quat gs_matrix]; unfold set_at; destruct (String.eqb_spec (lower p) "quat") as [Ep|Np]; try exact H.
    + destruct (Nat.eqb_spec n (c_size c)) as [->|]; [exfalso; apply Hx; congruence|exact H].
    + destruct (String.eqb_spec (lower p) "matrix") as [Ep|Nm]; [|exact H]. destruct (Nat.eqb_spec n (c_size c)) as [->|]; [exfalso; apply Hx; congruence|exact H].
  - destruct (look s x) as [[]|]; try exact H. destruct (param_fn _ _); exact H.
  - exact H.
Qed.
Lemma stored_stays s c ph : has_stored ph -> (forall l, ph = Converting l -> exists g t, look s l = Some (TRows3 g) /\ param_fn (lower (c_param c)) g = Ok t) -> has_stored (snd (thread_step s c ph)).
Proof.
  intros H Hl. unfold thread_step. destruct ph as [| |x|x|x|r]; cbn in H; try contradiction.
  - destruct (Hl x eq_refl) as (g & t & -> & ->). exact I.
  - exact H.
Qed.

Lemma inv_step calls y i : Inv calls y -> Inv calls (sys_step calls y i).
Proof.
  intros J. pose proof J as (C & T & P). unfold sys_step. destruct (nth_error calls i) as [c|] eqn:Hc; [|exact J].
  pose proof (phase_step calls y i c J Hc (or_intror I)) as Q. pose proof (thread_grows (y_state y) c (y_phase y i)) as G.
  pose proof (thread_entries (y_state y) c (y_phase y i)) as E. pose proof (thread_keeps (y_state y) c (y_phase y i)) as Kp.
  pose proof (stored_stays (y_state y) c (y_phase y i)) as Hst. pose proof (P i c Hc) as Pi.
  assert (forall x, y_phase y i = Unsaved x -> has_stored (snd (thread_step (y_state y) c (y_phase y i))) \/ ~ (lower (c_param c) = "quat"%string \/ lower (c_param c) = "matrix"%string)) as Hu.
  { intros x Ex. rewrite Ex. unfold thread_step. cbn zeta. rewrite lower_idem. destruct (String.eqb_spec (lower (c_param c)) "quat"); [left; exact I|]. destruct (String.eqb_spec (lower (c_param c)) "matrix"); [left; exact I|right; tauto]. }
  destruct (thread_step (y_state y) c (y_phase y i)) as [s ph]. cbn [fst snd] in *. split; [|split]; cbn [y_state y_phase].
  - intros n p l H. cbn [y_state y_phase] in *. destruct (E n p l H) as [H0|(Eu & En & El)].
    + destruct (C n p l H0) as [(Tb & E0 & t & L0 & L)|(Tb & Z0 & j & cj & Hj & Sj & Pj & Kj & Dj & L)].
      * left. split; [exact Tb|]. split; [exact E0|]. exists t. split; [exact L0|]. apply G. exact L.
      * right. split; [exact Tb|]. split; [exact Z0|]. exists j, cj. split; [exact Hj|]. split; [exact Sj|]. split; [exact Pj|]. split; [exact Kj|]. split; [|apply G; exact L].
        cbn [y_phase]. destruct (Nat.eqb_spec j i) as [->|]; [|exact Dj]. apply Hst; [exact Dj|]. intros l0 El0. rewrite El0 in Pi. destruct Pi as (_ & _ & Kn & _ & Li). rewrite Hc in Hj. injection Hj as <-.
        destruct (param_known c (so3_optimised (c_oracle c)) Kn) as (t & Et). eauto.
    + right. rewrite Eu in Pi. destruct Pi as (Hn & Tb & Kn & Ec & L). subst n. assert (~ tabulated (c_size c) p) as Tb' by (unfold tabulated in *; rewrite <- El; exact Tb).
      split; [exact Tb'|]. split; [exact Hn|]. exists i, c. cbn [y_phase]. rewrite Nat.eqb_refl. repeat (split; [assumption||reflexivity|]). split; [|apply G; exact L].
      destruct (Hu l Eu) as [Hs|Hs]; [exact Hs|]. exfalso. apply Hs. unfold entry_of in H. rewrite El. destruct (String.eqb_spec (lower p) "quat"); [auto|]. destruct (String.eqb_spec (lower p) "matrix"); [auto|discriminate].
  - intros n p Tb. destruct (entry_init_some n p Tb) as (l & t & E0 & _). rewrite E0. apply Kp; [rewrite (T n p Tb); exact E0|].
    intros x Ex En El. rewrite Ex in Pi. destruct Pi as (_ & Tn & _). apply Tn. unfold tabulated in *. rewrite En, El. exact Tb.
  - intros k ck Hk. destruct (Nat.eqb_spec k i) as [->|]; [rewrite Hc in Hk; injection Hk as <-; exact Q|]. apply (phase_grows _ _ _ (y_state y)); [exact G|]. apply P. exact Hk.
Qed.
Lemma inv_run calls sched y : Inv calls y -> Inv calls (sys_run calls y sched).
Proof. revert y. induction sched as [|i sched IH]; intros y J; [exact J|]. cbn [sys_run fold_left]. apply IH. apply inv_step. exact J. Qed.

(** entries are never removed *)
Lemma thread_never_removes s c ph n p : entry_of s n p <> None -> entry_of (fst (thread_step s c ph)) n p <> None.
Proof.
  intros H. unfold thread_step. destruct ph as [| |x|x|x|r]; cbn zeta.
  - destruct (Nat.eqb _ 0); [exact H|]. destruct (load_grid _ _ _); exact H.
  - destruct (param_fn _ _); exact H.
  - destruct (load_grid _ _ _); exact H.
  - rewrite lower_idem. destruct (String.eqb_spec (lower (c_param c)) "quat") as [Eq|Nq]; [|destruct (String.eqb_spec (lower (c_param c)) "matrix") as [Em|Nm]]; cbn [fst]; [| |exact H];
      unfold entry_of in *; cbn [gs_quat gs_matrix]; unfold set_at; destruct (String.eqb_spec (lower p) "quat") as [Ep|Np]; try exact H.
    + destruct (Nat.eqb n (c_size c)); [discriminate|exact H].
    + destruct (String.eqb_spec (lower p) "matrix") as [Ep|Nm]; [|exact H]. destruct (Nat.eqb n (c_size c)); [discriminate|exact H].
  - destruct (look s x) as [[]|]; try exact H. destruct (param_fn _ _); exact H.
  - exact H.
Qed.
Lemma step_never_removes calls y i n p : entry_of (y_state y) n p <> None -> entry_of (y_state (sys_step calls y i)) n p <> None.
Proof.
  intros H. unfold sys_step. destruct (nth_error calls i) as [c|]; [|exact H]. pose proof (thread_never_removes (y_state y) c (y_phase y i) n p H) as Q.
  destruct (thread_step _ _ _) as [s ph]. exact Q.
Qed.
Lemma run_never_removes calls sched y n p : entry_of (y_state y) n p <> None -> entry_of (y_state (sys_run calls y sched)) n p <> None.
Proof. revert y. induction sched as [|i sched IH]; intros y H; [exact H|]. cbn [sys_run fold_left]. apply IH, step_never_removes, H. Qed.

(** an entry changes only while a call of its key is between its check and its store *)
Definition quiet (calls : list call) (y : system) (n : nat) (p : string) : Prop :=
  forall i c x, nth_error calls i = Some c -> y_phase y i = Unsaved x -> c_size c = n -> lower (c_param c) = lower p -> False.
Lemma step_stable calls y i n p l : quiet calls y n p -> entry_of (y_state y) n p = Some l ->
  quiet calls (sys_step calls y i) n p /\ entry_of (y_state (sys_step calls y i)) n p = Some l.
Proof.
  intros Q H. unfold sys_step. destruct (nth_error calls i) as [c|] eqn:Hc; [|auto].
  pose proof (thread_keeps (y_state y) c (y_phase y i) n p l H (fun x => Q i c x Hc)) as K.
  assert (forall x, snd (thread_step (y_state y) c (y_phase y i)) = Unsaved x -> c_size c = n -> lower (c_param c) = lower p -> False) as N.
  { intros x E En Ep. revert E. unfold thread_step. destruct (y_phase y i) as [| |z|z|z|r] eqn:Ei; cbn zeta.
    - destruct (Nat.eqb _ 0); [discriminate|]. destruct (load_grid _ _ _); discriminate.
    - destruct (param_fn _ _); [|discriminate]. unfold alloc. destruct (c_cache c); discriminate.
    - rewrite load_entry, entry_lower, En, (entry_same _ _ _ p Ep), H. discriminate.
    - intros _. exact (Q i c z Hc Ei En Ep).
    - destruct (look _ z) as [[]|]; try discriminate. destruct (param_fn _ _); discriminate.
    - discriminate. }
  destruct (thread_step _ _ _) as [s ph]. cbn [fst snd] in *. split; [|exact K].
  intros k ck x Hk Ek. cbn [y_phase] in Ek. destruct (Nat.eqb_spec k i) as [->|]; [rewrite Hc in Hk; injection Hk as <-; exact (N x Ek)|exact (Q k ck x Hk Ek)].
Qed.
Lemma run_stable calls sched y n p l : quiet calls y n p -> entry_of (y_state y) n p = Some l -> entry_of (y_state (sys_run calls y sched)) n p = Some l.
Proof.
  revert y. induction sched as [|i sched IH]; intros y Q H; [exact H|]. cbn [sys_run fold_left]. destruct (step_stable calls y i n p l Q H) as [Q' H']. exact (IH _ Q' H').
Qed.

(** a caching call that returned has left an entry *)
Definition left_entry (calls : list call) (y : system) : Prop := forall j c, nth_error calls j = Some c -> c_cache c = true -> c_size c <> 0 ->
  has_stored (y_phase y j) -> entry_of (y_state y) (c_size c) (c_param c) <> None.
Lemma left_step calls y i : Inv calls y -> left_entry calls y -> left_entry calls (sys_step calls y i).
Proof.
  intros J L j c Hj Ec Hn D. pose proof (step_never_removes calls y i (c_size c) (c_param c)) as R. revert R D. unfold sys_step.
  destruct (nth_error calls i) as [ci|] eqn:Hi; [|intros _; apply L; assumption].
  assert (forall s ph, thread_step (y_state y) ci (y_phase y i) = (s, ph) -> j = i -> has_stored ph -> entry_of (y_state y) (c_size c) (c_param c) <> None \/ entry_of s (c_size c) (c_param c) <> None) as S.
  { intros s ph E -> D. rewrite Hi in Hj. injection Hj as ->. pose proof (L i c Hi Ec Hn) as Li. pose proof (proj2 (proj2 J) i c Hi) as Pi. revert E. unfold thread_step.
    destruct (y_phase y i) as [| |z|z|z|r] eqn:Ei; cbn zeta.
    - destruct (Nat.eqb_spec (c_size c) 0); [tauto|]. rewrite load_entry. destruct (entry_of (y_state y) _ _); cbn [of_option]; intros E; injection E as <- <-; [left; discriminate|destruct D].
    - destruct (param_fn _ _); [|intros E; injection E as <- <-; destruct D]. unfold alloc. rewrite Ec. intros E; injection E as <- <-; destruct D.
    - rewrite load_entry, entry_lower. destruct (entry_of (y_state y) _ _); cbn [of_option]; intros E; injection E as <- <-; [left; discriminate|destruct D].
    - rewrite lower_idem. destruct (String.eqb_spec (lower (c_param c)) "quat") as [Eq|Nq]; [|destruct (String.eqb_spec (lower (c_param c)) "matrix") as [Em|Nm]]; intros E; injection E as <- <-; [right|right|destruct D];
        unfold entry_of, set_at; cbn [gs_quat gs_matrix]; rewrite ?Eq, ?Em, Nat.eqb_refl; cbn; discriminate.
    - intros _. left. apply Li. exact I.
    - intros E. injection E as <- <-. left. apply Li. exact D. }
  destruct (thread_step _ _ _) as [s ph]. cbn [y_state y_phase]. intros R D. destruct (Nat.eqb_spec j i) as [Eji|]; [|apply R; exact (L j c Hj Ec Hn D)].
  destruct (S s ph eq_refl Eji D) as [Q|Q]; [apply R; exact Q|exact Q].
Qed.
Lemma left_run calls sched y : Inv calls y -> left_entry calls y -> left_entry calls (sys_run calls y sched).
Proof. revert y. induction sched as [|i sched IH]; intros y J L; [exact L|]. cbn [sys_run fold_left]. apply IH; [apply inv_step; exact J|apply left_step; assumption]. Qed.

(** a call whose grid is in the cache when it begins returns what a caching call put there *)
Definition hit_ok (calls : list call) (c : call) (s : gstate) (ph : phase) : Prop :=
  match ph with
  | AtEntry => entry_of s (c_size c) (c_param c) <> None
  | Finished (Ok l) => exists j cj, nth_error calls j = Some cj /\ c_size cj = c_size c /\ lower (c_param cj) = lower (c_param c) /\ c_cache cj = true /\ look s l = Some (TRows3 (so3_optimised (c_oracle cj)))
  | _ => False
  end.
Lemma hit_step calls y i k c : Inv calls y -> nth_error calls i = Some c -> c_size c <> 0 -> ~ tabulated (c_size c) (c_param c) ->
  hit_ok calls c (y_state y) (y_phase y i) -> hit_ok calls c (y_state (sys_step calls y k)) (y_phase (sys_step calls y k) i).
Proof.
  intros J Hc Hn Tb H. pose proof (step_never_removes calls y k (c_size c) (c_param c)) as R. pose proof (step_grows calls y k) as G. revert R G. unfold sys_step.
  destruct (nth_error calls k) as [ck|] eqn:Hk; [|intros _ _; exact H]. destruct (thread_step (y_state y) ck (y_phase y k)) as [s ph] eqn:E. cbn [y_state y_phase]. intros R G.
  destruct (Nat.eqb_spec i k) as [<-|_].
  - rewrite Hc in Hk. injection Hk as <-. revert E H. unfold thread_step. destruct (y_phase y i) as [| |z|z|z|r] eqn:Ei; cbn zeta; cbn [hit_ok]; try (intros _ ff; contradiction).
    + destruct (Nat.eqb_spec (c_size c) 0); [tauto|]. rewrite load_entry. destruct (entry_of (y_state y) (c_size c) (c_param c)) as [l|] eqn:El; [|intros _ Z; destruct (Z eq_refl)].
      cbn [of_option]. intros E _. injection E as <- <-. cbn [hit_ok]. destruct (proj1 J _ _ _ El) as [(Z & _)|(_ & _ & j & cj & Hj & Sj & Pj & Kj & _ & L)]; [destruct (Tb Z)|exists j, cj; auto].
    + intros E H. injection E as <- <-. exact H.
  - revert H. destruct (y_phase y i) as [| |z|z|z|[l|e]]; cbn [hit_ok]; try tauto.
    intros (j & cj & A1 & A2 & A3 & A4 & A5). exists j, cj. repeat (split; [assumption|]). apply G. exact A5.
Qed.
Lemma hit_run calls sched y i c : Inv calls y -> nth_error calls i = Some c -> c_size c <> 0 -> ~ tabulated (c_size c) (c_param c) ->
  hit_ok calls c (y_state y) (y_phase y i) -> hit_ok calls c (y_state (sys_run calls y sched)) (y_phase (sys_run calls y sched) i).
Proof.
  revert y. induction sched as [|k sched IH]; intros y J Hc Hn Tb H; [exact H|]. cbn [sys_run fold_left]. apply IH; try assumption; [apply inv_step; exact J|apply hit_step; assumption].
Qed.

(** ** progress *)
Definition rank (ph : phase) : nat := match ph with AtEntry => 0 | Missed => 1 | Optimised _ => 2 | Unsaved _ => 3 | Converting _ => 4 | Finished _ => 5 end.
Lemma thread_progress s c ph : rank ph < 5 -> rank ph < rank (snd (thread_step s c ph)).
Proof.
  unfold thread_step. destruct ph as [| |x|x|x|r]; cbn zeta; intros H; cbn [rank] in *.
  - destruct (Nat.eqb _ 0); [cbn; lia|]. destruct (load_grid _ _ _); cbn; lia.
  - destruct (param_fn _ _); [|cbn; lia]. destruct (c_cache c); cbn; lia.
  - destruct (load_grid _ _ _); cbn; lia.
  - destruct (String.eqb _ "quat"); [cbn; lia|]. destruct (String.eqb _ "matrix"); cbn; lia.
  - destruct (look s x) as [[]|]; try (cbn; lia). destruct (param_fn _ _); cbn; lia.
  - lia.
Qed.
Lemma thread_finished s c r : thread_step s c (Finished r) = (s, Finished r).
Proof. reflexivity. Qed.
Lemma run_progress calls sched y i c : nth_error calls i = Some c -> 5 <= rank (y_phase (sys_run calls y sched) i) \/ rank (y_phase y i) + count_occ Nat.eq_dec sched i <= rank (y_phase (sys_run calls y sched) i).
Proof.
  intros Hc. revert y. induction sched as [|k sched IH]; intros y; [right; cbn; lia|]. cbn [sys_run fold_left]. destruct (IH (sys_step calls y k)) as [A|A]; [left; exact A|]. fold (sys_run calls (sys_step calls y k) sched).
  assert (y_phase (sys_step calls y k) i = if Nat.eqb i k then snd (thread_step (y_state y) c (y_phase y i)) else y_phase y i) as E.
  { unfold sys_step. destruct (Nat.eqb_spec i k) as [<-|N].
    - rewrite Hc. destruct (thread_step _ _ _). cbn [y_phase]. rewrite Nat.eqb_refl. reflexivity.
    - destruct (nth_error calls k); [|reflexivity]. destruct (thread_step _ _ _). cbn [y_phase]. apply Nat.eqb_neq in N. rewrite N. reflexivity. }
  rewrite E in A. destruct (Nat.eqb_spec i k) as [<-|N].
  - rewrite count_occ_cons_eq by reflexivity. destruct (le_lt_dec 5 (rank (y_phase y i))) as [F|F].
    + left. destruct (y_phase y i) as [| |x|x|x|r]; cbn in F; try lia. cbn [thread_step snd rank] in A. lia.
    + pose proof (thread_progress (y_state y) c (y_phase y i) F). right. lia.
  - rewrite count_occ_cons_neq by congruence. right. exact A.
Qed.

(** ** a call that is not interrupted *)
Lemma sys_step_at calls y i c : nth_error calls i = Some c -> y_state (sys_step calls y i) = fst (thread_step (y_state y) c (y_phase y i)) /\
  y_phase (sys_step calls y i) i = snd (thread_step (y_state y) c (y_phase y i)) /\ forall k, k <> i -> y_phase (sys_step calls y i) k = y_phase y k.
Proof.
  intros Hc. unfold sys_step. rewrite Hc. destruct (thread_step _ _ _) as [s ph]. cbn [y_state y_phase fst snd]. rewrite Nat.eqb_refl. split; [reflexivity|]. split; [reflexivity|].
  intros k Hk. apply Nat.eqb_neq in Hk. rewrite Hk. reflexivity.
Qed.
Fixpoint solo (k : nat) (c : call) (x : gstate * phase) : gstate * phase := match k with 0 => x | S k => solo k c (thread_step (fst x) c (snd x)) end.
Lemma solo_run calls i c k : nth_error calls i = Some c -> forall y, y_state (sys_run calls y (repeat i k)) = fst (solo k c (y_state y, y_phase y i)) /\
  y_phase (sys_run calls y (repeat i k)) i = snd (solo k c (y_state y, y_phase y i)) /\ forall j, j <> i -> y_phase (sys_run calls y (repeat i k)) j = y_phase y j.
Proof.
  intros Hc. induction k as [|k IH]; intros y; [auto|]. cbn [repeat sys_run fold_left solo]. fold (sys_run calls (sys_step calls y i) (repeat i k)).
  destruct (sys_step_at calls y i c Hc) as (A & B & D). destruct (IH (sys_step calls y i)) as (A' & B' & D'). rewrite A, B in A', B'. cbn [fst snd] in *. rewrite <- surjective_pairing in A', B'.
  split; [exact A'|]. split; [exact B'|]. intros j Hj. rewrite D', D by exact Hj. reflexivity.
Qed.
Lemma solo_finished k c s r : solo k c (s, Finished r) = (s, Finished r).
Proof. induction k as [|k IH]; [reflexivity|exact IH]. Qed.
Lemma solo_S k c s ph : solo (S k) c (s, ph) = solo k c (thread_step s c ph).
Proof. reflexivity. Qed.
Lemma solo_call s c : solo 5 c (s, AtEntry) = (fst (so3_uniform_grid s (c_size c) (c_param c) (c_cache c) (c_oracle c)), Finished (snd (so3_uniform_grid s (c_size c) (c_param c) (c_cache c) (c_oracle c)))).
Proof.
  unfold so3_uniform_grid. rewrite solo_S. cbn [thread_step]. destruct (Nat.eqb (c_size c) 0); [apply solo_finished|]. destruct (load_grid s _ _) as [l|e] eqn:El; [apply solo_finished|].
  rewrite solo_S. cbn [thread_step]. cbv zeta. destruct (param_fn (lower (c_param c)) []) as [t0|e0] eqn:P; [|apply solo_finished].
  pose proof (alloc_look s (TRows3 (so3_optimised (c_oracle c)))) as L. pose proof (alloc_entry s (TRows3 (so3_optimised (c_oracle c)))) as En.
  destruct (alloc s (TRows3 (so3_optimised (c_oracle c)))) as [s1 lg]. cbn [fst snd] in *.
  assert (forall s', look s' lg = Some (TRows3 (so3_optimised (c_oracle c))) -> forall k, solo (S k) c (s', Converting lg) = 
    match param_fn (lower (c_param c)) (so3_optimised (c_oracle c)) with Err e => (s', Finished (Err e)) | Ok t => let '(s3, l) := alloc s' t in (s3, Finished (Ok l)) end) as Cv.
  { intros s' L' k. rewrite solo_S. cbn [thread_step]. rewrite L'. destruct (param_fn (lower (c_param c)) (so3_optimised (c_oracle c))); unfold alloc; apply solo_finished. }
  destruct (c_cache c).
  - rewrite solo_S. cbn [thread_step]. unfold save_grid. rewrite load_entry, entry_lower, En.
    destruct (entry_of s (c_size c) (c_param c)) as [l|] eqn:Ee; cbn [of_option].
    + exfalso. rewrite load_entry, Ee in El. discriminate.
    + rewrite solo_S. cbn [thread_step]. cbv zeta. rewrite !lower_idem. destruct (String.eqb (lower (c_param c)) "quat"); [|destruct (String.eqb (lower (c_param c)) "matrix"); [|apply solo_finished]].
      * rewrite Cv by exact L. destruct (param_fn (lower (c_param c)) (so3_optimised (c_oracle c))) as [t|e1]; [|reflexivity]. destruct (alloc _ t). reflexivity.
      * rewrite Cv by exact L. destruct (param_fn (lower (c_param c)) (so3_optimised (c_oracle c))) as [t|e1]; [|reflexivity]. destruct (alloc _ t). reflexivity.
  - rewrite Cv by exact L. destruct (param_fn (lower (c_param c)) (so3_optimised (c_oracle c))) as [t|e1]; [|reflexivity]. destruct (alloc _ t). reflexivity.
Qed.

(** ** the race *)
Section Race.
  Variables (n : nat) (o0 o1 o2 o3 : oracle).
  Hypothesis Hn : 24 < n.
  Let calls := [mkCall n "quat" true o0; mkCall n "quat" true o1; mkCall n "quat" false o2; mkCall n "quat" false o3].
  Let E0 := TRows3 (so3_optimised o0).
  Let E1 := TRows3 (so3_optimised o1).
  Let quats (o : oracle) := TQuat (map (fun x => so3_euler_to_quat x e2m_eps) (so3_optimised o)).
  Lemma race_run : let y := sys_run calls (sys_start ginit) [0; 1; 0; 1; 0; 1; 0; 2; 1; 3; 0; 1] in exists l0 l1 l2 l3,
    y_phase y 0 = Finished (Ok l0) /\ y_phase y 1 = Finished (Ok l1) /\ y_phase y 2 = Finished (Ok l2) /\ y_phase y 3 = Finished (Ok l3) /\
    look (y_state y) l0 = Some (quats o0) /\ look (y_state y) l1 = Some (quats o1) /\ look (y_state y) l2 = Some E0 /\ look (y_state y) l3 = Some E1.
  Proof.
    assert (gs_quat ginit n = None) as Hq by (rewrite ginit_quat; replace (Nat.leb n 24) with false by (symmetry; apply Nat.leb_gt; exact Hn); rewrite andb_false_r; reflexivity).
    revert Hq. generalize ginit. intros [h q m] Hq. cbn [gs_quat] in Hq.
    assert (Nat.eqb n 0 = false) as Z by (apply Nat.eqb_neq; lia).
    set (lg := List.length h).
    set (s0 := mkG h q m). set (s1 := mkG (h ++ [E0]) q m). set (s2 := mkG ((h ++ [E0]) ++ [E1]) q m).
    set (s3 := mkG ((h ++ [E0]) ++ [E1]) (set_at q n lg) m). set (lg1 := List.length (h ++ [E0])). set (s4 := mkG ((h ++ [E0]) ++ [E1]) (set_at (set_at q n lg) n lg1) m).
    set (h2 := (h ++ [E0]) ++ [E1]).
    assert (forall c s, c_size c = n -> c_param c = "quat"%string -> gs_quat s n = None -> thread_step s c AtEntry = (s, Missed)) as T0.
    { intros c s Ec Ep Es. unfold thread_step. rewrite Ec, Ep, Z. unfold load_grid. cbn [lower lower_ascii String.eqb Ascii.eqb Bool.eqb]. cbv zeta. change (lower "quat") with "quat"%string. cbn [String.eqb Ascii.eqb Bool.eqb]. rewrite Es. reflexivity. }
    assert (forall c s l, c_size c = n -> c_param c = "quat"%string -> gs_quat s n = Some l -> thread_step s c AtEntry = (s, Finished (Ok l))) as T1.
    { intros c s l Ec Ep Es. unfold thread_step. rewrite Ec, Ep, Z. unfold load_grid. cbv zeta. change (lower "quat") with "quat"%string. cbn [String.eqb Ascii.eqb Bool.eqb]. rewrite Es. reflexivity. }
    assert (forall c s l, c_size c = n -> c_param c = "quat"%string -> gs_quat s n = None -> thread_step s c (Optimised l) = (s, Unsaved l)) as T3.
    { intros c s l Ec Ep Es. unfold thread_step. rewrite Ec, Ep. unfold load_grid. cbv zeta. change (lower (lower "quat")) with "quat"%string. cbn [String.eqb Ascii.eqb Bool.eqb]. rewrite Es. reflexivity. }
    assert (forall c s l g, c_param c = "quat"%string -> look s l = Some (TRows3 g) -> thread_step s c (Converting l) = (fst (alloc s (TQuat (map (fun x => so3_euler_to_quat x e2m_eps) g))), Finished (Ok (List.length (gs_heap s))))) as T5.
    { intros c s l g Ep Es. unfold thread_step. rewrite Es, Ep. reflexivity. }
    assert (set_at q n lg n = Some lg) as Q1 by (unfold set_at; rewrite Nat.eqb_refl; reflexivity).
    assert (set_at (set_at q n lg) n lg1 n = Some lg1) as Q2 by (unfold set_at; rewrite Nat.eqb_refl; reflexivity).
    pose (at4 := fun y (s : gstate) a b c d => y_state y = s /\ y_phase y 0 = a /\ y_phase y 1 = b /\ y_phase y 2 = c /\ y_phase y 3 = d).
    assert (forall y s a b c d s' a', at4 y s a b c d -> thread_step s (mkCall n "quat" true o0) a = (s', a') -> at4 (sys_step calls y 0) s' a' b c d) as P0.
    { intros y s a b c d s' a' (A & B0 & B1 & B2 & B3) T. destruct (sys_step_at calls y 0 _ eq_refl) as (X & Y & W). rewrite A, B0, T in X, Y. unfold at4. rewrite X, Y, !W by discriminate. auto. }
    assert (forall y s a b c d s' a', at4 y s a b c d -> thread_step s (mkCall n "quat" true o1) b = (s', a') -> at4 (sys_step calls y 1) s' a a' c d) as P1.
    { intros y s a b c d s' a' (A & B0 & B1 & B2 & B3) T. destruct (sys_step_at calls y 1 _ eq_refl) as (X & Y & W). rewrite A, B1, T in X, Y. unfold at4. rewrite X, Y, !W by discriminate. auto. }
    assert (forall y s a b c d s' a', at4 y s a b c d -> thread_step s (mkCall n "quat" false o2) c = (s', a') -> at4 (sys_step calls y 2) s' a b a' d) as P2.
    { intros y s a b c d s' a' (A & B0 & B1 & B2 & B3) T. destruct (sys_step_at calls y 2 _ eq_refl) as (X & Y & W). rewrite A, B2, T in X, Y. unfold at4. rewrite X, Y, !W by discriminate. auto. }
    assert (forall y s a b c d s' a', at4 y s a b c d -> thread_step s (mkCall n "quat" false o3) d = (s', a') -> at4 (sys_step calls y 3) s' a b c a') as P3.
    { intros y s a b c d s' a' (A & B0 & B1 & B2 & B3) T. destruct (sys_step_at calls y 3 _ eq_refl) as (X & Y & W). rewrite A, B3, T in X, Y. unfold at4. rewrite X, Y, !W by discriminate. auto. }
    assert (look s4 lg = Some E0) as L0 by (unfold look, s4, lg; cbn [gs_heap]; rewrite nth_error_app1 by (rewrite app_length; cbn; lia); apply nth_error_app_last).
    assert (look s4 lg1 = Some E1) as L1 by apply nth_error_app_last.
    set (l4 := List.length h2). pose (s5 := mkG (h2 ++ [quats o0]) (set_at (set_at q n lg) n lg1) m). pose (s6 := mkG ((h2 ++ [quats o0]) ++ [quats o1]) (set_at (set_at q n lg) n lg1) m).
    assert (look s5 lg1 = Some E1) as L1' by exact (look_app h2 [quats o0] _ _ lg1 _ L1).
    unfold sys_run. cbn [fold_left].
    assert (at4 (sys_start s0) s0 AtEntry AtEntry AtEntry AtEntry) as K by (repeat split).
    pose proof (P0 _ _ _ _ _ _ s0 _ K (T0 (mkCall n "quat" true o0) s0 eq_refl eq_refl Hq)) as K1. clear K. rename K1 into K.
    pose proof (P1 _ _ _ _ _ _ s0 _ K (T0 (mkCall n "quat" true o1) s0 eq_refl eq_refl Hq)) as K2. clear K. rename K2 into K.
    pose proof (P0 _ _ _ _ _ _ s1 (Optimised lg) K eq_refl) as K3. clear K. rename K3 into K.
    pose proof (P1 _ _ _ _ _ _ s2 (Optimised lg1) K eq_refl) as K4. clear K. rename K4 into K.
    pose proof (P0 _ _ _ _ _ _ s2 _ K (T3 (mkCall n "quat" true o0) s2 _ eq_refl eq_refl Hq)) as K5. clear K. rename K5 into K.
    pose proof (P1 _ _ _ _ _ _ s2 _ K (T3 (mkCall n "quat" true o1) s2 _ eq_refl eq_refl Hq)) as K6. clear K. rename K6 into K.
    pose proof (P0 _ _ _ _ _ _ s3 (Converting lg) K eq_refl) as K7. clear K. rename K7 into K.
    pose proof (P2 _ _ _ _ _ _ s3 _ K (T1 (mkCall n "quat" false o2) s3 lg eq_refl eq_refl Q1)) as K8. clear K. rename K8 into K.
    pose proof (P1 _ _ _ _ _ _ s4 (Converting lg1) K eq_refl) as K9. clear K. rename K9 into K.
    pose proof (P3 _ _ _ _ _ _ s4 _ K (T1 (mkCall n "quat" false o3) s4 lg1 eq_refl eq_refl Q2)) as K10. clear K. rename K10 into K.
    pose proof (P0 _ _ _ _ _ _ s5 (Finished (Ok l4)) K (T5 (mkCall n "quat" true o0) s4 lg _ eq_refl L0)) as K11. clear K. rename K11 into K.
    pose proof (P1 _ _ _ _ _ _ s6 (Finished (Ok (List.length (h2 ++ [quats o0])))) K (T5 (mkCall n "quat" true o1) s5 lg1 _ eq_refl L1')) as K12. clear K. rename K12 into K.
    destruct K as (A & B0 & B1 & B2 & B3). rewrite A. exists l4, (List.length (h2 ++ [quats o0])), lg, lg1.
    split; [exact B0|]. split; [exact B1|]. split; [exact B2|]. split; [exact B3|]. 
    split; [exact (look_app (h2 ++ [quats o0]) [quats o1] _ _ l4 _ (nth_error_app_last h2 (quats o0)))|]. split; [exact (nth_error_app_last (h2 ++ [quats o0]) (quats o1))|].
    split; [exact (look_app (h2 ++ [quats o0]) [quats o1] _ _ lg _ (look_app h2 [quats o0] q m lg _ L0))|exact (look_app (h2 ++ [quats o0]) [quats o1] _ _ lg1 _ L1')].
  Qed.
End Race.

Lemma run_untouched calls sched y i : ~ In i sched -> y_phase (sys_run calls y sched) i = y_phase y i.
Proof.
  revert y. induction sched as [|k sched IH]; intros y H; [reflexivity|]. cbn [sys_run fold_left]. fold (sys_run calls (sys_step calls y k) sched). rewrite IH by (intros Z; apply H; right; exact Z).
  unfold sys_step. destruct (nth_error calls k); [|reflexivity]. destruct (thread_step _ _ _). cbn [y_phase]. destruct (Nat.eqb_spec i k) as [->|]; [exfalso; apply H; left; reflexivity|reflexivity].
Qed.
Lemma count_turns (order : list nat) (i : nat) : In i order -> 5 <= count_occ Nat.eq_dec (flat_map (fun k => repeat k 5) order) i.
Proof.
  induction order as [|k order IH]; intros H; [destruct H|]. cbn [flat_map]. rewrite count_occ_app. destruct H as [->|H]; [|specialize (IH H); lia].
  assert (count_occ Nat.eq_dec (repeat i 5) i = 5) as -> by (apply count_occ_repeat_eq; reflexivity). lia.
Qed.
Lemma in_turns (order : list nat) (i : nat) : In i (flat_map (fun k => repeat k 5) order) -> In i order.
Proof. intros H. apply in_flat_map in H. destruct H as (k & Hk & R). apply repeat_spec in R. subst. exact Hk. Qed.
Lemma sys_run_app calls y a b : sys_run calls y (a ++ b) = sys_run calls (sys_run calls y a) b.
Proof. apply fold_left_app. Qed.
