(** Property theorems C104: so3.uniform_grid called from several threads.
    Reading guide.  [calls] are the calls made, [sched] is a schedule: the list of the numbers of the calls, in the order in which they take their next step
    (Threads.v; an entry without a call does nothing).  [sys_start ginit]: no call has begun, the cache is as shipped.  [Finished (Ok l)]: the call returned the tensor l,
    whose contents are [look (y_state y) l]; [Finished (Err e)]: it raised e.  [load_grid]: what the cache holds for a size and a parameterization.
    [outcome (so3_uniform_grid ginit ..)]: what a call returns if it is the first and only one (C27 describes these). *)
From Coq Require Import String Permutation.
From Verif Require Import Prelude RMath Mat Interp SO3 O3 Repulse S2 GridTables Tensor GridCache GridCacheFacts Threads ThreadsFacts.
Open Scope nat_scope.

(** Calls that are not interrupted are the calls of the sequential model (C27). *)
Theorem C104_uninterrupted : forall calls y i c, nth_error calls i = Some c -> y_phase y i = AtEntry ->
  let y' := sys_run calls y (repeat i 5) in let r := so3_uniform_grid (y_state y) (c_size c) (c_param c) (c_cache c) (c_oracle c) in
  y_state y' = fst r /\ y_phase y' i = Finished (snd r) /\ forall k, k <> i -> y_phase y' k = y_phase y k.
Proof.
  intros calls y i c Hc Hp y' r. destruct (solo_run calls i c 5 Hc y) as (A & B & D). rewrite Hp, solo_call in A, B. split; [exact A|]. split; [exact B|exact D].
Qed.
Print Assumptions C104_uninterrupted.

(** No call waits for another one: after five steps of its own it has returned or raised, whatever the others do in between. *)
Theorem C104_wait_free : forall calls sched i c s, nth_error calls i = Some c -> 5 <= count_occ Nat.eq_dec sched i -> exists r, y_phase (sys_run calls (sys_start s) sched) i = Finished r.
Proof.
  intros calls sched i c s Hc H. destruct (run_progress calls sched (sys_start s) i c Hc) as [A|A].
  - destruct (y_phase _ i) as [| |x|x|x|r]; cbn [rank] in A; try lia. eauto.
  - change (rank (y_phase (sys_start s) i)) with 0 in A. destruct (y_phase (sys_run calls (sys_start s) sched) i) as [| |x|x|x|r]; cbn [rank] in A; try lia. eauto.
Qed.
Print Assumptions C104_wait_free.

(** Every schedule: a call returns what it would return alone, or, if its grid is not tabulated, the Euler angles of another, caching call for the same size and parameterization;
    it raises what it would raise alone. *)
Theorem C104_answers : forall calls sched i c r, nth_error calls i = Some c ->
  let y := sys_run calls (sys_start ginit) sched in y_phase y i = Finished r ->
  match r with
  | Ok l => exists t, look (y_state y) l = Some t /\
      (outcome (so3_uniform_grid ginit (c_size c) (c_param c) false (c_oracle c)) = Ok (Some t) \/
       24 < c_size c /\ exists j cj, j <> i /\ nth_error calls j = Some cj /\ c_size cj = c_size c /\ lower (c_param cj) = lower (c_param c) /\ c_cache cj = true /\
         t = TRows3 (so3_optimised (c_oracle cj)))
  | Err e => outcome (so3_uniform_grid ginit (c_size c) (c_param c) (c_cache c) (c_oracle c)) = Err e
  end.
Proof.
  intros calls sched i c r Hc y E. pose proof (inv_run calls sched _ (inv_start calls)) as J. fold y in J. pose proof (proj2 (proj2 J) i c Hc) as P. rewrite E in P.
  destruct r as [l|e]; exact P.
Qed.
Print Assumptions C104_answers.

(** In particular the tabulated grids are returned to everybody, whatever the schedule. *)
Theorem C104_tabulated : forall calls sched i c r, nth_error calls i = Some c -> 1 <= c_size c <= 24 ->
  let y := sys_run calls (sys_start ginit) sched in y_phase y i = Finished r ->
  (lower (c_param c) = "quat"%string -> exists l, r = Ok l /\ look (y_state y) l = Some (TQuat (table_quat (c_size c)))) /\
  (lower (c_param c) = "matrix"%string -> c_size c <> 1 -> exists l, r = Ok l /\ look (y_state y) l = Some (TMat (table_matrix (c_size c)))).
Proof.
  intros calls sched i c r Hc Hn y E. pose proof (C104_answers calls sched i c r Hc E) as A. fold y in A.
  assert (forall l0 t, entry_of ginit (c_size c) (c_param c) = Some l0 -> look ginit l0 = Some t -> exists l, r = Ok l /\ look (y_state y) l = Some t) as Q.
  { intros l0 t E0 L0. assert (forall b, alone c b = Ok (Some t)) as Z by (intros b; apply (alone_table c b l0 t); [lia|exact E0|exact L0]). unfold alone in Z.
    destruct r as [l|e]; [|rewrite Z in A; discriminate]. exists l. split; [reflexivity|]. destruct A as (t' & L & [B|[B _]]); [|lia]. rewrite Z in B. injection B as <-. exact L. }
  assert (forall p, entry_of ginit (c_size c) p = if String.eqb (lower p) "quat" then Some (c_size c - 1) else if String.eqb (lower p) "matrix" then Some (24 + (c_size c - 1)) else None) as En.
  { intros p. rewrite entry_init. replace (Nat.leb 1 (c_size c) && Nat.leb (c_size c) 24)%bool with true by (symmetry; apply andb_true_intro; split; apply Nat.leb_le; lia). reflexivity. }
  split.
  - intros Hp. apply (Q (c_size c - 1)); [rewrite En, Hp; reflexivity|]. exact (look_init_quat _ Hn).
  - intros Hp H1. apply (Q (24 + (c_size c - 1))); [rewrite En, Hp; reflexivity|]. rewrite (look_init_matrix _ Hn). unfold init_matrix. apply Nat.eqb_neq in H1. rewrite H1. reflexivity.
Qed.
Print Assumptions C104_tabulated.

(** What was returned is never changed by later steps, of any call. *)
Theorem C104_answers_stay : forall calls sched sched' i l t,
  let y := sys_run calls (sys_start ginit) sched in y_phase y i = Finished (Ok l) -> look (y_state y) l = Some t ->
  let y' := sys_run calls y sched' in y_phase y' i = Finished (Ok l) /\ look (y_state y') l = Some t.
Proof.
  intros calls sched sched' i l t y E L y'. split; [|apply run_grows; exact L]. unfold y'. clear L y'. revert E. generalize y. clear y.
  induction sched' as [|k sched' IH]; intros y E; [exact E|]. cbn [sys_run fold_left]. apply IH. unfold sys_step. destruct (nth_error calls k) as [c|]; [|exact E].
  destruct (thread_step (y_state y) c (y_phase y k)) as [s ph] eqn:T. cbn [y_phase]. destruct (Nat.eqb_spec i k) as [->|_]; [|exact E]. rewrite E in T. cbn in T. injection T as <- <-. reflexivity.
Qed.
Print Assumptions C104_answers_stay.

(** The cache: an entry is a tabulated grid or the Euler angles of a caching call for its key (size, parameterization) that has written it; it is never removed; and while no
    call for its key is between finding nothing in the cache and writing (_grid_cache.py:17-22), the entry of a key, once there, stays the same for good. *)
Theorem C104_cache_entries : forall calls sched n p l, let y := sys_run calls (sys_start ginit) sched in load_grid (y_state y) n p = Ok l ->
  (1 <= n <= 24 /\ load_grid ginit n p = Ok l /\ look (y_state y) l = look ginit l) \/
  (24 < n /\ exists j cj, nth_error calls j = Some cj /\ c_size cj = n /\ lower (c_param cj) = lower p /\ c_cache cj = true /\
     (match y_phase y j with Converting _ | Finished (Ok _) => True | _ => False end) /\ look (y_state y) l = Some (TRows3 (so3_optimised (c_oracle cj)))).
Proof.
  intros calls sched n p l y E. pose proof (inv_run calls sched _ (inv_start calls)) as J. fold y in J. rewrite load_entry in E. destruct (entry_of (y_state y) n p) as [l'|] eqn:E'; [|discriminate]. injection E as ->.
  destruct (proj1 J n p l E') as [([Hn _] & E0 & t & L0 & L)|(Tb & Z & j & cj & A)].
  - left. split; [exact Hn|]. rewrite load_entry, E0. split; [reflexivity|]. congruence.
  - right. split; [|exists j, cj; exact A].
    destruct (le_lt_dec n 24) as [Le|Lt]; [exfalso|exact Lt]. apply Tb. split; [lia|]. exact (entry_key _ _ _ _ E').
Qed.
Print Assumptions C104_cache_entries.

Theorem C104_cache_grows : forall calls sched sched' n p l, let y := sys_run calls (sys_start ginit) sched in load_grid (y_state y) n p = Ok l ->
  let y' := sys_run calls y sched' in
  (exists l', load_grid (y_state y') n p = Ok l') /\
  ((forall i c x, nth_error calls i = Some c -> c_size c = n -> lower (c_param c) = lower p -> y_phase y i <> Unsaved x) -> load_grid (y_state y') n p = Ok l).
Proof.
  intros calls sched sched' n p l y E y'. rewrite load_entry in E. destruct (entry_of (y_state y) n p) as [l'|] eqn:E'; [|discriminate]. injection E as ->. split.
  - pose proof (run_never_removes calls sched' y n p) as R. rewrite E' in R. specialize (R ltac:(discriminate)). fold y' in R. rewrite load_entry. destruct (entry_of (y_state y') n p) as [l'|]; [exists l'; reflexivity|tauto].
  - intros Q. rewrite load_entry. unfold y'. rewrite (run_stable calls sched' y n p l); [reflexivity| |exact E'].
    intros i c x Hc Ex Hn Hp. exact (Q i c x Hc Hn Hp Ex).
Qed.
Print Assumptions C104_cache_grows.

(** A call that begins after a caching call for its size and parameterization has returned gets Euler angles of a caching call, whatever it asked for (as in one thread, C27). *)
Theorem C104_after_caching : forall calls sched sched' i j c cj l r, nth_error calls i = Some c -> nth_error calls j = Some cj -> c_cache cj = true -> 24 < c_size c ->
  c_size cj = c_size c -> lower (c_param cj) = lower (c_param c) ->
  let y := sys_run calls (sys_start ginit) sched in y_phase y j = Finished (Ok l) -> y_phase y i = AtEntry ->
  let y' := sys_run calls y sched' in y_phase y' i = Finished r ->
  exists l' k ck, r = Ok l' /\ nth_error calls k = Some ck /\ c_size ck = c_size c /\ lower (c_param ck) = lower (c_param c) /\ c_cache ck = true /\
    look (y_state y') l' = Some (TRows3 (so3_optimised (c_oracle ck))).
Proof.
  intros calls sched sched' i j c cj l r Hi Hj Kj Hn Es Ep y Ej Ei y' Er.
  pose proof (inv_run calls sched _ (inv_start calls)) as J. assert (left_entry calls y) as Lf by (apply left_run; [apply inv_start|intros k ck _ _ _ []]). fold y in J.
  assert (entry_of (y_state y) (c_size c) (c_param c) <> None) as En.
  { rewrite <- (entry_same _ _ _ _ Ep), <- Es. apply (Lf j cj Hj Kj ltac:(lia)). rewrite Ej. exact I. }
  assert (hit_ok calls c (y_state y) (y_phase y i)) as H0 by (rewrite Ei; exact En).
  assert (~ tabulated (c_size c) (c_param c)) as Tb by (intros [Z _]; lia).
  pose proof (hit_run calls sched' y i c J Hi ltac:(lia) Tb H0) as H1. fold y' in H1. rewrite Er in H1. destruct r as [l'|e]; [|destruct H1].
  destruct H1 as (k & ck & A). exists l', k, ck. split; [reflexivity|exact A].
Qed.
Print Assumptions C104_after_caching.

(** The race (defect).  Four calls for n > 24 quaternions, the first two with cache_grid=True.  If they run one after the other, in any order, one of the two caching calls finds the
    grid of the other and returns Euler angles.  But there is a schedule in which both find nothing and both return their own quaternions; then the second overwrites the
    grid that the first has saved, although save_grid is not asked to overwrite: two later calls get the grids of different calls. *)
Definition racing (n : nat) (o0 o1 o2 o3 : oracle) : list call :=
  [mkCall n "quat" true o0; mkCall n "quat" true o1; mkCall n "quat" false o2; mkCall n "quat" false o3].
Theorem C104_race : forall n o0 o1 o2 o3, 24 < n -> exists sched l0 l1 l2 l3, let y := sys_run (racing n o0 o1 o2 o3) (sys_start ginit) sched in
  y_phase y 0 = Finished (Ok l0) /\ y_phase y 1 = Finished (Ok l1) /\ y_phase y 2 = Finished (Ok l2) /\ y_phase y 3 = Finished (Ok l3) /\
  (exists q0, look (y_state y) l0 = Some (TQuat q0) /\ outcome (so3_uniform_grid ginit n "quat" false o0) = Ok (Some (TQuat q0))) /\
  (exists q1, look (y_state y) l1 = Some (TQuat q1) /\ outcome (so3_uniform_grid ginit n "quat" false o1) = Ok (Some (TQuat q1))) /\
  look (y_state y) l2 = Some (TRows3 (so3_optimised o0)) /\ look (y_state y) l3 = Some (TRows3 (so3_optimised o1)).
Proof.
  intros n o0 o1 o2 o3 Hn. exists [0; 1; 0; 1; 0; 1; 0; 2; 1; 3; 0; 1]. destruct (race_run n o0 o1 o2 o3 Hn) as (l0 & l1 & l2 & l3 & A0 & A1 & A2 & A3 & B0 & B1 & B2 & B3).
  exists l0, l1, l2, l3. repeat (split; [assumption|]).
  assert (forall o, outcome (so3_uniform_grid ginit n "quat" false o) = Ok (Some (TQuat (map (fun x => so3_euler_to_quat x e2m_eps) (so3_optimised o))))) as F.
  { intros o. apply (alone_fresh (mkCall n "quat" false o)); [cbn; lia|intros [Z _]; cbn in Z; lia|reflexivity]. }
  split; [eexists; split; [exact B0|apply F]|]. split; [eexists; split; [exact B1|apply F]|]. auto.
Qed.
Print Assumptions C104_race.

Theorem C104_race_is_not_serial : forall n o0 o1 o2 o3 order, 24 < n -> Permutation order [0; 1; 2; 3] ->
  let y := sys_run (racing n o0 o1 o2 o3) (sys_start ginit) (flat_map (fun i => repeat i 5) order) in
  exists i l e, (i = 0 \/ i = 1) /\ y_phase y i = Finished (Ok l) /\ look (y_state y) l = Some (TRows3 e).
Proof.
  intros n o0 o1 o2 o3 order Hn Hp y.
  assert (exists i j a b c, order = a ++ i :: b ++ j :: c /\ (i = 0 /\ j = 1 \/ i = 1 /\ j = 0)) as (i & j & a & b & c & E & Hij).
  { assert (In 0 order) as I0 by (apply (Permutation_in 0 (Permutation_sym Hp)); cbn; auto). assert (In 1 order) as I1 by (apply (Permutation_in 1 (Permutation_sym Hp)); cbn; auto).
    apply in_split in I0. destruct I0 as (a & b & ->). apply in_app_or in I1. destruct I1 as [I1|[I1|I1]]; [|discriminate|]; apply in_split in I1; destruct I1 as (c & d & ->).
    - exists 1, 0, c, d, b. split; [rewrite <- app_assoc; reflexivity|auto].
    - exists 0, 1, a, c, d. auto. }
  assert (NoDup order) as Nd by (apply (Permutation_NoDup (Permutation_sym Hp)); repeat constructor; cbn; intuition lia).
  set (calls := racing n o0 o1 o2 o3) in *. set (turns := flat_map (fun i => repeat i 5)) in *.
  assert (exists ci, nth_error calls i = Some ci /\ c_size ci = n /\ c_param ci = "quat"%string /\ c_cache ci = true) as (ci & Ci & Si & Pi & Ki) by (destruct Hij as [[-> ->]|[-> ->]]; eexists; repeat split).
  assert (exists cj, nth_error calls j = Some cj /\ c_size cj = n /\ c_param cj = "quat"%string) as (cj & Cj & Sj & Pj) by (destruct Hij as [[-> ->]|[-> ->]]; eexists; repeat split).
  assert (turns order = turns (a ++ i :: b) ++ turns (j :: c)) as Et by (unfold turns; rewrite <- flat_map_app, E, <- app_assoc; reflexivity).
  set (y1 := sys_run calls (sys_start ginit) (turns (a ++ i :: b))).
  assert (y = sys_run calls y1 (turns (j :: c))) as Ey by (unfold y, y1; rewrite Et; apply sys_run_app).
  destruct (C104_wait_free calls (turns (a ++ i :: b)) i ci ginit Ci) as (ri & Ri); [apply count_turns, in_or_app; right; left; reflexivity|]. fold y1 in Ri.
  assert (exists l, ri = Ok l) as (l & ->).
  { destruct ri as [l|e]; [eauto|]. exfalso. pose proof (C104_answers calls _ i ci _ Ci Ri) as A. cbv iota beta in A. rewrite Si, Pi, Ki in A.
    assert (exists s' l, so3_uniform_grid ginit n "quat" true (c_oracle ci) = (s', Ok l)) as (s' & l & Es).
    { unfold so3_uniform_grid. destruct (Nat.eqb_spec n 0) as [Z|_]; [lia|]. unfold load_grid. cbv zeta. change (lower "quat") with "quat"%string. cbn [String.eqb Ascii.eqb Bool.eqb].
      rewrite ginit_quat. replace (Nat.leb n 24) with false by (symmetry; apply Nat.leb_gt; exact Hn). rewrite andb_false_r. cbn [of_option]. unfold save_grid, load_grid. cbv zeta. change (lower "quat") with "quat"%string.
      cbn [String.eqb Ascii.eqb Bool.eqb param_fn alloc gs_quat]. rewrite ginit_quat. replace (Nat.leb n 24) with false by (symmetry; apply Nat.leb_gt; exact Hn). rewrite andb_false_r. cbn [of_option]. unfold param_fn. cbn [String.eqb Ascii.eqb Bool.eqb]. unfold alloc. eauto. }
    rewrite Es in A. discriminate. }
  assert (y_phase y1 j = AtEntry) as Aj.
  { unfold y1. rewrite run_untouched; [reflexivity|]. intros Z. apply in_turns in Z. rewrite E in Nd. change (a ++ i :: b ++ j :: c) with (a ++ (i :: b) ++ j :: c) in Nd. rewrite app_assoc in Nd. apply NoDup_remove_2 in Nd. apply Nd. apply in_or_app. left. exact Z. }
  destruct (C104_wait_free calls (turns order) j cj ginit Cj) as (rj & Rj); [apply count_turns; rewrite E; apply in_or_app; right; right; apply in_or_app; right; left; reflexivity|].
  fold y in Rj. rewrite Ey in Rj.
  destruct (C104_after_caching calls (turns (a ++ i :: b)) (turns (j :: c)) j i cj ci l rj Cj Ci Ki) as (l' & k & ck & -> & _ & _ & _ & _ & L); try assumption.
  - rewrite Sj. exact Hn.
  - congruence.
  - congruence.
  - exists j, l'. fold y1 in L. rewrite <- Ey in L. rewrite <- Ey in Rj. exists (so3_optimised (c_oracle ck)). split; [tauto|]. split; [exact Rj|exact L].
Qed.
Print Assumptions C104_race_is_not_serial.

(** The statements above are about something: 25 rotations, four concrete calls; a schedule after which all have returned, and the grids of size 25 in the cache before and after the second store differ in place. *)
Example C104_nonvacuous : exists sched sched' l l', let calls := racing 25 (ex_oracle 25) (ex_oracle 25) (ex_oracle 25) (ex_oracle 25) in
  let y := sys_run calls (sys_start ginit) sched in let y' := sys_run calls y sched' in
  load_grid (y_state y) 25 "quat" = Ok l /\ load_grid (y_state y') 25 "quat" = Ok l' /\ l <> l' /\ oracle_ok 25 (ex_oracle 25) /\ 5 <= count_occ Nat.eq_dec (repeat 0 5) 0 /\
  (forall i, i < 4 -> exists r, y_phase (sys_run calls (sys_start ginit) (flat_map (fun i => repeat i 5) [3; 1; 0; 2])) i = Finished r).
Proof.
  exists [0; 1; 0; 1; 0; 1; 0], [1], 48, 49.
  set (calls := racing 25 (ex_oracle 25) (ex_oracle 25) (ex_oracle 25) (ex_oracle 25)). split; [reflexivity|]. split; [reflexivity|]. split; [discriminate|]. split; [apply ex_oracle_ok|]. split; [cbn; lia|].
  intros i Hi. assert (exists c, nth_error calls i = Some c) as (c & Hc) by (destruct i as [|[|[|[|i]]]]; try lia; eexists; reflexivity).
  apply (C104_wait_free calls _ i c ginit Hc). apply count_turns. cbn. lia.
Qed.
