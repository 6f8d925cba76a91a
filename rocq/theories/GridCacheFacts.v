From Coq Require Import String Psatz.
From Verif Require Import Prelude RMath Mat Interp SO3 SO3Facts SO3Euler O3 Repulse RepulseFacts S2 GridTables GridCache.
Open Scope R_scope.

(** The oracle fits the requested size. *)
Definition oracle_ok (n : nat) (o : oracle) : Prop :=
  List.length (or_draws o) = n /\
  (forall x, shaped n 3 x -> shaped n 3 (or_grad o x)) /\ (forall e, shaped n 3 (or_noise o e)).

Lemma so3_optimised_length n o : oracle_ok n o -> List.length (so3_optimised o) = n.
Proof.
  intros (Hd & Hg & Hn). unfold so3_optimised.
  set (x := rows_of_v3 (map so3_random_euler (or_draws o))).
  assert (Hx : shaped n 3 x).
  { unfold x, rows_of_v3. split; [rewrite !map_length; assumption|].
    intros r Hr. apply in_map_iff in Hr as [? [<- _]]. reflexivity. }
  destruct (repulse_trajectory n 3 (or_steps o) (or_lr o) (/ 1000) (or_grad o) (or_noise o) true [x] 0%nat x
              eq_refl Hx Hg Hn) as (t & _ & Ht & _ & Hr).
  destruct (repulse (or_steps o) (or_lr o) (/ 1000) (or_grad o) (or_noise o) true [x] 0%nat) as [h l].
  unfold v3_of_rows. rewrite map_length. apply nth_error_nth with (d := []) in Hr.
  unfold rows in *. rewrite Hr. apply Ht.
Qed.

Lemma lower_ascii_idem c : lower_ascii (lower_ascii c) = lower_ascii c.
Proof. destruct c as [b0 b1 b2 b3 b4 b5 b6 b7].
  destruct b0, b1, b2, b3, b4, b5, b6, b7; reflexivity. Qed.
Lemma lower_idem p : lower (lower p) = lower p.
Proof. induction p as [|c p IH]; simpl; [reflexivity|]. rewrite lower_ascii_idem, IH. reflexivity. Qed.

Definition is_quat (p : string) := lower p = "quat"%string.
Definition is_matrix (p : string) := lower p = "matrix"%string.
Definition is_euler (p : string) := lower p = "euler"%string.
Definition known_param (p : string) := is_quat p \/ is_matrix p \/ is_euler p.

Inductive pcase (p : string) : Prop :=
| PQ (H : lower p = "quat"%string) | PM (H : lower p = "matrix"%string)
| PE (H : lower p = "euler"%string)
| PU (H1 : lower p <> "quat"%string) (H2 : lower p <> "matrix"%string) (H3 : lower p <> "euler"%string).
Lemma pcases p : pcase p.
Proof.
  destruct (String.eqb_spec (lower p) "quat"); [apply PQ; assumption|].
  destruct (String.eqb_spec (lower p) "matrix"); [apply PM; assumption|].
  destruct (String.eqb_spec (lower p) "euler"); [apply PE; assumption|].
  apply PU; assumption.
Qed.

(** Complete description of one call. *)
Inductive call_spec (s : gstate) (n : nat) (p : string) (c : bool) (o : oracle) : gstate -> result nat -> Prop :=
| CSZero : n = 0%nat -> call_spec s n p c o
    (mkG (gs_heap s ++ [TEmpty]) (gs_quat s) (gs_matrix s)) (Ok (List.length (gs_heap s)))
| CSHitQ l : n <> 0%nat -> is_quat p -> gs_quat s n = Some l -> call_spec s n p c o s (Ok l)
| CSHitM l : n <> 0%nat -> is_matrix p -> gs_matrix s n = Some l -> call_spec s n p c o s (Ok l)
| CSUnknown : n <> 0%nat -> ~ known_param p -> call_spec s n p c o s (Err ValueError)
| CSQ : n <> 0%nat -> is_quat p -> gs_quat s n = None ->
    call_spec s n p c o
     (mkG ((gs_heap s ++ [TRows3 (so3_optimised o)]) ++ [TQuat (map (fun x => so3_euler_to_quat x e2m_eps) (so3_optimised o))])
          (if c then set_at (gs_quat s) n (List.length (gs_heap s)) else gs_quat s) (gs_matrix s))
     (Ok (S (List.length (gs_heap s))))
| CSM : n <> 0%nat -> is_matrix p -> gs_matrix s n = None ->
    call_spec s n p c o
     (mkG ((gs_heap s ++ [TRows3 (so3_optimised o)]) ++ [TMat (map (fun x => so3_euler_to_matrix x e2m_eps) (so3_optimised o))])
          (gs_quat s) (if c then set_at (gs_matrix s) n (List.length (gs_heap s)) else gs_matrix s))
     (Ok (S (List.length (gs_heap s))))
| CSEcache : n <> 0%nat -> is_euler p -> c = true ->
    call_spec s n p c o (mkG (gs_heap s ++ [TRows3 (so3_optimised o)]) (gs_quat s) (gs_matrix s)) (Err KeyError)
| CSE : n <> 0%nat -> is_euler p -> c = false ->
    call_spec s n p c o
     (mkG ((gs_heap s ++ [TRows3 (so3_optimised o)]) ++
           [TRows3 (map (fun x => so3_matrix_to_euler (so3_euler_to_matrix x e2m_eps) (/ 10 ^ 5)) (so3_optimised o))])
          (gs_quat s) (gs_matrix s))
     (Ok (S (List.length (gs_heap s)))).

Lemma call_spec_ok s n p c o :
  call_spec s n p c o (fst (so3_uniform_grid s n p c o)) (snd (so3_uniform_grid s n p c o)).
Proof.
  unfold so3_uniform_grid. destruct (Nat.eqb_spec n 0) as [E|E].
  { simpl. apply CSZero. assumption. }
  unfold load_grid.
  assert (A : forall h x, List.length (h ++ [x] : list tens) = S (List.length h)).
  { intros. rewrite app_length. simpl. lia. }
  destruct (pcases p) as [H|H|H|H1 H2 H3].
  - rewrite H. cbn [String.eqb Ascii.eqb Bool.eqb]. destruct (gs_quat s n) as [l|] eqn:Eq; cbn [of_option].
    + cbn [fst snd]. apply CSHitQ; auto.
    + unfold param_fn at 1. cbn [String.eqb Ascii.eqb Bool.eqb alloc].
      unfold save_grid, load_grid.
      destruct c.
      * cbn [gs_quat]. change (lower "quat") with "quat"%string. cbn [String.eqb Ascii.eqb Bool.eqb]. rewrite Eq. cbn [of_option].
        unfold param_fn. cbn [String.eqb Ascii.eqb Bool.eqb]. cbn [alloc fst snd gs_heap gs_quat gs_matrix].
        rewrite A. apply (CSQ s n p true o); auto.
      * unfold param_fn. cbn [String.eqb Ascii.eqb Bool.eqb]. cbn [alloc fst snd gs_heap gs_quat gs_matrix].
        rewrite A. apply (CSQ s n p false o); auto.
  - rewrite H. cbn [String.eqb Ascii.eqb Bool.eqb]. destruct (gs_matrix s n) as [l|] eqn:Eq; cbn [of_option].
    + cbn [fst snd]. apply CSHitM; auto.
    + unfold param_fn at 1. cbn [String.eqb Ascii.eqb Bool.eqb alloc].
      unfold save_grid, load_grid.
      destruct c.
      * cbn [gs_quat gs_matrix]. change (lower "matrix") with "matrix"%string. cbn [String.eqb Ascii.eqb Bool.eqb]. rewrite Eq. cbn [of_option].
        unfold param_fn. cbn [String.eqb Ascii.eqb Bool.eqb]. cbn [alloc fst snd gs_heap gs_quat gs_matrix].
        rewrite A. apply (CSM s n p true o); auto.
      * unfold param_fn. cbn [String.eqb Ascii.eqb Bool.eqb]. cbn [alloc fst snd gs_heap gs_quat gs_matrix].
        rewrite A. apply (CSM s n p false o); auto.
  - rewrite H. cbn [String.eqb Ascii.eqb Bool.eqb].
    unfold param_fn at 1. cbn [String.eqb Ascii.eqb Bool.eqb alloc].
    unfold save_grid, load_grid. change (lower "euler") with "euler"%string. cbn [String.eqb Ascii.eqb Bool.eqb].
    destruct c.
    + cbn [fst snd]. apply CSEcache; auto.
    + unfold param_fn. cbn [String.eqb Ascii.eqb Bool.eqb]. cbn [alloc fst snd gs_heap gs_quat gs_matrix].
      rewrite A. apply (CSE s n p false o); auto.
  - rewrite (proj2 (String.eqb_neq _ _) H1), (proj2 (String.eqb_neq _ _) H2). cbn [fst snd].
    unfold param_fn.
    rewrite (proj2 (String.eqb_neq _ _) H1), (proj2 (String.eqb_neq _ _) H2), (proj2 (String.eqb_neq _ _) H3).
    cbn [fst snd]. apply CSUnknown; auto. unfold known_param, is_quat, is_matrix, is_euler. tauto.
Qed.

(** ** histories *)
Definition op_ok (a : gop) : Prop :=
  match a with GCall n _ _ o => oracle_ok n o | GWrite _ _ => True end.
Definition write_free (ops : list gop) : Prop := Forall (fun a => is_write a = false /\ op_ok a) ops.
Definition cache_free (ops : list gop) : Prop :=
  Forall (fun a => match a with GCall _ _ c _ => c = false | GWrite _ _ => False end) ops.

(** Calls only extend: existing tensors and cache entries are kept. *)
Definition extends (s s' : gstate) : Prop :=
  (forall l t, look s l = Some t -> look s' l = Some t) /\
  (forall n l, gs_quat s n = Some l -> gs_quat s' n = Some l) /\
  (forall n l, gs_matrix s n = Some l -> gs_matrix s' n = Some l).

Lemma look_app h x q m l t : nth_error h l = Some t -> look (mkG (h ++ x) q m) l = Some t.
Proof. intros H. unfold look; simpl. rewrite nth_error_app1; [assumption|]. eapply nth_error_Some_lt; eauto. Qed.

Lemma extends_refl s : extends s s.
Proof. repeat split; auto. Qed.
Lemma extends_trans a b c : extends a b -> extends b c -> extends a c.
Proof. intros (A1 & A2 & A3) (B1 & B2 & B3). repeat split; auto. Qed.

Lemma call_extends s n p c o : extends s (fst (so3_uniform_grid s n p c o)).
Proof.
  pose proof (call_spec_ok s n p c o) as H.
  remember (fst _) as s'. remember (snd _) as r. clear Heqs' Heqr.
  destruct H; try apply extends_refl.
  all: split; [intros l' t Hl'; rewrite <- ?app_assoc; apply look_app; exact Hl'|].
  all: simpl; split; auto.
  - intros k l' Hk. destruct c; auto. unfold set_at. destruct (Nat.eqb_spec k n) as [->|]; [congruence|auto].
  - intros k l' Hk. destruct c; auto. unfold set_at. destruct (Nat.eqb_spec k n) as [->|]; [congruence|auto].
Qed.

Lemma run_extends ops s : write_free ops -> extends s (grun s ops).
Proof.
  revert s; induction ops as [|a ops IH]; intros s H; [apply extends_refl|].
  inversion H as [|? ? [Ha _] Hr]; subst. simpl. 
  eapply extends_trans; [|apply IH; assumption].
  destruct a; [apply call_extends|discriminate].
Qed.

Lemma look_init_quat n : (1 <= n <= 24)%nat -> look ginit (n - 1) = Some (init_quat n).
Proof.
  intros H. unfold look, ginit; cbn [gs_heap]. rewrite nth_error_app1 by (rewrite map_length, seq_length; lia).
  rewrite nth_error_map, nth_error_seq by lia. cbn [option_map]. do 2 f_equal. lia.
Qed.
Lemma look_init_matrix n : (1 <= n <= 24)%nat -> look ginit (24 + (n - 1)) = Some (init_matrix n).
Proof.
  intros H. unfold look, ginit; cbn [gs_heap]. rewrite nth_error_app2 by (rewrite map_length, seq_length; lia).
  rewrite map_length, seq_length. rewrite nth_error_map, nth_error_seq by lia. cbn [option_map]. do 2 f_equal. lia.
Qed.
Lemma ginit_quat n : gs_quat ginit n = if (Nat.leb 1 n && Nat.leb n 24)%bool then Some (n - 1)%nat else None.
Proof. reflexivity. Qed.
Lemma ginit_quat_in n : (1 <= n <= 24)%nat -> gs_quat ginit n = Some (n - 1)%nat.
Proof. intros [H1 H2]. rewrite ginit_quat. rewrite (proj2 (Nat.leb_le _ _) H1), (proj2 (Nat.leb_le _ _) H2). reflexivity. Qed.
Lemma ginit_matrix_in n : (1 <= n <= 24)%nat -> gs_matrix ginit n = Some (24 + (n - 1))%nat.
Proof. intros [H1 H2]. unfold ginit, gs_matrix. rewrite (proj2 (Nat.leb_le _ _) H1), (proj2 (Nat.leb_le _ _) H2). reflexivity. Qed.

Lemma hit_quat s n p c o l : n <> 0%nat -> is_quat p -> gs_quat s n = Some l ->
  so3_uniform_grid s n p c o = (s, Ok l).
Proof.
  intros Hn Hp Hq. unfold so3_uniform_grid. destruct (Nat.eqb_spec n 0); [contradiction|].
  unfold load_grid. rewrite Hp. cbn. rewrite Hq. reflexivity.
Qed.
Lemma hit_matrix s n p c o l : n <> 0%nat -> is_matrix p -> gs_matrix s n = Some l ->
  so3_uniform_grid s n p c o = (s, Ok l).
Proof.
  intros Hn Hp Hq. unfold so3_uniform_grid. destruct (Nat.eqb_spec n 0); [contradiction|].
  unfold load_grid. rewrite Hp. cbn. rewrite Hq. reflexivity.
Qed.

(** T3: tabulated sizes. *)
Lemma tabulated_quat ops n p c o : write_free ops -> (1 <= n <= 24)%nat -> is_quat p ->
  exists l, so3_uniform_grid (grun ginit ops) n p c o = (grun ginit ops, Ok l) /\
            look (grun ginit ops) l = Some (TQuat (table_quat n)).
Proof.
  intros Hw Hn Hp. destruct (run_extends ops ginit Hw) as (E1 & E2 & E3).
  exists (n - 1)%nat. split.
  - apply hit_quat; [lia|assumption|]. apply E2, ginit_quat_in. assumption.
  - apply E1. exact (look_init_quat n Hn).
Qed.
Lemma tabulated_matrix ops n p c o : write_free ops -> (2 <= n <= 24)%nat -> is_matrix p ->
  exists l, so3_uniform_grid (grun ginit ops) n p c o = (grun ginit ops, Ok l) /\
            look (grun ginit ops) l = Some (TMat (table_matrix n)).
Proof.
  intros Hw Hn Hp. destruct (run_extends ops ginit Hw) as (E1 & E2 & E3).
  exists (24 + (n - 1))%nat. split.
  - apply hit_matrix; [lia|assumption|]. apply E3, ginit_matrix_in. lia.
  - apply E1. rewrite (look_init_matrix n) by lia. unfold init_matrix.
    destruct (Nat.eqb_spec n 1); [lia|reflexivity].
Qed.
Lemma tabulated_matrix_1 ops p c o : write_free ops -> is_matrix p ->
  exists l, so3_uniform_grid (grun ginit ops) 1 p c o = (grun ginit ops, Ok l) /\
            look (grun ginit ops) l = Some (TRows3 [mkV3 1 0 0; mkV3 0 1 0; mkV3 0 0 1]).
Proof.
  intros Hw Hp. destruct (run_extends ops ginit Hw) as (E1 & E2 & E3).
  exists (24 + (1 - 1))%nat. split.
  - apply hit_matrix; [lia|assumption|]. apply E3, ginit_matrix_in. lia.
  - apply E1. rewrite (look_init_matrix 1) by lia. unfold init_matrix. rewrite Nat.eqb_refl.
    unfold table_matrix, zmat, zmat_1. cbn [map concat app rows3 gm_of a00 a01 a02 a10 a11 a12 a20 a21 a22
       z00 z01 z02 z10 z11 z12 z20 z21 z22].
    assert (D1 : dec11 100000000000 = 1) by (unfold dec11; field).
    assert (D0 : dec11 0 = 0) by (unfold dec11; field).
    rewrite D1, D0. reflexivity.
Qed.

(** T4: without caching nothing a later call consults changes. *)
Lemma cache_free_dicts ops s : cache_free ops ->
  gs_quat (grun s ops) = gs_quat s /\ gs_matrix (grun s ops) = gs_matrix s.
Proof.
  revert s; induction ops as [|a ops IH]; intros s H; [split; reflexivity|].
  inversion H as [|? ? Ha Hr]; subst. simpl. destruct (IH (gstep s a) Hr) as [-> ->].
  destruct a as [n p c o|]; [|contradiction]. subst c. simpl.
  pose proof (call_spec_ok s n p false o) as Hc.
  remember (fst _) as s'. remember (snd _) as r. clear Heqs' Heqr.
  destruct Hc; split; reflexivity.
Qed.

(** The outcome of a call (exception or contents). *)
Definition outcome (x : gstate * result nat) : result (option tens) :=
  match snd x with Ok l => Ok (look (fst x) l) | Err e => Err e end.

Lemma nth_error_app_last {A} (h : list A) x : nth_error (h ++ [x]) (List.length h) = Some x.
Proof. rewrite nth_error_app2, Nat.sub_diag by lia. reflexivity. Qed.

Lemma outcome_of s n p c o :
  outcome (so3_uniform_grid s n p c o) =
  if Nat.eqb n 0 then Ok (Some TEmpty)
  else match (if String.eqb (lower p) "quat" then gs_quat s n
              else if String.eqb (lower p) "matrix" then gs_matrix s n else None) with
       | Some l => Ok (look s l)
       | None => match param_fn (lower p) (so3_optimised o) with
                 | Err e => Err e
                 | Ok t => if (c && String.eqb (lower p) "euler")%bool then Err KeyError else Ok (Some t)
                 end
       end.
Proof.
  unfold outcome. pose proof (call_spec_ok s n p c o) as Hc.
  remember (fst _) as s'. remember (snd _) as r. clear Heqs' Heqr.
  assert (K : forall h (a b : tens) q m, look (mkG ((h ++ [a]) ++ [b]) q m) (S (List.length h)) = Some b).
  { intros. unfold look; cbn [gs_heap]. replace (S (List.length h)) with (List.length (h ++ [a]))
      by (rewrite app_length; simpl; lia). apply nth_error_app_last. }
  destruct Hc as [E|l E Hp Hl|l E Hp Hl|E Hp|E Hp Hl|E Hp Hl|E Hp Hl|E Hp Hl].
  - subst n. simpl. unfold look; simpl. rewrite nth_error_app_last. reflexivity.
  - destruct (Nat.eqb_spec n 0); [contradiction|]. rewrite Hp. cbn. rewrite Hl. reflexivity.
  - destruct (Nat.eqb_spec n 0); [contradiction|]. rewrite Hp. cbn. rewrite Hl. reflexivity.
  - destruct (Nat.eqb_spec n 0); [contradiction|]. unfold known_param, is_quat, is_matrix, is_euler in Hp.
    unfold param_fn.
    rewrite (proj2 (String.eqb_neq (lower p) "quat")), (proj2 (String.eqb_neq (lower p) "matrix")),
            (proj2 (String.eqb_neq (lower p) "euler")) by tauto.
    reflexivity.
  - destruct (Nat.eqb_spec n 0); [contradiction|]. unfold param_fn. rewrite Hp. cbn [String.eqb Ascii.eqb Bool.eqb]. rewrite Hl, K.
    rewrite andb_false_r. reflexivity.
  - destruct (Nat.eqb_spec n 0); [contradiction|]. unfold param_fn. rewrite Hp. cbn [String.eqb Ascii.eqb Bool.eqb]. rewrite Hl, K.
    rewrite andb_false_r. reflexivity.
  - destruct (Nat.eqb_spec n 0); [contradiction|]. unfold param_fn. rewrite Hp. cbn [String.eqb Ascii.eqb Bool.eqb]. subst c. reflexivity.
  - destruct (Nat.eqb_spec n 0); [contradiction|]. unfold param_fn. rewrite Hp. cbn [String.eqb Ascii.eqb Bool.eqb]. subst c. rewrite K. reflexivity.
Qed.

(** Cached tensors exist. *)
Definition valid (s : gstate) : Prop :=
  (forall n l, gs_quat s n = Some l -> (l < List.length (gs_heap s))%nat) /\
  (forall n l, gs_matrix s n = Some l -> (l < List.length (gs_heap s))%nat).

Lemma ginit_valid : valid ginit.
Proof.
  assert (L : List.length (gs_heap ginit) = 48%nat) by reflexivity.
  unfold valid; rewrite L; split; intros n l; cbn [ginit gs_quat gs_matrix].
  - destruct (Nat.leb_spec 1 n), (Nat.leb_spec n 24); cbn [andb]; intros E; inversion E; lia.
  - destruct (Nat.leb_spec 1 n), (Nat.leb_spec n 24); cbn [andb]; intros E; inversion E; lia.
Qed.

Lemma gstep_valid s a : valid s -> valid (gstep s a).
Proof.
  intros [V1 V2]. destruct a as [n p c o|l t]; cbn [gstep].
  - pose proof (call_spec_ok s n p c o) as Hc.
    remember (fst _) as s'. remember (snd _) as r. clear Heqs' Heqr.
    destruct Hc; split; try assumption; cbn [gs_quat gs_matrix gs_heap]; intros k l' Hk; rewrite ?app_length; simpl.
    all: try (apply V1 in Hk; lia). all: try (apply V2 in Hk; lia).
    + destruct c; [|apply V1 in Hk; lia]. unfold set_at in Hk.
      destruct (Nat.eqb k n); [injection Hk as <-; lia|apply V1 in Hk; lia].
    + destruct c; [|apply V2 in Hk; lia]. unfold set_at in Hk.
      destruct (Nat.eqb k n); [injection Hk as <-; lia|apply V2 in Hk; lia].
  - split; cbn [gs_quat gs_matrix gs_heap]; intros; rewrite upd_length; eauto.
Qed.

Lemma grun_valid ops s : valid s -> valid (grun s ops).
Proof. revert s; induction ops as [|a ops IH]; intros s H; [exact H|]. apply IH, gstep_valid, H. Qed.

Lemma cache_free_write_free ops : cache_free ops -> Forall op_ok ops -> write_free ops.
Proof.
  intros H1 H2. unfold cache_free in H1. rewrite Forall_forall in *. apply Forall_forall. intros a Ha. split; [|auto].
  specialize (H1 a Ha). destruct a; [reflexivity|contradiction].
Qed.

(** Calls extend, also without an assumption on the oracles. *)
Lemma run_extends' ops s : Forall (fun a => is_write a = false) ops -> extends s (grun s ops).
Proof.
  revert s; induction ops as [|a ops IH]; intros s H; [apply extends_refl|].
  inversion H as [|? ? Ha Hr]; subst. simpl. eapply extends_trans; [|apply IH; assumption].
  destruct a; [apply call_extends|discriminate].
Qed.

Lemma uncached_calls_change_nothing h ops n p c o :
  cache_free ops ->
  let s := grun ginit h in
  outcome (so3_uniform_grid (grun s ops) n p c o) = outcome (so3_uniform_grid s n p c o).
Proof.
  intros Hc s. destruct (cache_free_dicts ops s Hc) as [Eq Em].
  assert (Hf : Forall (fun a => is_write a = false) ops).
  { apply Forall_forall. intros a Ha. unfold cache_free in Hc. rewrite Forall_forall in Hc. specialize (Hc a Ha).
    destruct a; [reflexivity|contradiction]. }
  destruct (run_extends' ops s Hf) as (E1 & _ & _).
  assert (Hv : valid s) by (apply grun_valid, ginit_valid). destruct Hv as [V1 V2].
  rewrite !outcome_of, Eq, Em. destruct (Nat.eqb n 0); [reflexivity|].
  destruct (String.eqb (lower p) "quat").
  - destruct (gs_quat s n) as [l|] eqn:El; [|reflexivity].
    apply V1 in El. destruct (look s l) as [t|] eqn:Et.
    + rewrite (E1 _ _ Et). reflexivity.
    + apply nth_error_None in Et. lia.
  - destruct (String.eqb (lower p) "matrix"); [|reflexivity].
    destruct (gs_matrix s n) as [l|] eqn:El; [|reflexivity].
    apply V2 in El. destruct (look s l) as [t|] eqn:Et.
    + rewrite (E1 _ _ Et). reflexivity.
    + apply nth_error_None in Et. lia.
Qed.

(** Everything cached beyond the tables is a (n,3) tensor of Euler angles. *)
Definition inv_cached (s : gstate) : Prop :=
  (forall n l, (24 < n)%nat -> gs_quat s n = Some l -> exists e, look s l = Some (TRows3 e) /\ List.length e = n) /\
  (forall n l, (24 < n)%nat -> gs_matrix s n = Some l -> exists e, look s l = Some (TRows3 e) /\ List.length e = n).

Lemma inv_cached_init : inv_cached ginit.
Proof.
  split; intros n l Hn; cbn [ginit gs_quat gs_matrix]; rewrite (proj2 (Nat.leb_gt n 24)) by assumption;
  rewrite andb_false_r; discriminate.
Qed.

Lemma inv_cached_step s a : inv_cached s -> is_write a = false -> op_ok a -> inv_cached (gstep s a).
Proof.
  intros [I1 I2] Hw Ho. destruct a as [n p c o|]; [|discriminate]. cbn [gstep op_ok] in *.
  pose proof (call_extends s n p c o) as (E1 & _ & _).
  pose proof (call_spec_ok s n p c o) as Hc. pose proof (so3_optimised_length n o Ho) as HL.
  remember (fst _) as s'. remember (snd _) as r. clear Heqs' Heqr.
  assert (K : forall h (a b : tens) q m, look (mkG ((h ++ [a]) ++ [b]) q m) (List.length h) = Some a).
  { intros. unfold look; cbn [gs_heap]. rewrite nth_error_app1 by (rewrite app_length; simpl; lia).
    apply nth_error_app_last. }
  assert (J1 : forall k l, (24 < k)%nat -> gs_quat s k = Some l -> exists e, look s' l = Some (TRows3 e) /\ List.length e = k).
  { intros k l Hk Hl. destruct (I1 k l Hk Hl) as (e & He & Hle). exists e. auto. }
  assert (J2 : forall k l, (24 < k)%nat -> gs_matrix s k = Some l -> exists e, look s' l = Some (TRows3 e) /\ List.length e = k).
  { intros k l Hk Hl. destruct (I2 k l Hk Hl) as (e & He & Hle). exists e. auto. }
  destruct Hc; split; intros k l' Hk; cbn [gs_quat gs_matrix]; intros Hl'; eauto.
  - destruct c; [|eauto]. unfold set_at in Hl'. destruct (Nat.eqb_spec k n) as [->|]; [|eauto].
    injection Hl' as <-. rewrite K. eauto.
  - destruct c; [|eauto]. unfold set_at in Hl'. destruct (Nat.eqb_spec k n) as [->|]; [|eauto].
    injection Hl' as <-. rewrite K. eauto.
Qed.

Lemma inv_cached_run ops s : inv_cached s -> write_free ops -> inv_cached (grun s ops).
Proof.
  revert s; induction ops as [|a ops IH]; intros s H Hw; [exact H|].
  inversion Hw as [|? ? [H1 H2] Hr]; subst. apply IH; [apply inv_cached_step; assumption|assumption].
Qed.

(** T5 *)
Lemma caching_stores_euler_quat ops1 ops2 n p p' c o o' :
  write_free ops1 -> write_free ops2 -> (24 < n)%nat -> is_quat p -> is_quat p' -> oracle_ok n o ->
  let s1 := grun ginit (ops1 ++ [GCall n p true o] ++ ops2) in
  exists e, outcome (so3_uniform_grid s1 n p' c o') = Ok (Some (TRows3 e)) /\ List.length e = n.
Proof.
  intros H1 H2 Hn Hp Hp' Ho s1.
  assert (Hw : write_free (ops1 ++ [GCall n p true o] ++ ops2)).
  { apply Forall_app; split; [assumption|]. apply Forall_app; split; [|assumption].
    apply Forall_cons; [split; [reflexivity|exact Ho]|apply Forall_nil]. }
  pose proof (inv_cached_run _ _ inv_cached_init Hw) as [I1 _]. fold s1 in I1.
  assert (Hc : exists l, gs_quat s1 n = Some l).
  { unfold s1, grun. rewrite fold_left_app. simpl. fold (grun ginit ops1).
    fold (grun (fst (so3_uniform_grid (grun ginit ops1) n p true o)) ops2).
    set (s := grun ginit ops1).
    destruct (run_extends ops2 (fst (so3_uniform_grid s n p true o)) H2) as (_ & E2 & _).
    assert (exists l, gs_quat (fst (so3_uniform_grid s n p true o)) n = Some l) as [l Hl].
    { pose proof (call_spec_ok s n p true o) as Hc.
      remember (fst _) as s'. remember (snd _) as r. clear Heqs' Heqr E2.
      destruct Hc; try lia; unfold is_quat, is_matrix, is_euler, known_param in *; try congruence; try tauto; eauto.
      exists (List.length (gs_heap s)). simpl. unfold set_at. rewrite Nat.eqb_refl. reflexivity. }
    exists l. apply E2. exact Hl. }
  destruct Hc as [l Hl]. destruct (I1 n l Hn Hl) as (e & He & Hle).
  exists e. split; [|assumption]. rewrite outcome_of.
  destruct (Nat.eqb_spec n 0); [lia|]. rewrite Hp'. cbn. rewrite Hl, He. reflexivity.
Qed.

Lemma caching_stores_euler_matrix ops1 ops2 n p p' c o o' :
  write_free ops1 -> write_free ops2 -> (24 < n)%nat -> is_matrix p -> is_matrix p' -> oracle_ok n o ->
  let s1 := grun ginit (ops1 ++ [GCall n p true o] ++ ops2) in
  exists e, outcome (so3_uniform_grid s1 n p' c o') = Ok (Some (TRows3 e)) /\ List.length e = n.
Proof.
  intros H1 H2 Hn Hp Hp' Ho s1.
  assert (Hw : write_free (ops1 ++ [GCall n p true o] ++ ops2)).
  { apply Forall_app; split; [assumption|]. apply Forall_app; split; [|assumption].
    apply Forall_cons; [split; [reflexivity|exact Ho]|apply Forall_nil]. }
  pose proof (inv_cached_run _ _ inv_cached_init Hw) as [_ I1]. fold s1 in I1.
  assert (Hc : exists l, gs_matrix s1 n = Some l).
  { unfold s1, grun. rewrite fold_left_app. simpl. fold (grun ginit ops1).
    fold (grun (fst (so3_uniform_grid (grun ginit ops1) n p true o)) ops2).
    set (s := grun ginit ops1).
    destruct (run_extends ops2 (fst (so3_uniform_grid s n p true o)) H2) as (_ & _ & E2).
    assert (exists l, gs_matrix (fst (so3_uniform_grid s n p true o)) n = Some l) as [l Hl].
    { pose proof (call_spec_ok s n p true o) as Hc.
      remember (fst _) as s'. remember (snd _) as r. clear Heqs' Heqr E2.
      destruct Hc; try lia; unfold is_quat, is_matrix, is_euler, known_param in *; try congruence; try tauto; eauto.
      exists (List.length (gs_heap s)). simpl. unfold set_at. rewrite Nat.eqb_refl. reflexivity. }
    exists l. apply E2. exact Hl. }
  destruct Hc as [l Hl]. destruct (I1 n l Hn Hl) as (e & He & Hle).
  exists e. split; [|assumption]. rewrite outcome_of.
  destruct (Nat.eqb_spec n 0); [lia|]. rewrite Hp'. cbn. rewrite Hl, He. reflexivity.
Qed.

(** Sizes never cached before: a fresh grid in the requested parameterization. *)
Lemma not_cached h n : cache_free h -> (24 < n)%nat ->
  gs_quat (grun ginit h) n = None /\ gs_matrix (grun ginit h) n = None.
Proof.
  intros Hc Hn. destruct (cache_free_dicts h ginit Hc) as [-> ->].
  cbn [ginit gs_quat gs_matrix]. rewrite (proj2 (Nat.leb_gt n 24)) by assumption.
  rewrite andb_false_r. auto.
Qed.

Lemma fresh_grid h n p c o : cache_free h -> (24 < n)%nat -> oracle_ok n o ->
  let r := outcome (so3_uniform_grid (grun ginit h) n p c o) in
  (is_quat p -> exists l, r = Ok (Some (TQuat l)) /\ List.length l = n /\ forall q, In q l ->
      unitq q /\ exists g : V3, q = so3_euler_to_quat g (/ 10 ^ 6)) /\
  (is_matrix p -> exists l, r = Ok (Some (TMat l)) /\ List.length l = n /\ forall m, In m l ->
      exists g : V3, close3 (/ 10 ^ 6) m (ZYZ g)) /\
  (is_euler p -> c = false -> exists l, r = Ok (Some (TRows3 l)) /\ List.length l = n) /\
  (is_euler p -> c = true -> r = Err KeyError) /\
  (~ known_param p -> r = Err ValueError).
Proof.
  intros Hc Hn Ho r. destruct (not_cached h n Hc Hn) as [Nq Nm].
  pose proof (so3_optimised_length n o Ho) as HL.
  unfold r. rewrite outcome_of, Nq, Nm.
  destruct (Nat.eqb_spec n 0); [lia|]. unfold param_fn.
  split; [|split; [|split; [|split]]].
  - intros ->. cbn. rewrite andb_false_r. eexists. split; [reflexivity|]. rewrite map_length. split; [assumption|].
    intros q Hq. apply in_map_iff in Hq as [g [<- _]]. split; [apply m2q_unit_any|]. exists g. reflexivity.
  - intros ->. cbn [String.eqb Ascii.eqb Bool.eqb]. rewrite andb_false_r. eexists. split; [reflexivity|]. rewrite map_length. split; [assumption|].
    intros q Hq. apply in_map_iff in Hq as [g [<- _]]. exists g. apply euler_to_matrix_close.
    left. apply Rinv_0_lt_compat, pow_lt. lra.
  - intros -> ->. cbn [String.eqb Ascii.eqb Bool.eqb]. eexists. split; [reflexivity|]. rewrite map_length. assumption.
  - intros -> ->. cbn [String.eqb Ascii.eqb Bool.eqb]. reflexivity.
  - intros Hk. unfold known_param, is_quat, is_matrix, is_euler in Hk.
    rewrite (proj2 (String.eqb_neq (lower p) "quat")), (proj2 (String.eqb_neq (lower p) "matrix")),
            (proj2 (String.eqb_neq (lower p) "euler")) by tauto.
    reflexivity.
Qed.

(** In every state. *)
Lemma size_zero s p c o : outcome (so3_uniform_grid s 0 p c o) = Ok (Some TEmpty).
Proof. rewrite outcome_of. reflexivity. Qed.
Lemma unknown_raises s n p c o : n <> 0%nat -> ~ known_param p ->
  so3_uniform_grid s n p c o = (s, Err ValueError).
Proof.
  intros Hn Hk. pose proof (call_spec_ok s n p c o) as Hc.
  destruct (so3_uniform_grid s n p c o) as [s' r]. cbn [fst snd] in Hc.
  unfold known_param in Hk. destruct Hc; try reflexivity; tauto.
Qed.
Lemma euler_cache_raises s n p o : n <> 0%nat -> is_euler p ->
  outcome (so3_uniform_grid s n p true o) = Err KeyError.
Proof.
  intros Hn Hp. rewrite outcome_of. destruct (Nat.eqb_spec n 0); [contradiction|].
  unfold param_fn. rewrite Hp. reflexivity.
Qed.

(** T7: writes through a returned tensor are seen by every later caller. *)
Lemma alias_quat h n p p' c c' o o' t ops :
  write_free h -> write_free ops -> (1 <= n <= 24)%nat -> is_quat p -> is_quat p' ->
  let s := grun ginit h in
  exists l, snd (so3_uniform_grid s n p c o) = Ok l /\
   let s' := grun s ([GCall n p c o; GWrite l t] ++ ops) in
   outcome (so3_uniform_grid s' n p' c' o') = Ok (Some t).
Proof.
  intros Hh Ho Hn Hp Hp' s.
  destruct (tabulated_quat h n p c o Hh Hn Hp) as (l & E & Hl). fold s in E, Hl.
  exists l. rewrite E. split; [reflexivity|].
  unfold grun. rewrite fold_left_app. cbn [fold_left gstep]. rewrite E. cbn [fst].
  set (s1 := mkG _ _ _). fold (grun s1 ops). cbv zeta.
  assert (Hq : gs_quat s n = Some l).
  { destruct (run_extends h ginit Hh) as (_ & E2 & _).
    pose proof (E2 n _ (ginit_quat_in n Hn)) as Hq. fold s in Hq. rewrite (hit_quat s n p c o _ ltac:(lia) Hp Hq) in E.
    injection E as <-. exact Hq. }
  destruct (run_extends ops s1 Ho) as (F1 & F2 & _).
  rewrite outcome_of. destruct (Nat.eqb_spec n 0); [lia|]. rewrite Hp'. cbn [String.eqb Ascii.eqb Bool.eqb].
  rewrite (F2 n l); [|exact Hq].
  rewrite (F1 l t); [reflexivity|].
  unfold s1, look; cbn [gs_heap]. apply upd_nth_error_same. eapply nth_error_Some_lt; exact Hl.
Qed.

(** ** o3.uniform_grid *)
Lemma o3_attach_ok n m l : List.length l = (n + m)%nat ->
  exists g, o3_attach n m (TMat l) = Ok (O3Grid g) /\ List.length g = (n + m)%nat /\
   forall i e, nth_error g i = Some e ->
     o3c e = (if Nat.ltb i n then 1 else -1) /\ nth_error l i = Some (o3r e).
Proof.
  intros Hl. unfold o3_attach.
  assert (Hc : List.length (repeat 1 n ++ repeat (-1 * 1) m) = (n + m)%nat).
  { rewrite app_length, !repeat_length. reflexivity. }
  rewrite Hc, Hl, Nat.eqb_refl. eexists. split; [reflexivity|].
  split; [rewrite map_length, combine_length, Hc, Hl; lia|].
  intros i e He. rewrite nth_error_map in He.
  destruct (nth_error (combine (repeat 1 n ++ repeat (-1 * 1) m) l) i) as [[c r]|] eqn:E; [|discriminate].
  injection He as <-. cbn [fst snd o3c o3r].
  pose proof (nth_error_Some_lt _ _ _ E) as Hi. rewrite combine_length, Hc, Hl in Hi.
  assert (E1 : nth_error (repeat 1 n ++ repeat (-1 * 1) m) i = Some c /\ nth_error l i = Some r).
  { clear - E. revert i E. generalize (repeat 1 n ++ repeat (-1 * 1) m) as cs. revert l.
    induction l as [|x l IH]; intros [|y cs] [|i] E; simpl in *; try discriminate.
    - injection E as -> ->. auto.
    - apply IH; assumption. }
  destruct E1 as [E1 E2]. split; [|assumption].
  destruct (Nat.ltb_spec i n).
  - rewrite nth_error_app1 in E1 by (rewrite repeat_length; assumption).
    rewrite nth_error_repeat in E1 by assumption. congruence.
  - rewrite nth_error_app2 in E1 by (rewrite repeat_length; assumption).
    rewrite repeat_length, nth_error_repeat in E1 by lia. injection E1 as <-. ring.
Qed.

(** The two matrix grids seen by o3.uniform_grid after a history without caching and writes. *)
Lemma matrix_grid h n o : cache_free h -> (n <> 1)%nat -> oracle_ok n o ->
  let s := grun ginit h in
  exists s' l t, so3_uniform_grid s n "matrix" false o = (s', Ok l) /\ look s' l = Some t /\
    (n = 0%nat -> t = TEmpty) /\ (n <> 0%nat -> exists ms, t = TMat ms /\ List.length ms = n).
Proof.
  intros Hc Hn Ho s.
  assert (Hout : exists t, outcome (so3_uniform_grid s n "matrix" false o) = Ok (Some t) /\
    (n = 0%nat -> t = TEmpty) /\ (n <> 0%nat -> exists ms, t = TMat ms /\ List.length ms = n)).
  { destruct (Nat.eq_dec n 0) as [->|H0].
    - exists TEmpty. rewrite size_zero. split; [reflexivity|]. split; [reflexivity|congruence].
    - destruct (le_lt_dec n 24) as [H24|H24].
      + destruct (tabulated_matrix [] n "matrix" false o) as (l & E & Hl); [apply Forall_nil|lia|reflexivity|].
        exists (TMat (table_matrix n)). split.
        * pose proof (uncached_calls_change_nothing [] h n "matrix" false o Hc) as E2.
          cbv zeta in E2. fold s in E2. simpl in E2. unfold s. rewrite E2.
          change (grun ginit []) with ginit in *. unfold outcome. rewrite E. cbn [fst snd]. rewrite Hl. reflexivity.
        * split; [contradiction|]. intros _. eexists; split; [reflexivity|].
          unfold table_matrix. rewrite map_length.
          do 25 (destruct n as [|n]; [lia || reflexivity|]). lia.
      + destruct (fresh_grid h n "matrix" false o Hc H24 Ho) as (_ & Hm & _).
        destruct (Hm eq_refl) as (ms & E & HL & _). exists (TMat ms). split; [exact E|].
        split; [lia|]. intros _. eauto. }
  destruct Hout as (t & E & H). unfold outcome in E.
  destruct (so3_uniform_grid s n "matrix" false o) as [s' [l|e]]; cbn [fst snd] in E; [|discriminate].
  exists s', l, t. split; [reflexivity|]. split; [congruence|]. exact H.
Qed.

Lemma grun_snoc s h a : grun s (h ++ [a]) = gstep (grun s h) a.
Proof. unfold grun. rewrite fold_left_app. reflexivity. Qed.

Lemma o3_uniform_cases h n m o1 o2 :
  cache_free h -> oracle_ok n o1 -> oracle_ok m o2 -> n <> 1%nat -> m <> 1%nat ->
  exists t1 t2,
    (n = 0%nat -> t1 = TEmpty) /\ (n <> 0%nat -> exists ms, t1 = TMat ms /\ List.length ms = n) /\
    (m = 0%nat -> t2 = TEmpty) /\ (m <> 0%nat -> exists ms, t2 = TMat ms /\ List.length ms = m) /\
    forall mo, snd (o3_uniform_grid (grun ginit h) n m mo o1 o2) =
      (R <- tcat t1 t2 ;; if mo then Ok (O3Matrices R) else o3_attach n m R).
Proof.
  intros Hc Ho1 Ho2 Hn Hm.
  destruct (matrix_grid h n o1 Hc Hn Ho1) as (s1 & l1 & t1 & E1 & L1 & A1 & A2).
  assert (Hc' : cache_free (h ++ [GCall n "matrix" false o1])).
  { apply Forall_app; split; [assumption|]. apply Forall_cons; [reflexivity|apply Forall_nil]. }
  destruct (matrix_grid _ m o2 Hc' Hm Ho2) as (s2 & l2 & t2 & E2 & L2 & B1 & B2).
  rewrite grun_snoc in E2. cbn [gstep] in E2. rewrite E1 in E2. cbn [fst] in E2.
  exists t1, t2. repeat (split; [assumption|]). intros mo.
  unfold o3_uniform_grid. rewrite E1, E2. cbn [snd].
  pose proof (call_extends s1 m "matrix" false o2) as (X & _ & _). rewrite E2 in X. cbn [fst] in X.
  rewrite (X _ _ L1), L2. cbn [of_option bind]. reflexivity.
Qed.

Lemma o3_uniform_ok h n m o1 o2 :
  cache_free h -> oracle_ok n o1 -> oracle_ok m o2 -> n <> 1%nat -> m <> 1%nat -> (n + m <> 0)%nat ->
  exists g, snd (o3_uniform_grid (grun ginit h) n m false o1 o2) = Ok (O3Grid g) /\
    List.length g = (n + m)%nat /\
    (forall i e, nth_error g i = Some e -> o3c e = if Nat.ltb i n then 1 else -1) /\
    exists ms, snd (o3_uniform_grid (grun ginit h) n m true o1 o2) = Ok (O3Matrices (TMat ms)) /\ ms = map o3r g.
Proof.
  intros Hc Ho1 Ho2 Hn Hm H0.
  destruct (o3_uniform_cases h n m o1 o2 Hc Ho1 Ho2 Hn Hm) as (t1 & t2 & A1 & A2 & B1 & B2 & E).
  assert (Hcat : exists ms, tcat t1 t2 = Ok (TMat ms) /\ List.length ms = (n + m)%nat).
  { destruct (Nat.eq_dec n 0) as [Zn|Zn]; destruct (Nat.eq_dec m 0) as [Zm|Zm]; try lia.
    - rewrite (A1 Zn). destruct (B2 Zm) as (ms & -> & L). exists ms. split; [reflexivity|lia].
    - rewrite (B1 Zm). destruct (A2 Zn) as (ms & -> & L). exists ms. split; [reflexivity|lia].
    - destruct (A2 Zn) as (ms & -> & L), (B2 Zm) as (ms' & -> & L').
      exists (ms ++ ms'). split; [reflexivity|]. rewrite app_length. lia. }
  destruct Hcat as (ms & Ec & HL). rewrite Ec in E. cbn [bind] in E.
  destruct (o3_attach_ok n m ms HL) as (g & Eg & Lg & Hg).
  exists g. rewrite !E, Eg. split; [reflexivity|]. split; [assumption|].
  split; [intros i e He; apply (Hg i e He)|].
  exists ms. split; [reflexivity|].
  apply nth_error_ext'. intros i. rewrite nth_error_map.
  destruct (nth_error g i) as [e|] eqn:Ei; simpl.
  - apply (Hg i e Ei).
  - apply nth_error_None in Ei. apply nth_error_None. lia.
Qed.

Lemma o3_uniform_empty s o1 o2 :
  snd (o3_uniform_grid s 0 0 false o1 o2) = Err IndexError /\
  snd (o3_uniform_grid s 0 0 true o1 o2) = Ok (O3Matrices TEmpty).
Proof.
  assert (K : forall h (a b : tens) q m, look (mkG ((h ++ [a]) ++ [b]) q m) (List.length h) = Some a).
  { intros. unfold look; cbn [gs_heap]. rewrite nth_error_app1 by (rewrite app_length; simpl; lia).
    apply nth_error_app_last. }
  assert (K2 : forall h (a : tens) q m, look (mkG (h ++ [a]) q m) (List.length h) = Some a).
  { intros. unfold look; cbn [gs_heap]. apply nth_error_app_last. }
  unfold o3_uniform_grid, so3_uniform_grid. cbn [Nat.eqb alloc gs_heap gs_quat gs_matrix snd].
  rewrite K, K2. split; reflexivity.
Qed.

(** The tabulated (3,3) grid of size 1. *)
Lemma matrix_grid_1 h o : write_free h ->
  exists l, so3_uniform_grid (grun ginit h) 1 "matrix" false o = (grun ginit h, Ok l) /\
    look (grun ginit h) l = Some (TRows3 [mkV3 1 0 0; mkV3 0 1 0; mkV3 0 0 1]).
Proof. intros H. apply tabulated_matrix_1; [assumption|reflexivity]. Qed.

(** What the second operand can be, in any state reached without writes. *)
Lemma matrix_grid_any h n o : write_free h -> oracle_ok n o -> n <> 1%nat ->
  exists s' l t, so3_uniform_grid (grun ginit h) n "matrix" false o = (s', Ok l) /\ look s' l = Some t /\
    extends (grun ginit h) s' /\
    (n = 0%nat -> t = TEmpty) /\
    (n <> 0%nat -> (exists ms, t = TMat ms) \/ (exists e, t = TRows3 e)) /\
    forall r, t <> TQuat r.
Proof.
  intros Hw Ho Hn. set (s := grun ginit h).
  pose proof (call_extends s n "matrix" false o) as HE.
  assert (Hout : exists t, outcome (so3_uniform_grid s n "matrix" false o) = Ok (Some t) /\
     (n = 0%nat -> t = TEmpty) /\
     (n <> 0%nat -> (exists ms, t = TMat ms) \/ (exists e, t = TRows3 e))).
  { destruct (Nat.eq_dec n 0) as [->|H0].
    - exists TEmpty. rewrite size_zero. repeat split; auto. congruence.
    - destruct (le_lt_dec n 24) as [H24|H24].
      + destruct (tabulated_matrix h n "matrix" false o) as (l & E & Hl); [assumption|lia|reflexivity|].
        exists (TMat (table_matrix n)). fold s in E, Hl. unfold outcome. rewrite E. cbn [fst snd]. rewrite Hl.
        repeat split; try congruence. eauto.
      + rewrite outcome_of. destruct (Nat.eqb_spec n 0); [lia|]. cbn [lower].
        change (String.eqb (lower "matrix") "quat") with false. change (String.eqb (lower "matrix") "matrix") with true.
        cbv iota. destruct (gs_matrix s n) as [l|] eqn:El.
        * pose proof (inv_cached_run h ginit inv_cached_init Hw) as [_ I2].
          destruct (I2 n l H24 El) as (e & He & _). fold s in He. exists (TRows3 e). rewrite <- He. split; [reflexivity|].
          split; [lia|]. eauto.
        * eexists. split; [reflexivity|]. split; [lia|]. intros _. left. eexists. reflexivity. }
  destruct Hout as (t & E & H1 & H2). unfold outcome in E.
  destruct (so3_uniform_grid s n "matrix" false o) as [s' [l|e]]; cbn [fst snd] in *; [|discriminate].
  exists s', l, t. repeat (split; [first [assumption|reflexivity|congruence]|]).
  intros r ->. destruct (Nat.eq_dec n 0) as [Z|Z]; [discriminate (H1 Z)|].
  destruct (H2 Z) as [[? ?]|[? ?]]; discriminate.
Qed.

Lemma o3_uniform_one h n m o1 o2 : write_free h -> oracle_ok n o1 -> oracle_ok m o2 ->
  n = 1%nat \/ m = 1%nat ->
  snd (o3_uniform_grid (grun ginit h) n m false o1 o2) = Err RuntimeError.
Proof.
  intros Hw Ho1 Ho2 H. unfold o3_uniform_grid.
  assert (Hw1 : write_free (h ++ [GCall n "matrix" false o1])).
  { apply Forall_app; split; [assumption|]. apply Forall_cons; [split; [reflexivity|exact Ho1]|apply Forall_nil]. }
  destruct (Nat.eq_dec n 1) as [->|Hn].
  - destruct (matrix_grid_1 h o1 Hw) as (l1 & -> & L1).
    destruct (Nat.eq_dec m 1) as [->|Hm].
    + destruct (matrix_grid_1 h o2 Hw) as (l2 & -> & L2). cbn [snd]. rewrite L1, L2. reflexivity.
    + destruct (matrix_grid_any h m o2 Hw Ho2 Hm) as (s2 & l2 & t2 & -> & L2 & (X & _ & _) & A1 & A2 & _).
      cbn [snd]. rewrite (X _ _ L1), L2. cbn [of_option bind].
      destruct (Nat.eq_dec m 0) as [Z|Z]; [rewrite (A1 Z); reflexivity|].
      destruct (A2 Z) as [[ms ->]|[e ->]]; reflexivity.
  - destruct H as [H|H]; [contradiction|]. subst m.
    destruct (matrix_grid_any h n o1 Hw Ho1 Hn) as (s1 & l1 & t1 & E1 & L1 & _ & A1 & A2 & _).
    rewrite E1. destruct (matrix_grid_1 _ o2 Hw1) as (l2 & E2 & L2).
    rewrite grun_snoc in E2, L2. cbn [gstep] in E2, L2. rewrite E1 in E2, L2. cbn [fst] in E2, L2.
    rewrite E2. cbn [snd]. rewrite L1, L2. cbn [of_option bind].
    destruct (Nat.eq_dec n 0) as [Z|Z]; [rewrite (A1 Z); reflexivity|].
    destruct (A2 Z) as [[ms ->]|[e ->]]; reflexivity.
Qed.

(** Caching a matrix grid in so3 breaks o3.uniform_grid for that size. *)
Lemma o3_uniform_poisoned ops1 ops2 n p o o1 o2 :
  write_free ops1 -> write_free ops2 -> (24 < n)%nat -> is_matrix p -> oracle_ok n o ->
  snd (o3_uniform_grid (grun ginit (ops1 ++ [GCall n p true o] ++ ops2)) n n false o1 o2) = Err RuntimeError.
Proof.
  intros H1 H2 Hn Hp Ho. set (s := grun ginit _).
  assert (Hc : exists l e, so3_uniform_grid s n "matrix" false o1 = (s, Ok l) /\
                 so3_uniform_grid s n "matrix" false o2 = (s, Ok l) /\ look s l = Some (TRows3 e)).
  { destruct (caching_stores_euler_matrix ops1 ops2 n p "matrix" false o o1 H1 H2 Hn Hp eq_refl Ho) as (e & E & _).
    fold s in E. rewrite outcome_of in E. destruct (Nat.eqb_spec n 0); [lia|].
    change (String.eqb (lower "matrix") "quat") with false in E.
    change (String.eqb (lower "matrix") "matrix") with true in E. cbv iota in E.
    destruct (gs_matrix s n) as [l|] eqn:El.
    - exists l, e. rewrite !(hit_matrix s n "matrix" _ _ l) by (auto; reflexivity). repeat split. congruence.
    - discriminate. }
  destruct Hc as (l & e & E1 & E2 & L). unfold o3_uniform_grid. rewrite E1, E2. cbn [snd]. rewrite L. reflexivity.
Qed.

(** An oracle for every size. *)
Definition ex_oracle (n : nat) : oracle :=
  mkO 5 (1 / 10) (fun x => x) (fun _ => repeat (repeat 1 3) n) (repeat qone n).
Lemma ex_oracle_ok n : oracle_ok n (ex_oracle n).
Proof.
  unfold ex_oracle, oracle_ok; cbn [or_draws or_grad or_noise]. split; [apply repeat_length|]. split; [auto|].
  intros _. split; [apply repeat_length|]. intros r Hr. apply repeat_spec in Hr. subst. reflexivity.
Qed.
