(** Facts about AutogradRun.v. *)
From Coq Require Import String.
From Verif Require Import Prelude RMath Mat Interp SO3 Repulse RepulseFacts S2 Tensor GridCache GridCacheFacts AutogradRun.
Open Scope R_scope.

Lemma upd_upd {V} (h : heap V) l v w : upd (upd h l v) l w = upd h l w.
Proof. revert l; induction h as [|a h IH]; intros [|l]; cbn [upd]; try reflexivity. f_equal. apply IH. Qed.
Lemma upd_self {V} (h : heap V) l v : nth_error h l = Some v -> upd h l v = h.
Proof. revert l; induction h as [|a h IH]; intros [|l] H; cbn in *; try discriminate; [congruence|]. f_equal. apply IH. exact H. Qed.
Lemma upd_app_l {V} (h h' : heap V) l v : (l < length h)%nat -> upd (h ++ h') l v = upd h l v ++ h'.
Proof. revert l; induction h as [|a h IH]; intros [|l] H; cbn in *; try lia; [reflexivity|]. f_equal. apply IH. lia. Qed.

(** torch: a tensor that is not a leaf requires a gradient, and only tensors of floating point do. *)
Definition tensor_ok (a : ten) : Prop := (x_leaf a = false -> x_req a = true) /\ (x_req a = true -> x_float a = true).

(** The iterates of the repulsion. *)
Definition track (c : rcall) (x : rows) (e : nat) : rows :=
  fold_left (fun x e => repulse_epoch (c_steps c) (c_lr c) (c_alpha c) (c_grad c) (c_noise c) e x) (seq 0 e) x.
Lemma track_S c x e : track c x (S e) = repulse_epoch (c_steps c) (c_lr c) (c_alpha c) (c_grad c) (c_noise c) e (track c x e).
Proof. unfold track. rewrite seq_S, fold_left_app. reflexivity. Qed.

Definition mem_at (base : mem) (g : nat) (t : ten) (x : rows) (r : bool) (G : option rows) : mem :=
  mkMem (upd (m_store base) (x_store t) x) (upd (m_obj base) g (mkTen (x_store t) (x_float t) (x_leaf t) r G)).

Lemma after_S c s k : repulse_after c s (S k) = let '(s', p) := repulse_after c s k in repulse_step c s' p.
Proof. reflexivity. Qed.
Lemma after_returned c s k m s' r : repulse_after c s k = (s', Returned r) -> repulse_after c s (m + k) = (s', Returned r).
Proof. intros E. induction m as [|m IH]; [exact E|]. cbn [Nat.add]. rewrite after_S, IH. reflexivity. Qed.
Lemma after_returned_le c s k k' s' r : (k <= k')%nat -> repulse_after c s k = (s', Returned r) -> repulse_after c s k' = (s', Returned r).
Proof. intros L E. replace k' with ((k' - k) + k)%nat by lia. apply after_returned. exact E. Qed.

Section Call.
Context (c : rcall) (base : mem) (g : nat) (t : ten) (x : rows).
Context (Ho : nth_error (m_obj base) g = Some t) (Hs : nth_error (m_store base) (x_store t) = Some x).

Lemma mem_at_obj y r G : nth_error (m_obj (mem_at base g t y r G)) g = Some (mkTen (x_store t) (x_float t) (x_leaf t) r G).
Proof. cbn [mem_at m_obj]. apply upd_nth_error_same. apply nth_error_Some. congruence. Qed.
Lemma mem_at_obj_other y r G i : i <> g -> nth_error (m_obj (mem_at base g t y r G)) i = nth_error (m_obj base) i.
Proof. intros N. cbn [mem_at m_obj]. apply upd_nth_error_other. congruence. Qed.
Lemma mem_at_store y r G : nth_error (m_store (mem_at base g t y r G)) (x_store t) = Some y.
Proof. cbn [mem_at m_store]. apply upd_nth_error_same. apply nth_error_Some. congruence. Qed.
Lemma mem_at_store_other y r G i : i <> x_store t -> nth_error (m_store (mem_at base g t y r G)) i = nth_error (m_store base) i.
Proof. intros N. cbn [mem_at m_store]. apply upd_nth_error_other. congruence. Qed.
Lemma mem_at_start : mem_at base g t x (x_req t) (x_grad t) = base.
Proof. unfold mem_at. rewrite (upd_self _ _ _ Hs). replace (mkTen _ _ _ _ _) with t by (destruct t; reflexivity). rewrite (upd_self _ _ _ Ho). destruct base; reflexivity. Qed.
Lemma mem_at_set y r G r' G' : set_obj (mem_at base g t y r G) g (mkTen (x_store t) (x_float t) (x_leaf t) r' G') = mem_at base g t y r' G'.
Proof. unfold set_obj, mem_at. cbn [m_store m_obj]. rewrite upd_upd. reflexivity. Qed.
Lemma mem_at_write y r G z : mkMem (upd (m_store (mem_at base g t y r G)) (x_store t) z) (m_obj (mem_at base g t y r G)) = mem_at base g t z r G.
Proof. unfold mem_at. cbn [m_store m_obj]. rewrite upd_upd. reflexivity. Qed.
Lemma mem_at_read y r G : nth (x_store t) (m_store (mem_at base g t y r G)) [] = y.
Proof. apply nth_error_nth. apply mem_at_store. Qed.

Definition after_noise (e : nat) (G : rows) : rows := t_add G (t_scale (noise_coeff (c_steps c) (c_alpha c) e) (c_noise c e)).

Lemma step_has_grid : repulse_step c (mem_at base g t x (x_req t) (x_grad t)) (HasGrid g) =
  if negb (x_leaf t) then (mem_at base g t x (x_req t) (x_grad t), Returned (Err RuntimeError))
  else if negb (x_float t) then (mem_at base g t x (x_req t) (x_grad t), Returned (Err RuntimeError))
  else (mem_at base g t x true (x_grad t), Requires g).
Proof. unfold repulse_step. rewrite mem_at_obj. cbn [x_store x_float x_leaf x_req x_grad]. rewrite mem_at_set. reflexivity. Qed.
Lemma step_epoch y r G e : repulse_step c (mem_at base g t y r G) (Epoch g e) =
  if Nat.ltb e (c_steps c) then (mem_at base g t y r None, Zeroed g e) else (mem_at base g t y false G, Cleared g).
Proof. unfold repulse_step. rewrite mem_at_obj. cbn [x_store x_float x_leaf x_req x_grad]. rewrite !mem_at_set. reflexivity. Qed.
Lemma step_zeroed y r G e : repulse_step c (mem_at base g t y r G) (Zeroed g e) =
  if c_on c then (mem_at base g t y r (Some (c_grad c y)), Backward g e) else (mem_at base g t y r G, Returned (Err RuntimeError)).
Proof. unfold repulse_step. rewrite mem_at_obj. cbn [x_store x_float x_leaf x_req x_grad]. rewrite mem_at_set, mem_at_read. reflexivity. Qed.
Lemma step_backward y r G e : repulse_step c (mem_at base g t y r (Some G)) (Backward g e) = (mem_at base g t y r (Some (after_noise e G)), Noised g e).
Proof. unfold repulse_step. rewrite mem_at_obj. cbn [x_store x_float x_leaf x_req x_grad option_map]. rewrite mem_at_set. reflexivity. Qed.
Lemma step_noised y r G e : repulse_step c (mem_at base g t y r (Some G)) (Noised g e) =
  (mem_at base g t (t_sub y (t_scale (c_lr c) G)) r (Some G), Epoch g (S e)).
Proof. unfold repulse_step. rewrite mem_at_obj. cbn [x_store x_float x_leaf x_req x_grad]. rewrite mem_at_write, mem_at_read. reflexivity. Qed.
Lemma step_cleared y r G : repulse_step c (mem_at base g t y r G) (Cleared g) =
  (mkMem (m_store (mem_at base g t y r G)) (m_obj (mem_at base g t y r G) ++ [mkTen (x_store t) (x_float t) true false None]), Returned (Ok (length (m_obj base)))).
Proof. unfold repulse_step. rewrite mem_at_obj. cbn [x_store x_float x_leaf x_req x_grad]. cbn [mem_at m_obj]. rewrite upd_length. reflexivity. Qed.

(** From here on, [base] is the memory at line 68. *)
Context (s : mem) (H1 : repulse_after c s 1 = (base, HasGrid g)).

Lemma after_2 : repulse_after c s 2 =
  if negb (x_leaf t) then (base, Returned (Err RuntimeError))
  else if negb (x_float t) then (base, Returned (Err RuntimeError))
  else (mem_at base g t x true (x_grad t), Requires g).
Proof. rewrite after_S, H1. rewrite <- mem_at_start at 1. rewrite step_has_grid, mem_at_start. reflexivity. Qed.

Context (Hleaf : x_leaf t = true) (Hfloat : x_float t = true).
Lemma after_2_ok : repulse_after c s 2 = (mem_at base g t x true (x_grad t), Requires g).
Proof. rewrite after_2, Hleaf, Hfloat. reflexivity. Qed.
Lemma after_3_negative : c_lr c < 0 -> repulse_after c s 3 = (mem_at base g t x true (x_grad t), Returned (Err ValueError)).
Proof. intros L. rewrite after_S, after_2_ok. cbn [repulse_step]. destruct (Rlt_dec (c_lr c) 0); [reflexivity|contradiction]. Qed.
Context (Hlr : 0 <= c_lr c).
Lemma after_3 : repulse_after c s 3 = (mem_at base g t x true (x_grad t), Epoch g 0).
Proof. rewrite after_S, after_2_ok. cbn [repulse_step]. destruct (Rlt_dec (c_lr c) 0); [lra|reflexivity]. Qed.
Lemma after_5_off : c_on c = false -> (0 < c_steps c)%nat -> repulse_after c s 5 = (mem_at base g t x true None, Returned (Err RuntimeError)).
Proof.
  intros E L. rewrite (after_S c s 4), (after_S c s 3), after_3, step_epoch. destruct (Nat.ltb_spec 0 (c_steps c)) as [_|B]; [|lia].
  rewrite step_zeroed, E. reflexivity.
Qed.

Context (Hon : c_steps c = 0%nat \/ c_on c = true).
Lemma at_epoch e : (e <= c_steps c)%nat -> exists G, repulse_after c s (3 + 4 * e) = (mem_at base g t (track c x e) true G, Epoch g e) /\
  ((0 < e)%nat -> exists G', G = Some G').
Proof.
  induction e as [|e IH]; intros L.
  - exists (x_grad t). split; [exact after_3|lia].
  - destruct IH as (G & E & _); [lia|]. destruct Hon as [Z|On]; [lia|].
    exists (Some (after_noise e (c_grad c (track c x e)))). split; [|intros _; eexists; reflexivity].
    replace (3 + 4 * S e)%nat with (S (S (S (S (3 + 4 * e))))) by lia. rewrite !after_S, E, step_epoch.
    destruct (Nat.ltb_spec e (c_steps c)) as [_|B]; [|lia]. rewrite step_zeroed, On, step_backward, step_noised, track_S. reflexivity.
Qed.
Lemma in_epoch e j : (e < c_steps c)%nat -> (j < 4)%nat -> exists G p, repulse_after c s (3 + 4 * e + j) = (mem_at base g t (track c x e) true G, p) /\
  forall r, p <> Returned r.
Proof.
  intros L J. destruct (at_epoch e ltac:(lia)) as (G & E & _). destruct Hon as [Z|On]; [lia|].
  destruct j as [|[|[|[|j]]]]; [| | | |lia].
  - rewrite Nat.add_0_r. eexists _, _. split; [exact E|discriminate].
  - rewrite Nat.add_1_r, after_S, E, step_epoch. destruct (Nat.ltb_spec e (c_steps c)) as [_|B]; [|lia]. eexists _, _. split; [reflexivity|discriminate].
  - replace (3 + 4 * e + 2)%nat with (S (S (3 + 4 * e))) by lia. rewrite !after_S, E, step_epoch.
    destruct (Nat.ltb_spec e (c_steps c)) as [_|B]; [|lia]. rewrite step_zeroed, On. eexists _, _. split; [reflexivity|discriminate].
  - replace (3 + 4 * e + 3)%nat with (S (S (S (3 + 4 * e)))) by lia. rewrite !after_S, E, step_epoch.
    destruct (Nat.ltb_spec e (c_steps c)) as [_|B]; [|lia]. rewrite step_zeroed, On, step_backward. eexists _, _. split; [reflexivity|discriminate].
Qed.
Lemma at_end : exists G, repulse_after c s (4 + 4 * c_steps c) = (mem_at base g t (track c x (c_steps c)) false G, Cleared g) /\
  repulse_after c s (whole_call c) = (mkMem (m_store (mem_at base g t (track c x (c_steps c)) false G))
    (m_obj (mem_at base g t (track c x (c_steps c)) false G) ++ [mkTen (x_store t) (x_float t) true false None]), Returned (Ok (length (m_obj base)))) /\
  ((0 < c_steps c)%nat -> exists G', G = Some G').
Proof.
  destruct (at_epoch (c_steps c) (le_n _)) as (G & E & HG). exists G.
  assert (E4 : repulse_after c s (4 + 4 * c_steps c) = (mem_at base g t (track c x (c_steps c)) false G, Cleared g)).
  { replace (4 + 4 * c_steps c)%nat with (S (3 + 4 * c_steps c)) by lia. rewrite after_S, E, step_epoch, Nat.ltb_irrefl. reflexivity. }
  split; [exact E4|]. split; [|exact HG].
  unfold whole_call. replace (5 + 4 * c_steps c)%nat with (S (4 + 4 * c_steps c)) by lia. rewrite after_S, E4. apply step_cleared.
Qed.
Lemma when k : (3 <= k)%nat -> (exists e j, k = 3 + 4 * e + j /\ e < c_steps c /\ j < 4)%nat \/ k = (3 + 4 * c_steps c)%nat \/ k = (4 + 4 * c_steps c)%nat \/ (whole_call c <= k)%nat.
Proof.
  intros L. unfold whole_call. destruct (Nat.lt_ge_cases k (3 + 4 * c_steps c)) as [A|A]; [left|right; lia].
  exists ((k - 3) / 4)%nat, ((k - 3) mod 4)%nat. pose proof (Nat.div_mod (k - 3) 4 ltac:(lia)). pose proof (Nat.mod_upper_bound (k - 3) 4 ltac:(lia)). lia.
Qed.
End Call.

(** Wherever the call is interrupted after line 67, it has made a number of complete updates and nothing else. *)
Lemma interrupted_gen c base g t x s k : nth_error (m_obj base) g = Some t -> nth_error (m_store base) (x_store t) = Some x ->
  repulse_after c s 1 = (base, HasGrid g) -> (1 <= k)%nat ->
  exists e r G tail, (e <= c_steps c)%nat /\
    m_store (fst (repulse_after c s k)) = m_store (mem_at base g t (track c x e) r G) /\
    m_obj (fst (repulse_after c s k)) = m_obj (mem_at base g t (track c x e) r G) ++ tail.
Proof.
  intros Ho Hs H1 K.
  assert (B0 : exists e r G tail, (e <= c_steps c)%nat /\
    m_store base = m_store (mem_at base g t (track c x e) r G) /\ m_obj base = m_obj (mem_at base g t (track c x e) r G) ++ tail).
  { exists 0%nat, (x_req t), (x_grad t), []. change (track c x 0) with x. rewrite (mem_at_start base g t x Ho Hs), app_nil_r. split; [lia|]. split; reflexivity. }
  assert (B : forall e r G p, (e <= c_steps c)%nat -> repulse_after c s k = (mem_at base g t (track c x e) r G, p) -> exists e r G tail, (e <= c_steps c)%nat /\
    m_store (fst (repulse_after c s k)) = m_store (mem_at base g t (track c x e) r G) /\
    m_obj (fst (repulse_after c s k)) = m_obj (mem_at base g t (track c x e) r G) ++ tail).
  { intros e r G p Le E. rewrite E. exists e, r, G, []. rewrite app_nil_r. split; [exact Le|]. split; reflexivity. }
  destruct (Nat.eq_dec k 1) as [->|N1]; [rewrite H1; exact B0|].
  pose proof (after_2 c base g t x Ho Hs s H1) as E2.
  destruct (x_leaf t) eqn:Hl; cbn [negb] in E2.
  2: { pose proof (after_returned_le c s 2 k _ _ ltac:(lia) E2) as E. rewrite E. exact B0. }
  destruct (x_float t) eqn:Hf; cbn [negb] in E2.
  2: { pose proof (after_returned_le c s 2 k _ _ ltac:(lia) E2) as E. rewrite E. exact B0. }
  destruct (Nat.eq_dec k 2) as [->|N2]; [apply (B 0%nat true (x_grad t) (Requires g)); [lia|exact E2]|].
  destruct (Rlt_dec (c_lr c) 0) as [Ln|Lp].
  { pose proof (after_returned_le c s 3 k _ _ ltac:(lia) (after_3_negative c base g t x Ho Hs s H1 Hl Hf Ln)) as E.
    apply (B 0%nat _ _ _ ltac:(lia) E). }
  assert (Lp' : 0 <= c_lr c) by lra.
  destruct (Nat.eq_dec (c_steps c) 0) as [Z|NZ]; [|destruct (c_on c) eqn:On].
  3: { destruct (Nat.eq_dec k 3) as [->|N3]; [apply (B 0%nat _ _ _ ltac:(lia) (after_3 c base g t x Ho Hs s H1 Hl Hf Lp'))|].
       destruct (Nat.eq_dec k 4) as [->|N4].
       { apply (B 0%nat true None (Zeroed g 0) ltac:(lia)). rewrite after_S, (after_3 c base g t x Ho Hs s H1 Hl Hf Lp').
         rewrite (step_epoch c base g t Ho x true (x_grad t) 0).
         destruct (Nat.ltb_spec 0 (c_steps c)) as [_|Q]; [reflexivity|lia]. }
       apply (B 0%nat _ _ _ ltac:(lia) (after_returned_le c s 5 k _ _ ltac:(lia) (after_5_off c base g t x Ho Hs s H1 Hl Hf Lp' On ltac:(lia)))). }
  1, 2: assert (Hon : c_steps c = 0%nat \/ c_on c = true) by (first [left; exact Z|right; exact On]);
    destruct (when c Hon k ltac:(lia)) as [(e & j & -> & Le & Lj)|[->|[->|Lw]]];
    [ destruct (in_epoch c base g t x Ho Hs s H1 Hl Hf Lp' Hon e j Le Lj) as (G & p & E & _); apply (B e _ _ _ ltac:(lia) E)
    | destruct (at_epoch c base g t x Ho Hs s H1 Hl Hf Lp' Hon (c_steps c) (le_n _)) as (G & E & _); apply (B (c_steps c) _ _ _ ltac:(lia) E)
    | destruct (at_end c base g t x Ho Hs s H1 Hl Hf Lp' Hon) as (G & E & _ & _); apply (B (c_steps c) _ _ _ ltac:(lia) E)
    | destruct (at_end c base g t x Ho Hs s H1 Hl Hf Lp' Hon) as (G & _ & E & _);
      rewrite (after_returned_le c s _ k _ _ Lw E); eexists (c_steps c), _, _, _; split; [lia|split; reflexivity] ].
Qed.

Definition cloned (c : rcall) (s : mem) (a : ten) (x : rows) : mem :=
  mkMem (m_store s ++ [x]) (m_obj s ++ [mkTen (length (m_store s)) (x_float a) (negb (c_on c && x_req a)) (c_on c && x_req a) None]).
Definition clone_of (c : rcall) (s : mem) (a : ten) : ten := mkTen (length (m_store s)) (x_float a) (negb (c_on c && x_req a)) (c_on c && x_req a) None.
Lemma first_in_place c s : c_in_place c = true -> repulse_after c s 1 = (s, HasGrid (c_arg c)).
Proof. intros E. cbn [repulse_after repulse_step]. rewrite E. reflexivity. Qed.
Lemma first_clone c s a x : c_in_place c = false -> nth_error (m_obj s) (c_arg c) = Some a -> nth_error (m_store s) (x_store a) = Some x ->
  repulse_after c s 1 = (cloned c s a x, HasGrid (length (m_obj s))) /\
  nth_error (m_obj (cloned c s a x)) (length (m_obj s)) = Some (clone_of c s a) /\
  nth_error (m_store (cloned c s a x)) (x_store (clone_of c s a)) = Some x.
Proof.
  intros E Ha Hx. cbn [repulse_after repulse_step]. rewrite E, Ha. rewrite (nth_error_nth _ _ _ Hx). split; [reflexivity|].
  unfold cloned, clone_of. cbn [m_obj m_store x_store]. rewrite !nth_error_app2, !Nat.sub_diag by lia. split; reflexivity.
Qed.

(** ** The optimised grids *)
Lemma optimise_new_ok on steps lr grad noise start : 0 <= lr -> steps = 0%nat \/ on = true ->
  optimise_new on steps lr grad noise start = Ok (nth (snd (repulse steps lr (/ 1000) grad noise true [start] 0)) (fst (repulse steps lr (/ 1000) grad noise true [start] 0)) []).
Proof.
  intros Hlr Hon. set (c := mkRcall steps lr (/ 1000) grad noise true on 0). set (s := mkMem [start] [mkTen 0 true true false None]).
  destruct (at_end c s 0%nat (mkTen 0 true true false None) start eq_refl eq_refl s (first_in_place c s eq_refl) eq_refl eq_refl Hlr Hon) as (G & _ & E & _).
  unfold optimise_new. fold c s. unfold repulse_call. rewrite E. cbn [fst snd mem_at m_store s upd x_store nth_error of_option].
  pose proof (repulse_spec steps lr (/ 1000) grad noise true [start] 0 start eq_refl) as Sp.
  destruct (repulse steps lr (/ 1000) grad noise true [start] 0) as [h r]. destruct Sp as (Sp & _ & _). cbn [fst snd].
  apply nth_error_nth with (d := []) in Sp. unfold rows, heap in *. rewrite Sp. reflexivity.
Qed.
Lemma optimise_new_err on steps lr grad noise start : lr < 0 \/ (on = false /\ (0 < steps)%nat) ->
  optimise_new on steps lr grad noise start = Err (if Rlt_dec lr 0 then ValueError else RuntimeError).
Proof.
  intros H. set (c := mkRcall steps lr (/ 1000) grad noise true on 0). set (s := mkMem [start] [mkTen 0 true true false None]).
  pose proof (first_in_place c s eq_refl) as E1. unfold optimise_new. fold c s. unfold repulse_call.
  destruct (Rlt_dec lr 0) as [Ln|Lp].
  - rewrite (after_returned_le c s 3 (whole_call c) _ _ ltac:(unfold whole_call; lia)
      (after_3_negative c s 0%nat (mkTen 0 true true false None) start eq_refl eq_refl s E1 eq_refl eq_refl Ln)). reflexivity.
  - destruct H as [L|(On & Sp)]; [contradiction|].
    rewrite (after_returned_le c s 5 (whole_call c) _ _ ltac:(unfold whole_call; cbn [c c_steps]; lia)
      (after_5_off c s 0%nat (mkTen 0 true true false None) start eq_refl eq_refl s E1 eq_refl eq_refl ltac:(cbn [c c_lr]; lra) On Sp)). reflexivity.
Qed.

Lemma so3_in_ok on s n p c o : 0 <= or_lr o -> or_steps o = 0%nat \/ on = true -> so3_uniform_grid_in on s n p c o = so3_uniform_grid s n p c o.
Proof.
  intros Hlr Hon. unfold so3_uniform_grid_in, so3_uniform_grid. destruct (Nat.eqb n 0); [reflexivity|]. destruct (load_grid s n p); [reflexivity|].
  destruct (param_fn (lower p) []); [|reflexivity]. rewrite (optimise_new_ok on _ _ _ _ _ Hlr Hon). unfold so3_optimised.
  destruct (repulse (or_steps o) (or_lr o) (/ 1000) (or_grad o) (or_noise o) true [rows_of_v3 (map so3_random_euler (or_draws o))] 0) as [h l]. reflexivity.
Qed.
Lemma s2_in_ok on p b steps lr grad noise draws : 0 <= lr -> steps = 0%nat \/ on = true ->
  s2_uniform_grid_in on p b steps lr grad noise draws = s2_uniform_grid p b steps lr grad noise draws.
Proof.
  intros Hlr Hon. unfold s2_uniform_grid_in. rewrite (optimise_new_ok on _ _ _ _ _ Hlr Hon). cbn [bind]. unfold s2_uniform_grid, s2_optimised, s2_convert.
  destruct (repulse steps lr (/ 1000) grad noise true [rows_of_sph (map s2_random draws)] 0) as [h l]. reflexivity.
Qed.
Lemma so3_in_off s n p c o : n <> 0%nat -> (forall l, load_grid s n p <> Ok l) -> 0 <= or_lr o -> (0 < or_steps o)%nat ->
  so3_uniform_grid_in false s n p c o = (s, Err (match param_fn (lower p) [] with Ok _ => RuntimeError | Err _ => ValueError end)).
Proof.
  intros Hn Hm Hlr Sp. unfold so3_uniform_grid_in. rewrite (proj2 (Nat.eqb_neq n 0) Hn). destruct (load_grid s n p) as [l|e]; [destruct (Hm l eq_refl)|].
  rewrite (optimise_new_err false _ _ _ _ _ (or_intror (conj eq_refl Sp))).
  destruct (Rlt_dec (or_lr o) 0); [lra|]. cbv zeta.
  assert (E : forall e, param_fn (lower p) [] = Err e -> e = ValueError).
  { intros e'. unfold param_fn. destruct (String.eqb (lower p) "quat"), (String.eqb (lower p) "matrix"), (String.eqb (lower p) "euler"); intros E; congruence. }
  destruct (param_fn (lower p) []) as [t|e']; [reflexivity|]. rewrite (E e' eq_refl). reflexivity.
Qed.
