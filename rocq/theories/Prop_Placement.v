(** C79: devices and dtypes. *)
From Coq Require Import String.
From Verif Require Import Prelude SO3 GridCache GridCacheFacts Placement PlacementFacts.

(** These constructors honour their device argument (None is the CPU) and use the default dtype;
    the masks are float32. *)
Theorem C79_device_honoured : forall (dd : dtype) (d : option device),
  so2_uniform_grid_place dd d = Ok (mkP (on d) dd) /\
  so2_random_grid_place dd d = Ok (mkP (on d) dd) /\
  o2_uniform_grid_place dd d = Ok (mkP (on d) dd) /\
  so3_random_place dd d = Ok (mkP (on d) dd) /\
  s2_random_place dd d = Ok (mkP (on d) dd) /\
  create_grid_place dd d = mkP (on d) dd /\
  create_mask_place dd d = mkP (on d) F32.
Proof.
  intros dd d. repeat split. unfold o2_uniform_grid_place, so2_uniform_grid_place, fresh. cbn [bind].
  rewrite pointwise_same. cbn [bind]. apply pointwise_same.
Qed.
Print Assumptions C79_device_honoured.

(** These do not: the cyclic groups are always on the CPU, and the tabulated groups and the random
    O(2) / O(3) elements cannot be created on any GPU at all. *)
Theorem C79_device_not_honoured : forall (dd : dtype) (d : option device) (n : nat), dd <> I64 ->
  so3_cyclic_place dd d = Ok (mkP CPU dd) /\
  so3_table_place dd (Some (GPU n)) = Err RuntimeError /\
  o2_random_grid_place dd (Some (GPU n)) = Err RuntimeError /\
  o3_random_grid_place dd (Some (GPU n)) = Err RuntimeError /\
  so3_table_place dd (Some CPU) = Ok (mkP CPU dd) /\
  o2_random_grid_place dd (Some CPU) = Ok (mkP CPU dd) /\
  o3_random_grid_place dd (Some CPU) = Ok (mkP CPU dd).
Proof. intros dd d n Hdd. destruct dd; [repeat split..|contradiction]. Qed.
Print Assumptions C79_device_not_honoured.

(** so3.uniform_grid after any history of calls (any sizes, parameterizations, devices, caching or not):
    the grids of up to 24 elements are on the CPU whatever device is asked for; larger ones are
    where the first call that asked to cache this size and parameterization put them, and only without such a call where
    the caller asked. *)
Theorem C79_uniform_grid_after_any_history :
  forall (dd : dtype) (history : list pcall) (size : nat) (param : string) (cache : bool) (d : option device),
  size <> 0%nat -> (lower param = "quat"%string \/ lower param = "matrix"%string) ->
  exists x,
    snd (so3_uniform_grid_place dd (prun dd (pinit dd) history) size param cache d) = Ok x /\
    p_dt x = dd /\
    (size <= 24 -> p_dev x = CPU)%nat /\
    (24 < size ->
       (forall i a, nth_error history i = Some a ->
          c_cache a = true -> c_size a = size -> lower (c_param a) = lower param ->
          (forall j b, j < i -> nth_error history j = Some b ->
             ~ (c_cache b = true /\ c_size b = size /\ lower (c_param b) = lower param)) ->
          p_dev x = on (c_dev a)) /\
       ((forall b, In b history -> ~ (c_cache b = true /\ c_size b = size /\ lower (c_param b) = lower param)) ->
          p_dev x = on d))%nat.
Proof.
  intros dd l n p cache d Hn Hp. rewrite uniform_grid_after by assumption. eexists. split; [reflexivity|].
  assert (Hc : forall a, caches n p a = true <-> c_cache a = true /\ c_size a = n /\ lower (c_param a) = lower p).
  { intros a. unfold caches. rewrite !andb_true_iff, Nat.eqb_eq, String.eqb_eq. tauto. }
  split; [|split].
  - destruct (Nat.leb n 24); [reflexivity|]. destruct (find _ l); reflexivity.
  - intros Hle. apply Nat.leb_le in Hle. rewrite Hle. reflexivity.
  - intros Hlt. destruct (Nat.leb_spec n 24) as [Hle|_]; [lia|]. split.
    + intros i a Hi H1 H2 H3 Hfirst.
      assert (Hf : find (caches n p) l = Some a).
      { assert (Ha : caches n p a = true) by (apply Hc; auto). clear H1 H2 H3.
        revert i Hi Hfirst. induction l as [|b l IH]; intros i Hi Hfirst; [destruct i; discriminate|].
        cbn [find]. destruct i as [|i].
        - injection Hi as ->. rewrite Ha. reflexivity.
        - destruct (caches n p b) eqn:E.
          + exfalso. apply (Hfirst 0%nat b); [lia|reflexivity|]. apply Hc; assumption.
          + apply (IH i Hi). intros j b' Hj Hb. apply (Hfirst (S j) b'); [lia|exact Hb]. }
      rewrite Hf. reflexivity.
    + intros Hnone. destruct (find (caches n p) l) as [a|] eqn:E; [|reflexivity].
      apply find_some in E as [Hin Ha]. exfalso. apply (Hnone a Hin). apply Hc; assumption.
Qed.
Print Assumptions C79_uniform_grid_after_any_history.

Example C79_history_nonvacuous :
  let history := [mkCall 30 "Matrix" true (Some (GPU 1)); mkCall 30 "quat" true None] in
  snd (so3_uniform_grid_place F32 (prun F32 (pinit F32) history) 30 "matrix" false None) = Ok (mkP (GPU 1) F32) /\
  snd (so3_uniform_grid_place F32 (prun F32 (pinit F32) history) 4 "matrix" false (Some (GPU 0))) = Ok (mkP CPU F32) /\
  snd (so3_uniform_grid_place F32 (prun F32 (pinit F32) history) 31 "matrix" false (Some (GPU 0))) = Ok (mkP (GPU 0) F32).
Proof. repeat split. Qed.

(** The empty grid cannot be created on a GPU. *)
Theorem C79_empty_grid : forall (dd : dtype) (c : pcache) (param : string) (cache : bool) (n : nat),
  snd (so3_uniform_grid_place dd c 0 param cache (Some (GPU n))) = Err RuntimeError /\
  snd (so3_uniform_grid_place dd c 0 param cache (Some CPU)) = Ok (mkP CPU dd) /\
  snd (so3_uniform_grid_place dd c 0 param cache None) = Ok (mkP CPU dd).
Proof. intros. repeat split. Qed.
Print Assumptions C79_empty_grid.

(** o3.uniform_grid on a GPU works only when both sizes exceed the table; with the default sizes (4, 4)
    it raises. With matrix_only and two tabulated sizes the result is silently on the CPU.
    (On the CPU the places never clash; which sizes fail there for other reasons is C61.) *)
Theorem C79_o3_uniform_grid_on_a_gpu : forall (dd : dtype) (n m k : nat),
  (o3_uniform_grid_place dd (pinit dd) n m false (Some (GPU k)) =
     if (Nat.ltb 24 n && Nat.ltb 24 m)%bool then Ok (mkP (GPU k) dd) else Err RuntimeError) /\
  (1 <= n <= 24 -> 1 <= m <= 24 ->
     o3_uniform_grid_place dd (pinit dd) n m true (Some (GPU k)) = Ok (mkP CPU dd))%nat /\
  o3_uniform_grid_place dd (pinit dd) n m false (Some CPU) = Ok (mkP CPU dd).
Proof.
  intros dd n m k.
  assert (Hu : forall q d, q <> 0%nat -> snd (so3_uniform_grid_place dd (pinit dd) q "matrix" false d) =
    Ok (if Nat.leb q 24 then mkP CPU dd else fresh dd d)).
  { intros q d Hq. exact (uniform_grid_after dd [] q "matrix"%string false d Hq (or_intror eq_refl)). }
  unfold o3_uniform_grid_place. repeat split.
  - destruct (Nat.eq_dec n 0) as [->|Hn]; [reflexivity|]. rewrite (Hu n) by assumption. cbn [bind].
    rewrite (Nat.ltb_antisym n 24), (Nat.ltb_antisym m 24).
    destruct (Nat.eq_dec m 0) as [->|Hm].
    { rewrite andb_false_r. reflexivity. }
    rewrite (Hu m) by assumption. cbn [bind]. unfold fresh. cbn [on].
    destruct (Nat.leb n 24), (Nat.leb m 24); cbn [negb andb];
      rewrite ?pointwise_same; cbn [bind]; rewrite ?pointwise_same; cbn [bind]; try reflexivity.
  - intros Hn Hm. rewrite (Hu n), (Hu m) by lia. cbn [bind].
    replace (Nat.leb n 24) with true by (symmetry; apply Nat.leb_le; lia).
    replace (Nat.leb m 24) with true by (symmetry; apply Nat.leb_le; lia).
    rewrite pointwise_same. reflexivity.
  - assert (Hc : forall q, snd (so3_uniform_grid_place dd (pinit dd) q "matrix" false (Some CPU)) = Ok (mkP CPU dd)).
    { intros q. destruct (Nat.eq_dec q 0) as [->|Hq]; [reflexivity|]. rewrite (Hu q) by assumption.
      destruct (Nat.leb q 24); reflexivity. }
    rewrite !Hc. cbn [bind]. rewrite pointwise_same. cbn [bind]. unfold fresh. cbn [on].
    rewrite pointwise_same. cbn [bind]. apply pointwise_same.
Qed.
Print Assumptions C79_o3_uniform_grid_on_a_gpu.

(** The places at which a layer of each family can draw its random output rotation. *)
Definition drawable (dd : dtype) (f : family) (p : place) : Prop :=
  match f with
  | SE2 => dd = p_dt p \/ p_dt p = F64
  | SE3 => dd = p_dt p
  | E2 => p_dev p = CPU /\ (dd = p_dt p \/ p_dt p = F64)
  | E3 => p_dev p = CPU /\ dd = p_dt p
  end.

(** A layer built with any options and any grid, moved around in any way and finally to place [p], and called
    with an input and grids at [p]: it returns (output and output grid at [p]) exactly when the
    random element can be drawn there (if permute_output_grid is on) and the default sampling
    width, which does not move with the module, is on the CPU or on [p]'s device (if there is one
    and it is used); otherwise it raises RuntimeError. *)
Theorem C79_where_layers_run :
  forall (dd : dtype) (f : family) (k : kind) (permute rbf default_width mask bias : bool) (g : option place)
         (moves : list move) (p : place) (hout : option place),
  (dd = F32 \/ dd = F64) -> (p_dt p = F32 \/ p_dt p = F64) ->
  (forall h, hout = Some h -> h = p) ->
  let layer := fold_left module_to (moves ++ [mkMove (Some (p_dev p)) (Some (p_dt p))])
                 (build dd f k permute rbf default_width mask bias g) in
  let runs := (permute = true -> drawable dd f p) /\
              (k <> Lifting -> rbf = true -> default_width = true ->
               forall x, g = Some x -> p_dev x = CPU \/ p_dev x = p_dev p) in
  (runs -> call_place dd layer p p hout = Ok (p, p)) /\
  (~ runs -> call_place dd layer p p hout = Err RuntimeError).
Proof.
  intros dd f k permute rbf dw mask bias g moves p hout Hdd Hp Hh layer runs.
  assert (Hst : forall l m, m_fam (fold_left module_to l m) = m_fam m /\ m_kind (fold_left module_to l m) = m_kind m /\
     m_permute (fold_left module_to l m) = m_permute m /\ m_rbf (fold_left module_to l m) = m_rbf m /\
     m_width (fold_left module_to l m) = m_width m).
  { induction l as [|mv l IH]; intros m; cbn [fold_left]; [auto|]. destruct (IH (module_to m mv)) as (A & B & C & D & E).
    rewrite A, B, C, D, E. auto. }
  assert (Hu : uniform layer p).
  { unfold layer. rewrite fold_left_app. cbn [fold_left]. destruct p as [pd pt]. apply moved_uniform. }
  destruct (Hst (moves ++ [mkMove (Some (p_dev p)) (Some (p_dt p))]) (build dd f k permute rbf dw mask bias g))
    as (E1 & E2 & E3 & E4 & E5). fold layer in E1, E2, E3, E4, E5.
  cbn [build m_fam m_kind m_permute m_rbf m_width] in E1, E2, E3, E4, E5.
  assert (Hr : runs <-> ((m_permute layer = true -> can_permute dd (m_fam layer) p) /\
                         (m_kind layer <> Lifting -> width_ok layer (p_dev p)))).
  { unfold runs, width_ok. rewrite E1, E2, E3, E4, E5.
    assert (Hd : drawable dd f p <-> can_permute dd f p).
    { destruct p as [pd pt]. cbn [p_dt] in Hp. destruct f; cbn [drawable can_permute p_dev p_dt];
        destruct Hdd as [->| ->], Hp as [->| ->]; cbn [promote]; intuition congruence. }
    rewrite Hd. split; intros [H1 H2]; (split; [assumption|]).
    - intros Hk Hrbf w Hw. destruct k; [contradiction|..]; destruct dw; try discriminate;
        injection Hw as <-; (destruct g as [x|]; [apply (H2 Hk Hrbf eq_refl x eq_refl)|left; reflexivity]).
    - intros Hk Hrbf Hdw x Hx. subst dw g. apply (H2 Hk Hrbf). destruct k; [contradiction|reflexivity..]. }
  assert (Hdd' : dd <> I64) by (destruct Hdd as [->| ->]; discriminate).
  destruct (call_same dd layer p hout Hdd' Hu Hh) as [Ha Hb].
  split; intros H; [apply Ha; apply Hr; assumption|apply Hb; rewrite <- Hr; assumption].
Qed.
Print Assumptions C79_where_layers_run.

(** An input anywhere else than the module is never accepted, whatever grids are passed. *)
Theorem C79_input_must_be_with_the_module :
  forall (dd : dtype) (m : pmodule) (d : device) (t : dtype) (x hin : place) (hout : option place) (y : place * place),
  call_place dd (module_to m (mkMove (Some d) (Some t))) x hin hout = Ok y ->
  x = mkP d t /\ y = (mkP d t, mkP d t).
Proof.
  intros dd m d t x hin hout y H. exact (call_inv dd _ (mkP d t) x hin hout y (moved_uniform m d t) H).
Qed.
Print Assumptions C79_input_must_be_with_the_module.

(** Defects. With the default permute_output_grid=True, no E(2) or E(3) layer ever runs on a GPU, *)
Theorem C79_reflection_layers_never_run_on_a_gpu :
  forall (dd t : dtype) (f : family) (k : kind) (rbf default_width mask bias : bool) (g : option place)
         (moves : list move) (n : nat) (hout : option place),
  (f = E2 \/ f = E3) -> (dd = F32 \/ dd = F64) -> (t = F32 \/ t = F64) ->
  (forall h, hout = Some h -> h = mkP (GPU n) t) ->
  call_place dd (fold_left module_to (moves ++ [mkMove (Some (GPU n)) (Some t)])
                   (build dd f k true rbf default_width mask bias g))
    (mkP (GPU n) t) (mkP (GPU n) t) hout = Err RuntimeError.
Proof.
  intros dd t f k rbf dw mask bias g moves n hout Hf Hdd Ht Hh.
  apply (C79_where_layers_run dd f k true rbf dw mask bias g moves (mkP (GPU n) t) hout Hdd Ht Hh).
  intros [H _]. specialize (H eq_refl). destruct Hf as [->| ->]; destruct H as [H _]; discriminate.
Qed.
Print Assumptions C79_reflection_layers_never_run_on_a_gpu.

(** and no SE(3) or E(3) layer runs in double precision, on any device; SE(2) layers do. *)
Theorem C79_double_precision :
  forall (k : kind) (rbf default_width mask bias : bool) (moves : list move) (d : device) (hout : option place),
  (forall h, hout = Some h -> h = mkP d F64) ->
  let call f := call_place F32 (fold_left module_to (moves ++ [mkMove (Some d) (Some F64)])
                                  (build F32 f k true rbf default_width mask bias None))
                  (mkP d F64) (mkP d F64) hout in
  call SE3 = Err RuntimeError /\ call E3 = Err RuntimeError /\
  call SE2 = Ok (mkP d F64, mkP d F64) /\
  (d = CPU -> call E2 = Ok (mkP d F64, mkP d F64)).
Proof.
  intros k rbf dw mask bias moves d hout Hh call.
  pose proof (fun f => C79_where_layers_run F32 f k true rbf dw mask bias None moves (mkP d F64) hout
                (or_introl eq_refl) (or_intror eq_refl) Hh) as H. cbn [p_dev p_dt] in H.
  repeat split.
  - apply H. intros [Hd _]. discriminate (Hd eq_refl).
  - apply H. intros [Hd _]. destruct (Hd eq_refl) as [_ Hd']. discriminate.
  - apply H. split; [intros _; right; reflexivity|discriminate].
  - intros ->. apply H. split; [intros _; split; [reflexivity|right; reflexivity]|discriminate].
Qed.
Print Assumptions C79_double_precision.

(** A separable or full layer whose default width was computed from a grid on a GPU can never
    be used on another device. *)
Theorem C79_width_stays_behind :
  forall (dd : dtype) (f : family) (k : kind) (permute mask bias : bool) (x p : place) (moves : list move)
         (hout : option place),
  k <> Lifting -> (dd = F32 \/ dd = F64) -> (p_dt p = F32 \/ p_dt p = F64) ->
  (forall h, hout = Some h -> h = p) ->
  p_dev x <> CPU -> p_dev x <> p_dev p ->
  call_place dd (fold_left module_to (moves ++ [mkMove (Some (p_dev p)) (Some (p_dt p))])
                   (build dd f k permute true true mask bias (Some x))) p p hout = Err RuntimeError.
Proof.
  intros dd f k permute mask bias x p moves hout Hk Hdd Hp Hh H1 H2.
  apply (C79_where_layers_run dd f k permute true true mask bias (Some x) moves p hout Hdd Hp Hh).
  intros [_ H]. destruct (H Hk eq_refl eq_refl x eq_refl); contradiction.
Qed.
Print Assumptions C79_width_stays_behind.

Example C79_nonvacuous :
  let on_gpu := module_to (build F32 SE3 Full true true true true true None) (mkMove (Some (GPU 0)) None) in
  call_place F32 on_gpu (mkP (GPU 0) F32) (mkP (GPU 0) F32) None = Ok (mkP (GPU 0) F32, mkP (GPU 0) F32) /\
  call_place F32 on_gpu (mkP CPU F32) (mkP (GPU 0) F32) None = Err RuntimeError /\
  call_place F32 (build F32 E3 Lifting true true true true true None) (mkP CPU F32) (mkP CPU F32) None
    = Ok (mkP CPU F32, mkP CPU F32) /\
  call_place F32 (build F32 SE2 Separable true true true true true (Some (mkP (GPU 1) F32)))
    (mkP CPU F32) (mkP CPU F32) None = Err RuntimeError.
Proof. repeat split. Qed.

(** The value model and the device model of so3.uniform_grid raise the same exceptions, after the same
    history, for every call that is not an empty grid on a GPU. *)
Theorem C79_agrees_with_the_value_model :
  forall (dd : dtype) (history : list (pcall * oracle)) (size : nat) (param : string) (cache : bool)
         (o : oracle) (d : option device),
  (size <> 0%nat \/ on d = CPU) ->
  let s := grun ginit (map (fun ao => GCall (c_size (fst ao)) (c_param (fst ao)) (c_cache (fst ao)) (snd ao)) history) in
  let c := prun dd (pinit dd) (map fst history) in
  match snd (so3_uniform_grid s size param cache o), snd (so3_uniform_grid_place dd c size param cache d) with
  | Ok _, Ok _ => True
  | Err e, Err e' => e = e'
  | _, _ => False
  end.
Proof.
  intros dd history size param cache o d Hd s c.
  set (agree := fun (s : gstate) (c : pcache) =>
    forall n, (gs_quat s n = None <-> pc_quat c n = None) /\ (gs_matrix s n = None <-> pc_matrix c n = None)).
  assert (Hcall : forall s c n p cc o d, agree s c ->
    agree (fst (so3_uniform_grid s n p cc o)) (fst (so3_uniform_grid_place dd c n p cc d)) /\
    (n <> 0%nat \/ on d = CPU ->
     match snd (so3_uniform_grid s n p cc o), snd (so3_uniform_grid_place dd c n p cc d) with
     | Ok _, Ok _ => True | Err e, Err e' => e = e' | _, _ => False end)).
  { clear. intros s c n p cc o d Ha.
    destruct (Nat.eq_dec n 0) as [->|Hn].
    { unfold so3_uniform_grid, so3_uniform_grid_place. rewrite Nat.eqb_refl. cbn [alloc fst snd]. split.
      - intros k. cbn [gs_quat gs_matrix]. apply Ha.
      - intros [H|H]; [contradiction|]. unfold legacy_tensor. rewrite H. exact I. }
    rewrite place_call by assumption. unfold so3_uniform_grid.
    apply Nat.eqb_neq in Hn. rewrite Hn. unfold load_grid, load_place, param_fn, save_grid, load_grid, alloc.
    destruct (Ha n) as [Hq Hm]. rewrite !lower_idem.
    destruct (String.eqb (lower p) "quat") eqn:Eq.
    - destruct (gs_quat s n) as [l|] eqn:E1, (pc_quat c n) as [x|] eqn:E2; cbn [Interp.of_option of_opt bind orb];
        try (exfalso; intuition discriminate).
      + split; [exact Ha|intros _; exact I].
      + destruct cc; cbn [gs_quat gs_matrix gs_heap fst snd]; rewrite ?E1; cbn [Interp.of_option fst snd gs_quat gs_matrix gs_heap].
        * split; [|intros _; exact I]. intros k. cbn [gs_quat gs_matrix pc_quat pc_matrix]. unfold set_at, pset.
          destruct (Nat.eqb k n); [split; [split; discriminate|apply Ha]|apply Ha].
        * split; [|intros _; exact I]. intros k. apply Ha.
    - destruct (String.eqb (lower p) "matrix") eqn:Em.
      + destruct (gs_matrix s n) as [l|] eqn:E1, (pc_matrix c n) as [x|] eqn:E2; cbn [Interp.of_option of_opt bind orb];
          try (exfalso; intuition discriminate).
        * split; [exact Ha|intros _; exact I].
        * destruct cc; cbn [gs_quat gs_matrix gs_heap fst snd]; rewrite ?E1; cbn [Interp.of_option fst snd gs_quat gs_matrix gs_heap].
          -- split; [|intros _; exact I]. intros k. cbn [gs_quat gs_matrix pc_quat pc_matrix]. unfold set_at, pset.
             destruct (Nat.eqb k n); [split; [apply Ha|split; discriminate]|apply Ha].
          -- split; [|intros _; exact I]. intros k. apply Ha.
      + cbn [orb]. destruct (String.eqb (lower p) "euler").
        * destruct cc; cbn [gs_quat gs_matrix gs_heap fst snd]; (split; [intros k; apply Ha|intros _; reflexivity || exact I]).
        * cbn [fst snd]. split; [exact Ha|intros _; reflexivity]. }
  apply Hcall; [|assumption]. unfold s, c. clear - Hcall.
  assert (H0 : agree ginit (pinit dd)).
  { intros n. cbn [ginit gs_quat gs_matrix pinit pc_quat pc_matrix]. destruct (Nat.leb 1 n && Nat.leb n 24)%bool;
      split; split; intros H; (discriminate || reflexivity). }
  revert H0. unfold grun, prun. generalize ginit, (pinit dd).
  induction history as [|[a o] l IH]; intros s0 c0 H0; [exact H0|]. cbn [map fold_left fst snd]. apply IH.
  cbn [gstep]. unfold pstep. apply Hcall. exact H0.
Qed.
Print Assumptions C79_agrees_with_the_value_model.
