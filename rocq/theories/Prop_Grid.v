(** Property theorems C27, C32, C33, C58, C61, C65, C66, C67: s2.py, repulsion.py, so3/o3.uniform_grid
    with the grid cache. *)
From Coq Require Import String Permutation.
From Verif Require Import Prelude RMath Mat SO3 SO3Euler SO3More O3 Repulse RepulseFacts S2 S2Facts
  GridTables GridTablesFacts GridCache GridCacheFacts.
Open Scope R_scope.

(** C27. [ginit] is the module state after import, [grun] a history of calls and in-place writes,
    [outcome] what the caller sees (exception or tensor contents). *)
Theorem C27_size_zero_empty : forall s p c o, outcome (so3_uniform_grid s 0 p c o) = Ok (Some TEmpty).
Proof. exact size_zero. Qed.
Print Assumptions C27_size_zero_empty.

Theorem C27_unknown_parameterization_raises : forall s n p c o, n <> 0%nat ->
  lower p <> "quat"%string -> lower p <> "matrix"%string -> lower p <> "euler"%string ->
  so3_uniform_grid s n p c o = (s, Err ValueError).
Proof.
  intros s n p c o Hn H1 H2 H3. apply unknown_raises; [assumption|].
  unfold known_param, is_quat, is_matrix, is_euler. tauto.
Qed.
Print Assumptions C27_unknown_parameterization_raises.

Theorem C27_tabulated_sizes_return_the_table : forall ops n p c o,
  Forall (fun a => is_write a = false /\ op_ok a) ops -> (1 <= n <= 24)%nat ->
  (lower p = "quat"%string ->
     outcome (so3_uniform_grid (grun ginit ops) n p c o) = Ok (Some (TQuat (table_quat n)))) /\
  (lower p = "matrix"%string -> n <> 1%nat ->
     outcome (so3_uniform_grid (grun ginit ops) n p c o) = Ok (Some (TMat (table_matrix n)))) /\
  fst (so3_uniform_grid (grun ginit ops) n "quat" c o) = grun ginit ops.
Proof.
  intros ops n p c o Hw Hn. split; [|split].
  - intros Hp. destruct (tabulated_quat ops n p c o Hw Hn Hp) as (l & E & Hl).
    unfold outcome. rewrite E. cbn [fst snd]. rewrite Hl. reflexivity.
  - intros Hp H1. destruct (tabulated_matrix ops n p c o Hw ltac:(lia) Hp) as (l & E & Hl).
    unfold outcome. rewrite E. cbn [fst snd]. rewrite Hl. reflexivity.
  - destruct (tabulated_quat ops n "quat" c o Hw Hn eq_refl) as (l & E & Hl). rewrite E. reflexivity.
Qed.
Print Assumptions C27_tabulated_sizes_return_the_table.

(** Without caching and writes no call influences a later one, whatever happened before. *)
Theorem C27_uncached_calls_are_independent : forall h ops n p c o,
  Forall (fun a => match a with GCall _ _ cache _ => cache = false | GWrite _ _ => False end) ops ->
  outcome (so3_uniform_grid (grun (grun ginit h) ops) n p c o)
  = outcome (so3_uniform_grid (grun ginit h) n p c o).
Proof. exact uncached_calls_change_nothing. Qed.
Print Assumptions C27_uncached_calls_are_independent.

Theorem C27_fresh_grids : forall h n p c o, cache_free h -> (24 < n)%nat -> oracle_ok n o ->
  let r := outcome (so3_uniform_grid (grun ginit h) n p c o) in
  (lower p = "quat"%string -> exists l, r = Ok (Some (TQuat l)) /\ List.length l = n /\ forall q, In q l ->
      unitq q /\ exists g : V3, q = so3_euler_to_quat g (/ 10 ^ 6)) /\
  (lower p = "matrix"%string -> exists l, r = Ok (Some (TMat l)) /\ List.length l = n /\ forall m, In m l ->
      exists g : V3, close3 (/ 10 ^ 6) m (ZYZ g)) /\
  (lower p = "euler"%string -> c = false -> exists l, r = Ok (Some (TRows3 l)) /\ List.length l = n) /\
  (lower p = "euler"%string -> c = true -> r = Err KeyError) /\
  (~ known_param p -> r = Err ValueError).
Proof. exact fresh_grid. Qed.
Print Assumptions C27_fresh_grids.

(** Defect: after caching, the next caller asking for quaternions (matrices) gets an (n,3) tensor of
    Euler angles. *)
Theorem C27_cached_grid_returns_euler_angles : forall ops1 ops2 n p p' c o o',
  write_free ops1 -> write_free ops2 -> (24 < n)%nat -> oracle_ok n o ->
  (lower p = "quat"%string /\ lower p' = "quat"%string) \/
  (lower p = "matrix"%string /\ lower p' = "matrix"%string) ->
  exists e, List.length e = n /\
    outcome (so3_uniform_grid (grun ginit (ops1 ++ [GCall n p true o] ++ ops2)) n p' c o')
    = Ok (Some (TRows3 e)).
Proof.
  intros ops1 ops2 n p p' c o o' H1 H2 Hn Ho [[Hp Hp']|[Hp Hp']].
  - destruct (caching_stores_euler_quat ops1 ops2 n p p' c o o' H1 H2 Hn Hp Hp' Ho) as (e & E & L). eauto.
  - destruct (caching_stores_euler_matrix ops1 ops2 n p p' c o o' H1 H2 Hn Hp Hp' Ho) as (e & E & L). eauto.
Qed.
Print Assumptions C27_cached_grid_returns_euler_angles.

Theorem C27_cached_quaternions_refuted :
  ~ (forall ops n o, write_free ops -> exists l,
       outcome (so3_uniform_grid (grun ginit ops) n "quat" false o) = Ok (Some (TQuat l)) \/ n = 0%nat).
Proof.
  intros H.
  destruct (caching_stores_euler_quat [] [] 30 "quat" "quat" false (ex_oracle 30) (ex_oracle 30)
     (Forall_nil _) (Forall_nil _) ltac:(lia) eq_refl eq_refl (ex_oracle_ok 30)) as (e & E & _).
  destruct (H ([] ++ [GCall 30 "quat" true (ex_oracle 30)] ++ []) 30%nat (ex_oracle 30)) as (l & [E2|E2]).
  - apply Forall_cons; [split; [reflexivity|apply ex_oracle_ok]|apply Forall_nil].
  - rewrite E in E2. discriminate.
  - discriminate.
Qed.
Print Assumptions C27_cached_quaternions_refuted.

Theorem C27_euler_with_cache_always_raises : forall s n p o, n <> 0%nat -> lower p = "euler"%string ->
  outcome (so3_uniform_grid s n p true o) = Err KeyError.
Proof. exact euler_cache_raises. Qed.
Print Assumptions C27_euler_with_cache_always_raises.

(** Defect: writing in place into a returned tabulated grid changes what every later caller gets. *)
Theorem C27_results_alias_the_cache : forall h n p p' c c' o o' t ops,
  write_free h -> write_free ops -> (1 <= n <= 24)%nat ->
  lower p = "quat"%string -> lower p' = "quat"%string ->
  exists l, snd (so3_uniform_grid (grun ginit h) n p c o) = Ok l /\
   outcome (so3_uniform_grid (grun (grun ginit h) ([GCall n p c o; GWrite l t] ++ ops)) n p' c' o')
   = Ok (Some t).
Proof. exact alias_quat. Qed.
Print Assumptions C27_results_alias_the_cache.

(** Defect: shape (3,3), i.e. three rows of three numbers, instead of (1,3,3). *)
Theorem C27_size_one_matrix_has_no_batch_axis : forall ops p c o, write_free ops -> lower p = "matrix"%string ->
  outcome (so3_uniform_grid (grun ginit ops) 1 p c o)
  = Ok (Some (TRows3 [mkV3 1 0 0; mkV3 0 1 0; mkV3 0 0 1])).
Proof.
  intros ops p c o Hw Hp. destruct (tabulated_matrix_1 ops p c o Hw Hp) as (l & E & Hl).
  unfold outcome. rewrite E. cbn [fst snd]. rewrite Hl. reflexivity.
Qed.
Print Assumptions C27_size_one_matrix_has_no_batch_axis.

(** [lower p = "matrix"] above means: p is "matrix" up to the case of its letters. *)
Definition same_letter (c l : Ascii.ascii) : Prop := c = l \/
  exists i, String.get i "ABCDEFGHIJKLMNOPQRSTUVWXYZ" = Some c /\ String.get i "abcdefghijklmnopqrstuvwxyz" = Some l.
Fixpoint same_word (s t : string) : Prop :=
  match s, t with
  | EmptyString, EmptyString => True
  | String c s, String l t => same_letter c l /\ same_word s t
  | _, _ => False
  end.
Lemma same_letter_lower c l : (forall i, String.get i "ABCDEFGHIJKLMNOPQRSTUVWXYZ" <> Some l) -> (lower_ascii c = l <-> same_letter c l).
Proof.
  intros Hl. split.
  - intros E. unfold same_letter. destruct c as [b0 b1 b2 b3 b4 b5 b6 b7].
    destruct b0, b1, b2, b3, b4, b5, b6, b7; vm_compute in E; subst l; (left; reflexivity) ||
      (right; match goal with |- exists i, _ = Some ?c /\ _ =>
         let i := eval vm_compute in (Nat.sub (Ascii.nat_of_ascii c) 65) in exists i; split; reflexivity end).
  - intros [->|(i & E1 & E2)].
    + unfold lower_ascii. destruct (Nat.leb 65 (Ascii.nat_of_ascii l) && Nat.leb (Ascii.nat_of_ascii l) 90)%bool eqn:B; [|reflexivity].
      exfalso. apply (Hl (Ascii.nat_of_ascii l - 65)%nat). revert B. clear. destruct l as [b0 b1 b2 b3 b4 b5 b6 b7].
      destruct b0, b1, b2, b3, b4, b5, b6, b7; vm_compute; intros B; congruence.
    + do 26 (destruct i as [|i]; [vm_compute in E1, E2; injection E1 as <-; injection E2 as <-; reflexivity|]). vm_compute in E1. destruct i; discriminate.
Qed.
Theorem C27_case_insensitive : forall p name, In name ["quat"; "matrix"; "euler"; "spherical"; "euclidean"]%string ->
  (lower p = name <-> same_word p name).
Proof.
  intros p name Hn.
  assert (K : forall t, (forall i c, String.get i t = Some c -> forall j, String.get j "ABCDEFGHIJKLMNOPQRSTUVWXYZ" <> Some c) ->
    forall s, lower s = t <-> same_word s t).
  { induction t as [|l t IH]; intros Ht s; destruct s as [|c s]; cbn [lower same_word]; try (split; [discriminate|intros []]); [tauto|].
    assert (Hl : forall i, String.get i "ABCDEFGHIJKLMNOPQRSTUVWXYZ" <> Some l) by (exact (Ht 0%nat l eq_refl)).
    rewrite <- (same_letter_lower c l Hl), <- (IH (fun i => Ht (S i)) s). split; [intros E; injection E as E1 E2; auto|intros [-> ->]; reflexivity]. }
  apply K. intros i c E j Ej.
  assert (Hc : (Ascii.nat_of_ascii c < 97)%nat).
  { do 26 (destruct j as [|j]; [vm_compute in Ej; injection Ej as <-; vm_compute; lia|]). vm_compute in Ej. destruct j; discriminate. }
  assert (Hc' : (97 <= Ascii.nat_of_ascii c)%nat); [|lia].
  destruct Hn as [<-|[<-|[<-|[<-|[<-|[]]]]]]; (do 10 (destruct i as [|i]; [vm_compute in E; first [discriminate|injection E as <-; vm_compute; lia]|])); vm_compute in E; destruct i; discriminate.
Qed.
Print Assumptions C27_case_insensitive.

Example C27_nonvacuous : write_free [GCall 30 "Quat" true (ex_oracle 30); GCall 7 "matrix" true (ex_oracle 7)]
  /\ cache_free [GCall 30 "EULER" false (ex_oracle 30)] /\ oracle_ok 30 (ex_oracle 30)
  /\ lower "QuaT" = "quat"%string.
Proof.
  split; [|split; [|split]].
  - apply Forall_cons; [split; [reflexivity|apply ex_oracle_ok]|].
    apply Forall_cons; [split; [reflexivity|apply ex_oracle_ok]|apply Forall_nil].
  - apply Forall_cons; [reflexivity|apply Forall_nil].
  - apply ex_oracle_ok.
  - reflexivity.
Qed.

(** C32 *)
Theorem C32_unit_vectors : forall g, dot3 (s2_spherical_to_euclid g) (s2_spherical_to_euclid g) = 1.
Proof. exact s2_unit. Qed.
Print Assumptions C32_unit_vectors.
Theorem C32_roundtrip_from_euclid : forall x, dot3 x x = 1 ->
  s2_spherical_to_euclid (s2_euclid_to_spherical x) = x /\
  0 <= v2x (s2_euclid_to_spherical x) <= PI /\ - PI < v2y (s2_euclid_to_spherical x) <= PI.
Proof. intros x H. split; [exact (s2_roundtrip x H)|exact (s2_spherical_range x)]. Qed.
Print Assumptions C32_roundtrip_from_euclid.
Theorem C32_roundtrip_from_spherical : forall b g, 0 < b < PI -> - PI < g <= PI ->
  s2_euclid_to_spherical (s2_spherical_to_euclid (mkV2 b g)) = mkV2 b g.
Proof. exact s2_roundtrip_back. Qed.
Print Assumptions C32_roundtrip_from_spherical.
Theorem C32_random_points : forall d, 0 < dot3 d d ->
  scalv3 (norm3 d) (s2_spherical_to_euclid (s2_random d)) = d.
Proof. exact s2_random_direction. Qed.
Print Assumptions C32_random_points.
Example C32_nonvacuous : dot3 (mkV3 0 0 (-1)) (mkV3 0 0 (-1)) = 1 /\ dot3 (mkV3 0 (3/5) (4/5)) (mkV3 0 (3/5) (4/5)) = 1.
Proof. unfold dot3; simpl. lra. Qed.

(** C33 *)
Theorem C33_spherical_to_euler : forall g i x, nth_error g i = Some x ->
  nth_error (s2_spherical_to_euler g) i = Some (mkV3 0 (v2x x) (v2y x)).
Proof. exact spherical_to_euler_nth. Qed.
Print Assumptions C33_spherical_to_euler.
Theorem C33_neg_gamma_always_raises : forall g, g <> [] -> s2_spherical_to_euler_neg_gamma g = Err RuntimeError.
Proof. exact neg_gamma_raises. Qed.
Print Assumptions C33_neg_gamma_always_raises.
Theorem C33_uniform_grid_neg_gamma_raises : forall param steps lr grad noise draws,
  let n := List.length draws in
  (forall x, shaped n 2 x -> shaped n 2 (grad x)) -> (forall e, shaped n 2 (noise e)) -> (0 < n)%nat ->
  lower param = "euler"%string \/ lower param = "matrix"%string \/ lower param = "quat"%string ->
  s2_uniform_grid param true steps lr grad noise draws = Err RuntimeError.
Proof. exact s2_uniform_neg_gamma. Qed.
Print Assumptions C33_uniform_grid_neg_gamma_raises.
Theorem C33_unknown_parameterization : forall param b steps lr grad noise draws,
  ~ In (lower param) ["spherical"; "euclidean"; "euler"; "matrix"; "quat"]%string ->
  s2_uniform_grid param b steps lr grad noise draws = Err UnboundLocalError.
Proof. exact s2_uniform_unknown. Qed.
Print Assumptions C33_unknown_parameterization.
Theorem C33_parameterizations : forall param steps lr grad noise draws,
  let grid := s2_optimised steps lr grad noise draws in
  (lower param = "spherical"%string ->
     s2_uniform_grid param false steps lr grad noise draws = Ok (S2Spherical grid)) /\
  (lower param = "euclidean"%string ->
     s2_uniform_grid param false steps lr grad noise draws = Ok (S2Euclid (map s2_spherical_to_euclid grid))) /\
  (lower param = "euler"%string ->
     s2_uniform_grid param false steps lr grad noise draws = Ok (S2Euler (map (fun g => mkV3 0 (v2x g) (v2y g)) grid))) /\
  (lower param = "matrix"%string ->
     s2_uniform_grid param false steps lr grad noise draws
     = Ok (S2Matrix (map (fun g => so3_euler_to_matrix (mkV3 0 (v2x g) (v2y g)) (/ 10 ^ 6)) grid))) /\
  (lower param = "quat"%string ->
     s2_uniform_grid param false steps lr grad noise draws
     = Ok (S2Quat (map (fun g => so3_euler_to_quat (mkV3 0 (v2x g) (v2y g)) (/ 10 ^ 6)) grid))).
Proof. exact s2_uniform_ok. Qed.
Print Assumptions C33_parameterizations.
Theorem C33_grid_size : forall steps lr grad noise draws,
  let n := List.length draws in
  (forall x, shaped n 2 x -> shaped n 2 (grad x)) -> (forall e, shaped n 2 (noise e)) ->
  List.length (s2_optimised steps lr grad noise draws) = n.
Proof. exact s2_optimised_length. Qed.
Print Assumptions C33_grid_size.
Example C33_nonvacuous :
  let draws := [mkV3 1 2 3; mkV3 0 0 1] in
  (forall x, shaped 2 2 x -> shaped 2 2 ((fun x => x) x)) /\
  (forall e : nat, shaped 2 2 ((fun _ => [[1; 2]; [3; 4]]) e)) /\ (0 < List.length draws)%nat /\
  ~ In (lower "hopf") ["spherical"; "euclidean"; "euler"; "matrix"; "quat"]%string.
Proof.
  split; [auto|]. split; [|split; [simpl; lia|]].
  - intros e. split; [reflexivity|]. intros r [<-|[<-|[]]]; reflexivity.
  - simpl. intuition discriminate.
Qed.

(** C58. Tensors are locations [l] of a heap [h]; [grad] stands for autograd. *)
Theorem C58_not_in_place_keeps_the_callers_tensors : forall steps lr alpha grad noise h l x,
  nth_error h l = Some x ->
  let '(h', r) := repulse steps lr alpha grad noise false h l in
  (forall l', (l' < List.length h)%nat -> nth_error h' l' = nth_error h l') /\ nth_error h r = None.
Proof.
  intros steps lr alpha grad noise h l x Hx.
  pose proof (repulse_spec steps lr alpha grad noise false h l x Hx) as H.
  destruct (repulse steps lr alpha grad noise false h l) as [h' r]. destruct H as (_ & -> & H).
  split; [intros l' Hl; apply H; [assumption|lia]|]. apply nth_error_None. lia.
Qed.
Print Assumptions C58_not_in_place_keeps_the_callers_tensors.

Theorem C58_in_place_writes_only_its_argument : forall steps lr alpha grad noise h l x,
  nth_error h l = Some x ->
  let '(h', r) := repulse steps lr alpha grad noise true h l in
  r = l /\ forall l', (l' < List.length h)%nat -> l' <> l -> nth_error h' l' = nth_error h l'.
Proof.
  intros steps lr alpha grad noise h l x Hx.
  pose proof (repulse_spec steps lr alpha grad noise true h l x Hx) as H.
  destruct (repulse steps lr alpha grad noise true h l) as [h' r]. destruct H as (_ & -> & H).
  split; [reflexivity|assumption].
Qed.
Print Assumptions C58_in_place_writes_only_its_argument.

Theorem C58_both_modes_return_the_same_values : forall steps lr alpha grad noise h l x,
  nth_error h l = Some x ->
  let '(h1, r1) := repulse steps lr alpha grad noise true h l in
  let '(h2, r2) := repulse steps lr alpha grad noise false h l in
  nth_error h1 r1 = nth_error h2 r2 /\ nth_error h1 r1 <> None.
Proof.
  intros steps lr alpha grad noise h l x Hx.
  pose proof (repulse_spec steps lr alpha grad noise true h l x Hx) as H1.
  pose proof (repulse_spec steps lr alpha grad noise false h l x Hx) as H2.
  destruct (repulse steps lr alpha grad noise true h l) as [h1 r1].
  destruct (repulse steps lr alpha grad noise false h l) as [h2 r2].
  destruct H1 as (-> & _), H2 as (-> & _). split; [reflexivity|discriminate].
Qed.
Print Assumptions C58_both_modes_return_the_same_values.

Theorem C58_trajectory : forall n d steps lr alpha grad noise in_place h l x,
  nth_error h l = Some x -> shaped n d x ->
  (forall y, shaped n d y -> shaped n d (grad y)) -> (forall e, shaped n d (noise e)) ->
  exists t : nat -> rows,
    t 0%nat = x /\ (forall k, shaped n d (t k)) /\
    (forall k i j, (k < steps)%nat -> (i < n)%nat -> (j < d)%nat ->
       entry (t (S k)) i j = entry (t k) i j
         - lr * (entry (grad (t k)) i j + (INR steps - INR k) / INR steps * alpha * entry (noise k) i j)) /\
    let '(h', r) := repulse steps lr alpha grad noise in_place h l in nth_error h' r = Some (t steps).
Proof. exact repulse_trajectory. Qed.
Print Assumptions C58_trajectory.

Theorem C58_zero_steps : forall lr alpha grad noise in_place h l x,
  nth_error h l = Some x ->
  let '(h', r) := repulse 0 lr alpha grad noise in_place h l in nth_error h' r = Some x.
Proof.
  intros lr alpha grad noise in_place h l x Hx.
  pose proof (repulse_spec 0 lr alpha grad noise in_place h l x Hx) as H.
  destruct (repulse 0 lr alpha grad noise in_place h l) as [h' r]. apply H.
Qed.
Print Assumptions C58_zero_steps.

Theorem C58_noise_schedule : forall steps alpha, (0 < steps)%nat -> 0 < alpha ->
  noise_coeff steps alpha 0 = alpha /\
  noise_coeff steps alpha (steps - 1) = alpha / INR steps /\
  forall e, (S e < steps)%nat -> 0 < noise_coeff steps alpha (S e) < noise_coeff steps alpha e.
Proof. exact noise_schedule. Qed.
Print Assumptions C58_noise_schedule.

Example C58_nonvacuous : nth_error [[[1; 2]]; [[3; 4]; [5; 6]]] 1 = Some [[3; 4]; [5; 6]] /\
  shaped 2 2 [[3; 4]; [5; 6]] /\ 
  entry (nth 0 (fst (repulse 1 (1/10) 1 (fun x => x) (fun _ => [[1; 1]; [1; 1]]) true [[[3; 4]; [5; 6]]] 0%nat)) []) 1 0
  = 5 - 1/10 * (5 + 1).
Proof.
  split; [reflexivity|]. split.
  - split; [reflexivity|]. intros r [<-|[<-|[]]]; reflexivity.
  - unfold repulse, repulse_loop, repulse_epoch, t_sub, t_scale, t_add, entry, noise_coeff; simpl. lra.
Qed.

(** C61 *)
Theorem C61_uniform_grid_layout : forall h n m o1 o2,
  cache_free h -> oracle_ok n o1 -> oracle_ok m o2 -> n <> 1%nat -> m <> 1%nat -> (n + m <> 0)%nat ->
  exists g, snd (o3_uniform_grid (grun ginit h) n m false o1 o2) = Ok (O3Grid g) /\
    List.length g = (n + m)%nat /\
    (forall i e, nth_error g i = Some e -> o3c e = if Nat.ltb i n then 1 else -1) /\
    exists ms, snd (o3_uniform_grid (grun ginit h) n m true o1 o2) = Ok (O3Matrices (TMat ms)) /\ ms = map o3r g.
Proof. exact o3_uniform_ok. Qed.
Print Assumptions C61_uniform_grid_layout.
Theorem C61_size_one_always_raises : forall h n m o1 o2, write_free h -> oracle_ok n o1 -> oracle_ok m o2 ->
  n = 1%nat \/ m = 1%nat ->
  snd (o3_uniform_grid (grun ginit h) n m false o1 o2) = Err RuntimeError.
Proof. exact o3_uniform_one. Qed.
Print Assumptions C61_size_one_always_raises.
Theorem C61_size_zero_raises : forall s o1 o2,
  snd (o3_uniform_grid s 0 0 false o1 o2) = Err IndexError /\
  snd (o3_uniform_grid s 0 0 true o1 o2) = Ok (O3Matrices TEmpty).
Proof. exact o3_uniform_empty. Qed.
Print Assumptions C61_size_zero_raises.
Theorem C61_broken_by_so3_caching : forall ops1 ops2 n p o o1 o2,
  write_free ops1 -> write_free ops2 -> (24 < n)%nat -> lower p = "matrix"%string -> oracle_ok n o ->
  snd (o3_uniform_grid (grun ginit (ops1 ++ [GCall n p true o] ++ ops2)) n n false o1 o2) = Err RuntimeError.
Proof. exact o3_uniform_poisoned. Qed.
Print Assumptions C61_broken_by_so3_caching.
Example C61_nonvacuous : cache_free [GCall 30 "quat" false (ex_oracle 30)] /\ oracle_ok 8 (ex_oracle 8).
Proof. split; [apply Forall_cons; [reflexivity|apply Forall_nil]|apply ex_oracle_ok]. Qed.

(** C65 *)
Theorem C65_tabulated_grids_are_valid : forall n, (1 <= n <= 24)%nat ->
  List.length (table_quat n) = n /\ List.length (table_matrix n) = n /\
  (forall q, In q (table_quat n) -> Rabs (qdot q q - 1) <= 2 / 10 ^ 4) /\
  (forall i j p q, i <> j -> nth_error (table_quat n) i = Some p -> nth_error (table_quat n) j = Some q ->
     Rabs (qdot p q) <= 74 / 100) /\
  (forall i q m, nth_error (table_quat n) i = Some q -> nth_error (table_matrix n) i = Some m ->
     close3 (25 / 10 ^ 5) m (so3_quat_to_matrix q)) /\
  (forall m, In m (table_matrix n) -> close3 (2 / 10 ^ 4) (mul3 (tr3 m) m) I3).
Proof. exact tables_valid. Qed.
Print Assumptions C65_tabulated_grids_are_valid.
Example C65_nonvacuous : exists q, nth_error (table_quat 4) 2 = Some q.
Proof. eexists. reflexivity. Qed.

(** C66 *)
Theorem C66_s2_distance : forall a b eps, 0 < eps < 1 ->
  s2_geodesic_distance a b eps = s2_geodesic_distance b a eps /\
  acos (1 - eps) <= s2_geodesic_distance a b eps <= acos (-1 + eps) /\
  (-1 + eps <= dot3 a b <= 1 - eps -> s2_geodesic_distance a b eps = acos (dot3 a b)) /\
  (dot3 a a = 1 -> s2_geodesic_distance a a eps = acos (1 - eps)) /\
  (forall A, isO3 A -> s2_geodesic_distance (app3 A a) (app3 A b) eps = s2_geodesic_distance a b eps).
Proof.
  intros a b eps He. split; [apply s2_dist_sym|]. split; [apply s2_dist_range; assumption|].
  split; [apply s2_dist_exact|]. split; [intros; apply s2_dist_self; assumption|].
  intros A HA. apply s2_dist_invariant; assumption.
Qed.
Print Assumptions C66_s2_distance.
Theorem C66_euler_lift_moves_the_pole : forall grid,
  map (fun e => app3 (so3_euler_to_matrix e 0) (mkV3 0 0 1)) (s2_spherical_to_euler grid) = map s2_spherical_to_euclid grid.
Proof. intros grid. unfold s2_spherical_to_euler. rewrite map_map. apply map_ext. exact s2_euler_maps_pole. Qed.
Print Assumptions C66_euler_lift_moves_the_pole.
Theorem C66_euler_lift_moves_the_pole_eps : forall grid eps, 0 <= eps ->
  Forall2 (fun e g => let p := app3 (so3_euler_to_matrix e eps) (mkV3 0 0 1) in
    Rabs (vx p - vx (s2_spherical_to_euclid g)) <= eps /\
    Rabs (vy p - vy (s2_spherical_to_euclid g)) <= eps /\
    Rabs (vz p - vz (s2_spherical_to_euclid g)) <= eps) (s2_spherical_to_euler grid) grid.
Proof. intros grid eps He. unfold s2_spherical_to_euler. induction grid as [|g grid IH]; constructor; [apply (s2_euler_maps_pole_eps g eps He)|exact IH]. Qed.
Print Assumptions C66_euler_lift_moves_the_pole_eps.

(** C67 *)
Theorem C67_energy_is_the_mean_over_distinct_pairs :
  forall (P Q : Type) (transform : P -> Q) (metric : Q -> Q -> R) energy c grid (p0 : P),
  (forall a b, In a grid -> In b grid -> metric (transform a) (transform a) <= metric (transform a) (transform b)) ->
  let n := List.length grid in
  repulse_mean_energy transform metric energy c grid =
  sumR (map (fun i => sumR (map (fun j =>
      energy (metric (transform (nth i grid p0)) (transform (nth j grid p0)) / c))
        (filter (fun j => negb (Nat.eqb j i)) (seq 0 n)))) (seq 0 n))
  / INR (n * (n - 1)).
Proof. exact @mean_energy_pairs. Qed.
Print Assumptions C67_energy_is_the_mean_over_distinct_pairs.

(** The hypothesis holds for the two energies the library minimises, for every grid. *)
Theorem C67_so3_energy : forall (k : nat) (grid : list V3) (p0 : V3),
  let n := List.length grid in
  let quat := fun x => so3_euler_to_quat x (/ 10 ^ 6) in
  repulse_mean_energy quat (fun a b => so3_geodesic_distance a b (/ 10 ^ 7)) (columb_energy k) (PI / 2) grid =
  sumR (map (fun i => sumR (map (fun j =>
      / ((so3_geodesic_distance (quat (nth i grid p0)) (quat (nth j grid p0)) (/ 10 ^ 7) / (PI / 2)) ^ k))
        (filter (fun j => negb (Nat.eqb j i)) (seq 0 n)))) (seq 0 n))
  / INR (n * (n - 1)).
Proof.
  intros k grid p0.
  exact (mean_energy_pairs (fun x => so3_euler_to_quat x (/ 10 ^ 6)) (fun a b => so3_geodesic_distance a b (/ 10 ^ 7))
    (columb_energy k) (PI / 2) grid p0 (fun a b _ _ => so3_self_minimal a b _)).
Qed.
Print Assumptions C67_so3_energy.

Theorem C67_s2_energy : forall (k : nat) (grid : list V2) (p0 : V2),
  let n := List.length grid in
  repulse_mean_energy s2_spherical_to_euclid (fun a b => s2_geodesic_distance a b (/ 10 ^ 7)) (columb_energy k) PI grid =
  sumR (map (fun i => sumR (map (fun j =>
      / ((s2_geodesic_distance (s2_spherical_to_euclid (nth i grid p0)) (s2_spherical_to_euclid (nth j grid p0)) (/ 10 ^ 7) / PI) ^ k))
        (filter (fun j => negb (Nat.eqb j i)) (seq 0 n)))) (seq 0 n))
  / INR (n * (n - 1)).
Proof.
  intros k grid p0.
  exact (mean_energy_pairs s2_spherical_to_euclid (fun a b => s2_geodesic_distance a b (/ 10 ^ 7))
    (columb_energy k) PI grid p0 (fun a b _ _ => s2_self_minimal a b _ so3_eps_range)).
Qed.
Print Assumptions C67_s2_energy.
