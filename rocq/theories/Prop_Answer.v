(** Property theorems C90 and C91: which layers answer, and what every call returns.
    Reading guide.  [ready2] / [ready3] (RbfSpec.v): the group interpolation of a kernel is well posed. [lifting_contract], [full_contract],
    [separable_contract] (AnswerSpec.v): for all parameters and inputs of the right shapes and all grids, the call succeeds exactly if the (padded)
    input is large enough, then with one output image per element of the output grid, and raises RuntimeError otherwise. [solver_complete T]
    (SolveSpec.v): torch.linalg.solve raises for singular matrices only. [usable]: positive sizes, a padding of the right length (C69). *)
From Coq Require Import String ZArith Lia Lra.
From Verif Require Import Prelude RMath Mat Interp InterpFacts InterpExample SO2 SO2Facts O2 O2Facts SO3 SO3Facts SO3More O3 O3Facts Repulse GridTables GridCache GridCacheFacts Tensor TensorFacts Functional Kernel KernelFacts KernelMore
  Conv ConvSpec ConvInit Layers LayersSpec LayersFacts Public PublicFacts SampleRn Prop_Conv Prop_Public Prop_Linear AcceptSpec LinAlg SolveSpec RbfSpec RbfSO2 ReadyFacts AnswerSpec AnswerFacts ContractFacts.
Open Scope R_scope.

(** ** C90: the default interpolations are well posed *)

(** SE(3), 2 to 24 elements, whatever grids were made before: the default bandwidth is positive, the system has exactly one solution for every
    right-hand side, and no solution is more than 120 times as large as its right-hand side. *)
Theorem C90_SE3_default : forall h n o, write_free h -> (2 <= n <= 24)%nat -> exists grid w,
  default_SE3 (grun ginit h) n o = Ok grid /\ length grid = n /\ width_SE3 0 grid = Ok w /\ 0 < w /\
  ready3 "rbf" w grid /\ bounded_inverse n (rbf_matrix w grid) 120.
Proof.
  intros h n o Hw Hn. destruct (ready_SE3 n Hn) as (w & E & P & N & B). exists (table_matrix n), w.
  split; [exact (proj1 C69_default_grids h n o Hw Hn)|]. pose proof (RbfGrid.table_matrix_length n Hn) as L. split; [exact L|]. split; [exact E|]. split; [exact P|].
  split; [|exact B]. right. rewrite L. split; [reflexivity|exact N].
Qed.
Print Assumptions C90_SE3_default.

(** E(3): the same for the rotations and for the reflections of the default grid, each with its own default bandwidth. *)
Theorem C90_E3_default : forall h n m o1 o2, write_free h -> (2 <= n <= 24)%nat -> (2 <= m <= 24)%nat -> exists grid w w',
  default_E3 (grun ginit h) n m o1 o2 = Ok grid /\ length grid = (n + m)%nat /\ Forall (fun e => o3c e = 1 \/ o3c e = -1) grid /\
  width_E3_rot 0 n grid = Ok w /\ width_E3_ref 0 n grid = Ok w' /\ 0 < w /\ 0 < w' /\
  ready3 "rbf" w (map o3r (firstn n grid)) /\ ready3 "rbf" w' (map o3r (skipn n grid)) /\
  bounded_inverse n (rbf_matrix w (map o3r (firstn n grid))) 120 /\ bounded_inverse m (rbf_matrix w' (map o3r (skipn n grid))) 120.
Proof.
  intros h n m o1 o2 Hw Hn Hm. destruct (ready_E3 n 1 Hn) as (w & E & P & N & B); [lra|]. destruct (ready_E3 m (-1) Hm) as (w' & E' & P' & N' & B'); [lra|].
  pose proof (RbfGrid.table_matrix_length n Hn) as Ln. pose proof (RbfGrid.table_matrix_length m Hm) as Lm.
  exists (map (mkO3 1) (table_matrix n) ++ map (mkO3 (-1)) (table_matrix m)), w, w'. split; [apply default_E3_tables; assumption|].
  split; [rewrite app_length, !map_length; lia|].
  split. { apply Forall_app. split; apply Forall_forall; intros e He; apply in_map_iff in He; destruct He as (r & <- & _); cbn [o3c]; [left|right]; reflexivity. }
  unfold width_E3_rot, width_E3_ref.
  assert (length (map (mkO3 1) (table_matrix n)) = n) as L1 by (rewrite map_length; exact Ln).
  rewrite firstn_app, L1, Nat.sub_diag, firstn_O, app_nil_r, firstn_all2 by lia. rewrite skipn_app, L1, Nat.sub_diag, skipn_O, skipn_all2 by lia. cbn [app].
  split; [exact E|]. split; [exact E'|]. split; [exact P|]. split; [exact P'|]. rewrite !map_map. cbn [o3r]. rewrite !map_id.
  split; [right; rewrite Ln; split; [reflexivity|exact N]|]. split; [right; rewrite Lm; split; [reflexivity|exact N']|]. split; [exact B|exact B'].
Qed.
Print Assumptions C90_E3_default.

(** SE(2) (exact arithmetic): the default bandwidth is well posed on every grid of separated angles, in particular on the default grids. *)
Theorem C90_SE2_default :
  (forall grid, grid <> [] -> (Z.of_nat (length grid) <= 100000)%Z -> separated grid ->
     exists w, width_SE2 0 grid = Ok w /\ 0 < w /\ ready2 "rbf" w grid /\ bounded_inverse (length grid) (so2_rbf_matrix w grid) 18) /\
  (forall n, (Z.of_nat n <= 100000)%Z -> separated (so2_uniform_grid n)).
Proof.
  split; [|exact uniform_separated]. intros grid Hg Hl Hs. exists so2_default_width. assert (1 <= length grid)%nat as L1 by (destruct grid; [contradiction|cbn; lia]).
  split; [apply so2_width_const, Hg|]. split; [exact width_pos|]. destruct (separated_nonsingular grid L1 Hl Hs) as [N B].
  split; [right; split; [reflexivity|exact N]|]. apply system_inverse; [apply so2_rbf_wfm|exact B].
Qed.
Print Assumptions C90_SE2_default.

(** E(2): the same for both halves. *)
Theorem C90_E2_default : forall n grid, firstn n grid <> [] -> skipn n grid <> [] -> (Z.of_nat (length grid) <= 100000)%Z ->
  separated (map o2a (firstn n grid)) -> separated (map o2a (skipn n grid)) -> exists w,
  width_E2_rot 0 n grid = Ok w /\ width_E2_ref 0 n grid = Ok w /\ 0 < w /\ ready2 "rbf" w (map o2a (firstn n grid)) /\ ready2 "rbf" w (map o2a (skipn n grid)).
Proof.
  intros n grid H1 H2 Hl S1 S2. pose proof (firstn_skipn n grid) as E. apply (f_equal (@length _)) in E. rewrite app_length in E.
  assert (forall l : list O2, l <> [] -> map o2a l <> []) as Ne by (intros [|x l] Hx; [contradiction|discriminate]).
  destruct (proj1 C90_SE2_default (map o2a (firstn n grid))) as (w & W1 & P & R1 & _); [apply Ne, H1|rewrite map_length; lia|exact S1|].
  destruct (proj1 C90_SE2_default (map o2a (skipn n grid))) as (w' & W2 & _ & R2 & _); [apply Ne, H2|rewrite map_length; lia|exact S2|].
  unfold width_SE2 in W1, W2. rewrite so2_width_const in W1 by (apply Ne, H1). rewrite so2_width_const in W2 by (apply Ne, H2). injection W1 as <-. injection W2 as <-.
  exists so2_default_width. unfold width_E2_rot, width_E2_ref. rewrite !so2_width_const by (apply Ne; assumption). auto.
Qed.
Print Assumptions C90_E2_default.

(** A grid with a repeated element is never well posed in mode "rbf", whatever the bandwidth, and torch.linalg.solve raises for every signal on it. *)
Theorem C90_repeated_element_refused : forall T, torch_ok T ->
  (forall w (grid : list R) i j a, i <> j -> nth_error grid i = Some a -> nth_error grid j = Some a ->
     ~ ready2 "rbf" w grid /\ forall S q signal, wfm (length grid) S signal -> exists e, so2_grid_sample T "rbf" w S q signal grid = Err e) /\
  (forall w (grid : list M3) i j a, i <> j -> nth_error grid i = Some a -> nth_error grid j = Some a ->
     ~ ready3 "rbf" w grid /\ forall S q signal, wfm (length grid) S signal -> exists e, so3_grid_sample_matrix T "rbf" w S q signal grid = Err e).
Proof.
  intros T HT.
  assert (forall (n : nat) (m : mat) i j, (i < n)%nat -> (j < n)%nat -> i <> j -> nth i m [] = nth j m [] -> ~ nonsingular n m) as Key.
  { intros n m i j Hi Hj Hij E [Wm N]. destruct (N 1%nat (map (fun k => [if Nat.eqb k i then 1 else 0]) (seq 0 n))) as (x & Wx & Ex & _).
    { split; [rewrite map_length; apply seq_length|]. intros r Hr. apply in_map_iff in Hr. destruct Hr as (k & <- & _). reflexivity. }
    assert (forall k, (k < n)%nat -> ent (matmul 1 m x) k 0 = if Nat.eqb k i then 1 else 0) as K.
    { intros k Hk. rewrite Ex. unfold ent. rewrite (nth_map_seq (fun k => [if Nat.eqb k i then 1 else 0])) by exact Hk. reflexivity. }
    pose proof (K i Hi) as Ki. pose proof (K j Hj) as Kj. rewrite Nat.eqb_refl in Ki. destruct (Nat.eqb_spec j i) as [->|_]; [contradiction|].
    rewrite (ent_matmul n) in Ki, Kj by (assumption || lia). unfold ent in Ki, Kj. rewrite E in Ki. rewrite Ki in Kj. lra. }
  assert (forall (n S : nat) (m b : mat), wfm n n m -> wfm n S b -> ~ nonsingular n m -> exists e, te_solve T m b = Err e) as Raise.
  { intros n S m b Wm Wb N. destruct (te_solve T m b) as [x|e] eqn:E; [|eauto]. exfalso. apply N. split; [exact Wm|]. intros s' b' Wb'.
    destruct (ok_solve_any T HT n S m b x s' b' Wm Wb Wb' E) as (x' & E'). exists x'. exact (ok_solve T HT n s' m b' x' Wm Wb' E'). }
  split; intros w grid i j a Hij Hi Hj.
  - assert (~ nonsingular (length grid) (so2_rbf_matrix w grid)) as N.
    { pose proof (nth_error_Some_lt _ _ _ Hi) as Li. pose proof (nth_error_Some_lt _ _ _ Hj) as Lj. apply (Key _ _ i j Li Lj Hij).
      rewrite !(nth_error_nth (so2_rbf_matrix w grid) _ [] (x := map (fun b => RBF_gauss (so2_geodesic_distance a b so2_eps) w) grid));
        [reflexivity|unfold so2_rbf_matrix; exact (map_nth_error _ _ _ Hj)|unfold so2_rbf_matrix; exact (map_nth_error _ _ _ Hi)]. }
    split; [intros [[C _]|[_ C]]; [discriminate|exact (N C)]|]. intros S q signal Ws. destruct (Raise _ _ _ _ (so2_rbf_wfm w grid) Ws N) as (e & Ee). exists e.
    change (interpolate_RBF T (fun x y => so2_geodesic_distance x y so2_eps) RBF_gauss w S q grid signal = Err e). unfold interpolate_RBF. unfold so2_rbf_matrix in Ee. rewrite Ee. reflexivity.
  - assert (~ nonsingular (length grid) (rbf_matrix w grid)) as N.
    { pose proof (nth_error_Some_lt _ _ _ Hi) as Li. pose proof (nth_error_Some_lt _ _ _ Hj) as Lj. apply (Key _ _ i j Li Lj Hij).
      rewrite !(nth_error_nth (rbf_matrix w grid) _ [] (x := map (fun b => RBF_gauss (gdist a b) w) grid));
        [reflexivity|unfold rbf_matrix; exact (map_nth_error _ _ _ Hj)|unfold rbf_matrix; exact (map_nth_error _ _ _ Hi)]. }
    split; [intros [[C _]|[_ C]]; [discriminate|exact (N C)]|]. intros S q signal Ws. destruct (Raise _ _ _ _ (rbf_wfm w grid) Ws N) as (e & Ee). exists e.
    change (interpolate_RBF T (fun x y => so3_geodesic_distance x y so3_eps) RBF_gauss w S (map so3_matrix_to_quat q) (map so3_matrix_to_quat grid) signal = Err e).
    unfold interpolate_RBF. replace (map (fun a0 => map (fun b => RBF_gauss (so3_geodesic_distance a0 b so3_eps) w) (map so3_matrix_to_quat grid)) (map so3_matrix_to_quat grid)) with (rbf_matrix w grid);
      [rewrite Ee; reflexivity|]. unfold rbf_matrix. rewrite map_map. apply map_ext. intros x. rewrite map_map. reflexivity.
Qed.
Print Assumptions C90_repeated_element_refused.

(** ** C91: every call of the twelve public classes *)

Lemma answers_weaken {G P} (p p' : G -> Prop) (k : gkernel G P) : (forall h, p' h -> p h) -> answers p k -> answers p' k.
Proof. intros H A S in_H out_H sg W Pi Po. apply (A S in_H out_H sg W); eapply Forall_impl; eauto. Qed.

(** The weights of a group layer have at least one element along the group axis: without one, [k_gdim k <> 0] fails and the view of the sampled
    weights is ambiguous. *)
Theorem C91_SE2_calls : forall T cin cout s groups st padding dl pmode permute bias mode pm mask n given u smp, torch_ok T -> solver_complete T ->
  usable 2 s st dl cin cout padding bias -> sample_R2 mode pm = Ok smp ->
  (forall M, lifting_SE2 T cin cout s groups st padding dl pmode permute bias mode pm mask n given = Ok M -> exists m, padmode_of pmode = Some m /\
     lifting_contract 2 cin cout s (Z.to_nat groups) st padding dl m (kernel_grid M) (lifting_SE2_call M u)) /\
  (forall gmode gw w M, group_SE2 T cin cout s groups st padding dl pmode permute bias mode pm mask n gmode gw given = Ok M ->
     kernel_grid M <> [] -> width_SE2 gw (kernel_grid M) = Ok w -> ready2 gmode w (kernel_grid M) -> exists m, padmode_of pmode = Some m /\
     full_contract 2 cin cout s (Z.to_nat groups) st padding dl m (fun _ => True) (length (kernel_grid M)) (fun in_H => in_H) (full_SE2_call M u) /\
     separable_contract 2 cin cout s (Z.to_nat groups) st padding dl m (fun _ => True) (length (kernel_grid M)) (fun in_H => in_H) (separable_SE2_call M u)).
Proof.
  intros T cin cout s groups st padding dl pmode permute bias mode pm mask n given u smp HT HS U Hs. split.
  - intros M E. destruct (made_lifting_SE2 _ _ _ _ _ _ _ _ _ _ _ _ _ _ _ _ _ E U) as (L & grid & k & m & -> & <- & -> & Em & Hc). exists m. split; [exact Em|].
    destruct (C75_library_kernels T cin cout s (Z.to_nat groups) 0 0 "" 0 0 mode pm mask) as (R1 & _).
    exact (lifting_contracts 2 L cin cout s _ _ st padding dl m bias permute Hc (R1 _) smp so2_left_apply_angle (2 * PI * u) Hs).
  - intros gmode gw w M E Hne Hw Hr. destruct (made_group_SE2 _ _ _ _ _ _ _ _ _ _ _ _ _ _ _ _ _ _ _ E U) as (L & k & m & -> & Hk & Hd & Em & Hc). exists m. split; [exact Em|].
    destruct (C75_library_kernels T cin cout s (Z.to_nat groups) 0 0 gmode gw 0 mode pm mask) as (_ & _ & _ & _ & R1 & _). specialize (R1 _ _ Hk).
    assert (answers (fun _ => True) k) as Ha.
    { apply (answers_SE2 T cin cout s (Z.to_nat groups) gmode gw w mode pm mask _ k Hk Hw). apply (so2_total T HT). destruct Hr as [Hr|[Hr1 Hr2]]; [left; exact Hr|right; split; [exact Hr1|split; [exact HS|exact Hr2]]]. }
    assert (op_sample_Rn (k_ops k) = Ok smp) as Hs'.
    { unfold kernel_SE2 in Hk. rewrite Hw in Hk. injection Hk as <-. exact Hs. }
    assert (k_gdim k <> 0)%nat as Hz by (rewrite Hd; destruct (kernel_grid _); [contradiction|discriminate]).
    rewrite <- Hd. split.
    + exact (full_contracts_SE 2 L cin cout s k _ st padding dl m bias permute Hc R1 smp so2_left_apply_angle (2 * PI * u) Hs' (fun _ => True) Ha Hz (fun _ _ _ _ => I) I).
    + exact (separable_contracts_SE 2 L cin cout s k _ st padding dl m bias permute Hc R1 smp so2_left_apply_angle (2 * PI * u) Hs' (fun _ => True) Ha Hz (fun _ _ _ _ => I) I).
Qed.
Print Assumptions C91_SE2_calls.

Theorem C91_SE3_calls : forall T cin cout s groups st padding dl pmode permute bias mode pm mask n given default q smp, torch_ok T -> solver_complete T ->
  usable 3 s st dl cin cout padding bias -> sample_R3 mode pm = Ok smp ->
  (forall M, lifting_SE3 T cin cout s groups st padding dl pmode permute bias mode pm mask n given default = Ok M -> exists m, padmode_of pmode = Some m /\
     lifting_contract 3 cin cout s (Z.to_nat groups) st padding dl m (kernel_grid M) (lifting_SE3_call M q)) /\
  (forall gmode gw w M, group_SE3 T cin cout s groups st padding dl pmode permute bias mode pm mask n gmode gw given default = Ok M ->
     kernel_grid M <> [] -> width_SE3 gw (kernel_grid M) = Ok w -> ready3 gmode w (kernel_grid M) -> exists m, padmode_of pmode = Some m /\
     full_contract 3 cin cout s (Z.to_nat groups) st padding dl m (fun _ => True) (length (kernel_grid M)) (fun in_H => in_H) (full_SE3_call M q) /\
     separable_contract 3 cin cout s (Z.to_nat groups) st padding dl m (fun _ => True) (length (kernel_grid M)) (fun in_H => in_H) (separable_SE3_call M q)).
Proof.
  intros T cin cout s groups st padding dl pmode permute bias mode pm mask n given default q smp HT HS U Hs. split.
  - intros M E. destruct (made_lifting_SE3 _ _ _ _ _ _ _ _ _ _ _ _ _ _ _ _ _ _ E U) as (L & grid & k & m & -> & <- & -> & Em & Hc). exists m. split; [exact Em|].
    destruct (C75_library_kernels T cin cout s (Z.to_nat groups) 0 0 "" 0 0 mode pm mask) as (_ & R1 & _).
    exact (lifting_contracts 3 L cin cout s _ _ st padding dl m bias permute Hc (R1 _) smp so3_left_apply_matrix (so3_random_matrix q) Hs).
  - intros gmode gw w M E Hne Hw Hr. destruct (made_group_SE3 _ _ _ _ _ _ _ _ _ _ _ _ _ _ _ _ _ _ _ _ E U) as (L & k & m & -> & Hk & Hd & Em & Hc). exists m. split; [exact Em|].
    destruct (C75_library_kernels T cin cout s (Z.to_nat groups) 0 0 gmode gw 0 mode pm mask) as (_ & _ & _ & _ & _ & R1 & _). specialize (R1 _ _ Hk).
    assert (answers (fun _ => True) k) as Ha.
    { apply (answers_SE3 T cin cout s (Z.to_nat groups) gmode gw w mode pm mask _ k Hk Hw). apply (so3_total T HT). destruct Hr as [Hr|[Hr1 Hr2]]; [left; exact Hr|right; split; [exact Hr1|split; [exact HS|exact Hr2]]]. }
    assert (op_sample_Rn (k_ops k) = Ok smp) as Hs'.
    { unfold kernel_SE3 in Hk. rewrite Hw in Hk. injection Hk as <-. exact Hs. }
    assert (k_gdim k <> 0)%nat as Hz by (rewrite Hd; destruct (kernel_grid _); [contradiction|discriminate]).
    rewrite <- Hd. split.
    + exact (full_contracts_SE 3 L cin cout s k _ st padding dl m bias permute Hc R1 smp so3_left_apply_matrix (so3_random_matrix q) Hs' (fun _ => True) Ha Hz (fun _ _ _ _ => I) I).
    + exact (separable_contracts_SE 3 L cin cout s k _ st padding dl m bias permute Hc R1 smp so3_left_apply_matrix (so3_random_matrix q) Hs' (fun _ => True) Ha Hz (fun _ _ _ _ => I) I).
Qed.
Print Assumptions C91_SE3_calls.

(** E(n): grids of rotations and reflections (coefficient 1 or -1); the group kernel has n rotations and m reflections, both present. The output
    grid of the group layers defaults to the grid of the kernel. *)
Theorem C91_E2_calls : forall T cin cout s groups st padding dl pmode permute bias mode pm mask gks given u c smp, torch_ok T -> solver_complete T ->
  usable 2 s st dl cin cout padding bias -> sample_R2 mode pm = Ok smp ->
  (forall M, lifting_E2 T cin cout s groups st padding dl pmode permute bias mode pm mask gks given = Ok M -> exists m, padmode_of pmode = Some m /\
     lifting_contract 2 cin cout s (Z.to_nat groups) st padding dl m (kernel_grid M) (lifting_E2_call M u c)) /\
  (forall gmode rot ref w w' M, group_E2 T cin cout s groups st padding dl pmode permute bias mode pm mask gks gmode rot ref given = Ok M ->
     let n := pair_rot gks in let n' := pair_ref gks in
     n <> 0%nat -> n' <> 0%nat -> length (kernel_grid M) = (n + n')%nat ->
     width_E2_rot rot n (kernel_grid M) = Ok w -> width_E2_ref ref n (kernel_grid M) = Ok w' ->
     ready2 gmode w (map o2a (firstn n (kernel_grid M))) -> ready2 gmode w' (map o2a (skipn n (kernel_grid M))) -> exists m, padmode_of pmode = Some m /\
     full_contract 2 cin cout s (Z.to_nat groups) st padding dl m o2_wf (n + n') (fun _ => kernel_grid M) (full_E2_call M u c) /\
     separable_contract 2 cin cout s (Z.to_nat groups) st padding dl m o2_wf (n + n') (fun _ => kernel_grid M) (separable_E2_call M u c)).
Proof.
  intros T cin cout s groups st padding dl pmode permute bias mode pm mask gks given u c smp HT HS U Hs.
  pose (r := mkO2 (2 * (if Rlt_dec (1 / 2) c then 1 else 0) - 1) (2 * PI * u)).
  assert (o2_wf r) as Pr. { unfold r, o2_wf. cbn [o2c]. destruct (Rlt_dec (1 / 2) c); [left|right]; lra. }
  split.
  - intros M E. destruct (made_lifting_E2 _ _ _ _ _ _ _ _ _ _ _ _ _ _ _ _ _ E U) as (L & grid & k & m & -> & <- & -> & Em & Hc). exists m. split; [exact Em|].
    destruct (C75_library_kernels T cin cout s (Z.to_nat groups) (pair_rot gks) (pair_ref gks) "" 0 0 mode pm mask) as (_ & _ & R1 & _).
    exact (lifting_contracts 2 L cin cout s _ _ st padding dl m bias permute Hc (R1 _) smp o2_left_apply_angle r Hs).
  - intros gmode rot ref w w' M E n n' Hn Hn' Hl Hw Hw' Hr Hr'. destruct (made_group_E2 _ _ _ _ _ _ _ _ _ _ _ _ _ _ _ _ _ _ _ _ E U) as (L & k & m & -> & Hk & Hd & Em & Hc). exists m. split; [exact Em|].
    destruct (C75_library_kernels T cin cout s (Z.to_nat groups) (pair_rot gks) (pair_ref gks) gmode rot ref mode pm mask) as (_ & _ & _ & _ & _ & _ & R1 & _). specialize (R1 _ _ Hk).
    assert (answers o2_wf k) as Ha.
    { apply (answers_weaken (fun h => sign True (o2c h))); [intros h Hh; apply sign_true; exact Hh|].
      apply (answers_E2 T cin cout s (Z.to_nat groups) n n' gmode rot ref w w' mode pm mask _ k Hn Hn' Hl Hk Hw Hw'); apply (so2_total T HT);
        [destruct Hr as [Hx|[Hx1 Hx2]]|destruct Hr' as [Hx|[Hx1 Hx2]]]; first [left; exact Hx|right; split; [exact Hx1|split; [exact HS|exact Hx2]]]. }
    assert (op_sample_Rn (k_ops k) = Ok smp) as Hs'.
    { unfold kernel_E2 in Hk. fold n in Hk. rewrite Hw, Hw' in Hk. injection Hk as <-. exact Hs. }
    assert (k_gdim k <> 0)%nat as Hz by (rewrite Hd; fold n n'; lia).
    unfold n, n'. rewrite <- Hd. split.
    + exact (full_contracts_E 2 L cin cout s k _ st padding dl m bias permute Hc R1 smp o2_left_apply_angle r Hs' o2_wf Ha Hz o2_wf_mul Pr).
    + exact (separable_contracts_E 2 L cin cout s k _ st padding dl m bias permute Hc R1 smp o2_left_apply_angle r Hs' o2_wf Ha Hz o2_wf_mul Pr).
Qed.
Print Assumptions C91_E2_calls.

Theorem C91_E3_calls : forall T cin cout s groups st padding dl pmode permute bias mode pm mask gks given default c q smp, torch_ok T -> solver_complete T ->
  usable 3 s st dl cin cout padding bias -> sample_R3 mode pm = Ok smp ->
  (forall M, lifting_E3 T cin cout s groups st padding dl pmode permute bias mode pm mask gks given default = Ok M -> exists m, padmode_of pmode = Some m /\
     lifting_contract 3 cin cout s (Z.to_nat groups) st padding dl m (kernel_grid M) (lifting_E3_call M c q)) /\
  (forall gmode rot ref w w' M, group_E3 T cin cout s groups st padding dl pmode permute bias mode pm mask gks gmode rot ref given default = Ok M ->
     let n := pair_rot gks in let n' := pair_ref gks in let proper e := o3c e = 1 \/ o3c e = -1 in
     n <> 0%nat -> n' <> 0%nat -> length (kernel_grid M) = (n + n')%nat ->
     width_E3_rot rot n (kernel_grid M) = Ok w -> width_E3_ref ref n (kernel_grid M) = Ok w' ->
     ready3 gmode w (map o3r (firstn n (kernel_grid M))) -> ready3 gmode w' (map o3r (skipn n (kernel_grid M))) -> exists m, padmode_of pmode = Some m /\
     full_contract 3 cin cout s (Z.to_nat groups) st padding dl m proper (n + n') (fun _ => kernel_grid M) (full_E3_call M c q) /\
     separable_contract 3 cin cout s (Z.to_nat groups) st padding dl m proper (n + n') (fun _ => kernel_grid M) (separable_E3_call M c q)).
Proof.
  intros T cin cout s groups st padding dl pmode permute bias mode pm mask gks given default c q smp HT HS U Hs.
  pose (proper := fun e => o3c e = 1 \/ o3c e = -1).
  assert (proper (o3_random c q)) as Pr. { unfold o3_random, proper. cbn [o3c]. destruct (Rlt_dec (1 / 2) c); [left|right]; lra. }
  assert (forall a b, proper a -> proper b -> proper (o3_left_apply_O3 a b)) as Pm.
  { unfold proper. intros a b Ha Hb. unfold o3_left_apply_O3. cbn [o3c]. destruct Ha as [-> | ->], Hb as [-> | ->]; [left|right|right|left]; ring. }
  split.
  - intros M E. destruct (made_lifting_E3 _ _ _ _ _ _ _ _ _ _ _ _ _ _ _ _ _ _ E U) as (L & grid & k & m & -> & <- & -> & Em & Hc). exists m. split; [exact Em|].
    destruct (C75_library_kernels T cin cout s (Z.to_nat groups) (pair_rot gks) (pair_ref gks) "" 0 0 mode pm mask) as (_ & _ & _ & R1 & _).
    exact (lifting_contracts 3 L cin cout s _ _ st padding dl m bias permute Hc (R1 _) smp o3_left_apply_O3 (o3_random c q) Hs).
  - intros gmode rot ref w w' M E n n' proper' Hn Hn' Hl Hw Hw' Hr Hr'. change proper' with proper. destruct (made_group_E3 _ _ _ _ _ _ _ _ _ _ _ _ _ _ _ _ _ _ _ _ _ E U) as (L & k & m & -> & Hk & Hd & Em & Hc). exists m. split; [exact Em|].
    destruct (C75_library_kernels T cin cout s (Z.to_nat groups) (pair_rot gks) (pair_ref gks) gmode rot ref mode pm mask) as (_ & _ & _ & _ & _ & _ & _ & R1). specialize (R1 _ _ Hk).
    assert (answers proper k) as Ha.
    { apply (answers_weaken (fun h => sign True (o3c h))); [intros h Hh; apply sign_true; exact Hh|].
      apply (answers_E3 T cin cout s (Z.to_nat groups) n n' gmode rot ref w w' mode pm mask _ k Hn Hn' Hl Hk Hw Hw'); apply (so3_total T HT);
        [destruct Hr as [Hx|[Hx1 Hx2]]|destruct Hr' as [Hx|[Hx1 Hx2]]]; first [left; exact Hx|right; split; [exact Hx1|split; [exact HS|exact Hx2]]]. }
    assert (op_sample_Rn (k_ops k) = Ok smp) as Hs'.
    { unfold kernel_E3 in Hk. fold n in Hk. rewrite Hw, Hw' in Hk. injection Hk as <-. exact Hs. }
    assert (k_gdim k <> 0)%nat as Hz by (rewrite Hd; fold n n'; lia).
    unfold n, n'. rewrite <- Hd. split.
    + exact (full_contracts_E 3 L cin cout s k _ st padding dl m bias permute Hc R1 smp o3_left_apply_O3 (o3_random c q) Hs' proper Ha Hz Pm Pr).
    + exact (separable_contracts_E 3 L cin cout s k _ st padding dl m bias permute Hc R1 smp o3_left_apply_O3 (o3_random c q) Hs' proper Ha Hz Pm Pr).
Qed.
Print Assumptions C91_E3_calls.

(** ** The program of README.md, "Getting Started" *)

Open Scope nat_scope.
Lemma readme_sizes a b c :
  (fits1 Zeros 3 (PInt 0) (repeat 5 3) (repeat 1 3) (repeat 1 3) [a; b; c] <-> 5 <= a /\ 5 <= b /\ 5 <= c) /\
  (5 <= a /\ 5 <= b /\ 5 <= c -> size1 3 (PInt 0) (repeat 5 3) (repeat 1 3) (repeat 1 3) [a; b; c] = [a - 4; b - 4; c - 4]) /\
  (0 < a /\ 0 < b /\ 0 < c -> middle Zeros 3 (PInt 0) (repeat 5 3) (repeat 1 3) (repeat 1 3) [a; b; c] = [a; b; c]) /\
  (0 < a /\ 0 < b /\ 0 < c -> fits Zeros [a; b; c] (repeat 1 3) (repeat 1 3) (repeat 1 3) (lefts (stored_padding 3 (PInt 0)) (pad1 Zeros 3 (repeat 5 3)) (repeat 1 3)) (rights (stored_padding 3 (PInt 0)) (pad1 Zeros 3 (repeat 5 3)) (repeat 1 3))).
Proof.
  assert (forall k, lefts (stored_padding 3 (PInt 0)) (repeat k 3) (repeat 1 3) = [0; 0; 0]%nat /\ rights (stored_padding 3 (PInt 0)) (repeat k 3) (repeat 1 3) = [0; 0; 0]%nat) as P by (intros k; split; reflexivity).
  unfold fits1, size1, middle, pad1. destruct (P 5%nat) as [-> ->]. destruct (P 1%nat) as [-> ->]. unfold fits, conv_size, axes. cbn [repeat length seq map nth].
  split; [|split; [|split]].
  - split.
    + intros H. pose proof (proj1 (H 0%nat ltac:(lia))) as H0. pose proof (proj1 (H 1%nat ltac:(lia))) as H1. pose proof (proj1 (H 2%nat ltac:(lia))) as H2. cbn [nth] in H0, H1, H2. lia.
    + intros (Ha & Hb & Hc) j Hj. split; [|exact I]. destruct j as [|[|[|j]]]; cbn [nth]; lia.
  - intros (Ha & Hb & Hc). rewrite !Nat.div_1_r. repeat (f_equal; [lia|]). f_equal. lia.
  - intros (Ha & Hb & Hc). rewrite !Nat.div_1_r. repeat (f_equal; [lia|]). f_equal. lia.
  - intros (Ha & Hb & Hc) j Hj. split; [|exact I]. destruct j as [|[|[|j]]]; cbn [nth]; lia.
Qed.
Close Scope nat_scope.

(** lifting_layer = GLiftingConvSE3(3, 16, 5); gconv_layer = GSeparableConvSE3(16, 32, 5), with the default arguments (4 group elements, mode "rbf"
    with the derived bandwidth, permuted output grids, no bias), after any history h of uniform_grid calls, for all parameter values, all draws and
    all batches of volumes. *)
Theorem C90_readme_program : forall T h o1 o2 q1 q2 (w1 w_H w2 X : tensor R) N a b c, torch_ok T -> solver_complete T -> write_free h ->
  has_shape w1 [16; 3; 5; 5; 5]%nat -> has_shape w_H [4; 32; 16]%nat -> has_shape w2 [32; 1; 5; 5; 5]%nat -> has_shape X [N; 3; a; b; c]%nat ->
  exists lifting_layer gconv_layer,
    lifting_SE3 T 3 16 5 1 1 (PInt 0) 1 "zeros" true None "bilinear" "border" true 4 None (default_SE3 (grun ginit h) 4 o1) = Ok lifting_layer /\
    group_SE3 T 16 32 5 1 1 (PInt 0) 1 "zeros" true None "bilinear" "border" true 4 "rbf" 0 None (default_SE3 (grun ginit h) 4 o2) = Ok gconv_layer /\
    ((9 <= a /\ 9 <= b /\ 9 <= c)%nat -> exists x2 H1 x3 H2 y,
       lifting_SE3_call lifting_layer q1 w1 X None = Ok (x2, H1) /\ has_shape x2 [N; 16; 4; a - 4; b - 4; c - 4]%nat /\ length H1 = 4%nat /\
       separable_SE3_call gconv_layer q2 w_H w2 x2 H1 None = Ok (x3, H2) /\ has_shape x3 [N; 32; 4; a - 8; b - 8; c - 8]%nat /\ length H2 = 4%nat /\
       g_avg_global_pool x3 = Ok (PTensor y) /\ has_shape y [N; 32; 1]%nat) /\
    (~ (9 <= a /\ 9 <= b /\ 9 <= c)%nat -> lifting_SE3_call lifting_layer q1 w1 X None = Err RuntimeError \/
       exists x2 H1, lifting_SE3_call lifting_layer q1 w1 X None = Ok (x2, H1) /\ separable_SE3_call gconv_layer q2 w_H w2 x2 H1 None = Err RuntimeError).
Proof.
  intros T h o1 o2 q1 q2 w1 w_H w2 X N a b c HT HS Hh S1 SH S2 SX.
  pose proof (proj1 C69_default_grids h 4%nat o1 Hh ltac:(lia)) as D1. pose proof (proj1 C69_default_grids h 4%nat o2 Hh ltac:(lia)) as D2.
  assert (forall cin cout : nat, valid_config (GkInt 4) cin cout 1 (PInt 0) [1; 1; 1]%nat "zeros") as V.
  { intros cin cout. split; [exact I|]. split; [lia|]. split; [exists (Z.of_nat cin); ring|]. split; [exists (Z.of_nat cout); ring|]. split; [discriminate|simpl; auto]. }
  pose proof (C69_lifting_SE3 T 3 16 5 1 1 (PInt 0) 1 "zeros" true None "bilinear" "border" true 4 None _ _ (or_intror (conj eq_refl D1))) as K1. cbv zeta in K1.
  destruct (proj1 K1 (V _ _)) as (L1 & E1 & Ek1 & _). destruct K1 as (_ & _ & G1 & _).
  pose proof (C69_group_SE3 T 16 32 5 1 1 (PInt 0) 1 "zeros" true None "bilinear" "border" true 4 "rbf" 0 None _ _ (or_intror (conj eq_refl D2))) as K2. cbv zeta in K2.
  pose proof (RbfGrid.table_matrix_length 4 ltac:(lia)) as L4.
  destruct (proj1 K2) as (k & Hk & (L2 & E2 & Ek2 & _) & G2 & _); [right; rewrite L4; lia|exact (V _ _)|].
  exists (mkModule L1 true), (mkModule L2 true). split; [exact E1|]. split; [exact E2|].
  assert (kernel_grid (mkModule L1 true) = table_matrix 4) as Hg1 by (unfold kernel_grid; cbn [gm_layer]; rewrite Ek1; exact G1).
  assert (kernel_grid (mkModule L2 true) = table_matrix 4) as Hg2 by (unfold kernel_grid; cbn [gm_layer]; rewrite Ek2; exact G2).
  assert (table_matrix 4 <> []) as Ne by (intros C; rewrite C in L4; discriminate).
  destruct (C91_SE3_calls T 3 16 5 1 1 (PInt 0) 1 "zeros" true None "bilinear" "border" true 4 None (default_SE3 (grun ginit h) 4 o1) q1 (gs3 true GsBorder) HT HS) as [C1 _]; [repeat split; lia|reflexivity|].
  destruct (C1 _ E1) as (m1 & Em1 & Con1). injection Em1 as <-.
  destruct (C91_SE3_calls T 16 32 5 1 1 (PInt 0) 1 "zeros" true None "bilinear" "border" true 4 None (default_SE3 (grun ginit h) 4 o2) q2 (gs3 true GsBorder) HT HS) as [_ C2]; [repeat split; lia|reflexivity|].
  destruct (ready_SE3 4 ltac:(lia)) as (w & Ew & _ & Nw & _).
  destruct (C2 "rbf"%string 0 w _ E2) as (m2 & Em2 & _ & Con2); [rewrite Hg2; exact Ne|rewrite Hg2; exact Ew|rewrite Hg2; right; split; [reflexivity|rewrite L4; exact Nw]|].
  injection Em2 as <-. rewrite Hg1 in Con1. rewrite Hg2, L4 in Con2.
  destruct (Con1 w1 X N [a; b; c] None S1 SX eq_refl Ne) as [F1 F1']. cbn [or_else] in F1, F1'. rewrite L4 in F1.
  destruct (readme_sizes a b c) as (Fi & Si & _).
  assert (forall x2 H1, (5 <= a /\ 5 <= b /\ 5 <= c)%nat -> length H1 = 4%nat -> has_shape x2 [N; 16; 4; a - 4; b - 4; c - 4]%nat ->
    outcome_is (9 <= a /\ 9 <= b /\ 9 <= c)%nat N 32 4 [a - 8; b - 8; c - 8]%nat (separable_SE3_call (mkModule L2 true) q2 w_H w2 x2 H1 None)) as Second.
  { intros x2 H1 H5 LH Sx2. destruct (readme_sizes (a - 4) (b - 4) (c - 4)) as (Fi2 & Si2 & Mi2 & Ft2). specialize (Mi2 ltac:(lia)). specialize (Ft2 ltac:(lia)).
    destruct (Con2 w_H w2 x2 N [a - 4; b - 4; c - 4]%nat H1 None SH S2) as [F2 F2'].
    { rewrite LH. exact Sx2. } { reflexivity. } { cbn [or_else]. destruct H1; [discriminate|discriminate]. } { apply Forall_forall. auto. } { apply Forall_forall. auto. }
    cbn [or_else] in F2, F2'. rewrite LH in F2. unfold fits2, size2 in F2, F2'. rewrite Mi2 in F2, F2'.
    split.
    - intros H9. destruct F2 as (Y & H' & EY & LY & SY); [split; [exact Ft2|apply Fi2; lia]|]. exists Y, H'. split; [exact EY|]. split; [exact LY|].
      rewrite Si2 in SY by lia. replace (a - 8)%nat with (a - 4 - 4)%nat by lia. replace (b - 8)%nat with (b - 4 - 4)%nat by lia. replace (c - 8)%nat with (c - 4 - 4)%nat by lia. exact SY.
    - intros H9. apply F2'. intros [_ Hf]. apply Fi2 in Hf. lia. }
  split.
  - intros H9. destruct F1 as (x2 & H1 & EX & LX & SX2); [apply Fi; lia|]. rewrite Si in SX2 by lia.
    destruct (Second x2 H1 ltac:(lia) LX SX2) as [A _]. destruct (A H9) as (x3 & H2 & E3 & LH2 & SX3).
    destruct (avg_global_spec x3 N 32 4 [a - 8; b - 8; c - 8]%nat SX3) as (y & Ey & Sy & _).
    exists x2, H1, x3, H2, y. auto 10.
  - intros H9. destruct (le_lt_dec 5 a) as [Ha|Ha]; [destruct (le_lt_dec 5 b) as [Hb|Hb]; [destruct (le_lt_dec 5 c) as [Hc|Hc]|]|];
      try (left; apply F1'; intros Hf; apply Fi in Hf; lia).
    right. destruct F1 as (x2 & H1 & EX & LX & SX2); [apply Fi; lia|]. rewrite Si in SX2 by lia. exists x2, H1. split; [exact EX|].
    destruct (Second x2 H1 ltac:(lia) LX SX2) as [_ B]. exact (B H9).
Qed.
Print Assumptions C90_readme_program.

(** Non-vacuity: an environment and a history that meet the hypotheses; the volumes of README.md. *)
Example C90_C91_nonvacuous : torch_ok ex_env /\ solver_complete ex_env /\ write_free [GCall 0 "matrix" false (mkO 0 0 (fun x => x) (fun _ => []) [])] /\ exists lifting_layer gconv_layer x2 H1 x3 H2 y,
  let w1 := build [16; 3; 5; 5; 5]%nat (fun i => INR (nth 3 i 0%nat)) in let w_H := build [4; 32; 16]%nat (fun i => INR (nth 0 i 0%nat)) in
  let w2 := build [32; 1; 5; 5; 5]%nat (fun i => INR (nth 4 i 0%nat)) in let X := build [16; 3; 28; 28; 28]%nat (fun i => INR (nth 2 i 0%nat)) in
  lifting_SE3_call lifting_layer (mkQ 1 0 0 0) w1 X None = Ok (x2, H1) /\ separable_SE3_call gconv_layer (mkQ 1 1 0 0) w_H w2 x2 H1 None = Ok (x3, H2) /\
  has_shape x3 [16; 32; 4; 20; 20; 20]%nat /\ g_avg_global_pool x3 = Ok (PTensor y) /\ has_shape y [16; 32; 1]%nat.
Proof.
  assert (solver_complete ex_env) as HS by (intros n s m b; apply ex_solve_succeeds).
  assert (write_free [GCall 0 "matrix" false (mkO 0 0 (fun x => x) (fun _ => []) [])]) as Hh.
  { constructor; [|constructor]. split; [reflexivity|]. split; [reflexivity|]. split; [auto|]. intros e. split; [reflexivity|intros r []]. }
  split; [exact ex_env_ok|]. split; [exact HS|]. split; [exact Hh|].
  set (w1 := build [16; 3; 5; 5; 5]%nat (fun i => INR (nth 3 i 0%nat))). set (w_H := build [4; 32; 16]%nat (fun i => INR (nth 0 i 0%nat))).
  set (w2 := build [32; 1; 5; 5; 5]%nat (fun i => INR (nth 4 i 0%nat))). set (X := build [16; 3; 28; 28; 28]%nat (fun i => INR (nth 2 i 0%nat))).
  assert (forall sh (f : list nat -> R), has_shape (build sh f) sh) as HB by (intros sh f; split; [reflexivity|apply wft_build]).
  destruct (C90_readme_program ex_env _ (mkO 0 0 (fun x => x) (fun _ => []) []) (mkO 0 0 (fun x => x) (fun _ => []) []) (mkQ 1 0 0 0) (mkQ 1 1 0 0) w1 w_H w2 X 16 28 28 28 ex_env_ok HS Hh
    (HB _ _) (HB _ _) (HB _ _) (HB _ _)) as (M1 & M2 & _ & _ & A & _).
  destruct A as (x2 & H1 & x3 & H2 & y & E1 & _ & _ & E3 & S3 & _ & E4 & S4); [lia|].
  exists M1, M2, x2, H1, x3, H2, y. cbv zeta. split; [exact E1|]. split; [exact E3|]. split; [exact S3|]. split; [exact E4|exact S4].
Qed.
