(** Layers whose group sampler always answers. *)
From Coq Require Import String ZArith.
From Verif Require Import Prelude RMath Mat Interp InterpFacts SO2 SO2Facts O2 O2Facts SO3 SO3Facts O3 O3Facts OSplit OSplitFacts Repulse RepulseFacts Tensor TensorFacts Functional FunctionalFacts
  Kernel KernelFacts GroupKernelFacts KernelMore Conv ConvSpec ConvFacts ConvInit ConvShift SepProduct SepStages LayersSpec LayersFacts Layers NormFacts LinSpec LinFacts Regrid Public Network NetworkCond SampleRn WeightFacts
  PublicFacts Prop_Conv Prop_Conv2 Prop_Layers Prop_Linear NetFacts AcceptSpec AcceptFacts SolveSpec RbfSpec RbfGrid AnswerSpec.
Open Scope nat_scope.

Section Kernels.
  Context {G P : Type} {D : Dflt P} (k : gkernel G P) (inv : G -> G) (mul : G -> G -> G) (act : G -> P -> P) (det : option (G -> R)).
  Hypothesis Hops : gops_ok (k_ops k) inv mul act det.
  Hypothesis Hg : has_shape (k_grid_Rn k) (k_size k).
  Hypothesis Hm : mask_ok (k_mask k) (k_size k).
  Hypothesis Hz : prodn (k_size k) <> 0.
  Context (proper : G -> Prop).
  Hypothesis Hans : answers proper k.
  Hypothesis Hd : k_gdim k <> 0.
  Context (smp : sampler P).
  Hypothesis Hsmp : op_sample_Rn (k_ops k) = Ok smp.

  Lemma sample_group_total rest weight in_H out_H : has_shape weight (k_gdim k :: rest) -> Forall proper in_H -> Forall proper out_H ->
    exists w, sample_group k weight in_H out_H = Ok w /\ has_shape w [length out_H * length in_H; prodn rest].
  Proof using Hans Hd.
    intros Hw Pi Po. unfold sample_group.
    rewrite (view_trail_ok (k_gdim k) (prodn rest)) by (try assumption; destruct Hw as [-> _]; apply prodn_cons).
    cbn [bind shape nth]. fold (relative_elements k in_H out_H).
    edestruct (Hans (prodn rest) in_H out_H) as (rows & Er & Lr & Rr); [|exact Pi|exact Po|].
    - apply (to_rows_wf (mkT [k_gdim k; prodn rest] (data weight))). reflexivity.
    - rewrite Er. cbn [bind]. eexists. split; [reflexivity|]. rewrite Lr. split; [reflexivity|]. unfold wft. cbn [shape data].
      rewrite (concat_len _ (prodn rest) Rr), Lr. rewrite !prodn_cons, prodn_nil, Nat.mul_1_r. reflexivity.
  Qed.

  Lemma full_kernel_total weight in_H out_H : has_shape weight (full_weight_shape k) -> Forall proper in_H -> Forall proper out_H ->
    exists W, full_kernel_forward k weight in_H out_H = Ok W.
  Proof using Hops Hg Hm Hz Hans Hd Hsmp.
    intros Hw Pi Po. unfold full_kernel_forward.
    destruct (sample_group_total (k_out k :: k_cin k :: k_size k) weight in_H out_H Hw Pi Po) as (w' & E' & S'). rewrite E'. cbn [bind].
    destruct (has_shape_view w' _ (length out_H * length in_H :: k_cin k * k_out k :: k_size k) S') as [Ev Sv]; [rewrite !prodn_cons, prodn_nil; lia|]. rewrite Ev. cbn [bind].
    rewrite Hsmp. cbn [bind].
    destruct (product_Rn_spec k inv mul act det Hops Hg out_H) as [[Hps Hpw] _].
    destruct (grid_sample_spec smp (mkT (length out_H * length in_H :: k_cin k * k_out k :: k_size k) (data w'))
      (repeat_interleave0 (length in_H) (product_Rn k out_H)) (length out_H * length in_H) (k_cin k * k_out k) (k_size k) (k_size k)) as (w2 & E2 & S2 & _);
      [reflexivity|rewrite (shape_repeat_interleave0 _ _ _ _ Hps); reflexivity|exact Hz|].
    rewrite E2. cbn [bind].
    destruct (has_shape_view w2 _ (length out_H :: length in_H :: k_cin k :: k_out k :: k_size k) S2) as [E3 S3]; [rewrite !prodn_cons; lia|].
    rewrite E3. cbn [bind]. set (w3 := mkT _ (data w2)) in *.
    destruct (transpose_spec w3 _ _ _ _ _ S3) as [S4 _]. set (w4 := transpose 1 3 (transpose 0 3 w3)) in *.
    destruct (apply_mask_spec (k_mask k) (k_size k) [k_out k; length out_H; k_cin k; length in_H] w4 Hm) as (w5 & E5 & S5 & _); [exact S4|].
    rewrite E5. cbn [bind]. rewrite (proj1 Hw). unfold full_weight_shape.
    replace (length (k_gdim k :: k_out k :: k_cin k :: k_size k) - 2) with (S (length (k_size k))) by (cbn; lia).
    destruct (apply_det_spec (op_det (k_ops k)) det out_H (S (length (k_size k))) (k_out k) (k_cin k :: length in_H :: k_size k) w5) as (w6 & E6 & S6 & _);
      [apply (ok_det _ _ _ _ _ Hops)|reflexivity|exact S5|]. eauto.
  Qed.

  Lemma separable_kernel_total weight_H weight in_H out_H : has_shape weight_H (group_weight_shape k) -> has_shape weight (separable_weight_shape k) ->
    Forall proper in_H -> Forall proper out_H -> exists W1 W2, separable_kernel_forward k weight_H weight in_H out_H = Ok (W1, W2).
  Proof using Hops Hg Hm Hz Hans Hd Hsmp.
    intros Hwh Hw Pi Po. unfold separable_kernel_forward.
    destruct (sample_group_total [k_out k; k_cin k] weight_H in_H out_H Hwh Pi Po) as (w' & E' & S'). rewrite E'. cbn [bind].
    destruct (has_shape_view w' _ (length in_H :: length out_H :: k_cin k :: k_out k :: repeat 1 (length (k_size k))) S') as [Ev Sv];
      [rewrite !prodn_cons, prodn_nil, SepConvFacts.prodn_ones; lia|]. rewrite Ev. cbn [bind]. rewrite Hsmp. cbn [bind].
    destruct (spatial_spec k inv mul act det Hops Hg Hz smp weight 1 out_H Hw) as (w2 & E2 & S2 & _). rewrite E2. cbn [bind].
    destruct (has_shape_view w2 _ (k_out k :: length out_H :: 1 :: k_size k) S2) as [E3 S3]; [rewrite !prodn_cons; lia|].
    rewrite E3. cbn [bind]. set (w3 := mkT _ (data w2)) in *.
    destruct (apply_mask_spec (k_mask k) (k_size k) [k_out k; length out_H; 1] w3 Hm) as (w5 & E5 & S5 & _); [exact S3|].
    rewrite E5. cbn [bind].
    destruct (apply_det_spec (op_det (k_ops k)) det out_H (length (k_size k)) (k_out k) (1 :: k_size k) w5) as (w6 & E6 & S6 & _);
      [apply (ok_det _ _ _ _ _ Hops)|reflexivity|exact S5|]. rewrite E6. cbn [bind]. eauto.
  Qed.
End Kernels.

Section Layers.
  Context {G P : Type} {D : Dflt P} (d : nat) (L : gconv G P) (cin cout : nat) (ks : list nat) (k : gkernel G P) (groups : nat) (stride : list nat) (padding : padarg) (dil : list nat)
    (m : padmode) (bias : option (tensor R)).
  Hypothesis Hc : constructed d L cin cout ks k groups stride padding dil m bias.
  Hypothesis HK : regular_kernel k cin cout ks groups.
  Context (smp : sampler P).
  Hypothesis Hsmp : op_sample_Rn (k_ops k) = Ok smp.

  Lemma lifting_total weight (H : list G) X N s : has_shape weight (cout :: cin / groups :: ks) -> H <> [] -> has_shape X (N :: cin :: s) -> length s = d ->
    outcome_is (fits1 m d padding ks stride dil s) N cout (length H) (size1 d padding ks stride dil s) (lifting_forward L weight X H).
  Proof using Hc HK Hsmp.
    destruct HK as ((inv & mul & act & det & Hops) & Hg & Hm & Hk & Hko & Hki). intros Hw HH HX Hs.
    destruct (con_size d L cin cout ks k groups stride padding dil m bias Hc Hko Hki) as [Ek Hz].
    assert (has_shape weight (lifting_weight_shape k)) as SW0 by (unfold lifting_weight_shape; rewrite Hko, Hki, Ek; exact Hw).
    rewrite <- Ek in Hz, Hg, Hm.
    destruct (lifting_formula k inv mul act det Hops Hg Hm Hz smp weight H Hsmp SW0) as (W & EW & SW & _). rewrite Hko, Hki, Ek in SW.
    pose proof (C45_lifting_convolution _ _ D _ _ _ _ _ _ _ _ _ _ _ _ _ _ _ X N s Hc HH EW SW HX Hs) as [A1 A2]. cbv zeta in A1, A2. split.
    - intros F. destruct (A1 F) as (y & Ey & Sy & _). exists y, H. split; [exact Ey|]. split; [reflexivity|exact Sy].
    - exact A2.
  Qed.

  Context (proper : G -> Prop).
  Hypothesis Hans : answers proper k.
  Hypothesis Hd : k_gdim k <> 0.

  Lemma full_total weight (in_H out_H : list G) X N s : has_shape weight (k_gdim k :: cout :: cin / groups :: ks) ->
    out_H <> [] -> Forall proper in_H -> Forall proper out_H -> has_shape X (N :: cin :: length in_H :: s) -> length s = d ->
    outcome_is (fits1 m d padding ks stride dil s) N cout (length out_H) (size1 d padding ks stride dil s) (full_forward L weight X in_H out_H).
  Proof using Hc HK Hsmp Hans Hd.
    destruct HK as ((inv & mul & act & det & Hops) & Hg & Hm & Hk & Hko & Hki). intros Hw HH Pi Po HX Hs.
    destruct (con_size d L cin cout ks k groups stride padding dil m bias Hc Hko Hki) as [Ek Hz].
    assert (has_shape weight (full_weight_shape k)) as SW0 by (unfold full_weight_shape; rewrite Hko, Hki, Ek; exact Hw).
    rewrite <- Ek in Hz, Hg, Hm.
    destruct (full_kernel_total k inv mul act det Hops Hg Hm Hz proper Hans Hd smp Hsmp weight in_H out_H SW0 Pi Po) as (W & EW).
    pose proof (full_kernel_shape k inv mul act det Hops Hg Hm Hz weight in_H out_H W SW0 EW) as SW. rewrite Hko, Hki, Ek in SW.
    pose proof (C46_group_convolution _ _ D _ _ _ _ _ _ _ _ _ _ _ _ _ _ _ _ X N s Hc HH EW SW HX Hs) as [A1 A2]. cbv zeta in A1, A2. split.
    - intros F. destruct (A1 F) as (y & Ey & Sy & _). exists y, out_H. split; [exact Ey|]. split; [reflexivity|exact Sy].
    - exact A2.
  Qed.

  Lemma separable_total weight_H weight (in_H out_H : list G) X N s : has_shape weight_H [k_gdim k; cout; cin / groups] -> has_shape weight (cout :: 1 :: ks) ->
    out_H <> [] -> Forall proper in_H -> Forall proper out_H -> has_shape X (N :: cin :: length in_H :: s) -> length s = d ->
    outcome_is (fits2 m d padding ks stride dil s) N cout (length out_H) (size2 m d padding ks stride dil s) (separable_forward L weight_H weight X in_H out_H).
  Proof using Hc HK Hsmp Hans Hd.
    destruct HK as ((inv & mul & act & det & Hops) & Hg & Hm & Hk & Hko & Hki). intros Hwh Hw HH Pi Po HX Hs.
    destruct (con_size d L cin cout ks k groups stride padding dil m bias Hc Hko Hki) as [Ek Hz].
    destruct (con_lengths d L cin cout ks k groups stride padding dil m bias Hc) as (Ls & Lk & _).
    assert (has_shape weight (separable_weight_shape k)) as SW0 by (unfold separable_weight_shape; rewrite Hko, Ek; exact Hw).
    assert (has_shape weight_H (group_weight_shape k)) as SG0 by (unfold group_weight_shape; rewrite Hko, Hki; exact Hwh).
    rewrite <- Ek in Hz, Hg, Hm.
    destruct (separable_kernel_total k inv mul act det Hops Hg Hm Hz proper Hans Hd smp Hsmp weight_H weight in_H out_H SG0 SW0 Pi Po) as (WH & WS & EW).
    destruct (separable_kernel_shape k inv mul act det Hops Hg Hm Hz weight_H weight in_H out_H WH WS SW0 EW) as [S1 S2].
    rewrite Hko, ?Hki, Ek, ?Lk in S1. rewrite Hko, Ek in S2.
    pose proof (separable_two_stage _ _ D _ _ _ _ _ _ _ _ _ _ _ _ _ _ _ _ _ _ X N s Hc HH EW S1 S2 HX Hs) as [A1 A2]. cbv zeta in A1, A2. split.
    - intros [F1 F2]. destruct (A1 F1 F2) as (t & y & Ey & _ & Sy & _). exists y, out_H. split; [exact Ey|]. split; [reflexivity|exact Sy].
    - exact A2.
  Qed.
End Layers.

(** ** Samplers *)
Definition total {G} (smp : nat -> list G -> mat -> list G -> result mat) (g : list G) : Prop :=
  forall S q s, wfm (length g) S s -> exists r, smp S q s g = Ok r /\ wfm (length q) S r.
Lemma NN_total {G} T (HT : torch_ok T) (dist : G -> G -> R) g : g <> [] -> total (fun S q s g => interpolate_NN T dist q g s) g.
Proof.
  intros Hg S q s [L RR]. destruct (NN_spec T HT dist q g s Hg L) as (out & Eo & Lo & _).
  exists out. split; [exact Eo|]. split; [exact Lo|]. exact (NN_rows_len T dist S q s g out RR Eo).
Qed.
Lemma RBF_total {G} T (HS : solver_complete T) (dist : G -> G -> R) rbf w g :
  nonsingular (length g) (map (fun a => map (fun b => rbf (dist a b) w) g) g) -> total (fun S q s g => interpolate_RBF T dist rbf w S q g s) g.
Proof.
  intros Hn S q s W. destruct (HS _ _ _ _ Hn W) as (c & Ec).
  assert (interpolate_RBF T dist rbf w S q g s = Ok (matmul S (map (fun a => map (fun b => rbf (dist a b) w) g) q) c)) as E' by (unfold interpolate_RBF; rewrite Ec; reflexivity).
  eexists. split; [exact E'|]. exact (WeightFacts.RBF_rows _ _ _ _ _ _ _ _ _ E').
Qed.
Lemma so2_total T (HT : torch_ok T) mode w g : mode = "nearest"%string /\ g <> [] \/
    mode = "rbf"%string /\ solver_complete T /\ nonsingular (length g) (map (fun a => map (fun b => RBF_gauss (so2_geodesic_distance a b so2_eps) w) g) g) ->
  total (fun S q s g => so2_grid_sample T mode w S q s g) g.
Proof.
  intros [[-> Hg]|(-> & HS & Hn)] S q s W; unfold so2_grid_sample; cbn [String.eqb Ascii.eqb Bool.eqb].
  - exact (NN_total T HT _ g Hg S q s W).
  - exact (RBF_total T HS _ RBF_gauss w g Hn S q s W).
Qed.
Lemma so3_total T (HT : torch_ok T) mode w g : mode = "nearest"%string /\ g <> [] \/
    mode = "rbf"%string /\ solver_complete T /\ nonsingular (length g) (rbf_matrix w g) ->
  total (fun S q s g => so3_grid_sample_matrix T mode w S q s g) g.
Proof.
  intros [[-> Hg]|(-> & HS & Hn)] S q s W; unfold so3_grid_sample_matrix, so3_grid_sample; cbn [String.eqb Ascii.eqb Bool.eqb];
    rewrite <- (map_length so3_matrix_to_quat g) in W; rewrite <- (map_length so3_matrix_to_quat q).
  - apply (NN_total T HT); [|exact W]. destruct g; [contradiction|discriminate].
  - refine (RBF_total T HS (fun a b => so3_geodesic_distance a b so3_eps) RBF_gauss w (map so3_matrix_to_quat g) _ S (map so3_matrix_to_quat q) s W).
    rewrite map_length, map_map. unfold rbf_matrix in Hn.
    erewrite map_ext; [exact Hn|]. intros a. rewrite map_map. reflexivity.
Qed.

Section SplitTotal.
  Context {E0 G0 : Type} (coeff : E0 -> R) (part : E0 -> G0) (srot sref : nat -> list G0 -> mat -> list G0 -> result mat).
  Hypothesis Rrot : forall S, rowwise (srot S).
  Hypothesis Rref : forall S, rowwise (sref S).
  Hypothesis Lrot : forall S, rows_len S (srot S).
  Hypothesis Lref : forall S, rows_len S (sref S).
  Lemma split_total S q s (g : list E0) n m : length g = n + m -> n <> 0 -> m <> 0 -> wfm (n + m) S s ->
    total srot (map part (firstn n g)) -> total sref (map part (skipn n g)) ->
    (forall e, In e q -> coeff e = 1%R \/ coeff e = (-1)%R) ->
    exists r, split_sample coeff part (srot S) (sref S) q s g n m = Ok r /\ wfm (length q) S r.
  Proof using Rrot Rref Lrot Lref.
    intros Lg Hn Hm W Trot Tref Hpm.
    assert (wfm (length (map part (firstn n g))) S (firstn n s) /\ wfm (length (map part (skipn n g))) S (skipn n s)) as [B1 B2].
    { destruct W as [L RR]. split; (split; [rewrite map_length, ?firstn_length, ?skipn_length; lia|]); intros x Hx; apply RR; [exact (In_firstn _ _ _ Hx)|exact (In_skipn _ _ _ Hx)]. }
    assert (n + m = length s) as Hsz by (symmetry; exact (proj1 W)).
    destruct (Trot S (map part (filter (fun e => if Req_EM_T (coeff e) 1 then true else false) q)) _ B1) as (ro & Ero & _).
    destruct (Tref S (map part (filter (fun e => if Req_EM_T (coeff e) (-1) then true else false) q)) _ B2) as (re & Ere & _).
    assert (exists r, split_sample coeff part (srot S) (sref S) q s g n m = Ok r) as [r Er].
    { apply (split_sample_total coeff part (srot S) (sref S) (Rrot S) (Rref S) q s g n m Hpm Hsz ro re); try contradiction; auto. }
    exists r. split; [exact Er|].
    destruct (split_sample_rows coeff part (srot S) (sref S) (Rrot S) (Rref S) q s g n m Hpm Hsz r Er) as [Lr Hr].
    split; [exact Lr|]. intros row Hin. apply In_nth_error in Hin. destruct Hin as [i Hi].
    destruct (nth_error q i) as [e|] eqn:Ee; [|apply nth_error_None in Ee; apply nth_error_Some_lt in Hi; lia].
    destruct (Hr i e Ee) as (row' & Hi' & Hrow). rewrite Hi in Hi'. injection Hi' as <-.
    destruct Hrow as [(_ & _ & H2)|(_ & _ & H2)].
    - exact (Lrot S _ _ _ _ (proj2 B1) H2 row (or_introl eq_refl)).
    - exact (Lref S _ _ _ _ (proj2 B2) H2 row (or_introl eq_refl)).
  Qed.
End SplitTotal.

(** ** The kernels of the library *)
Lemma answers_SE2 T cin out s groups gmode given w mode pm mask grid k : kernel_SE2 T cin out s groups gmode given mode pm mask grid = Ok k -> width_SE2 given grid = Ok w ->
  total (fun S q s g => so2_grid_sample T gmode w S q s g) grid -> answers (fun _ => True) k.
Proof.
  intros Hk Hw Ht. unfold kernel_SE2 in Hk. rewrite Hw in Hk. cbn [bind] in Hk.
  assert (k_ops k = ops_SE2 T gmode w mode pm /\ k_gdim k = length grid /\ k_grid_H k = grid) as (E & Eg & EH).
  { injection Hk as <-. split; [reflexivity|]. split; [|reflexivity]. unfold k_gdim. cbn. apply Nat.add_0_r. }
  pose proof (gops_ok_SE2 T gmode w mode pm) as Hops. rewrite <- E in Hops.
  intros S in_H out_H sg W _ _. rewrite E, EH. cbn [ops_SE2 op_sample_H]. rewrite Eg in W.
  destruct (Ht S (relative_elements k in_H out_H) sg W) as (r & Er & Wr). exists r. split; [exact Er|].
  rewrite (relative_elements_length k _ _ _ _ _ _ Hops) in Wr. exact Wr.
Qed.
Lemma answers_SE3 T cin out s groups gmode given w mode pm mask grid k : kernel_SE3 T cin out s groups gmode given mode pm mask grid = Ok k -> width_SE3 given grid = Ok w ->
  total (fun S q s g => so3_grid_sample_matrix T gmode w S q s g) grid -> answers (fun _ => True) k.
Proof.
  intros Hk Hw Ht. unfold kernel_SE3 in Hk. rewrite Hw in Hk. cbn [bind] in Hk.
  assert (k_ops k = ops_SE3 T gmode w mode pm /\ k_gdim k = length grid /\ k_grid_H k = grid) as (E & Eg & EH).
  { injection Hk as <-. split; [reflexivity|]. split; [|reflexivity]. unfold k_gdim. cbn. apply Nat.add_0_r. }
  pose proof (gops_ok_SE3 T gmode w mode pm) as Hops. rewrite <- E in Hops.
  intros S in_H out_H sg W _ _. rewrite E, EH. cbn [ops_SE3 op_sample_H]. rewrite Eg in W.
  destruct (Ht S (relative_elements k in_H out_H) sg W) as (r & Er & Wr). exists r. split; [exact Er|].
  rewrite (relative_elements_length k _ _ _ _ _ _ Hops) in Wr. exact Wr.
Qed.
(** Elements that are rotations or reflections. *)
Lemma sign_true c : sign True c <-> c = 1%R \/ c = (-1)%R.
Proof. unfold sign. tauto. Qed.
Lemma answers_E2 T cin out s groups n m gmode given given' rw fw mode pm mask grid k : n <> 0 -> m <> 0 -> length grid = n + m ->
  kernel_E2 T cin out s groups n m gmode given given' mode pm mask grid = Ok k -> width_E2_rot given n grid = Ok rw -> width_E2_ref given' n grid = Ok fw ->
  total (fun S q s g => so2_grid_sample T gmode rw S q s g) (map o2a (firstn n grid)) -> total (fun S q s g => so2_grid_sample T gmode fw S q s g) (map o2a (skipn n grid)) ->
  answers (fun h => sign True (o2c h)) k.
Proof.
  intros Hn Hm Lg Hk Hr Hf Tr Tf. unfold kernel_E2 in Hk. rewrite Hr, Hf in Hk. cbn [bind] in Hk.
  assert (k_ops k = ops_E2 T gmode rw fw n m mode pm /\ k_gdim k = n + m /\ k_grid_H k = grid) as (E & Eg & EH).
  { injection Hk as <-. split; [reflexivity|]. split; [|reflexivity]. unfold k_gdim. cbn [k_gsize fold_right]. rewrite Nat.add_0_r. reflexivity. }
  pose proof (gops_ok_E2 T gmode rw fw n m mode pm) as Hops. rewrite <- E in Hops.
  intros S in_H out_H sg W Pi Po. rewrite E, EH. cbn [ops_E2 op_sample_H]. rewrite Eg in W. unfold o2_grid_sample.
  destruct (split_total o2c o2a (fun S q s0 g => so2_grid_sample T gmode rw S q s0 g) (fun S q s0 g => so2_grid_sample T gmode fw S q s0 g)
    (so2_grid_sample_rowwise T gmode rw) (so2_grid_sample_rowwise T gmode fw) (so2_rows_len T gmode rw) (so2_rows_len T gmode fw) S (relative_elements k in_H out_H) sg grid n m Lg Hn Hm W Tr Tf) as (r' & Er' & W').
  - intros e He. apply sign_true. apply (relative_elements_in k _ _ _ _ _ _ _ Hops) in He. destruct He as (a & b & Ha & Hb & ->). rewrite Forall_forall in Pi, Po. exact (sign_mul _ _ _ (Po a Ha) (Pi b Hb)).
  - exists r'. split; [exact Er'|]. rewrite (relative_elements_length k _ _ _ _ _ _ Hops) in W'. exact W'.
Qed.
Lemma answers_E3 T cin out s groups n m gmode given given' rw fw mode pm mask grid k : n <> 0 -> m <> 0 -> length grid = n + m ->
  kernel_E3 T cin out s groups n m gmode given given' mode pm mask grid = Ok k -> width_E3_rot given n grid = Ok rw -> width_E3_ref given' n grid = Ok fw ->
  total (fun S q s g => so3_grid_sample_matrix T gmode rw S q s g) (map o3r (firstn n grid)) -> total (fun S q s g => so3_grid_sample_matrix T gmode fw S q s g) (map o3r (skipn n grid)) ->
  answers (fun h => sign True (o3c h)) k.
Proof.
  intros Hn Hm Lg Hk Hr Hf Tr Tf. unfold kernel_E3 in Hk. rewrite Hr, Hf in Hk. cbn [bind] in Hk.
  assert (k_ops k = ops_E3 T gmode rw fw n m mode pm /\ k_gdim k = n + m /\ k_grid_H k = grid) as (E & Eg & EH).
  { injection Hk as <-. split; [reflexivity|]. split; [|reflexivity]. unfold k_gdim. cbn [k_gsize fold_right]. rewrite Nat.add_0_r. reflexivity. }
  pose proof (gops_ok_E3 T gmode rw fw n m mode pm) as Hops. rewrite <- E in Hops.
  intros S in_H out_H sg W Pi Po. rewrite E, EH. cbn [ops_E3 op_sample_H]. rewrite Eg in W. unfold o3_grid_sample.
  destruct (split_total o3c o3r (fun S q s0 g => so3_grid_sample_matrix T gmode rw S q s0 g) (fun S q s0 g => so3_grid_sample_matrix T gmode fw S q s0 g)
    (so3_sample_rowwise T gmode rw) (so3_sample_rowwise T gmode fw) (so3_rows_len T gmode rw) (so3_rows_len T gmode fw) S (relative_elements k in_H out_H) sg grid n m Lg Hn Hm W Tr Tf) as (r' & Er' & W').
  - intros e He. apply sign_true. apply (relative_elements_in k _ _ _ _ _ _ _ Hops) in He. destruct He as (a & b & Ha & Hb & ->). rewrite Forall_forall in Pi, Po. exact (sign_mul _ _ _ (Po a Ha) (Pi b Hb)).
  - exists r'. split; [exact Er'|]. rewrite (relative_elements_length k _ _ _ _ _ _ Hops) in W'. exact W'.
Qed.
