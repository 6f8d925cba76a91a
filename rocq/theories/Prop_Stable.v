(** Property theorems C87: how far a change of the input can spread.
    Reading guide (StableSpec.v).  [close e X X']: same shape, no entry differs by more than e.  [same_shape X X'].  [lifting_row], [group_row]: the
    sums of absolute sampled kernel weights that produce one output channel at one group element.  [lifting_gain ... c], [gain ... c]: parameters and
    input have the shapes the layer expects and c bounds these sums (normalizations: |weight| / sqrt (running_var + eps); ReLU 1; LeakyReLU
    max 1 |slope|; GELU 2).  [total_gain]: gains multiply along the modules.  [evaluated b]: normalizations use running statistics. *)
From Coq Require Import String ZArith Lra.
From Verif Require Import Prelude RMath Mat Interp SO2 SO2Facts SO3 O2 O2Facts O3 O3Facts Repulse RepulseFacts Functional FunctionalFacts Tensor TensorFacts Kernel KernelFacts Conv ConvSpec ConvFacts GConvFacts ConvInit ConvShift SepProduct EquiKernel Regrid
  Layers LayersSpec LayersFacts NormFacts Public PublicFacts Network NetworkCond Prop_Kernel KernelMore GroupKernelFacts Prop_Kernel2 Prop_SampleRn Prop_Conv Prop_Conv2 Prop_Public Prop_Network Prop_Layers Prop_Equi2 NetFacts SepConvFacts LocalSpec LocalFacts Prop_Local StableSpec GeluFacts StableFacts StableMore.
Open Scope R_scope.

(** ** One layer. *)
Theorem C87_lifting_layer : forall G P (D : Dflt P) d (M : gmodule G P) w (X X' Y : tensor R) o c e, lifting_gain d M w X o c -> 0 <= e -> close e X X' ->
  lifting_forward (gm_layer M) w X o = Ok (Y, o) -> exists Y', lifting_forward (gm_layer M) w X' o = Ok (Y', o) /\ close (c * e) Y Y'.
Proof. intros G P D d M w X X' Y o c e HG He HA E. destruct (lifting_stable d M w X X' o c e Y HG He HA E) as (Y' & E' & A & _). eauto. Qed.
Print Assumptions C87_lifting_layer.
Theorem C87_full_layer : forall G P (D : Dflt P) d (M : gmodule G P) w (X X' Y : tensor R) H o c e, conv_gain d M w X H o c -> 0 <= e -> close e X X' ->
  full_forward (gm_layer M) w X H o = Ok (Y, o) -> exists Y', full_forward (gm_layer M) w X' H o = Ok (Y', o) /\ close (c * e) Y Y'.
Proof. intros G P D d M w X X' Y H o c e HG He HA E. destruct (conv_stable d M w X X' H o c e Y HG He HA E) as (Y' & E' & A & _). eauto. Qed.
Print Assumptions C87_full_layer.
Theorem C87_separable_layer : forall G P (D : Dflt P) d (M : gmodule G P) wH w (X X' Y : tensor R) H o c e, separable_gain d M wH w X H o c -> 0 <= e -> close e X X' ->
  separable_forward (gm_layer M) wH w X H o = Ok (Y, o) -> exists Y', separable_forward (gm_layer M) wH w X' H o = Ok (Y', o) /\ close (c * e) Y Y'.
Proof. intros G P D d M wH w X X' Y H o c e HG He HA E. destruct (separable_stable d M wH w X X' H o c e Y HG He HA E) as (Y' & E' & A & _). eauto. Qed.
Print Assumptions C87_separable_layer.

(** Activations: ReLU never enlarges a change, LeakyReLU at most by max(1, |negative_slope|), GELU (both forms) at most by 2. *)
Theorem C87_activations : forall G (X X' : tensor R) (H : list G) e, 0 <= e -> close e X X' ->
  (exists Y Y', g_relu X H = Ok (Y, H) /\ g_relu X' H = Ok (Y', H) /\ close e Y Y') /\
  (forall slope, exists Y Y', g_leaky_relu slope X H = Ok (Y, H) /\ g_leaky_relu slope X' H = Ok (Y', H) /\ close (Rmax 1 (Rabs slope) * e) Y Y') /\
  (forall erf a, error_function erf -> a = "none"%string \/ a = "tanh"%string ->
     exists Y Y', g_gelu erf a X H = Ok (Y, H) /\ g_gelu erf a X' H = Ok (Y', H) /\ close (2 * e) Y Y').
Proof.
  intros G X X' H e He HA. pose proof HA as (s & HX & _). split; [|split].
  - exists (ewise relu X), (ewise relu X'). split; [reflexivity|]. split; [reflexivity|]. rewrite <- (Rmult_1_l e). apply (close_ewise relu 1 e X X' s); try assumption; try lra. intros x y. apply relu_lipschitz. lra.
  - intros slope. exists (ewise (leaky_relu slope) X), (ewise (leaky_relu slope) X'). split; [reflexivity|]. split; [reflexivity|].
    pose proof (Rmax_l 1 (Rabs slope)). pose proof (Rmax_r 1 (Rabs slope)). apply (close_ewise _ _ e X X' s); try assumption; try lra. intros x y. apply leaky_lipschitz; assumption.
  - intros erf a Hf Ha. assert (exists phi, gelu erf a = Ok phi) as (phi & Ep) by (destruct Ha as [-> | ->]; eexists; reflexivity).
    exists (ewise phi X), (ewise phi X'). unfold g_gelu. rewrite Ep. split; [reflexivity|]. split; [reflexivity|]. apply (close_ewise _ _ e X X' s); try assumption; try lra.
    intros x y. exact (gelu_lipschitz erf a phi x y (fun _ => Hf) Ep).
Qed.
Print Assumptions C87_activations.
(** Such an error function exists. *)
Theorem C87_error_function : exists erf, error_function erf.
Proof. exact error_function_exists. Qed.
Print Assumptions C87_error_function.

(** Normalization by running statistics multiplies every change in channel c by exactly |weight_c| / sqrt (running_var_c + eps). *)
Theorem C87_normalization : forall G d s (X X' : tensor R) (H : list G) N C h sp, (0 < d)%nat -> uses_running s = true -> has_shape X (N :: C :: h :: sp) -> has_shape X' (N :: C :: h :: sp) -> length sp = d ->
  (forall Y Y' s1 s2, g_batch_norm d s X H = Ok (Y, H, s1) -> g_batch_norm d s X' H = Ok (Y', H, s2) ->
     forall n c y, (n < N)%nat -> (c < C)%nat -> valid (h :: sp) y -> Rabs (at_ Y' (n :: c :: y) - at_ Y (n :: c :: y)) = Rabs (norm_factor s c) * Rabs (at_ X' (n :: c :: y) - at_ X (n :: c :: y))) /\
  (forall Y Y' s1 s2, g_instance_norm d s X H = Ok (Y, H, s1) -> g_instance_norm d s X' H = Ok (Y', H, s2) ->
     forall n c y, (n < N)%nat -> (c < C)%nat -> valid (h :: sp) y -> Rabs (at_ Y' (n :: c :: y) - at_ Y (n :: c :: y)) = Rabs (norm_factor s c) * Rabs (at_ X' (n :: c :: y) - at_ X (n :: c :: y))).
Proof.
  intros G d s X X' H N C h sp Hd Hr HX HX' Ls. pose proof (uses_running_bn s) as Eb. rewrite Hr in Eb. cbn [negb] in Eb. split.
  - destruct (g_batch_norm_spec H d s X N C h sp HX Ls Hd) as (_ & B2 & B3). destruct (g_batch_norm_spec H d s X' N C h sp HX' Ls Hd) as (_ & _ & B3').
    assert (forall K, ~ (bn_batch s = true /\ K = 1%nat)) as NK by (intros K [Q _]; congruence).
    intros Y Y' s1 s2 E E'. destruct (check_channels s C) eqn:Ech; [|rewrite (B2 (NK _) eq_refl) in E; discriminate].
    destruct (B3 (NK _) eq_refl) as (y1 & E1 & S1 & V1). destruct (B3' (NK _) eq_refl) as (y2 & E2 & S2 & V2). rewrite E1 in E. rewrite E2 in E'. injection E as <- _. injection E' as <- _.
    intros n c y Hn Hc Hy. rewrite V1, V2 by assumption. unfold bn_mean, bn_var. rewrite Eb. apply norm_close. exact Hr.
  - destruct (g_instance_norm_spec H d s X N C h sp HX Ls Hd) as (B1 & B2 & B3). destruct (g_instance_norm_spec H d s X' N C h sp HX' Ls Hd) as (_ & _ & B3').
    intros Y Y' s1 s2 E E'. destruct (in_rejected_em s C (h * prodn sp)) as [R|R]; [rewrite (B1 R) in E; discriminate|].
    destruct (check_channels s C) eqn:Ech; [|rewrite (B2 R eq_refl) in E; discriminate].
    destruct (B3 R eq_refl) as (y1 & E1 & S1 & V1). destruct (B3' R eq_refl) as (y2 & E2 & S2 & V2). rewrite E1 in E. rewrite E2 in E'. injection E as <- _. injection E' as <- _.
    intros n c y Hn Hc Hy. rewrite V1, V2 by assumption. unfold bn_mean, bn_var. rewrite Eb. apply norm_close. exact Hr.
Qed.
Print Assumptions C87_normalization.

(** ** Networks. *)
(** If c0 bounds the gain of the lifting layer and c the gains of the other modules (measured at any one input X on which the network runs),
    then the network runs on every input of X's shape, and outputs for inputs that differ by at most e differ by at most c0 c e. *)
Theorem C87_network : forall G P (D : Dflt P) fam d mul (M : gmodule G P) w rs K prog (X Y : tensor R) HY modules c0 c, (0 < d)%nat ->
  0 <= c0 -> lifting_gain d M w X (permuted M mul rs (or_else K (kernel_grid M))) c0 ->
  (forall Z H, lifting_call M mul rs w X K = Ok (Z, H) -> total_gain fam d mul prog Z H c) ->
  network fam d mul M w rs K prog X = Ok (Y, HY, modules) ->
  forall X1 X2 e, 0 <= e -> same_shape X X1 -> close e X1 X2 ->
  exists Y1 Y2 m1 m2, network fam d mul M w rs K prog X1 = Ok (Y1, HY, m1) /\ network fam d mul M w rs K prog X2 = Ok (Y2, HY, m2) /\
    same_shape Y Y1 /\ close (c0 * c * e) Y1 Y2.
Proof.
  intros G P D fam d mul M w rs K prog X Y HY modules c0 c Hd H0 HG HN E X1 X2 e He HS HA. unfold network in *.
  destruct (lifting_call M mul rs w X K) as [[Z H]|] eqn:EL; [|discriminate]. cbn [bind fst snd] in E. specialize (HN Z H eq_refl).
  unfold lifting_call in *. pose proof (lifting_forward_grid _ _ _ _ _ _ EL) as EH. rewrite <- EH in *.
  destruct (same_shape_close _ _ HS) as (e1 & He1 & A1).
  destruct (lifting_stable d M w X X1 H c0 e1 Z HG He1 A1 EL) as (Z1 & EZ1 & AZ1 & N & C & sp & Lsp & SZ).
  assert (feature d Z) as FZ by (exists N, C, (length H), sp; auto).
  pose proof (lifting_gain_shape d M w X X1 H c0 HS HG) as HG1.
  destruct (lifting_stable d M w X1 X2 H c0 e Z1 HG1 He HA EZ1) as (Z2 & EZ2 & AZ2 & _). rewrite EZ1, EZ2. cbn [bind fst snd].
  pose proof (close_same_shape _ _ _ AZ1) as SZ1.
  destruct (run_stable fam d mul Hd prog Z Z1 H c (c0 * e1) Y HY modules HN FZ ltac:(apply Rmult_le_pos; assumption) AZ1 E) as (Y1 & m1 & E1 & AY1 & _).
  destruct (run_stable fam d mul Hd prog Z1 Z2 H c (c0 * e) Y1 HY m1 (total_gain_shape fam d mul Hd prog Z Z1 H c SZ1 FZ HN) (feature_shape d Z Z1 SZ1 FZ) ltac:(apply Rmult_le_pos; assumption) AZ2 E1) as (Y2 & m2 & E2 & AY2 & _).
  exists Y1, Y2, m1, m2. rewrite E1, E2. split; [reflexivity|]. split; [reflexivity|]. split; [exact (close_same_shape _ _ _ AY1)|]. replace (c0 * c * e) with (c * (c0 * e)) by ring. exact AY2.
Qed.
Print Assumptions C87_network.

(** Every network in evaluation mode has such a constant: it is Lipschitz continuous in its input. *)
Theorem C87_every_network : forall G P (D : Dflt P) fam d mul (M : gmodule G P) w rs K prog (X Y : tensor R) HY modules, (0 < d)%nat ->
  plain_lifting d M w X (permuted M mul rs (or_else K (kernel_grid M))) ->
  (forall Z H, lifting_call M mul rs w X K = Ok (Z, H) -> throughout fam d mul (plain fam d mul) prog Z H) ->
  Forall (fun p => evaluated (fst p)) prog ->
  network fam d mul M w rs K prog X = Ok (Y, HY, modules) ->
  exists c, 0 <= c /\ forall X1 X2 e, 0 <= e -> same_shape X X1 -> close e X1 X2 ->
  exists Y1 Y2 m1 m2, network fam d mul M w rs K prog X1 = Ok (Y1, HY, m1) /\ network fam d mul M w rs K prog X2 = Ok (Y2, HY, m2) /\
    same_shape Y Y1 /\ close (c * e) Y1 Y2.
Proof.
  intros G P D fam d mul M w rs K prog X Y HY modules Hd HP HT HE E. destruct (lifting_gain_exists d M w X _ HP) as (c0 & H0 & HG).
  assert (exists c, 0 <= c /\ forall Z H, lifting_call M mul rs w X K = Ok (Z, H) -> total_gain fam d mul prog Z H c) as (c & Hc & HN).
  { destruct (lifting_call M mul rs w X K) as [[Z H]|] eqn:EL; [|exists 0; split; [lra|discriminate]].
    destruct (total_gain_exists fam d mul prog Z H (HT Z H eq_refl) HE) as (c & Hc & HG1). exists c. split; [exact Hc|]. intros Z' H' Q. injection Q as <- <-. exact HG1. }
  exists (c0 * c). split; [apply Rmult_le_pos; assumption|].
  exact (C87_network G P D fam d mul M w rs K prog X Y HY modules c0 c Hd H0 HG HN E).
Qed.
Print Assumptions C87_every_network.

(** Hence outputs are continuous functions of the input: for every tolerance there is a distance. *)
Theorem C87_continuous : forall G P (D : Dflt P) fam d mul (M : gmodule G P) w rs K prog (X Y : tensor R) HY modules, (0 < d)%nat ->
  plain_lifting d M w X (permuted M mul rs (or_else K (kernel_grid M))) ->
  (forall Z H, lifting_call M mul rs w X K = Ok (Z, H) -> throughout fam d mul (plain fam d mul) prog Z H) ->
  Forall (fun p => evaluated (fst p)) prog ->
  network fam d mul M w rs K prog X = Ok (Y, HY, modules) ->
  forall tol, 0 < tol -> exists delta, 0 < delta /\ forall X', close delta X X' ->
  exists Y' m', network fam d mul M w rs K prog X' = Ok (Y', HY, m') /\ close tol Y Y'.
Proof.
  intros G P D fam d mul M w rs K prog X Y HY modules Hd HP HT HE E tol Htol.
  destruct (C87_every_network G P D fam d mul M w rs K prog X Y HY modules Hd HP HT HE E) as (c & Hc & HL).
  exists (tol / (c + 1)). assert (0 < tol / (c + 1)) as Hp by (apply Rdiv_lt_0_compat; lra). split; [exact Hp|]. intros X' HA.
  assert (same_shape X X) as HS by (destruct HA as (s & A & _); exists s; auto).
  destruct (HL X X' (tol / (c + 1)) (Rlt_le _ _ Hp) HS HA) as (Y1 & Y2 & m1 & m2 & E1 & E2 & _ & AY). rewrite E in E1. injection E1 as <- <-.
  exists Y2, m2. split; [exact E2|]. destruct AY as (s & A & B & V). exists s. split; [exact A|]. split; [exact B|]. intros i Hi. eapply Rle_trans; [exact (V i Hi)|].
  apply Rmult_le_reg_r with (c + 1); [lra|]. unfold Rdiv. rewrite <- !Rmult_assoc, Rmult_assoc, Rinv_l, Rmult_1_r by lra. rewrite (Rmult_comm c). apply Rmult_le_compat_l; lra.
Qed.
Print Assumptions C87_continuous.

(** ** The library's kernels: bounds of the row sums from a bound of the stored weights. *)
Lemma valid1 s x : valid [s] x -> exists a, x = [a] /\ (a < s)%nat.
Proof. intros V. destruct (valid_inv_cons _ _ _ V) as (a & r & -> & Ha & V1). inversion V1; subst. eauto. Qed.
Lemma valid2 s x : valid [s; s] x -> exists a b, x = [a; b] /\ (a < s)%nat /\ (b < s)%nat.
Proof. intros V. destruct (valid_inv_cons _ _ _ V) as (a & r & -> & Ha & V1). destruct (valid1 _ _ V1) as (b & -> & Hb). eauto 6. Qed.
Lemma valid3 s x : valid [s; s; s] x -> exists a b c, x = [a; b; c] /\ (a < s)%nat /\ (b < s)%nat /\ (c < s)%nat.
Proof. intros V. destruct (valid_inv_cons _ _ _ V) as (a & r & -> & Ha & V1). destruct (valid2 _ _ V1) as (b & c & -> & Hb & Hc). eauto 8. Qed.
Lemma nth_error_some {A} (l : list A) i : (i < length l)%nat -> exists a, nth_error l i = Some a.
Proof. intros H. destruct (nth_error l i) eqn:E; [eauto|]. apply nth_error_None in E. lia. Qed.

(** Lifting layers (mode other than "bicubic"): the gain is at most (channels seen) x (kernel area) x (largest stored weight), for every grid. *)
Theorem C87_library_lifting : forall T cin out s groups n m mode pm (mask : bool) (B : R), (0 < s)%nat -> mode <> "bicubic"%string ->
  (forall grid weight H W, (exists smp, sample_R2 mode pm = Ok smp) -> has_shape weight [out; cin / groups; s; s]%nat -> (forall i, valid [out; cin / groups; s; s]%nat i -> Rabs (at_ weight i) <= B) ->
    lifting_kernel_forward (lifting_kernel_SE2 T cin out s groups mode pm mask grid) weight H = Ok W ->
    forall o g, (o < out)%nat -> (g < length H)%nat -> lifting_row W (cin / groups) [s; s] o g <= INR (cin / groups * (s * s)) * B) /\
  (forall grid weight H W, (exists smp, sample_R3 mode pm = Ok smp) -> has_shape weight [out; cin / groups; s; s; s]%nat -> (forall i, valid [out; cin / groups; s; s; s]%nat i -> Rabs (at_ weight i) <= B) ->
    lifting_kernel_forward (lifting_kernel_SE3 T cin out s groups mode pm mask grid) weight H = Ok W ->
    forall o g, (o < out)%nat -> (g < length H)%nat -> lifting_row W (cin / groups) [s; s; s] o g <= INR (cin / groups * (s * s * s)) * B) /\
  (forall grid weight H W, (exists smp, sample_R2 mode pm = Ok smp) -> has_shape weight [out; cin / groups; s; s]%nat -> (forall i, valid [out; cin / groups; s; s]%nat i -> Rabs (at_ weight i) <= B) ->
    Forall o2_wf H ->
    lifting_kernel_forward (lifting_kernel_E2 T cin out s groups n m mode pm mask grid) weight H = Ok W ->
    forall o g, (o < out)%nat -> (g < length H)%nat -> lifting_row W (cin / groups) [s; s] o g <= INR (cin / groups * (s * s)) * B) /\
  (forall grid weight H W, (exists smp, sample_R3 mode pm = Ok smp) -> has_shape weight [out; cin / groups; s; s; s]%nat -> (forall i, valid [out; cin / groups; s; s; s]%nat i -> Rabs (at_ weight i) <= B) ->
    Forall o3_wf H ->
    lifting_kernel_forward (lifting_kernel_E3 T cin out s groups n m mode pm mask grid) weight H = Ok W ->
    forall o g, (o < out)%nat -> (g < length H)%nat -> lifting_row W (cin / groups) [s; s; s] o g <= INR (cin / groups * (s * s * s)) * B).
Proof.
  intros T cin out s groups n m mode pm mask B Hs Hm. destruct (C76_never_amplifies T cin out s groups n m mode pm mask B Hs Hm) as (A1 & A2 & A3 & A4).
  assert ((s * s)%nat = prodn [s; s]) as P2 by (rewrite !prodn_cons; change (prodn []) with 1%nat; ring). assert ((s * s * s)%nat = prodn [s; s; s]) as P3 by (rewrite !prodn_cons; change (prodn []) with 1%nat; ring).
  split; [|split; [|split]].
  - intros grid weight H W [smp Es] Hw HB EW o g Ho Hg. destruct (nth_error_some H g Hg) as (t & Ht). rewrite P2. apply lifting_row_bound. intros c x Hc Hx. destruct (valid2 _ _ Hx) as (a & b & -> & Ha & Hb).
    apply (A1 grid smp weight H W o g t c a b); try assumption. intros x y Hx' Hy'. apply HB. repeat apply valid_cons; try assumption; apply valid_nil.
  - intros grid weight H W [smp Es] Hw HB EW o g Ho Hg. destruct (nth_error_some H g Hg) as (t & Ht). rewrite P3. apply lifting_row_bound. intros c x Hc Hx. destruct (valid3 _ _ Hx) as (a & b & z & -> & Ha & Hb & Hz).
    apply (A2 grid smp weight H W o g t c a b z); try assumption. intros x y z' Hx' Hy' Hz'. apply HB. repeat apply valid_cons; try assumption; apply valid_nil.
  - intros grid weight H W [smp Es] Hw HB HF EW o g Ho Hg. destruct (nth_error_some H g Hg) as (t & Ht). rewrite P2. apply lifting_row_bound. intros c x Hc Hx. destruct (valid2 _ _ Hx) as (a & b & -> & Ha & Hb).
    assert (o2_wf t) as Hwf by (rewrite Forall_forall in HF; apply HF; eapply nth_error_In; exact Ht).
    apply (A3 grid smp weight H W o g t c a b); try assumption. intros x y Hx' Hy'. apply HB. repeat apply valid_cons; try assumption; apply valid_nil.
  - intros grid weight H W [smp Es] Hw HB HF EW o g Ho Hg. destruct (nth_error_some H g Hg) as (t & Ht). rewrite P3. apply lifting_row_bound. intros c x Hc Hx. destruct (valid3 _ _ Hx) as (a & b & z & -> & Ha & Hb & Hz).
    assert (o3_wf t) as Hwf by (rewrite Forall_forall in HF; apply HF; eapply nth_error_In; exact Ht).
    apply (A4 grid smp weight H W o g t c a b z); try assumption; [|exact (proj1 Hwf)]. intros x y z' Hx' Hy' Hz'. apply HB. repeat apply valid_cons; try assumption; apply valid_nil.
Qed.
Print Assumptions C87_library_lifting.

(** Entries of a row that nearest-neighbour interpolation returns are entries of the stored weight. *)
Lemma NN_row {A} T (dist : A -> A -> R) q grid rows B : 0 <= B -> (forall r, In r rows -> Forall (fun v => Rabs v <= B) r) -> Forall (fun v => Rabs v <= B) (one_row (interpolate_NN T dist [q] grid rows)).
Proof.
  intros HB H. unfold interpolate_NN. destruct grid as [|b grid]; [constructor|]. cbn [mapM]. destruct (nth_error rows _) as [r|] eqn:E; cbn [of_option bind one_row]; [|constructor].
  apply H. eapply nth_error_In. exact E.
Qed.
Lemma param_rows_bound n rest weight B : (forall i, valid (n :: rest) i -> Rabs (at_ weight i) <= B) -> forall r, In r (param_rows n rest weight) -> Forall (fun v => Rabs v <= B) r.
Proof.
  intros H r Hr. unfold param_rows in Hr. apply in_map_iff in Hr. destruct Hr as (i & <- & Hi). apply in_seq in Hi. apply Forall_forall. intros v Hv. apply in_map_iff in Hv. destruct Hv as (x & <- & Hx).
  apply in_indices in Hx. apply H. apply valid_cons; [lia|exact Hx].
Qed.
Lemma image_of_bound out cin ks V o c B : 0 <= B -> Forall (fun v => Rabs v <= B) V -> forall i, Rabs (at_ (mkT ks (image_of out cin ks V o c)) i) <= B.
Proof.
  intros HB HV i. assert (forall l k, Forall (fun v => Rabs v <= B) l -> Rabs (nth k l 0) <= B) as K.
  { intros l k Hl. destruct (Nat.lt_ge_cases k (length l)) as [Hk|Hk]; [rewrite Forall_forall in Hl; apply Hl, nth_In; exact Hk|rewrite nth_overflow by exact Hk; rewrite Rabs_R0; exact HB]. }
  unfold at_. cbn [shape data]. apply K. apply Forall_forall. intros v Hv. apply in_map_iff in Hv. destruct Hv as (y & <- & _). apply K. exact HV.
Qed.

(** Group convolutions with group_sampling_mode "nearest": (channels seen) x |in_H| x (kernel area) x (largest stored weight), for all grids. *)
Theorem C87_library_full : forall T cin out s groups n m rot ref given mode pm (mask : bool) (B : R), (0 < s)%nat -> mode <> "bicubic"%string -> 0 <= B ->
  (forall grid k weight H K W, kernel_SE2 T cin out s groups "nearest" given mode pm mask grid = Ok k ->
    has_shape weight [length grid; out; cin / groups; s; s]%nat -> (forall i, valid [length grid; out; cin / groups; s; s]%nat i -> Rabs (at_ weight i) <= B) ->
    full_kernel_forward k weight H K = Ok W ->
    forall o g, (o < out)%nat -> (g < length K)%nat -> group_row W (cin / groups) (length H) [s; s] o g <= INR (cin / groups * length H * (s * s)) * B) /\
  (forall grid k weight H K W, kernel_SE3 T cin out s groups "nearest" given mode pm mask grid = Ok k ->
    has_shape weight [length grid; out; cin / groups; s; s; s]%nat -> (forall i, valid [length grid; out; cin / groups; s; s; s]%nat i -> Rabs (at_ weight i) <= B) ->
    full_kernel_forward k weight H K = Ok W ->
    forall o g, (o < out)%nat -> (g < length K)%nat -> group_row W (cin / groups) (length H) [s; s; s] o g <= INR (cin / groups * length H * (s * s * s)) * B) /\
  (forall grid k weight H K W, kernel_E2 T cin out s groups n m "nearest" rot ref mode pm mask grid = Ok k -> Forall o2_wf H -> Forall o2_wf K ->
    has_shape weight [n + m; out; cin / groups; s; s]%nat -> (forall i, valid [n + m; out; cin / groups; s; s]%nat i -> Rabs (at_ weight i) <= B) ->
    full_kernel_forward k weight H K = Ok W ->
    forall o g, (o < out)%nat -> (g < length K)%nat -> group_row W (cin / groups) (length H) [s; s] o g <= INR (cin / groups * length H * (s * s)) * B) /\
  (forall grid k weight H K W, kernel_E3 T cin out s groups n m "nearest" rot ref mode pm mask grid = Ok k -> Forall o3_wf H -> Forall o3_wf K ->
    has_shape weight [n + m; out; cin / groups; s; s; s]%nat -> (forall i, valid [n + m; out; cin / groups; s; s; s]%nat i -> Rabs (at_ weight i) <= B) ->
    full_kernel_forward k weight H K = Ok W ->
    forall o g, (o < out)%nat -> (g < length K)%nat -> group_row W (cin / groups) (length H) [s; s; s] o g <= INR (cin / groups * length H * (s * s * s)) * B).
Proof.
  intros T cin out s groups n m rot ref given mode pm mask B Hs Hm HB.
  assert ((s * s)%nat = prodn [s; s]) as P2 by (rewrite !prodn_cons; change (prodn []) with 1%nat; ring). assert ((s * s * s)%nat = prodn [s; s; s]) as P3 by (rewrite !prodn_cons; change (prodn []) with 1%nat; ring).
  assert (forall v b, Rabs v <= b -> - b <= v <= b) as U.
  { intros v b Hv. pose proof (Rle_abs v). pose proof (Rle_abs (- v)). rewrite Rabs_Ropp in *. lra. }
  assert (forall v x y, Rabs v <= B -> Rabs (lt_float x y * v) <= B) as ML.
  { intros v x y Hv. unfold lt_float. destruct (Rlt_dec x y); [rewrite Rmult_1_l; exact Hv|rewrite Rmult_0_l, Rabs_R0; exact HB]. }
  assert (forall v k, k = 1 \/ k = -1 -> Rabs v <= B -> Rabs (v / k) <= B) as Dv.
  { intros v k [->| ->] Hv; [unfold Rdiv; rewrite Rinv_1, Rmult_1_r; exact Hv|]. replace (v / -1) with (- v) by field. rewrite Rabs_Ropp. exact Hv. }
  assert (forall smp V o c v, sample_R2 mode pm = Ok smp -> Forall (fun x => Rabs x <= B) V -> Rabs (smp [s; s] (image_of out (cin / groups) [s; s] V o c) v) <= B) as K2.
  { intros smp V o c v Es HV. apply Rabs_le. apply (C76_range_2d mode pm); try assumption; [intros _; lra|]. intros i j _ _. apply U, image_of_bound; assumption. }
  assert (forall smp V o c v, sample_R3 mode pm = Ok smp -> Forall (fun x => Rabs x <= B) V -> Rabs (smp [s; s; s] (image_of out (cin / groups) [s; s; s] V o c) v) <= B) as K3.
  { intros smp V o c v Es HV. apply Rabs_le. apply (C76_range_3d mode pm); try assumption; [intros _; lra|]. intros i j l _ _ _. apply U, image_of_bound; assumption. }
  assert (forall x y, (x < s)%nat -> (y < s)%nat -> at_ (create_spherical_mask_R2 s) [x; y] = lt_float (norm2 (at_ (create_grid_R2 s) [x; y])) (11 / 10)) as M2.
  { intros x y Hx Hy. apply mask_R2_at; repeat apply valid_cons; try assumption; apply valid_nil. }
  assert (forall x y z, (x < s)%nat -> (y < s)%nat -> (z < s)%nat -> at_ (create_spherical_mask_R3 s) [x; y; z] = lt_float (norm3 (at_ (create_grid_R3 s) [x; y; z])) (11 / 10)) as M3.
  { intros x y z Hx Hy Hz. apply mask_R3_at; repeat apply valid_cons; try assumption; apply valid_nil. }
  assert (forall l (p : nat) r, (forall r, In r l -> Forall (fun v => Rabs v <= B) r) -> In r (firstn p l) \/ In r (skipn p l) -> Forall (fun v => Rabs v <= B) r) as Sp.
  { intros l p r Hl Hr. apply Hl. rewrite <- (firstn_skipn p l). apply in_or_app. exact Hr. }
  split; [|split; [|split]].
  - intros grid k weight H K W Ek Hw Hb EW o g Ho Hg. destruct (C37_SE2 T cin out s groups "nearest" given mode pm mask grid k weight H K W Hs Ek Hw EW) as (smp & w & Es & _ & _ & A). cbv zeta in A.
    destruct (nth_error_some K g Hg) as (t & Ht). rewrite P2. apply group_row_bound. intros c h x Hc Hh Hx. destruct (valid2 _ _ Hx) as (a & b & -> & Ha & Hb').
    destruct (nth_error_some H h Hh) as (r & Hr). destruct (relabel_exists out (cin / groups) o c Ho Hc) as (o' & c' & Ho' & Hc' & Hoc).
    rewrite (A o g t c h r a b o' c') by assumption. rewrite M2 by assumption. apply ML, K2; [exact Es|]. unfold value_SE2, so2_grid_sample. cbn [String.eqb Ascii.eqb Bool.eqb].
    apply NN_row; [exact HB|]. apply param_rows_bound. exact Hb.
  - intros grid k weight H K W Ek Hw Hb EW o g Ho Hg. destruct (C37_SE3 T cin out s groups "nearest" given mode pm mask grid k weight H K W Hs Ek Hw EW) as (smp & w & Es & _ & _ & A). cbv zeta in A.
    destruct (nth_error_some K g Hg) as (t & Ht). rewrite P3. apply group_row_bound. intros c h x Hc Hh Hx. destruct (valid3 _ _ Hx) as (a & b & z & -> & Ha & Hb' & Hz).
    destruct (nth_error_some H h Hh) as (r & Hr). destruct (relabel_exists out (cin / groups) o c Ho Hc) as (o' & c' & Ho' & Hc' & Hoc).
    rewrite (A o g t c h r a b z o' c') by assumption.
    match goal with |- Rabs (_ * ?S) <= _ => assert (Rabs S <= B) as KS end.
    { apply K3; [exact Es|]. apply NN_row; [exact HB|]. apply param_rows_bound. exact Hb. }
    destruct mask; [rewrite M3 by assumption; apply ML; exact KS|rewrite Rmult_1_l; exact KS].
  - intros grid k weight H K W Ek HF1 HF2 Hw Hb EW o g Ho Hg. destruct (C37_E2 T cin out s groups n m "nearest" rot ref mode pm mask grid k weight H K W Hs Ek HF1 HF2 Hw EW) as (smp & rw & fw & Es & _ & _ & _ & A). cbv zeta in A.
    destruct (nth_error_some K g Hg) as (t & Ht). rewrite P2. apply group_row_bound. intros c h x Hc Hh Hx. destruct (valid2 _ _ Hx) as (a & b & -> & Ha & Hb').
    destruct (nth_error_some H h Hh) as (r & Hr). destruct (relabel_exists out (cin / groups) o c Ho Hc) as (o' & c' & Ho' & Hc' & Hoc).
    rewrite (A o g t c h r a b o' c') by assumption.
    assert (o2_wf t) as Hwf by (rewrite Forall_forall in HF2; apply HF2; eapply nth_error_In; exact Ht). apply Dv; [exact Hwf|].
    match goal with |- Rabs (_ * ?S) <= _ => assert (Rabs S <= B) as KS end.
    { apply K2; [exact Es|]. unfold value_E2. destruct (Req_EM_T _ _); (apply NN_row; [exact HB|]; intros r0 Hr0; eapply Sp; [apply param_rows_bound; exact Hb|eauto]). }
    destruct mask; [rewrite M2 by assumption; apply ML; exact KS|rewrite Rmult_1_l; exact KS].
  - intros grid k weight H K W Ek HF1 HF2 Hw Hb EW o g Ho Hg. destruct (C37_E3 T cin out s groups n m "nearest" rot ref mode pm mask grid k weight H K W Hs Ek HF1 HF2 Hw EW) as (smp & rw & fw & Es & _ & _ & _ & A). cbv zeta in A.
    destruct (nth_error_some K g Hg) as (t & Ht). rewrite P3. apply group_row_bound. intros c h x Hc Hh Hx. destruct (valid3 _ _ Hx) as (a & b & z & -> & Ha & Hb' & Hz).
    destruct (nth_error_some H h Hh) as (r & Hr). destruct (relabel_exists out (cin / groups) o c Ho Hc) as (o' & c' & Ho' & Hc' & Hoc).
    rewrite (A o g t c h r a b z o' c') by assumption.
    assert (o3_wf t) as Hwf by (rewrite Forall_forall in HF2; apply HF2; eapply nth_error_In; exact Ht). apply Dv; [exact (proj1 Hwf)|].
    match goal with |- Rabs (_ * ?S) <= _ => assert (Rabs S <= B) as KS end.
    { apply K3; [exact Es|]. unfold value_E3. destruct (Req_EM_T _ _); (apply NN_row; [exact HB|]; intros r0 Hr0; eapply Sp; [apply param_rows_bound; exact Hb|eauto]). }
    destruct mask; [rewrite M3 by assumption; apply ML; exact KS|rewrite Rmult_1_l; exact KS].
Qed.
Print Assumptions C87_library_full.

(** The network of C83 (lifting, batch normalization in evaluation mode, ReLU, group convolution) meets the hypotheses of C87_every_network. *)
Example C87_nonvacuous : forall T, torch_ok T -> exists M M1 (Y : tensor R) HY modules,
  let w := build [2; 1; 3; 3]%nat (fun idx => INR (nth 3 idx 0%nat)) in
  let w1 := build [4; 3; 2; 3; 3]%nat (fun idx => INR (nth 0 idx 0%nat)) in
  let X := build [2; 1; 6; 8]%nat (fun idx => INR (nth 2 idx 0%nat)) in
  let s := {| nm_features := 2; nm_eps := 1/100000; nm_momentum := Some (1/10)%R; nm_weight := Some [1; 1]%R; nm_bias := Some [0; 0]%R;
    nm_mean := Some [0; 0]%R; nm_var := Some [1; 1]%R; nm_count := 0; nm_training := false |} in
  let net := [(BBatchNorm s, []); (BReLU, []); (BConv M1 w1 None, [])] : list (block R V2 * list R) in
  network SEn 2 so2_left_apply_angle M w [] None net X = Ok (Y, HY, modules) /\
  exists c, 0 <= c /\ forall X1 X2 e, 0 <= e -> same_shape X X1 -> close e X1 X2 ->
  exists Y1 Y2 m1 m2, network SEn 2 so2_left_apply_angle M w [] None net X1 = Ok (Y1, HY, m1) /\ network SEn 2 so2_left_apply_angle M w [] None net X2 = Ok (Y2, HY, m2) /\
    same_shape Y Y1 /\ close (c * e) Y1 Y2.
Proof.
  intros T HT. destruct (C83_nonvacuous T HT) as (M & M1 & Y & HY & modules & _ & _ & HP & HN & E & _). exists M, M1, Y, HY, modules. cbv zeta. split; [exact E|].
  apply (C87_every_network R V2 _ SEn 2 so2_left_apply_angle M _ [] None _ _ Y HY modules ltac:(lia) HP HN); [|exact E].
  repeat constructor.
Qed.
(** And the hypotheses of the library bounds: a reflected 3x3 window, weights at most 2, on two elements; the gain is at most 9 x 2. *)
Example C87_library_nonvacuous T : exists W, lifting_kernel_forward (lifting_kernel_E2 T 1 2 3 1 4 2 "bilinear" "reflection" true [])
  (build [2; 1; 3; 3]%nat (fun idx => INR (nth 3 idx 0%nat))) [mkO2 1 (PI / 7); mkO2 (-1) 1] = Ok W /\
  forall o g, (o < 2)%nat -> (g < 2)%nat -> lifting_row W 1 [3; 3]%nat o g <= 18.
Proof.
  destruct (C76_nonvacuous T) as (W & E & _). exists W. split; [exact E|]. intros o g Ho Hg.
  destruct (C87_library_lifting T 1 2 3 1 4 2 "bilinear" "reflection" true 2) as (_ & _ & A & _); [lia|discriminate|].
  eapply Rle_trans; [apply (A [] (build [2; 1; 3; 3]%nat (fun idx => INR (nth 3 idx 0%nat))) [mkO2 1 (PI / 7); mkO2 (-1) 1] W (ex_intro _ _ eq_refl)); [split; [reflexivity|apply wft_build]| | |exact E|exact Ho|exact Hg]|].
  - intros i Hi. rewrite at_build by exact Hi. rewrite Rabs_pos_eq by apply pos_INR. replace 2 with (INR 2) by reflexivity. apply le_INR.
    destruct (valid_inv_cons _ _ _ Hi) as (i0 & r0 & -> & _ & V0). destruct (valid_inv_cons _ _ _ V0) as (i1 & r1 & -> & _ & V1). destruct (valid2 _ _ V1) as (i2 & i3 & -> & _ & H3). cbn [nth]. lia.
  - apply Forall_cons; [left; reflexivity|]. apply Forall_cons; [right; reflexivity|apply Forall_nil].
  - change (1 / 1 * (3 * 3))%nat with 9%nat. rewrite (INR_IZR_INZ 9). change (IZR (Z.of_nat 9)) with 9. lra.
Qed.
