(** Whether a call succeeds depends on shapes only. *)
From Coq Require Import String ZArith.
From Verif Require Import Prelude RMath Mat Interp InterpFacts SO2 SO2Facts O2 O2Facts SO3 SO3Facts O3 O3Facts OSplit OSplitFacts Repulse RepulseFacts Tensor TensorFacts Functional FunctionalFacts
  Kernel KernelFacts GroupKernelFacts KernelMore Conv ConvSpec ConvFacts ConvInit ConvShift SepProduct SepStages LayersSpec LayersFacts Layers NormFacts LinSpec LinFacts Regrid Public Network NetworkCond SampleRn WeightFacts
  PublicFacts Prop_Conv Prop_Conv2 Prop_Layers Prop_Linear NetFacts AcceptSpec.
Open Scope nat_scope.

(** ** Kernels *)
Section Kernels.
  Context {G P : Type} {D : Dflt P} (k : gkernel G P) (inv : G -> G) (mul : G -> G -> G) (act : G -> P -> P) (det : option (G -> R)).
  Hypothesis Hops : gops_ok (k_ops k) inv mul act det.
  Hypothesis Hg : has_shape (k_grid_Rn k) (k_size k).
  Hypothesis Hm : mask_ok (k_mask k) (k_size k).
  Hypothesis Hz : prodn (k_size k) <> 0.
  Context (proper : G -> Prop).
  Hypothesis Hset : settled proper k.

  Lemma sample_group_any rest weight weight' in_H out_H in_H' out_H' w : has_shape weight (k_gdim k :: rest) -> has_shape weight' (k_gdim k :: rest) ->
    Forall proper in_H' -> Forall proper out_H' -> sample_group k weight in_H out_H = Ok w ->
    exists w', sample_group k weight' in_H' out_H' = Ok w' /\ has_shape w' [length out_H' * length in_H'; prodn rest].
  Proof using Hset.
    intros Hw Hw' Pi Po E. unfold sample_group in *. destruct (Nat.eq_dec (k_gdim k) 0) as [Ed|Ed].
    { unfold view_trail in E. rewrite Ed in E. simpl in E. discriminate. }
    rewrite (view_trail_ok (k_gdim k) (prodn rest)) in E by (try assumption; destruct Hw as [-> _]; apply prodn_cons).
    rewrite (view_trail_ok (k_gdim k) (prodn rest)) by (try assumption; destruct Hw' as [-> _]; apply prodn_cons).
    cbn [bind shape nth] in *. fold (relative_elements k in_H out_H) in E. fold (relative_elements k in_H' out_H').
    destruct (op_sample_H (k_ops k) (prodn rest) (relative_elements k in_H out_H) (to_rows (mkT [k_gdim k; prodn rest] (data weight))) (k_grid_H k)) as [rows|] eqn:Er; [|discriminate].
    edestruct (Hset (prodn rest) in_H out_H in_H' out_H') as (rows' & Er' & Lr & Rr); [| | | |exact Er|].
    - apply to_rows_wf. reflexivity.
    - apply (to_rows_wf (mkT [k_gdim k; prodn rest] (data weight'))). reflexivity.
    - exact Pi.
    - exact Po.
    - rewrite Er'. cbn [bind]. eexists. split; [reflexivity|]. rewrite Lr. split; [reflexivity|]. unfold wft. cbn [shape data].
      rewrite (concat_len _ (prodn rest) Rr), Lr. rewrite !prodn_cons, prodn_nil, Nat.mul_1_r. reflexivity.
  Qed.

  Lemma full_kernel_any weight weight' in_H out_H in_H' out_H' W : has_shape weight (full_weight_shape k) -> has_shape weight' (full_weight_shape k) ->
    Forall proper in_H' -> Forall proper out_H' -> full_kernel_forward k weight in_H out_H = Ok W ->
    exists W', full_kernel_forward k weight' in_H' out_H' = Ok W'.
  Proof using Hops Hg Hm Hz Hset.
    intros Hw Hw' Pi Po E. unfold full_kernel_forward in *. destruct (sample_group k weight in_H out_H) as [w0|] eqn:E0; [|discriminate]. cbn [bind] in E.
    destruct (view (length out_H * length in_H :: k_cin k * k_out k :: k_size k) w0); [|discriminate]. cbn [bind] in E.
    destruct (op_sample_Rn (k_ops k)) as [smp|]; [|discriminate]. clear E.
    destruct (sample_group_any (k_out k :: k_cin k :: k_size k) weight weight' in_H out_H in_H' out_H' w0 Hw Hw' Pi Po E0) as (w' & E' & S'). rewrite E'. cbn [bind].
    destruct (has_shape_view w' _ (length out_H' * length in_H' :: k_cin k * k_out k :: k_size k) S') as [Ev Sv]; [rewrite !prodn_cons, prodn_nil; lia|]. rewrite Ev. cbn [bind].
    destruct (product_Rn_spec k inv mul act det Hops Hg out_H') as [[Hps Hpw] _].
    destruct (grid_sample_spec smp (mkT (length out_H' * length in_H' :: k_cin k * k_out k :: k_size k) (data w'))
      (repeat_interleave0 (length in_H') (product_Rn k out_H')) (length out_H' * length in_H') (k_cin k * k_out k) (k_size k) (k_size k)) as (w2 & E2 & S2 & _);
      [reflexivity|rewrite (shape_repeat_interleave0 _ _ _ _ Hps); reflexivity|exact Hz|].
    rewrite E2. cbn [bind].
    destruct (has_shape_view w2 _ (length out_H' :: length in_H' :: k_cin k :: k_out k :: k_size k) S2) as [E3 S3]; [rewrite !prodn_cons; lia|].
    rewrite E3. cbn [bind]. set (w3 := mkT _ (data w2)) in *.
    destruct (transpose_spec w3 _ _ _ _ _ S3) as [S4 _]. set (w4 := transpose 1 3 (transpose 0 3 w3)) in *.
    destruct (apply_mask_spec (k_mask k) (k_size k) [k_out k; length out_H'; k_cin k; length in_H'] w4 Hm) as (w5 & E5 & S5 & _); [exact S4|].
    rewrite E5. cbn [bind]. rewrite (proj1 Hw'). unfold full_weight_shape.
    replace (length (k_gdim k :: k_out k :: k_cin k :: k_size k) - 2) with (S (length (k_size k))) by (cbn; lia).
    destruct (apply_det_spec (op_det (k_ops k)) det out_H' (S (length (k_size k))) (k_out k) (k_cin k :: length in_H' :: k_size k) w5) as (w6 & E6 & S6 & _);
      [apply (ok_det _ _ _ _ _ Hops)|reflexivity|exact S5|]. eauto.
  Qed.

  Lemma separable_kernel_any weight_H weight weight_H' weight' in_H out_H in_H' out_H' W : has_shape weight_H (group_weight_shape k) -> has_shape weight_H' (group_weight_shape k) ->
    has_shape weight' (separable_weight_shape k) ->
    Forall proper in_H' -> Forall proper out_H' -> separable_kernel_forward k weight_H weight in_H out_H = Ok W ->
    exists W1 W2, separable_kernel_forward k weight_H' weight' in_H' out_H' = Ok (W1, W2).
  Proof using Hops Hg Hm Hz Hset.
    intros Hwh Hwh' Hw' Pi Po E. unfold separable_kernel_forward in *. destruct (sample_group k weight_H in_H out_H) as [w0|] eqn:E0; [|discriminate]. cbn [bind] in E.
    destruct (view (length in_H :: length out_H :: k_cin k :: k_out k :: repeat 1 (length (k_size k))) w0); [|discriminate]. cbn [bind] in E.
    destruct (op_sample_Rn (k_ops k)) as [smp|]; [|discriminate]. clear E.
    destruct (sample_group_any [k_out k; k_cin k] weight_H weight_H' in_H out_H in_H' out_H' w0 Hwh Hwh' Pi Po E0) as (w' & E' & S'). rewrite E'. cbn [bind].
    destruct (has_shape_view w' _ (length in_H' :: length out_H' :: k_cin k :: k_out k :: repeat 1 (length (k_size k))) S') as [Ev Sv];
      [rewrite !prodn_cons, prodn_nil, SepConvFacts.prodn_ones; lia|]. rewrite Ev. cbn [bind].
    destruct (spatial_spec k inv mul act det Hops Hg Hz smp weight' 1 out_H' Hw') as (w2 & E2 & S2 & _). rewrite E2. cbn [bind].
    destruct (has_shape_view w2 _ (k_out k :: length out_H' :: 1 :: k_size k) S2) as [E3 S3]; [rewrite !prodn_cons; lia|].
    rewrite E3. cbn [bind]. set (w3 := mkT _ (data w2)) in *.
    destruct (apply_mask_spec (k_mask k) (k_size k) [k_out k; length out_H'; 1] w3 Hm) as (w5 & E5 & S5 & _); [exact S3|].
    rewrite E5. cbn [bind].
    destruct (apply_det_spec (op_det (k_ops k)) det out_H' (length (k_size k)) (k_out k) (1 :: k_size k) w5) as (w6 & E6 & S6 & _);
      [apply (ok_det _ _ _ _ _ Hops)|reflexivity|exact S5|]. rewrite E6. cbn [bind]. eauto.
  Qed.
End Kernels.

(** ** Layers *)
Lemma axes_pos n f : (forall j, 0 < f j) -> prodn (axes n f) <> 0.
Proof. intros Hf. unfold axes. generalize (seq 0 n). induction l as [|a l IH]; cbn [map]; [discriminate|]. rewrite prodn_cons. pose proof (Hf a). intros E. apply Nat.eq_mul_0 in E. lia. Qed.
Lemma conv_size_pos s ks stride dil l r : prodn (conv_size s ks stride dil l r) <> 0.
Proof. apply axes_pos. intros j. rewrite Nat.add_1_r. apply Nat.lt_0_succ. Qed.

Lemma cancel_channels N a b n p : 0 < N -> 0 < n -> p <> 0 -> N * (a * n * p) = N * (b * (n * p)) -> a = b.
Proof. intros A B E H. apply Nat.mul_cancel_l in H; [|lia]. rewrite <- Nat.mul_assoc in H. apply Nat.mul_cancel_r in H; [exact H|]. intros Q. apply Nat.eq_mul_0 in Q. lia. Qed.
Lemma group_channels {G P} (L : gconv G P) kf (X : tensor R) N C in_H out_H s r : has_shape X (N :: C :: length in_H :: s) -> 0 < N -> in_H <> [] -> prodn s <> 0 ->
  group_forward_with L kf X in_H out_H = Ok r -> l_in L = C.
Proof.
  intros HX HN Hi Hs E. unfold group_forward_with in E. rewrite (proj1 HX) in E. destruct (kf in_H out_H); [|discriminate]. cbn [bind] in E.
  destruct (view (N :: l_in L * length in_H :: s) X) as [i|] eqn:Ev; [|discriminate]. apply view_inv in Ev. destruct Ev as [Ep _]. rewrite (proj1 HX), !prodn_cons in Ep.
  apply (cancel_channels N (l_in L) C (length in_H) (prodn s)); try assumption. destruct in_H; [congruence|apply Nat.lt_0_succ].
Qed.
Lemma separable_channels {G P} {D : Dflt P} (L : gconv G P) wH w (X : tensor R) N C in_H out_H s r : has_shape X (N :: C :: length in_H :: s) -> 0 < N -> in_H <> [] -> prodn s <> 0 ->
  separable_forward L wH w X in_H out_H = Ok r -> l_in L = C.
Proof.
  intros HX HN Hi Hs E. unfold separable_forward in E. rewrite (proj1 HX) in E. cbv zeta in E. destruct (separable_kernel_forward _ _ _ in_H out_H); [|discriminate]. cbn [bind] in E.
  destruct (view (N :: l_in L * length in_H :: s) X) as [i|] eqn:Ev; [|discriminate]. apply view_inv in Ev. destruct Ev as [Ep _]. rewrite (proj1 HX), !prodn_cons in Ep.
  apply (cancel_channels N (l_in L) C (length in_H) (prodn s)); try assumption. destruct in_H; [congruence|apply Nat.lt_0_succ].
Qed.

Section Layers.
  Context {G P : Type} {D : Dflt P} (d : nat) (L L' : gconv G P) (cin cout : nat) (ks : list nat) (kn : gkernel G P) (groups : nat).
  Hypothesis HC : same_config d L L' cin cout ks kn groups.
  Hypothesis HK : regular_kernel kn cin cout ks groups.

  Lemma lifting_any weight weight' (H H' : list G) X X' N N' s Y HY : has_shape weight (cout :: cin / groups :: ks) -> has_shape weight' (cout :: cin / groups :: ks) ->
    H <> [] -> H' <> [] -> has_shape X (N :: cin :: s) -> has_shape X' (N' :: cin :: s) -> length s = d ->
    lifting_forward L weight X H = Ok (Y, HY) ->
    exists Y' s', lifting_forward L' weight' X' H' = Ok (Y', H') /\ length s' = d /\ prodn s' <> 0 /\ HY = H /\ has_shape Y (N :: cout :: length H :: s') /\ has_shape Y' (N' :: cout :: length H' :: s').
  Proof using HC HK.
    destruct HC as (stride & padding & dil & m & bias & bias' & Hc & Hc'). destruct HK as ((inv & mul & act & det & Hops) & Hg & Hm & Hk & Hko & Hki).
    intros Hw Hw' HH HH' HX HX' Hs E.
    destruct (con_size d L cin cout ks kn groups stride padding dil m bias Hc Hko Hki) as [Ek Hz].
    destruct (con_lengths d L cin cout ks kn groups stride padding dil m bias Hc) as (Ls & Lk & _).
    destruct (constructed_spec _ _ _ _ _ _ _ _ _ _ _ _ Hc) as (_ & _ & El & _).
    assert (exists smp, op_sample_Rn (k_ops kn) = Ok smp) as [smp Hsmp].
    { unfold lifting_forward in E. rewrite (proj1 HX), El in E. unfold lifting_kernel_forward in E. destruct (op_sample_Rn (k_ops kn)); [eauto|discriminate]. }
    assert (forall w : tensor R, has_shape w (cout :: cin / groups :: ks) -> has_shape w (lifting_weight_shape kn)) as SW0 by (intros w; unfold lifting_weight_shape; rewrite Hko, Hki, Ek; auto).
    rewrite <- Ek in Hz, Hg, Hm.
    destruct (lifting_formula kn inv mul act det Hops Hg Hm Hz smp weight H Hsmp (SW0 _ Hw)) as (W & EW & SW & _). rewrite Hko, Hki, Ek in SW.
    destruct (lifting_formula kn inv mul act det Hops Hg Hm Hz smp weight' H' Hsmp (SW0 _ Hw')) as (W' & EW' & SW' & _). rewrite Hko, Hki, Ek in SW'.
    pose proof (C45_lifting_convolution _ _ D _ _ _ _ _ _ _ _ _ _ _ _ _ _ _ X N s Hc HH EW SW HX Hs) as [A1 A2].
    pose proof (C45_lifting_convolution _ _ D _ _ _ _ _ _ _ _ _ _ _ _ _ _ _ X' N' s Hc' HH' EW' SW' HX' Hs) as [B1 _].
    cbv zeta in *. set (l := lefts (stored_padding d padding) ks dil) in *. set (r := rights (stored_padding d padding) ks dil) in *.
    destruct (fits_em m s ks stride dil l r) as [F|F]; [|rewrite (A2 F) in E; discriminate].
    destruct (A1 F) as (y & Ey & Sy & _). destruct (B1 F) as (y' & Ey' & Sy' & _). rewrite E in Ey. injection Ey as -> ->.
    exists y', (conv_size s ks stride dil l r). split; [exact Ey'|]. split; [unfold conv_size; rewrite axes_length; exact Lk|]. split; [apply conv_size_pos|]. auto.
  Qed.

  Context (proper : G -> Prop).
  Hypothesis Hset : settled proper kn.

  Lemma full_any weight weight' (in_H out_H in_H' out_H' : list G) X X' N N' s Y HY :
    has_shape weight (k_gdim kn :: cout :: cin / groups :: ks) -> has_shape weight' (k_gdim kn :: cout :: cin / groups :: ks) ->
    out_H <> [] -> out_H' <> [] -> Forall proper in_H' -> Forall proper out_H' ->
    has_shape X (N :: cin :: length in_H :: s) -> has_shape X' (N' :: cin :: length in_H' :: s) -> length s = d ->
    full_forward L weight X in_H out_H = Ok (Y, HY) ->
    exists Y' s', full_forward L' weight' X' in_H' out_H' = Ok (Y', out_H') /\ length s' = d /\ prodn s' <> 0 /\ HY = out_H /\
      has_shape Y (N :: cout :: length out_H :: s') /\ has_shape Y' (N' :: cout :: length out_H' :: s').
  Proof using HC HK Hset.
    destruct HC as (stride & padding & dil & m & bias & bias' & Hc & Hc'). destruct HK as ((inv & mul & act & det & Hops) & Hg & Hm & Hk & Hko & Hki).
    intros Hw Hw' HH HH' Pi Po HX HX' Hs E.
    destruct (con_size d L cin cout ks kn groups stride padding dil m bias Hc Hko Hki) as [Ek Hz].
    destruct (con_lengths d L cin cout ks kn groups stride padding dil m bias Hc) as (Ls & Lk & _).
    destruct (constructed_spec _ _ _ _ _ _ _ _ _ _ _ _ Hc) as (_ & _ & El & _).
    assert (forall w : tensor R, has_shape w (k_gdim kn :: cout :: cin / groups :: ks) -> has_shape w (full_weight_shape kn)) as SW0 by (intros w; unfold full_weight_shape; rewrite Hko, Hki, Ek; auto).
    assert (exists W, full_kernel_forward kn weight in_H out_H = Ok W) as [W EW].
    { unfold full_forward, group_forward_with in E. rewrite El, (proj1 HX) in E. destruct (full_kernel_forward kn weight in_H out_H) as [W|]; [eauto|discriminate]. }
    rewrite <- Ek in Hz, Hg, Hm. pose proof (full_kernel_shape kn inv mul act det Hops Hg Hm Hz weight in_H out_H W (SW0 _ Hw) EW) as SW. rewrite Hko, Hki, Ek in SW.
    destruct (full_kernel_any kn inv mul act det Hops Hg Hm Hz proper Hset weight weight' in_H out_H in_H' out_H' W (SW0 _ Hw) (SW0 _ Hw') Pi Po EW) as [W' EW'].
    pose proof (full_kernel_shape kn inv mul act det Hops Hg Hm Hz weight' in_H' out_H' W' (SW0 _ Hw') EW') as SW'. rewrite Hko, Hki, Ek in SW'.
    pose proof (C46_group_convolution _ _ D _ _ _ _ _ _ _ _ _ _ _ _ _ _ _ _ X N s Hc HH EW SW HX Hs) as [A1 A2].
    pose proof (C46_group_convolution _ _ D _ _ _ _ _ _ _ _ _ _ _ _ _ _ _ _ X' N' s Hc' HH' EW' SW' HX' Hs) as [B1 _].
    cbv zeta in *. set (l := lefts (stored_padding d padding) ks dil) in *. set (r := rights (stored_padding d padding) ks dil) in *.
    destruct (fits_em m s ks stride dil l r) as [F|F]; [|rewrite (A2 F) in E; discriminate].
    destruct (A1 F) as (y & Ey & Sy & _). destruct (B1 F) as (y' & Ey' & Sy' & _). rewrite E in Ey. injection Ey as -> ->.
    exists y', (conv_size s ks stride dil l r). split; [exact Ey'|]. split; [unfold conv_size; rewrite axes_length; exact Lk|]. split; [apply conv_size_pos|]. auto.
  Qed.

  Lemma separable_any weight_H weight_H' weight weight' (in_H out_H in_H' out_H' : list G) X X' N N' s Y HY :
    has_shape weight_H [k_gdim kn; cout; cin / groups] -> has_shape weight_H' [k_gdim kn; cout; cin / groups] ->
    has_shape weight (cout :: 1 :: ks) -> has_shape weight' (cout :: 1 :: ks) ->
    out_H <> [] -> out_H' <> [] -> Forall proper in_H' -> Forall proper out_H' ->
    has_shape X (N :: cin :: length in_H :: s) -> has_shape X' (N' :: cin :: length in_H' :: s) -> length s = d ->
    separable_forward L weight_H weight X in_H out_H = Ok (Y, HY) ->
    exists Y' s', separable_forward L' weight_H' weight' X' in_H' out_H' = Ok (Y', out_H') /\ length s' = d /\ prodn s' <> 0 /\ HY = out_H /\
      has_shape Y (N :: cout :: length out_H :: s') /\ has_shape Y' (N' :: cout :: length out_H' :: s').
  Proof using HC HK Hset.
    destruct HC as (stride & padding & dil & m & bias & bias' & Hc & Hc'). destruct HK as ((inv & mul & act & det & Hops) & Hg & Hm & Hk & Hko & Hki).
    intros Hwh Hwh' Hw Hw' HH HH' Pi Po HX HX' Hs E.
    destruct (con_size d L cin cout ks kn groups stride padding dil m bias Hc Hko Hki) as [Ek Hz].
    destruct (con_lengths d L cin cout ks kn groups stride padding dil m bias Hc) as (Ls & Lk & _).
    destruct (constructed_spec _ _ _ _ _ _ _ _ _ _ _ _ Hc) as (_ & _ & El & _).
    assert (forall w : tensor R, has_shape w (cout :: 1 :: ks) -> has_shape w (separable_weight_shape kn)) as SW0 by (intros w; unfold separable_weight_shape; rewrite Hko, Ek; auto).
    assert (forall w : tensor R, has_shape w [k_gdim kn; cout; cin / groups] -> has_shape w (group_weight_shape kn)) as SG0 by (intros w; unfold group_weight_shape; rewrite Hko, Hki; auto).
    assert (exists WH WS, separable_kernel_forward kn weight_H weight in_H out_H = Ok (WH, WS)) as (WH & WS & EW).
    { unfold separable_forward in E. rewrite El, (proj1 HX) in E. cbv zeta in E. destruct (separable_kernel_forward kn weight_H weight in_H out_H) as [[WH WS]|]; [eauto|discriminate]. }
    rewrite <- Ek in Hz, Hg, Hm.
    destruct (separable_kernel_any kn inv mul act det Hops Hg Hm Hz proper Hset weight_H weight weight_H' weight' in_H out_H in_H' out_H' _ (SG0 _ Hwh) (SG0 _ Hwh') (SW0 _ Hw') Pi Po EW) as (WH' & WS' & EW').
    destruct (separable_kernel_shape kn inv mul act det Hops Hg Hm Hz weight_H weight in_H out_H WH WS (SW0 _ Hw) EW) as [S1 S2].
    destruct (separable_kernel_shape kn inv mul act det Hops Hg Hm Hz weight_H' weight' in_H' out_H' WH' WS' (SW0 _ Hw') EW') as [S1' S2'].
    rewrite Hko, ?Hki, Ek, ?Lk in S1. rewrite Hko, Ek in S2. rewrite Hko, ?Hki, Ek, ?Lk in S1'. rewrite Hko, Ek in S2'.
    pose proof (separable_two_stage _ _ D _ _ _ _ _ _ _ _ _ _ _ _ _ _ _ _ _ _ X N s Hc HH EW S1 S2 HX Hs) as [A1 A2].
    pose proof (separable_two_stage _ _ D _ _ _ _ _ _ _ _ _ _ _ _ _ _ _ _ _ _ X' N' s Hc' HH' EW' S1' S2' HX' Hs) as [B1 _].
    cbv zeta in A1, A2, B1.
    set (ks1 := match m with Zeros => repeat 1 d | _ => ks end) in *.
    set (l1 := lefts (stored_padding d padding) ks1 dil) in *. set (r1 := rights (stored_padding d padding) ks1 dil) in *.
    set (l := lefts (stored_padding d padding) ks dil) in *. set (r := rights (stored_padding d padding) ks dil) in *.
    set (mid := conv_size s (repeat 1 d) stride dil l1 r1) in *.
    assert (fits m s (repeat 1 d) stride dil l1 r1 /\ fits m mid ks stride dil l r) as [F1 F2].
    { destruct (fits_em m s (repeat 1 d) stride dil l1 r1) as [F1|F1]; [destruct (fits_em m mid ks stride dil l r) as [F2|F2]; [auto|]|]; rewrite A2 in E by tauto; discriminate. }
    destruct (A1 F1 F2) as (t & y & Ey & _ & Sy & _). destruct (B1 F1 F2) as (t' & y' & Ey' & _ & Sy' & _). rewrite E in Ey. injection Ey as -> ->.
    exists y', (conv_size mid ks stride dil l r). split; [exact Ey'|]. split; [unfold conv_size; rewrite axes_length; exact Lk|]. split; [apply conv_size_pos|]. auto.
  Qed.
End Layers.

(** ** Samplers *)
(** If the sampler answers once on a grid, it answers for all queries and all signals of that shape. *)
Definition uniform {G} (smp : nat -> list G -> mat -> list G -> result mat) : Prop :=
  forall S q q' s s' g r, wfm (length g) S s -> wfm (length g) S s' -> smp S q s g = Ok r -> exists r', smp S q' s' g = Ok r' /\ wfm (length q') S r'.

Lemma NN_uniform {G} T (HT : torch_ok T) (dist : G -> G -> R) : uniform (fun S q s g => interpolate_NN T dist q g s).
Proof.
  intros S q q' s s' g r [L1 R1] [L2 R2] E. destruct g as [|g0 g]; [discriminate|].
  destruct (NN_spec T HT dist q' (g0 :: g) s') as (out & Eo & Lo & _); [discriminate|exact L2|].
  exists out. split; [exact Eo|]. split; [exact Lo|]. exact (NN_rows_len T dist S q' s' (g0 :: g) out R2 Eo).
Qed.
Lemma RBF_uniform {G} T (HT : torch_ok T) (dist : G -> G -> R) rbf w : uniform (fun S q s g => interpolate_RBF T dist rbf w S q g s).
Proof.
  intros S q q' s s' g r W1 W2 E. unfold interpolate_RBF in E. apply bind_ok in E. destruct E as (c & Ec & _).
  set (mm := map (fun a => map (fun b => rbf (dist a b) w) g) g) in *.
  assert (wfm (length g) (length g) mm) as WM.
  { split; [apply map_length|]. intros x Hx. apply in_map_iff in Hx. destruct Hx as (y & <- & _). apply map_length. }
  destruct (ok_solve_any T HT _ _ mm s c S s' WM W1 W2 Ec) as (c' & Ec').
  assert (interpolate_RBF T dist rbf w S q' g s' = Ok (matmul S (map (fun a => map (fun b => rbf (dist a b) w) g) q') c')) as E' by (unfold interpolate_RBF; fold mm; rewrite Ec'; reflexivity).
  eexists. split; [exact E'|]. exact (WeightFacts.RBF_rows _ _ _ _ _ _ _ _ _ E').
Qed.
Lemma so2_uniform T (HT : torch_ok T) mode w : uniform (fun S q s g => so2_grid_sample T mode w S q s g).
Proof.
  intros S q q' s s' g r W1 W2 E. unfold so2_grid_sample in *. destruct (String.eqb mode "rbf").
  - exact (RBF_uniform T HT _ _ _ S q q' s s' g r W1 W2 E).
  - destruct (String.eqb mode "nearest"); [|discriminate]. exact (NN_uniform T HT _ S q q' s s' g r W1 W2 E).
Qed.
Lemma so3_uniform T (HT : torch_ok T) mode w : uniform (fun S q s g => so3_grid_sample_matrix T mode w S q s g).
Proof.
  intros S q q' s s' g r W1 W2 E. unfold so3_grid_sample_matrix, so3_grid_sample in *.
  rewrite <- (map_length so3_matrix_to_quat g) in W1, W2. rewrite <- (map_length so3_matrix_to_quat q').
  destruct (String.eqb mode "nearest"); [exact (NN_uniform T HT _ S _ (map so3_matrix_to_quat q') s s' _ r W1 W2 E)|].
  destruct (String.eqb mode "rbf"); [|discriminate]. exact (RBF_uniform T HT _ _ _ S _ (map so3_matrix_to_quat q') s s' _ r W1 W2 E).
Qed.

Section SplitAny.
  Context {E0 G0 : Type} (coeff : E0 -> R) (part : E0 -> G0) (srot sref : nat -> list G0 -> mat -> list G0 -> result mat).
  Hypothesis Urot : uniform srot.
  Hypothesis Uref : uniform sref.
  Hypothesis Rrot : forall S, rowwise (srot S).
  Hypothesis Rref : forall S, rowwise (sref S).
  Hypothesis Lrot : forall S, rows_len S (srot S).
  Hypothesis Lref : forall S, rows_len S (sref S).

  Lemma split_any S q q' s s' (g : list E0) n m r : length g = n + m -> n <> 0 -> wfm (n + m) S s -> wfm (n + m) S s' ->
    (forall e, In e q' -> coeff e = 1%R \/ coeff e = (-1)%R /\ m <> 0) ->
    split_sample coeff part (srot S) (sref S) q s g n m = Ok r ->
    exists r', split_sample coeff part (srot S) (sref S) q' s' g n m = Ok r' /\ wfm (length q') S r'.
  Proof using Urot Uref Rrot Rref Lrot Lref.
    intros Lg Hn W1 W2 Hq E.
    assert (forall s0, wfm (n + m) S s0 -> wfm (length (map part (firstn n g))) S (firstn n s0) /\ wfm (length (map part (skipn n g))) S (skipn n s0)) as K.
    { intros s0 [L RR]. split; (split; [rewrite map_length, ?firstn_length, ?skipn_length; lia|]); intros x Hx; apply RR; [exact (In_firstn _ _ _ Hx)|exact (In_skipn _ _ _ Hx)]. }
    destruct (K _ W1) as [A1 A2]. destruct (K _ W2) as [B1 B2].
    unfold split_sample in E. rewrite !take_idx_where in E. cbn [bind] in E.
    destruct (if Nat.eqb n 0 then _ else _) as [ro|] eqn:Ero in E; [|discriminate]. cbn [bind] in E.
    destruct (if Nat.eqb m 0 then _ else _) as [re|] eqn:Ere in E; [|discriminate]. clear E.
    destruct (Nat.eqb_spec n 0) as [|_]; [contradiction|].
    assert (forall e, In e q' -> coeff e = 1%R \/ coeff e = (-1)%R) as Hpm by (intros e He; destruct (Hq e He) as [|[]]; auto).
    assert (n + m = length s') as Hsz by (symmetry; exact (proj1 W2)).
    assert (exists r', split_sample coeff part (srot S) (sref S) q' s' g n m = Ok r') as [r' Er'].
    { edestruct (Urot S _ (map part (filter (fun e => if Req_EM_T (coeff e) 1 then true else false) q')) _ _ _ _ A1 B1 Ero) as (ro' & Ero' & _).
      destruct (Nat.eq_dec m 0) as [Em|Em].
      - apply (split_sample_total coeff part (srot S) (sref S) (Rrot S) (Rref S) q' s' g n m Hpm Hsz ro' []); try contradiction; auto.
        intros _ e He Hc. destruct (Hq e He) as [Hc'|[_ Hm]]; [rewrite Hc in Hc'; lra|contradiction].
      - destruct (Nat.eqb_spec m 0) as [|_]; [contradiction|].
        edestruct (Uref S _ (map part (filter (fun e => if Req_EM_T (coeff e) (-1) then true else false) q')) _ _ _ _ A2 B2 Ere) as (re' & Ere' & _).
        apply (split_sample_total coeff part (srot S) (sref S) (Rrot S) (Rref S) q' s' g n m Hpm Hsz ro' re'); try contradiction; auto. }
    exists r'. split; [exact Er'|].
    destruct (split_sample_rows coeff part (srot S) (sref S) (Rrot S) (Rref S) q' s' g n m Hpm Hsz r' Er') as [Lr Hr].
    split; [exact Lr|]. intros row Hin. apply In_nth_error in Hin. destruct Hin as [i Hi].
    destruct (nth_error q' i) as [e|] eqn:Ee; [|apply nth_error_None in Ee; apply nth_error_Some_lt in Hi; lia].
    destruct (Hr i e Ee) as (row' & Hi' & Hrow). rewrite Hi in Hi'. injection Hi' as <-.
    destruct Hrow as [(_ & _ & H2)|(_ & _ & H2)].
    - exact (Lrot S _ _ _ _ (proj2 B1) H2 row (or_introl eq_refl)).
    - exact (Lref S _ _ _ _ (proj2 B2) H2 row (or_introl eq_refl)).
  Qed.

  Lemma split_no_reflections S q q' s s' (g : list E0) n r : length g = n -> n <> 0 -> wfm n S s -> wfm n S s' ->
    (forall e, In e q' -> coeff e = 1%R \/ coeff e = (-1)%R) -> (exists e, In e q' /\ coeff e = (-1)%R) ->
    split_sample coeff part (srot S) (sref S) q s g n 0 = Ok r ->
    split_sample coeff part (srot S) (sref S) q' s' g n 0 = Err IndexError.
  Proof using Urot Rrot.
    intros Lg Hn W1 W2 Hq (e & He & Hc) E.
    unfold split_sample in E. rewrite !take_idx_where in E. cbn [bind] in E.
    destruct (if Nat.eqb n 0 then _ else _) as [ro|] eqn:Ero in E; [|discriminate]. clear E.
    destruct (Nat.eqb_spec n 0) as [|_]; [contradiction|]. rewrite (firstn_all2 s) in Ero by (rewrite (proj1 W1); reflexivity). rewrite (firstn_all2 g) in Ero by (rewrite Lg; reflexivity).
    assert (wfm (length (map part g)) S s /\ wfm (length (map part g)) S s') as [V1 V2] by (rewrite map_length, Lg; auto).
    edestruct (Urot S _ (map part (filter (fun e => if Req_EM_T (coeff e) 1 then true else false) q')) _ _ _ _ V1 V2 Ero) as (ro' & Ero' & _).
    apply (split_sample_missing_ref coeff part (srot S) (sref S) (Rrot S) q' s' g n 0 Hq) with (e := e) (ro := ro'); try assumption; try reflexivity.
    - rewrite (proj1 W2), Nat.add_0_r. reflexivity.
    - intros _. rewrite (firstn_all2 g) by (rewrite Lg; reflexivity). exact Ero'.
  Qed.
End SplitAny.

(** ** The kernels of the library *)
Lemma relative_elements_in {G P} (k : gkernel G P) inv mul act det in_H out_H e : gops_ok (k_ops k) inv mul act det ->
  In e (relative_elements k in_H out_H) <-> exists a b, In a out_H /\ In b in_H /\ e = mul (inv a) b.
Proof.
  intros Hops. unfold relative_elements. rewrite (ok_inverse _ _ _ _ _ Hops), (ok_apply_H _ _ _ _ _ Hops). rewrite in_concat. split.
  - intros (l & Hl & He). apply in_map_iff in Hl. destruct Hl as (x & <- & Hx). apply in_map_iff in Hx. destruct Hx as (a & <- & Ha). apply in_map_iff in He. destruct He as (b & <- & Hb). eauto.
  - intros (a & b & Ha & Hb & ->). exists (map (mul (inv a)) in_H). split; [|apply in_map; exact Hb]. apply (in_map (fun a0 => map (mul a0) in_H)). apply in_map. exact Ha.
Qed.
Lemma relative_elements_length {G P} (k : gkernel G P) inv mul act det in_H out_H : gops_ok (k_ops k) inv mul act det ->
  length (relative_elements k in_H out_H) = length out_H * length in_H.
Proof.
  intros Hops. unfold relative_elements. rewrite (ok_inverse _ _ _ _ _ Hops), (ok_apply_H _ _ _ _ _ Hops).
  rewrite (concat_len _ (length in_H)); [rewrite !map_length; reflexivity|]. intros x Hx. apply in_map_iff in Hx. destruct Hx as (a & <- & _). apply map_length.
Qed.

Lemma settled_SE2 T (HT : torch_ok T) cin out s groups gmode given mode pm mask grid k : kernel_SE2 T cin out s groups gmode given mode pm mask grid = Ok k ->
  settled (fun _ => True) k.
Proof.
  intros Hk. assert (exists w, k_ops k = ops_SE2 T gmode w mode pm /\ k_gdim k = length (k_grid_H k)) as (w & E & Eg).
  { unfold kernel_SE2 in Hk. destruct (width_SE2 given grid) as [w|]; [|discriminate]. injection Hk as <-. exists w. split; [reflexivity|]. unfold k_gdim. cbn. apply Nat.add_0_r. }
  pose proof (gops_ok_SE2 T gmode w mode pm) as Hops. rewrite <- E in Hops.
  intros S in_H out_H in_H' out_H' sg sg' rows W1 W2 _ _ Er. rewrite E in Er. rewrite E. cbn [ops_SE2 op_sample_H] in *. rewrite Eg in W1, W2.
  destruct (so2_uniform T HT gmode w S _ (relative_elements k in_H' out_H') _ _ _ _ W1 W2 Er) as (r' & Er' & W'). exists r'. split; [exact Er'|].
  rewrite (relative_elements_length k _ _ _ _ _ _ Hops) in W'. exact W'.
Qed.
Lemma settled_SE3 T (HT : torch_ok T) cin out s groups gmode given mode pm mask grid k : kernel_SE3 T cin out s groups gmode given mode pm mask grid = Ok k ->
  settled (fun _ => True) k.
Proof.
  intros Hk. assert (exists w, k_ops k = ops_SE3 T gmode w mode pm /\ k_gdim k = length (k_grid_H k)) as (w & E & Eg).
  { unfold kernel_SE3 in Hk. destruct (width_SE3 given grid) as [w|]; [|discriminate]. injection Hk as <-. exists w. split; [reflexivity|]. unfold k_gdim. cbn. apply Nat.add_0_r. }
  pose proof (gops_ok_SE3 T gmode w mode pm) as Hops. rewrite <- E in Hops.
  intros S in_H out_H in_H' out_H' sg sg' rows W1 W2 _ _ Er. rewrite E in Er. rewrite E. cbn [ops_SE3 op_sample_H] in *. rewrite Eg in W1, W2.
  destruct (so3_uniform T HT gmode w S _ (relative_elements k in_H' out_H') _ _ _ _ W1 W2 Er) as (r' & Er' & W'). exists r'. split; [exact Er'|].
  rewrite (relative_elements_length k _ _ _ _ _ _ Hops) in W'. exact W'.
Qed.

Lemma sign_mul Q a b : sign Q a -> sign Q b -> sign Q (a * b)%R.
Proof. intros [->|[-> H]] [->|[-> H']]; unfold sign; rewrite ?Rmult_1_l, ?Rmult_1_r; auto. left. lra. Qed.

Lemma settled_E2 T (HT : torch_ok T) cin out s groups n m gmode given given' mode pm mask grid k : n <> 0 -> length grid = n + m ->
  kernel_E2 T cin out s groups n m gmode given given' mode pm mask grid = Ok k -> settled (fun h => sign (m <> 0) (o2c h)) k.
Proof.
  intros Hn Lg Hk. assert (exists rw fw, k_ops k = ops_E2 T gmode rw fw n m mode pm /\ k_gdim k = n + m /\ k_grid_H k = grid) as (rw & fw & E & Eg & EH).
  { unfold kernel_E2 in Hk. destruct (width_E2_rot given n grid) as [rw|]; [|discriminate]. destruct (width_E2_ref given' n grid) as [fw|]; [|discriminate]. cbn [bind] in Hk. injection Hk as <-.
    exists rw, fw. split; [reflexivity|]. split; [|reflexivity]. unfold k_gdim. cbn [k_gsize fold_right]. rewrite Nat.add_0_r. reflexivity. }
  pose proof (gops_ok_E2 T gmode rw fw n m mode pm) as Hops. rewrite <- E in Hops.
  intros S in_H out_H in_H' out_H' sg sg' rows W1 W2 Pi Po Er. rewrite E, EH in Er. rewrite E, EH. cbn [ops_E2 op_sample_H] in *. rewrite Eg in W1, W2. unfold o2_grid_sample in *.
  edestruct (split_any o2c o2a (fun S q s0 g => so2_grid_sample T gmode rw S q s0 g) (fun S q s0 g => so2_grid_sample T gmode fw S q s0 g) (so2_uniform T HT gmode rw) (so2_uniform T HT gmode fw)
    (so2_grid_sample_rowwise T gmode rw) (so2_grid_sample_rowwise T gmode fw) (so2_rows_len T gmode rw) (so2_rows_len T gmode fw) S) with (q' := relative_elements k in_H' out_H') (s' := sg') as (r' & Er' & W');
    [exact Lg|exact Hn|exact W1|exact W2| |exact Er|].
  - intros e He. apply (relative_elements_in k _ _ _ _ _ _ _ Hops) in He. destruct He as (a & b & Ha & Hb & ->). rewrite Forall_forall in Pi, Po. exact (sign_mul _ _ _ (Po a Ha) (Pi b Hb)).
  - exists r'. split; [exact Er'|]. rewrite (relative_elements_length k _ _ _ _ _ _ Hops) in W'. exact W'.
Qed.
Lemma settled_E3 T (HT : torch_ok T) cin out s groups n m gmode given given' mode pm mask grid k : n <> 0 -> length grid = n + m ->
  kernel_E3 T cin out s groups n m gmode given given' mode pm mask grid = Ok k -> settled (fun h => sign (m <> 0) (o3c h)) k.
Proof.
  intros Hn Lg Hk. assert (exists rw fw, k_ops k = ops_E3 T gmode rw fw n m mode pm /\ k_gdim k = n + m /\ k_grid_H k = grid) as (rw & fw & E & Eg & EH).
  { unfold kernel_E3 in Hk. destruct (width_E3_rot given n grid) as [rw|]; [|discriminate]. destruct (width_E3_ref given' n grid) as [fw|]; [|discriminate]. cbn [bind] in Hk. injection Hk as <-.
    exists rw, fw. split; [reflexivity|]. split; [|reflexivity]. unfold k_gdim. cbn [k_gsize fold_right]. rewrite Nat.add_0_r. reflexivity. }
  pose proof (gops_ok_E3 T gmode rw fw n m mode pm) as Hops. rewrite <- E in Hops.
  intros S in_H out_H in_H' out_H' sg sg' rows W1 W2 Pi Po Er. rewrite E, EH in Er. rewrite E, EH. cbn [ops_E3 op_sample_H] in *. rewrite Eg in W1, W2. unfold o3_grid_sample in *.
  edestruct (split_any o3c o3r (fun S q s0 g => so3_grid_sample_matrix T gmode rw S q s0 g) (fun S q s0 g => so3_grid_sample_matrix T gmode fw S q s0 g) (so3_uniform T HT gmode rw) (so3_uniform T HT gmode fw)
    (so3_sample_rowwise T gmode rw) (so3_sample_rowwise T gmode fw) (so3_rows_len T gmode rw) (so3_rows_len T gmode fw) S) with (q' := relative_elements k in_H' out_H') (s' := sg') as (r' & Er' & W');
    [exact Lg|exact Hn|exact W1|exact W2| |exact Er|].
  - intros e He. apply (relative_elements_in k _ _ _ _ _ _ _ Hops) in He. destruct He as (a & b & Ha & Hb & ->). rewrite Forall_forall in Pi, Po. exact (sign_mul _ _ _ (Po a Ha) (Pi b Hb)).
  - exists r'. split; [exact Er'|]. rewrite (relative_elements_length k _ _ _ _ _ _ Hops) in W'. exact W'.
Qed.

(** A kernel without reflections in its group grid cannot be sampled at one. *)
Definition unreflected {G P} (coeff : G -> R) (k : gkernel G P) : Prop :=
  forall S (in_H out_H in_H' out_H' : list G) (signal signal' rows : mat), wfm (k_gdim k) S signal -> wfm (k_gdim k) S signal' ->
    op_sample_H (k_ops k) S (relative_elements k in_H out_H) signal (k_grid_H k) = Ok rows ->
    (forall h, In h in_H' -> coeff h = 1%R) -> in_H' <> [] -> (forall h, In h out_H' -> coeff h = 1%R \/ coeff h = (-1)%R) -> (exists h, In h out_H' /\ coeff h = (-1)%R) ->
    op_sample_H (k_ops k) S (relative_elements k in_H' out_H') signal' (k_grid_H k) = Err IndexError.
Lemma unreflected_E2 T (HT : torch_ok T) cin out s groups n gmode given given' mode pm mask grid k : n <> 0 -> length grid = n ->
  kernel_E2 T cin out s groups n 0 gmode given given' mode pm mask grid = Ok k -> unreflected o2c k.
Proof.
  intros Hn Lg Hk. assert (exists rw fw, k_ops k = ops_E2 T gmode rw fw n 0 mode pm /\ k_gdim k = n /\ k_grid_H k = grid) as (rw & fw & E & Eg & EH).
  { unfold kernel_E2 in Hk. destruct (width_E2_rot given n grid) as [rw|]; [|discriminate]. destruct (width_E2_ref given' n grid) as [fw|]; [|discriminate]. cbn [bind] in Hk. injection Hk as <-.
    exists rw, fw. split; [reflexivity|]. split; [|reflexivity]. unfold k_gdim. cbn [k_gsize fold_right]. rewrite !Nat.add_0_r. reflexivity. }
  pose proof (gops_ok_E2 T gmode rw fw n 0 mode pm) as Hops. rewrite <- E in Hops.
  intros S in_H out_H in_H' out_H' sg sg' rows W1 W2 Er Pi Ni Po (h & Hh & Hc). rewrite E, EH in Er. rewrite E, EH. cbn [ops_E2 op_sample_H] in *. rewrite Eg in W1, W2. unfold o2_grid_sample in *.
  refine (split_no_reflections o2c o2a (fun S q s0 g => so2_grid_sample T gmode rw S q s0 g) (fun S q s0 g => so2_grid_sample T gmode fw S q s0 g) (so2_uniform T HT gmode rw)
    (so2_grid_sample_rowwise T gmode rw) S _ _ _ _ _ _ _ Lg Hn W1 W2 _ _ Er).
  - intros e He. apply (relative_elements_in k _ _ _ _ _ _ _ Hops) in He. destruct He as (a & b & Ha & Hb & ->). cbn [o2c o2_left_apply_angle o2_inverse]. rewrite (Pi b Hb), Rmult_1_r. exact (Po a Ha).
  - destruct in_H' as [|b in_H']; [contradiction|]. exists (o2_left_apply_angle (o2_inverse h) b). split.
    + apply (relative_elements_in k _ _ _ _ _ _ _ Hops). exists h, b. split; [exact Hh|]. split; [left; reflexivity|reflexivity].
    + cbn [o2c o2_left_apply_angle o2_inverse]. rewrite (Pi b (or_introl eq_refl)), Rmult_1_r. exact Hc.
Qed.
Lemma unreflected_E3 T (HT : torch_ok T) cin out s groups n gmode given given' mode pm mask grid k : n <> 0 -> length grid = n ->
  kernel_E3 T cin out s groups n 0 gmode given given' mode pm mask grid = Ok k -> unreflected o3c k.
Proof.
  intros Hn Lg Hk. assert (exists rw fw, k_ops k = ops_E3 T gmode rw fw n 0 mode pm /\ k_gdim k = n /\ k_grid_H k = grid) as (rw & fw & E & Eg & EH).
  { unfold kernel_E3 in Hk. destruct (width_E3_rot given n grid) as [rw|]; [|discriminate]. destruct (width_E3_ref given' n grid) as [fw|]; [|discriminate]. cbn [bind] in Hk. injection Hk as <-.
    exists rw, fw. split; [reflexivity|]. split; [|reflexivity]. unfold k_gdim. cbn [k_gsize fold_right]. rewrite !Nat.add_0_r. reflexivity. }
  pose proof (gops_ok_E3 T gmode rw fw n 0 mode pm) as Hops. rewrite <- E in Hops.
  intros S in_H out_H in_H' out_H' sg sg' rows W1 W2 Er Pi Ni Po (h & Hh & Hc). rewrite E, EH in Er. rewrite E, EH. cbn [ops_E3 op_sample_H] in *. rewrite Eg in W1, W2. unfold o3_grid_sample in *.
  refine (split_no_reflections o3c o3r (fun S q s0 g => so3_grid_sample_matrix T gmode rw S q s0 g) (fun S q s0 g => so3_grid_sample_matrix T gmode fw S q s0 g) (so3_uniform T HT gmode rw)
    (so3_sample_rowwise T gmode rw) S _ _ _ _ _ _ _ Lg Hn W1 W2 _ _ Er).
  - intros e He. apply (relative_elements_in k _ _ _ _ _ _ _ Hops) in He. destruct He as (a & b & Ha & Hb & ->). cbn [o3c o3_left_apply_O3 o3_inverse]. rewrite (Pi b Hb), Rmult_1_r. exact (Po a Ha).
  - destruct in_H' as [|b in_H']; [contradiction|]. exists (o3_left_apply_O3 (o3_inverse h) b). split.
    + apply (relative_elements_in k _ _ _ _ _ _ _ Hops). exists h, b. split; [exact Hh|]. split; [left; reflexivity|reflexivity].
    + cbn [o3c o3_left_apply_O3 o3_inverse]. rewrite (Pi b (or_introl eq_refl)), Rmult_1_r. exact Hc.
Qed.

Section Unreflected.
  Context {G P : Type} {D : Dflt P} (k : gkernel G P) (coeff : G -> R) (mul : G -> G -> G).
  Hypothesis HU : unreflected coeff k.
  Hypothesis Hmul : forall a b, coeff (mul a b) = (coeff a * coeff b)%R.

  Lemma sample_group_unreflected rest weight in_H out_H out_H' w : has_shape weight (k_gdim k :: rest) ->
    (forall h, In h in_H -> coeff h = 1%R) -> in_H <> [] -> (forall h, In h out_H' -> coeff h = 1%R \/ coeff h = (-1)%R) -> (exists h, In h out_H' /\ coeff h = (-1)%R) ->
    sample_group k weight in_H out_H = Ok w -> sample_group k weight in_H out_H' = Err IndexError.
  Proof using HU.
    intros Hw Pi Ni Po Hx E. unfold sample_group in *. destruct (Nat.eq_dec (k_gdim k) 0) as [Ed|Ed].
    { unfold view_trail in E. rewrite Ed in E. simpl in E. discriminate. }
    rewrite (view_trail_ok (k_gdim k) (prodn rest)) in E by (try assumption; destruct Hw as [-> _]; apply prodn_cons).
    rewrite (view_trail_ok (k_gdim k) (prodn rest)) by (try assumption; destruct Hw as [-> _]; apply prodn_cons).
    cbn [bind shape nth] in *. fold (relative_elements k in_H out_H) in E. fold (relative_elements k in_H out_H').
    destruct (op_sample_H (k_ops k) (prodn rest) (relative_elements k in_H out_H) (to_rows (mkT [k_gdim k; prodn rest] (data weight))) (k_grid_H k)) as [rows|] eqn:Er; [|discriminate].
    assert (wfm (k_gdim k) (prodn rest) (to_rows (mkT [k_gdim k; prodn rest] (data weight)))) as W by (apply to_rows_wf; reflexivity).
    rewrite (HU (prodn rest) in_H out_H in_H out_H' _ _ rows W W Er Pi Ni Po Hx). reflexivity.
  Qed.

  Lemma draw_coeffs (r : G) (base : list G) : (forall h, In h base -> coeff h = 1%R) -> base <> [] -> coeff r = (-1)%R ->
    (forall h, In h (map (mul r) base) -> coeff h = 1%R \/ coeff h = (-1)%R) /\ (exists h, In h (map (mul r) base) /\ coeff h = (-1)%R).
  Proof using Hmul.
    intros Pb Nb Hr. split.
    - intros h Hh. apply in_map_iff in Hh. destruct Hh as (x & <- & Hx). rewrite Hmul, Hr, (Pb x Hx), Rmult_1_r. auto.
    - destruct base as [|b base]; [contradiction|]. exists (mul r b). split; [left; reflexivity|]. rewrite Hmul, Hr, (Pb b (or_introl eq_refl)), Rmult_1_r. reflexivity.
  Qed.

  Lemma full_unreflected (M : gmodule G P) rest weight (X : tensor R) in_H out r r' res : l_kernel (gm_layer M) = k -> gm_permute M = true -> has_shape weight (k_gdim k :: rest) ->
    (forall h, In h in_H -> coeff h = 1%R) -> in_H <> [] -> (forall h, In h (or_else out (k_grid_H k)) -> coeff h = 1%R) -> or_else out (k_grid_H k) <> [] -> coeff r' = (-1)%R ->
    full_call_En M mul [r] weight X in_H out = Ok res -> full_call_En M mul [r'] weight X in_H out = Err IndexError.
  Proof using HU Hmul.
    intros EK Ep Hw Pi Ni Pb Nb Hr E. unfold full_call_En, permuted, bcast_left, kernel_grid, full_forward, group_forward_with in *. rewrite EK, Ep in *. cbn [flat_map] in *. rewrite app_nil_r in *.
    destruct (draw_coeffs r' _ Pb Nb Hr) as [Q1 Q2].
    destruct (shape X) as [|? [|? [|? ?]]]; try discriminate. cbv zeta in *. unfold full_kernel_forward in *.
    destruct (sample_group k weight in_H (map (mul r) (or_else out (k_grid_H k)))) as [w|] eqn:Es; [|discriminate].
    rewrite (sample_group_unreflected rest weight in_H _ _ w Hw Pi Ni Q1 Q2 Es). reflexivity.
  Qed.
  Lemma separable_unreflected (M : gmodule G P) rest weight_H weight (X : tensor R) in_H out r r' res : l_kernel (gm_layer M) = k -> gm_permute M = true -> has_shape weight_H (k_gdim k :: rest) ->
    (forall h, In h in_H -> coeff h = 1%R) -> in_H <> [] -> (forall h, In h (or_else out (k_grid_H k)) -> coeff h = 1%R) -> or_else out (k_grid_H k) <> [] -> coeff r' = (-1)%R ->
    separable_call_En M mul [r] weight_H weight X in_H out = Ok res -> separable_call_En M mul [r'] weight_H weight X in_H out = Err IndexError.
  Proof using HU Hmul.
    intros EK Ep Hw Pi Ni Pb Nb Hr E. unfold separable_call_En, permuted, bcast_left, kernel_grid, separable_forward in *. rewrite EK, Ep in *. cbn [flat_map] in *. rewrite app_nil_r in *.
    destruct (draw_coeffs r' _ Pb Nb Hr) as [Q1 Q2].
    destruct (shape X) as [|? [|? [|? ?]]]; try discriminate. cbv zeta in *. unfold separable_kernel_forward in *.
    destruct (sample_group k weight_H in_H (map (mul r) (or_else out (k_grid_H k)))) as [w|] eqn:Es; [|discriminate].
    rewrite (sample_group_unreflected rest weight_H in_H _ _ w Hw Pi Ni Q1 Q2 Es). reflexivity.
  Qed.
End Unreflected.


(** ** Networks *)
Lemma fits_channels_same o o' C : same_length o o' -> fits_channels o' C = fits_channels o C.
Proof. destruct o, o'; cbn; intros E; try contradiction; [rewrite E|]; reflexivity. Qed.
Lemma check_channels_same s s' C : same_norm s s' -> check_channels s' C = check_channels s C.
Proof.
  intros (_ & _ & A1 & A2 & A3 & A4). unfold check_channels. rewrite (fits_channels_same _ _ C A1), (fits_channels_same _ _ C A2), (fits_channels_same _ _ C A3), (fits_channels_same _ _ C A4). reflexivity.
Qed.
Lemma bn_batch_same s s' : same_norm s s' -> bn_batch s' = bn_batch s.
Proof. intros (_ & A & _ & _ & A3 & _). unfold bn_batch, bn_tracked. rewrite A. destruct (nm_mean s), (nm_mean s'); cbn in A3; try contradiction; reflexivity. Qed.
Lemma map2_length {A B C} (f : A -> B -> C) l : forall l', length (map2 f l l') = Nat.min (length l) (length l').
Proof. induction l as [|a l IH]; intros [|b l']; cbn; auto. Qed.
Lemma same_upd (o o' : option (list R)) (f f' : R) (v v' : list R) : length v' = length v -> same_length o o' ->
  same_length (match o with Some l => Some (blend f l v) | None => None end) (match o' with Some l => Some (blend f' l v') | None => None end).
Proof. intros E. destruct o, o'; cbn; intros E'; try contradiction; try exact I. unfold blend. rewrite !map2_length, E, E'. reflexivity. Qed.
Lemma bn_next_same s s' C V V' : same_norm s s' -> same_norm (bn_next s C V) (bn_next s' C V').
Proof.
  intros (A0 & A1 & A2 & A3 & A4 & A5). unfold same_norm, bn_next. cbn [nm_features nm_training nm_weight nm_bias nm_mean nm_var]. rewrite A1.
  repeat (split; [assumption|]). split; [reflexivity|]. repeat (split; [assumption|]).
  split; destruct (nm_training s); try assumption; apply same_upd; try assumption; rewrite !map_length; reflexivity.
Qed.
Lemma in_next_same s s' N N' C V V' : same_norm s s' -> same_norm (in_next s N C V) (in_next s' N' C V').
Proof.
  intros HS. pose proof (bn_batch_same _ _ HS) as Eb. destruct HS as (A0 & A1 & A2 & A3 & A4 & A5). unfold same_norm, in_next. cbn [nm_features nm_training nm_weight nm_bias nm_mean nm_var]. rewrite Eb.
  repeat (split; [assumption|]). split; destruct (bn_batch s); try assumption; apply same_upd; try assumption; rewrite !map_length; reflexivity.
Qed.

Section Net.
  Context {G P : Type} {D : Dflt P} (fam : family) (d : nat) (mul : G -> G -> G) (proper : G -> Prop).
  Hypothesis Hd : 0 < d.
  Hypothesis Hmul : forall a b, proper a -> proper b -> proper (mul a b).

  Lemma out_grid_same (M M' : gmodule G P) out out' rs rs' (H H' : list G) :
    gm_permute M' = gm_permute M -> kernel_grid M' = kernel_grid M -> kernel_grid M <> [] -> Forall proper (kernel_grid M) ->
    same_grid_arg proper out out' -> one_draw proper (gm_permute M) rs rs' -> length H' = length H -> H <> [] -> Forall proper H' ->
    length (out_grid fam mul M' out' rs' H') = length (out_grid fam mul M out rs H) /\ out_grid fam mul M out rs H <> [] /\ Forall proper (out_grid fam mul M' out' rs' H').
  Proof using Hmul.
    intros Ep Ek Hk Pk [So Po] HR EL HH PH. unfold out_grid, permuted, bcast_left. rewrite Ep.
    assert (length (base_grid fam M' out' H') = length (base_grid fam M out H) /\ base_grid fam M out H <> [] /\ Forall proper (base_grid fam M' out' H')) as (B1 & B2 & B3).
    { unfold base_grid, or_else. destruct out as [l|], out' as [l'|]; cbn [same_length] in So; try contradiction.
      - destruct Po as [Q1 Q2]. split; [exact So|]. split; [intros ->; destruct l'; [congruence|discriminate]|exact Q2].
      - destruct fam; [auto|]. rewrite Ek. auto. }
    destruct (gm_permute M); [|auto]. destruct (HR eq_refl) as (r & r' & -> & -> & Pr). cbn [flat_map]. rewrite !app_nil_r, !map_length. split; [exact B1|]. split; [intros E; apply map_eq_nil in E; contradiction|].
    apply Forall_forall. intros x Hx. apply in_map_iff in Hx. destruct Hx as (y & <- & Hy). apply Hmul; [exact Pr|]. rewrite Forall_forall in B3. apply B3. exact Hy.
  Qed.

  Lemma config_kernel (L L' : gconv G P) cin cout ks k groups : same_config d L L' cin cout ks k groups -> l_kernel L = k /\ l_kernel L' = k /\ l_in L = cin.
  Proof using.
    intros (stride & padding & dil & m & bias & bias' & Hc & Hc').
    destruct (constructed_spec _ _ _ _ _ _ _ _ _ _ _ _ Hc) as (_ & _ & E1 & E2 & _). destruct (constructed_spec _ _ _ _ _ _ _ _ _ _ _ _ Hc') as (_ & _ & E1' & _). auto.
  Qed.
  Lemma nonempty_len {A} (l l' : list A) : length l' = length l -> l <> [] -> l' <> [].
  Proof using. intros E Hl ->. destruct l; [contradiction|discriminate]. Qed.

  Lemma step_any b b' rs rs' X X' H H' N N' C sp Y H1 b1 : alike d proper b b' -> one_draw proper (draws b) rs rs' ->
    has_shape X (N :: C :: length H :: sp) -> has_shape X' (N' :: C :: length H' :: sp) -> length sp = d -> prodn sp <> 0 -> enough N N' ->
    length H' = length H -> H <> [] -> Forall proper H' ->
    step fam d mul b rs X H = Ok (Y, H1, b1) ->
    exists Y' H1' b1' C' sp', step fam d mul b' rs' X' H' = Ok (Y', H1', b1') /\ alike d proper b1 b1' /\
      has_shape Y (N :: C' :: length H1 :: sp') /\ has_shape Y' (N' :: C' :: length H1' :: sp') /\ length sp' = d /\ prodn sp' <> 0 /\
      length H1' = length H1 /\ H1 <> [] /\ Forall proper H1'.
  Proof using Hd Hmul.
    intros HA HR HX HX' Ls Hp HN EL HH PH E.
    destruct b as [M w out|M wH w out|st|st| |slope|erf ap], b' as [M' w' out'|M' wH' w' out'|st'|st'| |slope'|erf' ap']; cbn [alike] in HA; try contradiction.
    - pose proof HA as HA0. destruct HA as (Ho & Ep & cin & cout & ks & k & groups & HC & HK & Hk & Pk & Hset & Hw & Hw'). rewrite step_conv in *.
      destruct (config_kernel _ _ _ _ _ _ _ HC) as (K1 & K2 & K3).
      destruct (out_grid_same M M' out out' rs rs' H H') as (G1 & G2 & G3); try assumption; try (unfold kernel_grid; rewrite ?K1, ?K2; assumption || reflexivity).
      destruct (full_forward (gm_layer M) w X H (out_grid fam mul M out rs H)) as [[Y0 o0]|] eqn:EF; [|discriminate]. cbn [bind fst snd] in E. injection E as <- <- <-.
      pose proof (group_channels _ _ _ _ _ _ _ _ _ HX (proj1 HN) HH Hp EF) as EC. rewrite K3 in EC. subst C.
      destruct (full_any d (gm_layer M) (gm_layer M') cin cout ks k groups HC HK proper Hset w w' H (out_grid fam mul M out rs H) H' (out_grid fam mul M' out' rs' H') X X' N N' sp Y0 o0)
        as (Y' & s' & E' & L' & P' & EH & S1 & S2); try assumption; [exact (nonempty_len _ _ G1 G2)|].
      rewrite E'. cbn [bind fst snd]. rewrite EH. exists Y', (out_grid fam mul M' out' rs' H'), (BConv M' w' out'), cout, s'. rewrite <- EH in S1 at 1. rewrite EH in S1. repeat (split; [first [reflexivity|exact HA0|assumption]|]). exact G3.
    - pose proof HA as HA0. destruct HA as (Ho & Ep & cin & cout & ks & k & groups & HC & HK & Hk & Pk & Hset & HwH & HwH' & Hw & Hw'). rewrite step_separable in *.
      destruct (config_kernel _ _ _ _ _ _ _ HC) as (K1 & K2 & K3).
      destruct (out_grid_same M M' out out' rs rs' H H') as (G1 & G2 & G3); try assumption; try (unfold kernel_grid; rewrite ?K1, ?K2; assumption || reflexivity).
      destruct (separable_forward (gm_layer M) wH w X H (out_grid fam mul M out rs H)) as [[Y0 o0]|] eqn:EF; [|discriminate]. cbn [bind fst snd] in E. injection E as <- <- <-.
      pose proof (separable_channels _ _ _ _ _ _ _ _ _ _ HX (proj1 HN) HH Hp EF) as EC. rewrite K3 in EC. subst C.
      destruct (separable_any d (gm_layer M) (gm_layer M') cin cout ks k groups HC HK proper Hset wH wH' w w' H (out_grid fam mul M out rs H) H' (out_grid fam mul M' out' rs' H') X X' N N' sp Y0 o0)
        as (Y' & s' & E' & L' & P' & EH & S1 & S2); try assumption; [exact (nonempty_len _ _ G1 G2)|].
      rewrite E'. cbn [bind fst snd]. rewrite EH. exists Y', (out_grid fam mul M' out' rs' H'), (BSeparable M' wH' w' out'), cout, s'. repeat (split; [first [reflexivity|exact HA0|assumption]|]). exact G3.
    - cbn [step] in *. destruct (g_batch_norm_spec H d st X N C (length H) sp HX Ls Hd) as (B1 & B2 & B3). destruct (g_batch_norm_spec H' d st' X' N' C (length H') sp HX' Ls Hd) as (_ & _ & B3').
      rewrite EL in HX', B3'. rewrite (bn_batch_same _ _ HA), (check_channels_same _ _ C HA) in B3'.
      assert (~ (bn_batch st = true /\ N * (length H * prodn sp) = 1)) as NK by (intros Q; rewrite (B1 Q) in E; discriminate).
      assert (~ (bn_batch st = true /\ N' * (length H * prodn sp) = 1)) as NK'.
      { intros [Q1 Q2]. apply NK. split; [exact Q1|]. apply Nat.eq_mul_1 in Q2. destruct Q2 as [Q2 Q3]. rewrite Q3. rewrite Nat.mul_1_r. exact (proj2 (proj2 HN) Q2). }
      destruct (check_channels st C) eqn:Ech; [|rewrite (B2 NK eq_refl) in E; discriminate].
      destruct (B3 NK eq_refl) as (y1 & E1 & S1 & _). destruct (B3' NK' eq_refl) as (y2 & E2 & S2 & _). rewrite E1 in E. rewrite E2. cbn [bind fst snd] in *. injection E as <- <- <-.
      exists y2, H', (BBatchNorm (bn_next st' C (channel_values N' (length H :: sp) X'))), C, sp. rewrite EL. cbn [alike]. split; [reflexivity|]. split; [apply bn_next_same; exact HA|]. auto 10.
    - cbn [step] in *. destruct (g_instance_norm_spec H d st X N C (length H) sp HX Ls Hd) as (B1 & B2 & B3). destruct (g_instance_norm_spec H' d st' X' N' C (length H') sp HX' Ls Hd) as (_ & _ & B3').
      rewrite EL in HX', B3'. rewrite (check_channels_same _ _ C HA) in B3'.
      assert (~ in_rejected st C (length H * prodn sp)) as NK by (intros Q; rewrite (B1 Q) in E; discriminate).
      assert (~ in_rejected st' C (length H * prodn sp)) as NK'.
      { intros Q. apply NK. unfold in_rejected in *. rewrite (bn_batch_same _ _ HA) in Q. destruct HA as (A0 & _ & A2 & _). rewrite A0 in Q. destruct Q as [[Q1 Q2]|Q]; [left|right; exact Q]. split; [exact Q1|].
        destruct (nm_weight st), (nm_weight st'); cbn in A2; try contradiction; congruence. }
      destruct (check_channels st C) eqn:Ech; [|rewrite (B2 NK eq_refl) in E; discriminate].
      destruct (B3 NK eq_refl) as (y1 & E1 & S1 & _). destruct (B3' NK' eq_refl) as (y2 & E2 & S2 & _). rewrite E1 in E. rewrite E2. cbn [bind fst snd] in *. injection E as <- <- <-.
      exists y2, H', (BInstanceNorm (in_next st' N' C (sample_values (length H :: sp) X'))), C, sp. rewrite EL. cbn [alike]. split; [reflexivity|]. split; [apply in_next_same; exact HA|]. auto 10.
    - cbn [step g_relu bind fst snd] in *. injection E as <- <- <-. exists (ewise relu X'), H', BReLU, C, sp.
      split; [reflexivity|]. split; [exact I|]. split; [apply ewise_shape; exact HX|]. split; [apply ewise_shape; exact HX'|]. auto.
    - cbn [step g_leaky_relu bind fst snd] in *. injection E as <- <- <-. exists (ewise (leaky_relu slope') X'), H', (BLeakyReLU slope'), C, sp.
      split; [reflexivity|]. split; [exact I|]. split; [apply ewise_shape; exact HX|]. split; [apply ewise_shape; exact HX'|]. auto.
    - subst ap'. cbn [step] in *. unfold g_gelu in *. 
      assert (exists f f', gelu erf ap = Ok f /\ gelu erf' ap = Ok f') as (f & f' & F1 & F2).
      { unfold gelu in *. destruct (String.eqb ap "none"); [eauto|]. destruct (String.eqb ap "tanh"); [eauto|discriminate]. }
      rewrite F1 in E. rewrite F2. cbn [bind fst snd] in *. injection E as <- <- <-. exists (ewise f' X'), H', (BGELU erf' ap), C, sp.
      split; [reflexivity|]. split; [reflexivity|]. split; [apply ewise_shape; exact HX|]. split; [apply ewise_shape; exact HX'|]. auto.
  Qed.

  Lemma run_any prog : forall prog' X X' H H' N N' C sp Y H1 bs, alike_program d proper prog prog' ->
    has_shape X (N :: C :: length H :: sp) -> has_shape X' (N' :: C :: length H' :: sp) -> length sp = d -> prodn sp <> 0 -> enough N N' ->
    length H' = length H -> H <> [] -> Forall proper H' ->
    run fam d mul prog X H = Ok (Y, H1, bs) ->
    exists Y' H1' bs' C' sp', run fam d mul prog' X' H' = Ok (Y', H1', bs') /\ Forall2 (alike d proper) bs bs' /\
      has_shape Y (N :: C' :: length H1 :: sp') /\ has_shape Y' (N' :: C' :: length H1' :: sp') /\ length sp' = d /\ prodn sp' <> 0 /\
      length H1' = length H1 /\ H1 <> [] /\ Forall proper H1'.
  Proof using Hd Hmul.
    induction prog as [|[b rs] prog IH]; intros prog' X X' H H' N N' C sp Y H1 bs HA HX HX' Ls Hp HN EL HH PH E; destruct prog' as [|[b' rs'] prog1']; try solve [inversion HA].
    - cbn [run] in *. injection E as <- <- <-. exists X', H', [], C, sp. split; [reflexivity|]. split; [constructor|]. auto 10.
    - assert (alike d proper b b' /\ one_draw proper (draws b) rs rs' /\ alike_program d proper prog prog1') as (A1 & A2 & A3) by (inversion HA as [|? ? ? ? [Q1 Q2] Q3]; auto). clear HA.
      cbn [run fst snd] in *. destruct (step fam d mul b rs X H) as [[[Z K] b1]|] eqn:ES; [|discriminate]. cbn [bind fst snd] in E.
      destruct (step_any b b' rs rs' X X' H H' N N' C sp Z K b1 A1 A2 HX HX' Ls Hp HN EL HH PH ES) as (Z' & K' & b1' & C1 & sp1 & ES' & AB & S1 & S2 & L1 & P1 & EK & HK & PK).
      destruct (run fam d mul prog Z K) as [[[Y0 H0] bs0]|] eqn:ER; [|discriminate]. cbn [bind fst snd] in E. injection E as <- <- <-.
      destruct (IH prog1' Z Z' K K' N N' C1 sp1 Y0 H0 bs0 A3 S1 S2 L1 P1 HN EK HK PK ER) as (Y' & H1' & bs' & C' & sp' & ER' & AB' & R).
      exists Y', H1', (b1' :: bs'), C', sp'. rewrite ES'. cbn [bind fst snd]. rewrite ER'. cbn [bind fst snd]. split; [reflexivity|]. split; [constructor; assumption|exact R].
  Qed.

  Lemma lifting_grid_same (M M' : gmodule G P) K K' rs rs' :
    gm_permute M' = gm_permute M -> kernel_grid M' = kernel_grid M -> kernel_grid M <> [] -> Forall proper (kernel_grid M) ->
    same_grid_arg proper K K' -> one_draw proper (gm_permute M) rs rs' ->
    length (out_grid En mul M' K' rs' []) = length (out_grid En mul M K rs []) /\ out_grid En mul M K rs [] <> [] /\ Forall proper (out_grid En mul M' K' rs' []).
  Proof using Hmul.
    intros Ep Ek Hk Pk Ho HR.
    destruct Ho as [So Po]. unfold out_grid, permuted, bcast_left. rewrite Ep.
    assert (length (base_grid En M' K' []) = length (base_grid En M K []) /\ base_grid En M K [] <> [] /\ Forall proper (base_grid En M' K' [])) as (B1 & B2 & B3).
    { unfold base_grid, or_else. rewrite Ek. destruct K as [l|], K' as [l'|]; cbn [same_length] in So; try contradiction; [|auto].
      destruct Po as [Q1 Q2]. split; [exact So|]. split; [intros ->; destruct l'; [congruence|discriminate]|exact Q2]. }
    destruct (gm_permute M); [|auto]. destruct (HR eq_refl) as (r & r' & -> & -> & Pr). cbn [flat_map]. rewrite !app_nil_r, !map_length. split; [exact B1|]. split; [intros E; apply map_eq_nil in E; contradiction|].
    apply Forall_forall. intros x Hx. apply in_map_iff in Hx. destruct Hx as (y & <- & Hy). apply Hmul; [exact Pr|]. rewrite Forall_forall in B3. apply B3. exact Hy.
  Qed.

  Lemma network_any M M' w w' rs rs' K K' prog prog' X X' N N' sp Y H1 bs : alike_lifting d proper M M' w w' K K' -> one_draw proper (gm_permute M) rs rs' -> alike_program d proper prog prog' ->
    has_shape X (N :: l_in (gm_layer M) :: sp) -> has_shape X' (N' :: l_in (gm_layer M) :: sp) -> length sp = d -> enough N N' ->
    network fam d mul M w rs K prog X = Ok (Y, H1, bs) ->
    exists Y' H1' bs' C' sp', network fam d mul M' w' rs' K' prog' X' = Ok (Y', H1', bs') /\ Forall2 (alike d proper) bs bs' /\
      has_shape Y (N :: C' :: length H1 :: sp') /\ has_shape Y' (N' :: C' :: length H1' :: sp') /\ length sp' = d /\ prodn sp' <> 0 /\
      length H1' = length H1 /\ H1 <> [] /\ Forall proper H1'.
  Proof using Hd Hmul.
    intros (Ho & Ep & cin & cout & ks & k & groups & HC & HK & Hk & Pk & Hw & Hw') HR HA HX HX' Ls HN E.
    destruct (config_kernel _ _ _ _ _ _ _ HC) as (K1 & K2 & K3). rewrite K3 in *. unfold network in *.
    assert (forall (M0 : gmodule G P) rs0 K0 w0 X0, lifting_call M0 mul rs0 w0 X0 K0 = lifting_forward (gm_layer M0) w0 X0 (out_grid En mul M0 K0 rs0 [])) as EQ by reflexivity.
    rewrite EQ in *.
    pose proof (lifting_grid_same M M' K K' rs rs') as LG. unfold kernel_grid in LG. rewrite K1, K2 in LG. destruct (LG Ep eq_refl Hk Pk Ho HR) as (G1 & G2 & G3). clear LG.
    destruct (lifting_forward (gm_layer M) w X (out_grid En mul M K rs [])) as [[Z HZ]|] eqn:EF; [|discriminate]. cbn [bind fst snd] in E.
    destruct (lifting_any d (gm_layer M) (gm_layer M') cin cout ks k groups HC HK w w' (out_grid En mul M K rs []) (out_grid En mul M' K' rs' []) X X' N N' sp Z HZ)
        as (Z' & s' & E' & L' & P' & EH & S1 & S2); try assumption; [exact (nonempty_len _ _ G1 G2)|].
    rewrite E'. cbn [bind fst snd]. rewrite EH in *. exact (run_any prog prog' Z Z' _ _ N N' cout s' Y H1 bs HA S1 S2 L' P' HN G1 G2 G3 E).
  Qed.

  (** *** A history of iterations *)
  Lemma same_length_trans {A} (a b c : option (list A)) : same_length a b -> same_length b c -> same_length a c.
  Proof using. destruct a, b, c; cbn; intros; try contradiction; congruence. Qed.
  Lemma same_norm_trans s s' s'' : same_norm s s' -> same_norm s' s'' -> same_norm s s''.
  Proof using.
    intros (A0 & A1 & A2 & A3 & A4 & A5) (B0 & B1 & B2 & B3 & B4 & B5). unfold same_norm. rewrite B0, B1. repeat (split; [first [assumption|eapply same_length_trans; eassumption]|]). eapply same_length_trans; eassumption.
  Qed.
  Lemma same_length_refl {A} (a : option (list A)) : same_length a a.
  Proof using. destruct a; cbn; auto. Qed.
  Lemma blend_keeps (o : option (list R)) f v C : fits_channels o C = true -> length v = C -> same_length o (match o with Some l => Some (blend f l v) | None => None end).
  Proof using. destruct o as [l|]; cbn; auto. intros E <-. apply Nat.eqb_eq in E. unfold blend. rewrite map2_length, E. apply Nat.min_id. Qed.
  Lemma bn_next_keeps s C V : check_channels s C = true -> same_norm s (bn_next s C V).
  Proof using.
    intros E. unfold check_channels in E. repeat (apply andb_prop in E; destruct E as [E ?]). unfold same_norm, bn_next. cbn [nm_features nm_training nm_weight nm_bias nm_mean nm_var].
    repeat (split; [first [reflexivity|apply same_length_refl]|]).
    split; destruct (nm_training s); try apply same_length_refl; apply (blend_keeps _ _ _ C); try assumption; rewrite ?map_length, ?seq_length; reflexivity.
  Qed.
  Lemma in_next_keeps s N C V : check_channels s C = true -> same_norm s (in_next s N C V).
  Proof using.
    intros E. unfold check_channels in E. repeat (apply andb_prop in E; destruct E as [E ?]). unfold same_norm, in_next. cbn [nm_features nm_training nm_weight nm_bias nm_mean nm_var].
    repeat (split; [first [reflexivity|apply same_length_refl]|]).
    split; destruct (bn_batch s); try apply same_length_refl; apply (blend_keeps _ _ _ C); try assumption; rewrite ?map_length, ?seq_length; reflexivity.
  Qed.

  (** What the step returned is like what it was given. *)
  Lemma step_keeps b b' rs X H N C sp Y H1 b1 : has_shape X (N :: C :: length H :: sp) -> length sp = d -> step fam d mul b rs X H = Ok (Y, H1, b1) -> alike d proper b1 b' -> alike d proper b b'.
  Proof using Hd.
    intros HX Ls E HA. destruct b as [M w out|M wH w out|st|st| |slope|erf ap].
    - rewrite step_conv in E. apply bind_ok in E. destruct E as (z & _ & E). injection E as _ _ <-. exact HA.
    - rewrite step_separable in E. apply bind_ok in E. destruct E as (z & _ & E). injection E as _ _ <-. exact HA.
    - cbn [step] in E. destruct (g_batch_norm_spec H d st X N C (length H) sp HX Ls Hd) as (B1 & B2 & B3).
      assert (~ (bn_batch st = true /\ N * (length H * prodn sp) = 1)) as NK by (intros Q; rewrite (B1 Q) in E; discriminate).
      destruct (check_channels st C) eqn:Ech; [|rewrite (B2 NK eq_refl) in E; discriminate].
      destruct (B3 NK eq_refl) as (y1 & E1 & _). rewrite E1 in E. cbn [bind fst snd] in E. injection E as _ _ <-.
      destruct b'; cbn [alike] in HA |- *; try contradiction. exact (same_norm_trans _ _ _ (bn_next_keeps _ _ _ Ech) HA).
    - cbn [step] in E. destruct (g_instance_norm_spec H d st X N C (length H) sp HX Ls Hd) as (B1 & B2 & B3).
      assert (~ in_rejected st C (length H * prodn sp)) as NK by (intros Q; rewrite (B1 Q) in E; discriminate).
      destruct (check_channels st C) eqn:Ech; [|rewrite (B2 NK eq_refl) in E; discriminate].
      destruct (B3 NK eq_refl) as (y1 & E1 & _). rewrite E1 in E. cbn [bind fst snd] in E. injection E as _ _ <-.
      destruct b'; cbn [alike] in HA |- *; try contradiction. exact (same_norm_trans _ _ _ (in_next_keeps _ _ _ _ Ech) HA).
    - cbn [step g_relu bind fst snd] in E. injection E as _ _ <-. exact HA.
    - cbn [step g_leaky_relu bind fst snd] in E. injection E as _ _ <-. exact HA.
    - cbn [step] in E. apply bind_ok in E. destruct E as (z & _ & E). injection E as _ _ <-. exact HA.
  Qed.

  Lemma alike_draws (b b' : block G P) : alike d proper b b' -> draws b = draws b'.
  Proof using. destruct b, b'; cbn; try contradiction; try reflexivity; intros (_ & E & _); congruence. Qed.
  Lemma run_next prog : forall prog' (X X' : tensor R) H H' N N' C sp Y H1 bs, Forall (fun p => draws (fst p) = true -> exists r, snd p = [r]) prog -> next_program d proper bs prog' ->
    has_shape X (N :: C :: length H :: sp) -> has_shape X' (N' :: C :: length H' :: sp) -> length sp = d -> prodn sp <> 0 -> enough N N' ->
    length H' = length H -> H <> [] -> Forall proper H' ->
    run fam d mul prog X H = Ok (Y, H1, bs) -> alike_program d proper prog prog'.
  Proof using Hd Hmul.
    induction prog as [|[b rs] prog IH]; intros prog' X X' H H' N N' C sp Y H1 bs HD HA HX HX' Ls Hp HN EL HH PH E.
    - cbn [run] in E. injection E as <- <- <-. inversion HA. constructor.
    - cbn [run fst snd] in *. destruct (step fam d mul b rs X H) as [[[Z K] b1]|] eqn:ES; [|discriminate]. cbn [bind fst snd] in E.
      destruct (run fam d mul prog Z K) as [[[Y0 H0] bs0]|] eqn:ER; [|discriminate]. cbn [bind fst snd] in E. injection E as <- <- <-.
      destruct prog' as [|[b' rs'] prog1']; [inversion HA|].
      assert (alike d proper b1 b' /\ (draws b1 = true -> exists r', rs' = [r'] /\ proper r') /\ next_program d proper bs0 prog1') as (A1 & Q2 & A3) by (inversion HA as [|? ? ? ? [Q1 Q2] Q3]; auto). clear HA.
      assert ((draws b = true -> exists r, rs = [r]) /\ Forall (fun p => draws (fst p) = true -> exists r, snd p = [r]) prog) as (Q1 & HD') by (inversion HD; auto).
      pose proof (step_keeps _ _ _ _ _ _ _ _ _ _ _ HX Ls ES A1) as A0.
      assert (one_draw proper (draws b) rs rs') as A2.
      { intros Hdr. destruct (Q1 Hdr) as (r & ->). destruct Q2 as (r' & -> & Pr); [|exists r, r'; auto]. rewrite (alike_draws _ _ A1), <- (alike_draws _ _ A0). exact Hdr. }
      destruct (step_any b b' rs rs' X X' H H' N N' C sp Z K b1 A0 A2 HX HX' Ls Hp HN EL HH PH ES) as (Z' & K' & b1' & C1 & sp1 & ES' & AB & S1 & S2 & L1 & P1 & EK & HK & PK).
      constructor; [split; [exact A0|exact A2]|]. exact (IH prog1' Z Z' K K' N N' C1 sp1 Y0 H0 bs0 HD' A3 S1 S2 L1 P1 HN EK HK PK ER).
  Qed.

  (** The state of a run that the next iteration has to match. *)
  Lemma iteration_next it it' N N' sp Y H1 bs : single_draws it -> samples it N sp -> samples it' N' sp -> length sp = d -> enough N N' -> follows d proper it bs it' ->
    call d fam mul it = Ok (Y, H1, bs) ->
    exists Y' H1' bs' C' sp', call d fam mul it' = Ok (Y', H1', bs') /\
      has_shape Y (N :: C' :: length H1 :: sp') /\ has_shape Y' (N' :: C' :: length H1' :: sp') /\ length H1' = length H1 /\ single_draws it'.
  Proof using Hd Hmul.
    intros HD HX HX' Ls HN (F1 & F2 & F3) E. unfold call, samples in *.
    assert (l_in (gm_layer (it_layer it')) = l_in (gm_layer (it_layer it))) as Ein.
    { destruct F1 as (_ & _ & cin & cout & ks & k & groups & (stride & padding & dil & m & bias & bias' & Hc & Hc') & _).
      destruct (constructed_spec _ _ _ _ _ _ _ _ _ _ _ _ Hc) as (_ & _ & _ & E2 & _). destruct (constructed_spec _ _ _ _ _ _ _ _ _ _ _ _ Hc') as (_ & _ & _ & E2' & _). congruence. }
    rewrite Ein in HX'.
    assert (alike_program d proper (it_prog it) (it_prog it')) as HA.
    { destruct F1 as (Ho & Ep & cin & cout & ks & k & groups & HC & HK & Hk & Pk & Hw & Hw'). destruct (config_kernel _ _ _ _ _ _ _ HC) as (K1 & K2 & K3). rewrite K3 in *. unfold network in E.
      destruct (lifting_call (it_layer it) mul (it_draw it) (it_weight it) (it_input it) (it_grid it)) as [[Z HZ]|] eqn:EF; [|discriminate]. cbn [bind fst snd] in E.
      change (lifting_forward (gm_layer (it_layer it)) (it_weight it) (it_input it) (out_grid En mul (it_layer it) (it_grid it) (it_draw it) []) = Ok (Z, HZ)) in EF.
      pose proof (lifting_grid_same (it_layer it) (it_layer it') (it_grid it) (it_grid it') (it_draw it) (it_draw it')) as LG. unfold kernel_grid in LG. rewrite K1, K2 in LG. destruct (LG Ep eq_refl Hk Pk Ho F2) as (G1 & G2 & G3). clear LG.
      destruct (lifting_any d (gm_layer (it_layer it)) (gm_layer (it_layer it')) cin cout ks k groups HC HK _ _ _ (out_grid En mul (it_layer it') (it_grid it') (it_draw it') []) _ _ N N' sp Z HZ Hw Hw' G2 (nonempty_len _ _ G1 G2) HX HX' Ls EF)
        as (Z' & s' & E' & L' & P' & EH & S1 & S2).
      rewrite EH in E. exact (run_next _ _ _ _ _ _ _ _ _ _ _ _ _ (proj2 HD) F3 S1 S2 L' P' HN G1 G2 G3 E). }
    destruct (network_any _ _ _ _ _ _ _ _ _ _ _ _ _ _ _ _ _ _ F1 F2 HA HX HX' Ls HN E) as (Y' & H1' & bs' & C' & sp' & E' & _ & S1 & S2 & _ & _ & EL & _).
    exists Y', H1', bs', C', sp'. repeat (split; [assumption|]). split; [intros Hdr; destruct F1 as (_ & Ep & _); rewrite Ep in Hdr; destruct (F2 Hdr) as (r & r' & _ & -> & _); eauto|].
    apply Forall_forall. intros p' Hp. clear - F3 Hp. unfold next_program in F3. induction F3 as [|b p bs prog [A Q] F IH]; [contradiction|]. destruct Hp as [->|Hp]; [|auto].
    intros Hdr. rewrite <- (alike_draws _ _ A) in Hdr. destruct (Q Hdr) as (r & Er & _). eauto.
  Qed.

  Lemma training_any : forall its it N sp Y H1 bs, single_draws it -> samples it N sp -> length sp = d -> call d fam mul it = Ok (Y, H1, bs) ->
    training d proper fam mul sp N it its ->
    forall it', In it' its -> exists N' Y' H1' bs' C' sp', samples it' N' sp /\ call d fam mul it' = Ok (Y', H1', bs') /\
      has_shape Y (N :: C' :: length H1 :: sp') /\ has_shape Y' (N' :: C' :: length H1' :: sp') /\ length H1' = length H1.
  Proof using Hd Hmul.
    induction its as [|it1 its IH]; intros it N sp Y H1 bs HD HX Ls E HT it' Hin; [contradiction|].
    cbn [training] in HT. destruct HT as (N1 & HX1 & HN & HF & HT).
    destruct (iteration_next it it1 N N1 sp Y H1 bs HD HX HX1 Ls HN (HF _ _ _ E) E) as (Y1 & K1 & bs1 & C1 & sp1 & E1 & S1 & S2 & EL & HD1).
    destruct Hin as [<-|Hin].
    - exists N1, Y1, K1, bs1, C1, sp1. auto 10.
    - destruct (IH it1 N1 sp Y1 K1 bs1 HD1 HX1 Ls E1 HT it' Hin) as (N2 & Y2 & K2 & bs2 & C2 & sp2 & X2 & E2 & T1 & T2 & EL2).
      exists N2, Y2, K2, bs2, C2, sp2. split; [exact X2|]. split; [exact E2|].
      pose proof (has_shape_inj _ _ _ S2 T1) as Q. injection Q as <- <-. split; [exact S1|]. split; [exact T2|]. congruence.
  Qed.
End Net.
