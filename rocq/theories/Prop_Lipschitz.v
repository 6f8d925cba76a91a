(** Property theorems C89: with bilinear sampling, nearby group elements give nearby outputs; how nearby.
    Reading guide.  [gs2 true p], [gs3 true p]: torch's grid_sample with mode "bilinear" and padding mode p.  [close3 e A B]: no entry of A and B
    differs by more than e.  [so2_angle_to_matrix], [lifting_kernel_*], [lifting_forward], [constructed] as in Prop_Kernel.v and Prop_Conv.v. *)
From Coq Require Import String ZArith Lra Permutation.
From Verif Require Import Prelude RMath Mat Interp SO2 SO2Facts O2 O2Facts SO3 SO3Facts SO3Euler O3 O3Facts Repulse RepulseFacts Tensor TensorFacts Functional FunctionalFacts SampleRn
  Kernel KernelFacts GroupKernelFacts Conv ConvSpec ConvFacts ConvInit ConvShift Prop_Kernel Prop_Conv Equi EquiLayer EquiSpec EquiGroups SO3Tables NormFacts LocalFacts Prop_Equi LipFacts LipLayer OctaFacts.
Open Scope R_scope.

(** ** Sampling an image at two points: with values bounded by M, the results differ by at most M times (number of pixels along the axis) x (distance along the axis), summed over the axes. *)
Theorem C89_sampling_2d : forall pm n m im M v v', 0 <= M -> (0 < n)%nat -> (0 < m)%nat -> (forall i, valid [n; m] i -> Rabs (at_ (mkT [n; m] im) i) <= M) ->
  Rabs (gs2 true pm [n; m] im v - gs2 true pm [n; m] im v') <= M * (INR n * Rabs (v2y v - v2y v') + INR m * Rabs (v2x v - v2x v')).
Proof. exact gs2_lipschitz. Qed.
Print Assumptions C89_sampling_2d.
Theorem C89_sampling_3d : forall pm n m l im M v v', 0 <= M -> (0 < n)%nat -> (0 < m)%nat -> (0 < l)%nat -> (forall i, valid [n; m; l] i -> Rabs (at_ (mkT [n; m; l] im) i) <= M) ->
  Rabs (gs3 true pm [n; m; l] im v - gs3 true pm [n; m; l] im v') <= M * (INR n * Rabs (vz v - vz v') + INR m * Rabs (vy v - vy v') + INR l * Rabs (vx v - vx v')).
Proof. exact gs3_lipschitz. Qed.
Print Assumptions C89_sampling_3d.

(** ** Lifting kernels *)
Theorem C89_kernel_SE2 : forall T cin out s groups pm mask grid weight H H' W W' i i' t t' M e, (0 < s)%nat -> 0 <= M ->
  has_shape weight [out; cin / groups; s; s]%nat -> (forall j, valid [out; cin / groups; s; s]%nat j -> Rabs (at_ weight j) <= M) ->
  lifting_kernel_forward (lifting_kernel_SE2 T cin out s groups "bilinear" pm mask grid) weight H = Ok W ->
  lifting_kernel_forward (lifting_kernel_SE2 T cin out s groups "bilinear" pm mask grid) weight H' = Ok W' ->
  nth_error H i = Some t -> nth_error H' i' = Some t' -> Rabs (t - t') <= e ->
  forall o c x y, (o < out)%nat -> (c < cin / groups)%nat -> (x < s)%nat -> (y < s)%nat ->
    Rabs (at_ W [o; i; c; x; y] - at_ W' [o; i'; c; x; y]) <= 4 * INR s * M * e.
Proof.
  intros T cin out s groups pm mask grid weight H H' W W' i i' t t' M e Hs HM Hw HB EW EW' Hi Hi' He o c x y Ho Hc Hx Hy.
  destruct (sample_R2 "bilinear" pm) as [smp|] eqn:Es; [|unfold lifting_kernel_forward in EW; cbn [k_ops lifting_kernel_SE2] in EW; cbn in EW; cbn in Es; rewrite Es in EW; discriminate].
  destruct (C36_SE2 T cin out s groups "bilinear" pm mask grid smp weight H Hs Es Hw) as (V & E & _ & A). rewrite E in EW. injection EW as <-.
  destruct (C36_SE2 T cin out s groups "bilinear" pm mask grid smp weight H' Hs Es Hw) as (V' & E' & _ & A'). rewrite E' in EW'. injection EW' as <-.
  rewrite (A o i t c x y), (A' o i' t' c x y) by assumption. destruct (bilinear_R2 _ _ Es) as [p ->].
  assert (0 <= e) as He0 by (pose proof (Rabs_pos (t - t')); lra).
  apply masked_close; [rewrite mask_R2_at by (repeat apply valid_cons; try assumption; apply valid_nil); apply lt_float_abs|].
  assert (Rabs (- t - - t') <= e) as Hn by (replace (- t - - t') with (- (t - t')) by ring; rewrite Rabs_Ropp; exact He).
  destruct (rot2_close s x y (- t) (- t') e Hx Hy Hn) as [Q1 Q2].
  apply sample2_close; try assumption. intros a b Ha Hb. apply HB. repeat apply valid_cons; try assumption. apply valid_nil.
Qed.
Print Assumptions C89_kernel_SE2.

Theorem C89_kernel_SE3 : forall T cin out s groups pm (mask : bool) grid weight H H' W W' i i' r r' M e, (0 < s)%nat -> 0 <= M -> 0 <= e ->
  has_shape weight [out; cin / groups; s; s; s]%nat -> (forall j, valid [out; cin / groups; s; s; s]%nat j -> Rabs (at_ weight j) <= M) ->
  lifting_kernel_forward (lifting_kernel_SE3 T cin out s groups "bilinear" pm mask grid) weight H = Ok W ->
  lifting_kernel_forward (lifting_kernel_SE3 T cin out s groups "bilinear" pm mask grid) weight H' = Ok W' ->
  nth_error H i = Some r -> nth_error H' i' = Some r' -> close3 e r r' ->
  forall o c x y z, (o < out)%nat -> (c < cin / groups)%nat -> (x < s)%nat -> (y < s)%nat -> (z < s)%nat ->
    Rabs (at_ W [o; i; c; x; y; z] - at_ W' [o; i'; c; x; y; z]) <= 9 * INR s * M * e.
Proof.
  intros T cin out s groups pm mask grid weight H H' W W' i i' r r' M e Hs HM He0 Hw HB EW EW' Hi Hi' He o c x y z Ho Hc Hx Hy Hz.
  destruct (sample_R3 "bilinear" pm) as [smp|] eqn:Es; [|unfold lifting_kernel_forward in EW; cbn [k_ops lifting_kernel_SE3] in EW; cbn in EW; cbn in Es; rewrite Es in EW; discriminate].
  destruct (C36_SE3 T cin out s groups "bilinear" pm mask grid smp weight H Hs Es Hw) as (V & E & _ & A). rewrite E in EW. injection EW as <-.
  destruct (C36_SE3 T cin out s groups "bilinear" pm mask grid smp weight H' Hs Es Hw) as (V' & E' & _ & A'). rewrite E' in EW'. injection EW' as <-.
  rewrite (A o i r c x y z), (A' o i' r' c x y z) by assumption. destruct (bilinear_R3 _ _ Es) as [p ->].
  apply masked_close; [destruct mask; [rewrite mask_R3_at by (repeat apply valid_cons; try assumption; apply valid_nil); apply lt_float_abs|rewrite Rabs_R1; lra]|].
  destruct (rot3_close s x y z r r' e Hx Hy Hz He) as (Q1 & Q2 & Q3).
  apply sample3_close; try assumption. intros a b b' Ha Hb Hb'. apply HB. repeat apply valid_cons; try assumption. apply valid_nil.
Qed.
Print Assumptions C89_kernel_SE3.

(** E(n): elements with the same reflection coefficient. *)
Theorem C89_kernel_E2 : forall T cin out s groups n m pm (mask : bool) grid weight H H' W W' i i' h h' M e, (0 < s)%nat -> 0 <= M ->
  has_shape weight [out; cin / groups; s; s]%nat -> (forall j, valid [out; cin / groups; s; s]%nat j -> Rabs (at_ weight j) <= M) ->
  lifting_kernel_forward (lifting_kernel_E2 T cin out s groups n m "bilinear" pm mask grid) weight H = Ok W ->
  lifting_kernel_forward (lifting_kernel_E2 T cin out s groups n m "bilinear" pm mask grid) weight H' = Ok W' ->
  nth_error H i = Some h -> nth_error H' i' = Some h' -> o2c h = 1 \/ o2c h = -1 -> o2c h' = o2c h -> Rabs (o2a h - o2a h') <= e ->
  forall o c x y, (o < out)%nat -> (c < cin / groups)%nat -> (x < s)%nat -> (y < s)%nat ->
    Rabs (at_ W [o; i; c; x; y] - at_ W' [o; i'; c; x; y]) <= 4 * INR s * M * e.
Proof.
  intros T cin out s groups n m pm mask grid weight H H' W W' i i' h h' M e Hs HM Hw HB EW EW' Hi Hi' Hc1 Hcc He o c x y Ho Hc Hx Hy.
  destruct (sample_R2 "bilinear" pm) as [smp|] eqn:Es; [|unfold lifting_kernel_forward in EW; cbn [k_ops lifting_kernel_E2] in EW; cbn in EW; cbn in Es; rewrite Es in EW; discriminate].
  destruct (C36_E2 T cin out s groups n m "bilinear" pm mask grid smp weight H Hs Es Hw) as (V & E & _ & A). rewrite E in EW. injection EW as <-.
  destruct (C36_E2 T cin out s groups n m "bilinear" pm mask grid smp weight H' Hs Es Hw) as (V' & E' & _ & A'). rewrite E' in EW'. injection EW' as <-.
  rewrite (A o i h c x y), (A' o i' h' c x y) by assumption. destruct (bilinear_R2 _ _ Es) as [p ->]. rewrite Hcc.
  assert (0 <= e) as He0 by (pose proof (Rabs_pos (o2a h - o2a h')); lra).
  apply signed_div; [exact Hc1|].
  apply masked_close; [destruct mask; [rewrite mask_R2_at by (repeat apply valid_cons; try assumption; apply valid_nil); apply lt_float_abs|rewrite Rabs_R1; lra]|].
  assert (Rabs (o2a h * -1 - o2a h' * -1) <= e) as Hn by (replace (o2a h * -1 - o2a h' * -1) with (- (o2a h - o2a h')) by ring; rewrite Rabs_Ropp; exact He).
  destruct (rot2_close s x y _ _ e Hx Hy Hn) as [Q1 Q2].
  apply sample2_close; try assumption; [|apply scal_close; assumption|apply scal_close; assumption].
  intros a b Ha Hb. apply HB. repeat apply valid_cons; try assumption. apply valid_nil.
Qed.
Print Assumptions C89_kernel_E2.

Theorem C89_kernel_E3 : forall T cin out s groups n m pm (mask : bool) grid weight H H' W W' i i' h h' M e, (0 < s)%nat -> 0 <= M -> 0 <= e ->
  has_shape weight [out; cin / groups; s; s; s]%nat -> (forall j, valid [out; cin / groups; s; s; s]%nat j -> Rabs (at_ weight j) <= M) ->
  lifting_kernel_forward (lifting_kernel_E3 T cin out s groups n m "bilinear" pm mask grid) weight H = Ok W ->
  lifting_kernel_forward (lifting_kernel_E3 T cin out s groups n m "bilinear" pm mask grid) weight H' = Ok W' ->
  nth_error H i = Some h -> nth_error H' i' = Some h' -> o3c h = 1 \/ o3c h = -1 -> o3c h' = o3c h -> close3 e (o3r h) (o3r h') ->
  forall o c x y z, (o < out)%nat -> (c < cin / groups)%nat -> (x < s)%nat -> (y < s)%nat -> (z < s)%nat ->
    Rabs (at_ W [o; i; c; x; y; z] - at_ W' [o; i'; c; x; y; z]) <= 9 * INR s * M * e.
Proof.
  intros T cin out s groups n m pm mask grid weight H H' W W' i i' h h' M e Hs HM He0 Hw HB EW EW' Hi Hi' Hc1 Hcc He o c x y z Ho Hc Hx Hy Hz.
  destruct (sample_R3 "bilinear" pm) as [smp|] eqn:Es; [|unfold lifting_kernel_forward in EW; cbn [k_ops lifting_kernel_E3] in EW; cbn in EW; cbn in Es; rewrite Es in EW; discriminate].
  destruct (C36_E3 T cin out s groups n m "bilinear" pm mask grid smp weight H Hs Es Hw) as (V & E & _ & A). rewrite E in EW. injection EW as <-.
  destruct (C36_E3 T cin out s groups n m "bilinear" pm mask grid smp weight H' Hs Es Hw) as (V' & E' & _ & A'). rewrite E' in EW'. injection EW' as <-.
  rewrite (A o i h c x y z), (A' o i' h' c x y z) by assumption. destruct (bilinear_R3 _ _ Es) as [p ->]. rewrite Hcc.
  apply signed_div; [exact Hc1|].
  apply masked_close; [destruct mask; [rewrite mask_R3_at by (repeat apply valid_cons; try assumption; apply valid_nil); apply lt_float_abs|rewrite Rabs_R1; lra]|].
  destruct (rot3_close s x y z _ _ e Hx Hy Hz He) as (Q1 & Q2 & Q3).
  apply sample3_close; try assumption; [|apply scal_close; assumption..].
  intros a b b' Ha Hb Hb'. apply HB. repeat apply valid_cons; try assumption. apply valid_nil.
Qed.
Print Assumptions C89_kernel_E3.

(** ** Lifting layers: the outputs at two elements, of one grid or of two. *)

Theorem C89_lifting_SE2 : forall T (L : gconv R V2) cin out s groups stride padding dil pad bias pm mask grid weight (X Y Y' : tensor R) N sp H H' i i' h h' M B e,
  constructed 2 L cin out [s; s] (lifting_kernel_SE2 T cin out s groups "bilinear" pm mask grid) groups stride padding dil pad bias ->
  (0 < s)%nat -> 0 <= M -> 0 <= B -> 0 <= e ->
  has_shape weight [out; cin / groups; s; s]%nat -> (forall j, valid [out; cin / groups; s; s]%nat j -> Rabs (at_ weight j) <= M) ->
  has_shape X (N :: cin :: sp) -> List.length sp = 2%nat -> (forall j, valid (N :: cin :: sp) j -> Rabs (at_ X j) <= B) ->
  lifting_forward L weight X H = Ok (Y, H) -> lifting_forward L weight X H' = Ok (Y', H') ->
  nth_error H i = Some h -> nth_error H' i' = Some h' -> Rabs (h - h') <= e ->
  exists size, has_shape Y (N :: out :: List.length H :: size) /\ has_shape Y' (N :: out :: List.length H' :: size) /\ List.length size = 2%nat /\
    forall b o y, (b < N)%nat -> (o < out)%nat -> valid size y ->
      Rabs (at_ Y (b :: o :: i :: y) - at_ Y' (b :: o :: i' :: y)) <= INR (cin / groups) * INR s ^ 2 * (4 * INR s * M * e) * B.
Proof.
  intros T L cin out s groups stride padding dil pad bias pm mask grid weight X Y Y' N sp H H' i i' h h' M B e Hc Hs HM HB He0 Hw HWM HX Lsp HXB EY EY' Hi Hi' He.
  destruct (constructed_spec _ _ _ _ _ _ _ _ _ _ _ _ Hc) as (_ & _ & Ek & _).
  destruct (sample_R2 "bilinear" pm) as [smp|] eqn:Es.
  2:{ unfold lifting_forward in EY. rewrite (proj1 HX), Ek in EY. unfold lifting_kernel_forward in EY. cbn in EY. cbn in Es. rewrite Es in EY. discriminate. }
  destruct (C36_SE2 T cin out s groups "bilinear" pm mask grid smp weight H Hs Es Hw) as (W & E & SW & _).
  destruct (C36_SE2 T cin out s groups "bilinear" pm mask grid smp weight H' Hs Es Hw) as (W' & E' & SW' & _).
  assert (i < List.length H)%nat as Li by (apply nth_error_Some; congruence). assert (i' < List.length H')%nat as Li' by (apply nth_error_Some; congruence).
  assert (0 <= 4 * INR s * M * e) as HE by (pose proof (pos_INR s); apply Rmult_le_pos; [apply Rmult_le_pos; [lra|exact HM]|exact He0]).
  destruct (lifting_layer_close 2 L cin out [s; s] (lifting_kernel_SE2 T cin out s groups "bilinear" pm mask grid) groups stride padding dil pad bias weight W W' X N sp H H' Y Y' i i' (4 * INR s * M * e) B) as (size & A1 & A2 & A3 & A4); try eassumption.
  - intros o c j Ho Hcc' Hj. destruct (valid_inv_cons _ _ _ Hj) as (x & p0 & -> & Hx & Hp0). destruct (valid_inv_cons _ _ _ Hp0) as (y & p1 & -> & Hy & Hp1). rewrite (valid_inv_nil _ Hp1).
    eapply (C89_kernel_SE2 T cin out s groups pm mask grid weight H H'); eassumption.
  - exists size. split; [exact A1|]. split; [exact A2|]. split; [exact A3|]. intros b o y Hb Ho Hy. eapply Rle_trans; [apply A4; assumption|]. right.
    unfold prodn. cbn [fold_right]. rewrite !mult_INR. cbn [pow INR]. ring.
Qed.
Print Assumptions C89_lifting_SE2.

Theorem C89_lifting_SE3 : forall T (L : gconv M3 V3) cin out s groups stride padding dil pad bias pm mask grid weight (X Y Y' : tensor R) N sp H H' i i' h h' M B e,
  constructed 3 L cin out [s; s; s] (lifting_kernel_SE3 T cin out s groups "bilinear" pm mask grid) groups stride padding dil pad bias ->
  (0 < s)%nat -> 0 <= M -> 0 <= B -> 0 <= e ->
  has_shape weight [out; cin / groups; s; s; s]%nat -> (forall j, valid [out; cin / groups; s; s; s]%nat j -> Rabs (at_ weight j) <= M) ->
  has_shape X (N :: cin :: sp) -> List.length sp = 3%nat -> (forall j, valid (N :: cin :: sp) j -> Rabs (at_ X j) <= B) ->
  lifting_forward L weight X H = Ok (Y, H) -> lifting_forward L weight X H' = Ok (Y', H') ->
  nth_error H i = Some h -> nth_error H' i' = Some h' -> close3 e h h' ->
  exists size, has_shape Y (N :: out :: List.length H :: size) /\ has_shape Y' (N :: out :: List.length H' :: size) /\ List.length size = 3%nat /\
    forall b o y, (b < N)%nat -> (o < out)%nat -> valid size y ->
      Rabs (at_ Y (b :: o :: i :: y) - at_ Y' (b :: o :: i' :: y)) <= INR (cin / groups) * INR s ^ 3 * (9 * INR s * M * e) * B.
Proof.
  intros T L cin out s groups stride padding dil pad bias pm mask grid weight X Y Y' N sp H H' i i' h h' M B e Hc Hs HM HB He0 Hw HWM HX Lsp HXB EY EY' Hi Hi' He.
  destruct (constructed_spec _ _ _ _ _ _ _ _ _ _ _ _ Hc) as (_ & _ & Ek & _).
  destruct (sample_R3 "bilinear" pm) as [smp|] eqn:Es.
  2:{ unfold lifting_forward in EY. rewrite (proj1 HX), Ek in EY. unfold lifting_kernel_forward in EY. cbn in EY. cbn in Es. rewrite Es in EY. discriminate. }
  destruct (C36_SE3 T cin out s groups "bilinear" pm mask grid smp weight H Hs Es Hw) as (W & E & SW & _).
  destruct (C36_SE3 T cin out s groups "bilinear" pm mask grid smp weight H' Hs Es Hw) as (W' & E' & SW' & _).
  assert (i < List.length H)%nat as Li by (apply nth_error_Some; congruence). assert (i' < List.length H')%nat as Li' by (apply nth_error_Some; congruence).
  assert (0 <= 9 * INR s * M * e) as HE by (pose proof (pos_INR s); apply Rmult_le_pos; [apply Rmult_le_pos; [lra|exact HM]|exact He0]).
  destruct (lifting_layer_close 3 L cin out [s; s; s] (lifting_kernel_SE3 T cin out s groups "bilinear" pm mask grid) groups stride padding dil pad bias weight W W' X N sp H H' Y Y' i i' (9 * INR s * M * e) B) as (size & A1 & A2 & A3 & A4); try eassumption.
  - intros o c j Ho Hcc' Hj. destruct (valid_inv_cons _ _ _ Hj) as (x & p0 & -> & Hx & Hp0). destruct (valid_inv_cons _ _ _ Hp0) as (y & p1 & -> & Hy & Hp1). destruct (valid_inv_cons _ _ _ Hp1) as (z & p2 & -> & Hz & Hp2). rewrite (valid_inv_nil _ Hp2).
    eapply (C89_kernel_SE3 T cin out s groups pm mask grid weight H H'); eassumption.
  - exists size. split; [exact A1|]. split; [exact A2|]. split; [exact A3|]. intros b o y Hb Ho Hy. eapply Rle_trans; [apply A4; assumption|]. right.
    unfold prodn. cbn [fold_right]. rewrite !mult_INR. cbn [pow INR]. ring.
Qed.
Print Assumptions C89_lifting_SE3.

Theorem C89_lifting_E2 : forall T (L : gconv O2 V2) cin out s groups n m stride padding dil pad bias pm mask grid weight (X Y Y' : tensor R) N sp H H' i i' h h' M B e,
  constructed 2 L cin out [s; s] (lifting_kernel_E2 T cin out s groups n m "bilinear" pm mask grid) groups stride padding dil pad bias ->
  (0 < s)%nat -> 0 <= M -> 0 <= B -> 0 <= e ->
  has_shape weight [out; cin / groups; s; s]%nat -> (forall j, valid [out; cin / groups; s; s]%nat j -> Rabs (at_ weight j) <= M) ->
  has_shape X (N :: cin :: sp) -> List.length sp = 2%nat -> (forall j, valid (N :: cin :: sp) j -> Rabs (at_ X j) <= B) ->
  lifting_forward L weight X H = Ok (Y, H) -> lifting_forward L weight X H' = Ok (Y', H') ->
  nth_error H i = Some h -> nth_error H' i' = Some h' -> o2c h = 1 \/ o2c h = -1 -> o2c h' = o2c h -> Rabs (o2a h - o2a h') <= e ->
  exists size, has_shape Y (N :: out :: List.length H :: size) /\ has_shape Y' (N :: out :: List.length H' :: size) /\ List.length size = 2%nat /\
    forall b o y, (b < N)%nat -> (o < out)%nat -> valid size y ->
      Rabs (at_ Y (b :: o :: i :: y) - at_ Y' (b :: o :: i' :: y)) <= INR (cin / groups) * INR s ^ 2 * (4 * INR s * M * e) * B.
Proof.
  intros T L cin out s groups n m stride padding dil pad bias pm mask grid weight X Y Y' N sp H H' i i' h h' M B e Hc Hs HM HB He0 Hw HWM HX Lsp HXB EY EY' Hi Hi' Hc1 Hcc He.
  destruct (constructed_spec _ _ _ _ _ _ _ _ _ _ _ _ Hc) as (_ & _ & Ek & _).
  destruct (sample_R2 "bilinear" pm) as [smp|] eqn:Es.
  2:{ unfold lifting_forward in EY. rewrite (proj1 HX), Ek in EY. unfold lifting_kernel_forward in EY. cbn in EY. cbn in Es. rewrite Es in EY. discriminate. }
  destruct (C36_E2 T cin out s groups n m "bilinear" pm mask grid smp weight H Hs Es Hw) as (W & E & SW & _).
  destruct (C36_E2 T cin out s groups n m "bilinear" pm mask grid smp weight H' Hs Es Hw) as (W' & E' & SW' & _).
  assert (i < List.length H)%nat as Li by (apply nth_error_Some; congruence). assert (i' < List.length H')%nat as Li' by (apply nth_error_Some; congruence).
  assert (0 <= 4 * INR s * M * e) as HE by (pose proof (pos_INR s); apply Rmult_le_pos; [apply Rmult_le_pos; [lra|exact HM]|exact He0]).
  destruct (lifting_layer_close 2 L cin out [s; s] (lifting_kernel_E2 T cin out s groups n m "bilinear" pm mask grid) groups stride padding dil pad bias weight W W' X N sp H H' Y Y' i i' (4 * INR s * M * e) B) as (size & A1 & A2 & A3 & A4); try eassumption.
  - intros o c j Ho Hcc' Hj. destruct (valid_inv_cons _ _ _ Hj) as (x & p0 & -> & Hx & Hp0). destruct (valid_inv_cons _ _ _ Hp0) as (y & p1 & -> & Hy & Hp1). rewrite (valid_inv_nil _ Hp1).
    eapply (C89_kernel_E2 T cin out s groups n m pm mask grid weight H H'); eassumption.
  - exists size. split; [exact A1|]. split; [exact A2|]. split; [exact A3|]. intros b o y Hb Ho Hy. eapply Rle_trans; [apply A4; assumption|]. right.
    unfold prodn. cbn [fold_right]. rewrite !mult_INR. cbn [pow INR]. ring.
Qed.
Print Assumptions C89_lifting_E2.

Theorem C89_lifting_E3 : forall T (L : gconv O3 V3) cin out s groups n m stride padding dil pad bias pm mask grid weight (X Y Y' : tensor R) N sp H H' i i' h h' M B e,
  constructed 3 L cin out [s; s; s] (lifting_kernel_E3 T cin out s groups n m "bilinear" pm mask grid) groups stride padding dil pad bias ->
  (0 < s)%nat -> 0 <= M -> 0 <= B -> 0 <= e ->
  has_shape weight [out; cin / groups; s; s; s]%nat -> (forall j, valid [out; cin / groups; s; s; s]%nat j -> Rabs (at_ weight j) <= M) ->
  has_shape X (N :: cin :: sp) -> List.length sp = 3%nat -> (forall j, valid (N :: cin :: sp) j -> Rabs (at_ X j) <= B) ->
  lifting_forward L weight X H = Ok (Y, H) -> lifting_forward L weight X H' = Ok (Y', H') ->
  nth_error H i = Some h -> nth_error H' i' = Some h' -> o3c h = 1 \/ o3c h = -1 -> o3c h' = o3c h -> close3 e (o3r h) (o3r h') ->
  exists size, has_shape Y (N :: out :: List.length H :: size) /\ has_shape Y' (N :: out :: List.length H' :: size) /\ List.length size = 3%nat /\
    forall b o y, (b < N)%nat -> (o < out)%nat -> valid size y ->
      Rabs (at_ Y (b :: o :: i :: y) - at_ Y' (b :: o :: i' :: y)) <= INR (cin / groups) * INR s ^ 3 * (9 * INR s * M * e) * B.
Proof.
  intros T L cin out s groups n m stride padding dil pad bias pm mask grid weight X Y Y' N sp H H' i i' h h' M B e Hc Hs HM HB He0 Hw HWM HX Lsp HXB EY EY' Hi Hi' Hc1 Hcc He.
  destruct (constructed_spec _ _ _ _ _ _ _ _ _ _ _ _ Hc) as (_ & _ & Ek & _).
  destruct (sample_R3 "bilinear" pm) as [smp|] eqn:Es.
  2:{ unfold lifting_forward in EY. rewrite (proj1 HX), Ek in EY. unfold lifting_kernel_forward in EY. cbn in EY. cbn in Es. rewrite Es in EY. discriminate. }
  destruct (C36_E3 T cin out s groups n m "bilinear" pm mask grid smp weight H Hs Es Hw) as (W & E & SW & _).
  destruct (C36_E3 T cin out s groups n m "bilinear" pm mask grid smp weight H' Hs Es Hw) as (W' & E' & SW' & _).
  assert (i < List.length H)%nat as Li by (apply nth_error_Some; congruence). assert (i' < List.length H')%nat as Li' by (apply nth_error_Some; congruence).
  assert (0 <= 9 * INR s * M * e) as HE by (pose proof (pos_INR s); apply Rmult_le_pos; [apply Rmult_le_pos; [lra|exact HM]|exact He0]).
  destruct (lifting_layer_close 3 L cin out [s; s; s] (lifting_kernel_E3 T cin out s groups n m "bilinear" pm mask grid) groups stride padding dil pad bias weight W W' X N sp H H' Y Y' i i' (9 * INR s * M * e) B) as (size & A1 & A2 & A3 & A4); try eassumption.
  - intros o c j Ho Hcc' Hj. destruct (valid_inv_cons _ _ _ Hj) as (x & p0 & -> & Hx & Hp0). destruct (valid_inv_cons _ _ _ Hp0) as (y & p1 & -> & Hy & Hp1). destruct (valid_inv_cons _ _ _ Hp1) as (z & p2 & -> & Hz & Hp2). rewrite (valid_inv_nil _ Hp2).
    eapply (C89_kernel_E3 T cin out s groups n m pm mask grid weight H H'); eassumption.
  - exists size. split; [exact A1|]. split; [exact A2|]. split; [exact A3|]. intros b o y Hb Ho Hy. eapply Rle_trans; [apply A4; assumption|]. right.
    unfold prodn. cbn [fold_right]. rewrite !mult_INR. cbn [pow INR]. ring.
Qed.
Print Assumptions C89_lifting_E3.

(** ** The tabulated octahedral group (24 rotations, 8 decimals): a rotation g of the cube applied to the image permutes the 24 responses and rotates them, up to the rounding of the table. *)
Theorem C89_octahedral : forall T (L : gconv M3 V3) cin out s groups st padding dl m bias lp pm mask grid weight (X X' Y : tensor R) N d h w g M B,
  let H := map so3_quat_to_matrix so3_octahedral in
  constructed 3 L cin out [s; s; s] (lifting_kernel_SE3 T cin out s groups "bilinear" pm mask grid) groups [st; st; st] padding [dl; dl; dl] m bias ->
  (2 <= s)%nat -> padded_by 3 padding s dl lp -> 0 <= M -> 0 <= B ->
  has_shape weight (out :: cin / groups :: [s; s; s])%nat -> (forall j, valid [out; cin / groups; s; s; s]%nat j -> Rabs (at_ weight j) <= M) ->
  has_shape X (N :: cin :: [d; h; w]) -> covered 3 s st dl lp [d; h; w] -> (forall j, valid (N :: cin :: [d; h; w]) j -> Rabs (at_ X j) <= B) ->
  signed3 g -> det3 g = 1 -> moved3 g X X' ->
  lifting_forward L weight X H = Ok (Y, H) ->
  exists Y' Z sg size, lifting_forward L weight X' H = Ok (Y', H) /\ moved3 g Y Z /\ Permutation sg (seq 0 24) /\
    has_shape Y' (N :: out :: 24%nat :: size) /\ has_shape Z (N :: out :: 24%nat :: size) /\
    forall b o i i' y, (b < N)%nat -> (o < out)%nat -> nth_error sg i = Some i' -> valid size y ->
      Rabs (at_ Y' (b :: o :: i' :: y) - at_ Z (b :: o :: i :: y)) <= INR (cin / groups) * INR s ^ 3 * (9 * INR s * M * (2 / 10 ^ 8)) * B.
Proof.
  intros T L cin out s groups st padding dl m bias lp pm mask grid weight X X' Y N d h w g M B H Hc Hs Hpad HM HB Hw HWM HX Hcov HXB Hg Hdet Hmv EY.
  assert (H <> []) as Hne by discriminate. assert (List.length H = 24%nat) as LH by reflexivity.
  destruct (C49_lifting_SE3 T L cin out s groups st padding dl m bias lp "bilinear" pm mask grid weight X X' Y N d h w H g Hc Hs Hpad Hw Hne HX Hcov Hg Hdet Hmv EY) as (Z & EZ & HZ).
  destruct (moved3_bound g X X' N cin d h w B Hg HX Hmv HXB) as (d' & h' & w' & HX' & HXB').
  destruct (octa_permuted g Hg Hdet) as (sg & Hsg & Hperm). change octa with H in Hperm.
  destruct (constructed_spec _ _ _ _ _ _ _ _ _ _ _ _ Hc) as (_ & _ & Ek & _).
  assert (0 < s)%nat as Hs0 by lia.
  destruct (sample_R3 "bilinear" pm) as [smp|] eqn:Es.
  2:{ unfold lifting_forward in EY. rewrite (proj1 HX), Ek in EY. unfold lifting_kernel_forward in EY. cbn in EY. cbn in Es. rewrite Es in EY. discriminate. }
  destruct (C36_SE3 T cin out s groups "bilinear" pm mask grid smp weight H Hs0 Es Hw) as (W & E & SW & _).
  destruct (C36_SE3 T cin out s groups "bilinear" pm mask grid smp weight (map (mul3 g) H) Hs0 Es Hw) as (W' & E' & SW' & _).
  assert (map (mul3 g) H <> []) as Hne' by discriminate.
  pose proof (C45_lifting_convolution _ _ _ _ _ _ _ _ _ _ _ _ _ _ _ _ _ _ _ _ _ Hc Hne E SW HX' eq_refl) as [A _].
  pose proof (C45_lifting_convolution _ _ _ _ _ _ _ _ _ _ _ _ _ _ _ _ _ _ _ _ _ Hc Hne' E' SW' HX' eq_refl) as [_ Q]. cbv zeta in A, Q.
  destruct (fits_em m [d'; h'; w'] [s; s; s] [st; st; st] [dl; dl; dl] (lefts (stored_padding 3 padding) [s; s; s] [dl; dl; dl]) (rights (stored_padding 3 padding) [s; s; s] [dl; dl; dl])) as [F|F]; [|rewrite (Q F) in EZ; discriminate].
  destruct (A F) as (Y' & EY' & SY' & _). set (size := conv_size _ _ _ _ _ _) in SY'. clear A Q.
  exists Y', Z, sg, size. split; [exact EY'|]. split; [exact HZ|]. split; [exact Hsg|]. rewrite LH in SY'. split; [exact SY'|].
  assert (forall i i', nth_error sg i = Some i' -> has_shape Z (N :: out :: 24%nat :: size) /\ forall b o y, (b < N)%nat -> (o < out)%nat -> valid size y ->
    Rabs (at_ Y' (b :: o :: i' :: y) - at_ Z (b :: o :: i :: y)) <= INR (cin / groups) * INR s ^ 3 * (9 * INR s * M * (2 / 10 ^ 8)) * B) as K.
  { intros i i' Hii. assert (i < 24)%nat as Hi. { apply Permutation_length in Hsg. rewrite seq_length in Hsg. rewrite <- Hsg. apply nth_error_Some. congruence. }
    destruct (nth_error H i) as [r|] eqn:Er; [|apply nth_error_None in Er; lia]. destruct (Hperm i r Er) as (i0 & r' & E0 & Er' & C). rewrite Hii in E0. injection E0 as <-.
    assert (0 <= 2 / 10 ^ 8) as He0 by (apply Rmult_le_pos; [lra|apply Rlt_le, Rinv_0_lt_compat, pow_lt; lra]).
    destruct (C89_lifting_SE3 T L cin out s groups [st; st; st] padding [dl; dl; dl] m bias pm mask grid weight X' Y' Z N [d'; h'; w'] H (map (mul3 g) H) i' i r' (mul3 g r) M B (2 / 10 ^ 8)
      Hc Hs0 HM HB He0 Hw HWM HX' eq_refl HXB' EY' EZ Er') as (size' & S1 & S2 & S3 & S4); [rewrite nth_error_map, Er; reflexivity|exact C|].
    rewrite map_length, LH in S2. rewrite LH in S1. assert (size' = size) as -> by (pose proof (has_shape_inj _ _ _ S1 SY') as I; injection I; trivial).
    split; [exact S2|exact S4]. }
  assert (exists i', nth_error sg 0 = Some i') as [i0 Hi0].
  { destruct (nth_error sg 0) eqn:E0; [eauto|]. apply nth_error_None in E0. apply Permutation_length in Hsg. rewrite seq_length in Hsg. lia. }
  split; [exact (proj1 (K _ _ Hi0))|]. intros b o i i' y Hb Ho Hii Hy. apply (proj2 (K i i' Hii)); assumption.
Qed.
Print Assumptions C89_octahedral.

(** ** With "nearest" there is no such bound: without the mask the corner weight is read at angle 0 and lost at every angle in (0, pi/2), however small. *)
Theorem C89_nearest_refuted : forall T cin out s groups n m grid weight o c t, (0 < s)%nat -> has_shape weight [out; cin / groups; s; s]%nat ->
  (o < out)%nat -> (c < cin / groups)%nat -> 0 < t < PI / 2 ->
  exists W, lifting_kernel_forward (lifting_kernel_E2 T cin out s groups n m "nearest" "zeros" false grid) weight [mkO2 1 0; mkO2 1 t] = Ok W /\
    at_ W [o; 0; c; 0; 0]%nat = at_ weight [o; c; 0; 0]%nat /\ at_ W [o; 1; c; 0; 0]%nat = 0.
Proof.
  intros T cin out s groups n m grid weight o c t Hs Hw Ho Hc Ht.
  destruct (C36_E2 T cin out s groups n m "nearest" "zeros" false grid (gs2 false GsZeros) weight [mkO2 1 0; mkO2 1 t] Hs eq_refl Hw) as (W & E & _ & A).
  exists W. split; [exact E|]. assert (at_ (create_grid_R2 s) [0; 0]%nat = mkV2 (-1) (-1)) as G.
  { rewrite grid_R2_at by assumption. unfold lin. cbn [INR]. unfold Rdiv. rewrite Rmult_0_l. f_equal; ring. }
  split.
  - rewrite (A o 0%nat (mkO2 1 0) c 0%nat 0%nat) by (try assumption; reflexivity). cbn [o2c o2a]. rewrite G.
    replace (scalv2 1 (app2 (so2_angle_to_matrix (0 * -1)) (mkV2 (-1) (-1)))) with (mkV2 (-1) (-1)).
    + rewrite nearest_corner_id by assumption. rewrite slice_read by (repeat apply valid_cons; try assumption; apply valid_nil). cbn [app]. field.
    + rewrite Rmult_0_l. unfold scalv2, app2, so2_angle_to_matrix. rewrite cos_0, sin_0. cbn. f_equal; ring.
  - rewrite (A o 1%nat (mkO2 1 t) c 0%nat 0%nat) by (try assumption; reflexivity). cbn [o2c o2a]. rewrite G.
    unfold scalv2, app2, so2_angle_to_matrix. cbn [v2x v2y b00 b01 b10 b11]. replace (t * -1) with (- t) by ring. rewrite cos_neg, sin_neg.
    rewrite nearest_outside; [field| |assumption]. pose proof (cos_sin_gt t Ht). lra.
Qed.
Print Assumptions C89_nearest_refuted.

(** The hypotheses are met: a 3x3 kernel at the angles 0 and 0.01; a quarter turn about the z axis is a rotation of the cube. *)
Example C89_nonvacuous_kernel T : exists W, lifting_kernel_forward (lifting_kernel_SE2 T 1 1 3 1 "bilinear" "border" true [0])
    (build [1; 1; 3; 3]%nat (fun idx => INR (nth 3 idx 0%nat))) [0; / 100] = Ok W /\
  forall x y, (x < 3)%nat -> (y < 3)%nat -> Rabs (at_ W [0; 0; 0; x; y]%nat - at_ W [0; 1; 0; x; y]%nat) <= 24 / 100.
Proof.
  set (w := build [1; 1; 3; 3]%nat (fun idx => INR (nth 3 idx 0%nat))).
  assert (has_shape w [1; 1; 3; 3]%nat) as Hw by (split; [reflexivity|apply wft_build]).
  destruct (C36_SE2 T 1 1 3 1 "bilinear" "border" true [0] (gs2 true GsBorder) w [0; / 100]) as (W & E & _ & _); [lia|reflexivity|exact Hw|].
  exists W. split; [exact E|]. intros x y Hx Hy.
  pose proof (C89_kernel_SE2 T 1 1 3 1 "border" true [0] w [0; / 100] [0; / 100] W W 0 1 0 (/ 100) 2 (/ 100) ltac:(lia) ltac:(lra) Hw) as K.
  replace (24 / 100) with (4 * INR 3 * 2 * / 100) by (cbn [INR]; field). apply K; try assumption; try reflexivity; try (cbn; lia).
  - intros j Hj. change (1 / 1)%nat with 1%nat in Hj. unfold w. rewrite at_build by exact Hj.
    destruct (valid_inv_cons _ _ _ Hj) as (a & p & -> & Ha & Hp). destruct (valid_inv_cons _ _ _ Hp) as (b & q & -> & Hb & Hq). destruct (valid_inv_cons _ _ _ Hq) as (x' & r & -> & Hx' & Hr).
    destruct (valid_inv_cons _ _ _ Hr) as (y' & u & -> & Hy' & _). cbn [nth]. rewrite Rabs_right by (apply Rle_ge, pos_INR). change 2 with (INR 2). apply le_INR. lia.
  - rewrite Rminus_0_l, Rabs_Ropp, Rabs_right; lra.
Qed.
Example C89_nonvacuous_octahedral : signed3 (mkM3 0 (-1) 0 1 0 0 0 0 1) /\ det3 (mkM3 0 (-1) 0 1 0 0 0 0 1) = 1 /\ List.length (map so3_quat_to_matrix so3_octahedral) = 24%nat.
Proof.
  split; [|split; [unfold det3; cbn; ring|reflexivity]]. unfold signed3, unit_entry, isO3, mul3, tr3, I3. cbn.
  repeat split; try lra; f_equal; ring.
Qed.
