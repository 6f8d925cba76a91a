(** Property theorems C48, C60 and C68: translations and initialisation.
    Reading guide (ConvShift.v).  [shifted sp sp' t X X' pre]: X'[pre, i + t] = X[pre, i] wherever both are inside.
    [field_inside sp ks stride dil left y]: all the positions an output y reads are inside the image. *)
From Coq Require Import String ZArith Lra.
From Verif Require Import Prelude RMath Mat Interp SO2 Repulse RepulseFacts Tensor TensorFacts SignedPerm Kernel KernelFacts KernelMore GroupKernelFacts
  Functional Conv ConvSpec ConvFacts GConvFacts SepConvFacts SepProduct ConvInit ConvShift ConvReset Prop_Kernel Prop_Conv.
Open Scope nat_scope.

(** ** C48.  Strides are allowed: a shift by t moves the output by t/stride, when t is a multiple of the stride. *)
Theorem C48_lifting_translation : forall G P (D : Dflt P) d (L : gconv G P) cin cout ks k groups stride padding dil m bias
    weight W (H : list G) (X X' out out' : tensor R) N sp sp' t,
  constructed d L cin cout ks k groups stride padding dil m bias ->
  H <> [] -> lifting_kernel_forward k weight H = Ok W -> has_shape W (cout :: length H :: cin / groups :: ks) ->
  has_shape X (N :: cin :: sp) -> has_shape X' (N :: cin :: sp') -> length sp = d -> length sp' = d ->
  (forall n c, n < N -> c < cin -> shifted sp sp' t X X' [n; c]) ->
  lifting_forward L weight X H = Ok (out, H) -> lifting_forward L weight X' H = Ok (out', H) ->
  let left := lefts (stored_padding d padding) ks dil in
  let right := rights (stored_padding d padding) ks dil in
  forall n o h y y', n < N -> o < cout -> h < length H ->
    valid (conv_size sp ks stride dil left right) y -> valid (conv_size sp' ks stride dil left right) y' ->
    (forall j, j < d -> Z.of_nat (nth j y' 0 * nth j stride 0) = (Z.of_nat (nth j y 0 * nth j stride 0)%nat + nth j t 0)%Z) ->
    field_inside sp ks stride dil left y -> field_inside sp' ks stride dil left y' ->
    at_ out' (n :: o :: h :: y') = at_ out (n :: o :: h :: y).
Proof.
  intros G P D d L cin cout ks k groups stride padding dil m bias weight W H X X' out out' N sp sp' t Hc HH HK HW HX HX' Hsp Hsp' Hsh E E'
    left right n o h y y' Hn Ho Hh Hy Hy' Ht Hin Hin'.
  destruct (constructed_spec _ _ _ _ _ _ _ _ _ _ _ _ Hc) as (HL & _ & _ & _ & _ & Eks & _ & Es & _ & _ & _ & _ & Hlen & _).
  assert (length stride = d) as Ls by (pose proof (lo_stride L HL) as A; rewrite Es, Eks, Hlen in A; exact A).
  destruct (C45_lifting_convolution _ _ D _ _ _ _ _ _ _ _ _ _ _ _ _ _ _ _ _ _ Hc HH HK HW HX Hsp) as [A B].
  destruct (C45_lifting_convolution _ _ D _ _ _ _ _ _ _ _ _ _ _ _ _ _ _ _ _ _ Hc HH HK HW HX' Hsp') as [A' B'].
  fold left right in A, B, A', B'.
  destruct (fits_em m sp ks stride dil left right) as [F|F]; [|rewrite (B F) in E; discriminate].
  destruct (fits_em m sp' ks stride dil left right) as [F'|F']; [|rewrite (B' F') in E'; discriminate].
  destruct (A F) as (x & Ex & _ & Vx). destruct (A' F') as (x' & Ex' & _ & Vx').
  rewrite Ex in E. rewrite Ex' in E'. injection E as <-. injection E' as <-.
  rewrite (Vx n o h y), (Vx' n o h y') by assumption. f_equal.
  apply sumR_ext. intros c Hcc. apply in_seq in Hcc. apply sumR_ext. intros x0 Hx0. f_equal.
  apply in_indices in Hx0. apply image_shift with (t := t); [congruence|apply Hsh; [assumption|apply (channel_read _ _ _ _ _ _ _ _ _ _ _ _ _ _ Hc); lia]|apply Hin; assumption|apply Hin'; assumption|].
  intros j Hj. rewrite !read_pos_nth by lia. assert (j < d) as Hjd by lia. specialize (Ht j Hjd). lia.
Qed.
Print Assumptions C48_lifting_translation.

Theorem C48_group_translation : forall G P (D : Dflt P) d (L : gconv G P) cin cout ks k groups stride padding dil m bias
    weight W (in_H out_H : list G) (X X' out out' : tensor R) N sp sp' t,
  constructed d L cin cout ks k groups stride padding dil m bias ->
  out_H <> [] -> full_kernel_forward k weight in_H out_H = Ok W ->
  has_shape W (cout :: length out_H :: cin / groups :: length in_H :: ks) ->
  has_shape X (N :: cin :: length in_H :: sp) -> has_shape X' (N :: cin :: length in_H :: sp') -> length sp = d -> length sp' = d ->
  (forall n c h, n < N -> c < cin -> h < length in_H -> shifted sp sp' t X X' [n; c; h]) ->
  full_forward L weight X in_H out_H = Ok (out, out_H) -> full_forward L weight X' in_H out_H = Ok (out', out_H) ->
  let left := lefts (stored_padding d padding) ks dil in
  let right := rights (stored_padding d padding) ks dil in
  forall n o g y y', n < N -> o < cout -> g < length out_H ->
    valid (conv_size sp ks stride dil left right) y -> valid (conv_size sp' ks stride dil left right) y' ->
    (forall j, j < d -> Z.of_nat (nth j y' 0 * nth j stride 0) = (Z.of_nat (nth j y 0 * nth j stride 0)%nat + nth j t 0)%Z) ->
    field_inside sp ks stride dil left y -> field_inside sp' ks stride dil left y' ->
    at_ out' (n :: o :: g :: y') = at_ out (n :: o :: g :: y).
Proof.
  intros G P D d L cin cout ks k groups stride padding dil m bias weight W in_H out_H X X' out out' N sp sp' t Hc HH HK HW HX HX' Hsp Hsp' Hsh E E'
    left right n o h y y' Hn Ho Hh Hy Hy' Ht Hin Hin'.
  destruct (constructed_spec _ _ _ _ _ _ _ _ _ _ _ _ Hc) as (HL & _ & _ & _ & _ & Eks & _ & Es & _ & _ & _ & _ & Hlen & _).
  assert (length stride = d) as Ls by (pose proof (lo_stride L HL) as A; rewrite Es, Eks, Hlen in A; exact A).
  destruct (C46_group_convolution _ _ D _ _ _ _ _ _ _ _ _ _ _ _ _ _ _ _ _ _ _ Hc HH HK HW HX Hsp) as [A B].
  destruct (C46_group_convolution _ _ D _ _ _ _ _ _ _ _ _ _ _ _ _ _ _ _ _ _ _ Hc HH HK HW HX' Hsp') as [A' B'].
  fold left right in A, B, A', B'.
  destruct (fits_em m sp ks stride dil left right) as [F|F]; [|rewrite (B F) in E; discriminate].
  destruct (fits_em m sp' ks stride dil left right) as [F'|F']; [|rewrite (B' F') in E'; discriminate].
  destruct (A F) as (x & Ex & _ & Vx). destruct (A' F') as (x' & Ex' & _ & Vx').
  rewrite Ex in E. rewrite Ex' in E'. injection E as <-. injection E' as <-.
  rewrite (Vx n o h y), (Vx' n o h y') by assumption. f_equal.
  apply sumR_ext. intros c Hcc. apply in_seq in Hcc. apply sumR_ext. intros g Hgg. apply in_seq in Hgg. apply sumR_ext. intros x0 Hx0. f_equal.
  apply in_indices in Hx0. apply image_shift with (t := t); [congruence|apply Hsh; [assumption|apply (channel_read _ _ _ _ _ _ _ _ _ _ _ _ _ _ Hc); lia|lia]|apply Hin; assumption|apply Hin'; assumption|].
  intros j Hj. rewrite !read_pos_nth by lia. assert (j < d) as Hjd by lia. specialize (Ht j Hjd). lia.
Qed.
Print Assumptions C48_group_translation.

(** ** C60.  [f] is the fan-in read off the kernel parameter. *)
Definition bias_reset_within (kw : list nat) (f : nat) : Prop :=
  forall b u, wft b -> (forall i, (0 <= u i < 1)%R) ->
  (f = 0 -> reset_bias kw (Some b) u = Ok (Some b)) /\
  (0 < f -> exists b', reset_bias kw (Some b) u = Ok (Some b') /\ has_shape b' (shape b) /\
     forall idx, valid (shape b) idx ->
       at_ b' idx = ((2 * u (ravel (shape b) idx) - 1) / sqrt (INR f))%R /\
       (Rabs (at_ b' idx) <= 1 / sqrt (INR f))%R).

Lemma bias_reset kw f : fan_in kw = Ok f -> bias_reset_within kw f.
Proof.
  intros E b u Hb Hu. unfold reset_bias. rewrite E. cbn [bind]. split; intros Hf.
  - subst f. reflexivity.
  - destruct (Nat.eqb_spec f 0); [lia|].
    destruct (uniform_fill_spec (shape b) (- (1 / sqrt (INR f))) (1 / sqrt (INR f)) u) as [S1 S2].
    eexists; split; [reflexivity|]. split; [exact S1|]. intros idx Hv. rewrite S2 by assumption.
    pose proof (sqrt_pos_INR f Hf) as Hp. split; [field; lra|]. apply uniform_bound; [|apply Hu].
    apply Rlt_le. apply Rdiv_lt_0_compat; lra.
Qed.

(** kernel.weight is the spatial parameter for the lifting and the separable kernel, the group parameter for the
    subgroup kernel and the whole parameter for the full kernel. *)
Theorem C60_bias_initialisation : forall G P (k : gkernel G P),
  bias_reset_within (lifting_weight_shape k) (k_in k / k_groups k * prodn (k_size k)) /\
  bias_reset_within (separable_weight_shape k) (prodn (k_size k)) /\
  bias_reset_within (group_weight_shape k) (k_out k * (k_in k / k_groups k)) /\
  bias_reset_within (full_weight_shape k) (k_out k * (k_in k / k_groups k) * prodn (k_size k)) /\
  (forall kw u, reset_bias kw None u = Ok None).
Proof.
  intros G P k. split; [|split; [|split; [|split]]]; [apply bias_reset..|reflexivity].
  - reflexivity.
  - cbn. f_equal. apply Nat.add_0_r.
  - cbn [group_weight_shape fan_in]. cbn. f_equal. unfold k_cin. rewrite Nat.mul_1_r. reflexivity.
  - cbn [full_weight_shape fan_in]. rewrite prodn_cons. f_equal. unfold k_cin. apply Nat.mul_assoc.
Qed.
Print Assumptions C60_bias_initialisation.

(** Consequence: the bound of a full layer is sqrt(out_channels) times smaller than that of the lifting layer with
    the same channels and size, whatever the number of group elements that feed one output. *)
Theorem C60_full_bound_depends_on_out_channels : forall out cin vol : nat, 0 < out -> 0 < cin -> 0 < vol ->
  (1 / sqrt (INR (out * cin * vol)) = 1 / sqrt (INR (cin * vol)) / sqrt (INR out))%R.
Proof.
  intros out cin vol H1 H2 H3. rewrite <- Nat.mul_assoc, mult_INR.
  rewrite sqrt_mult by apply pos_INR. pose proof (sqrt_pos_INR out H1).
  assert (0 < cin * vol) as H4 by (apply Nat.mul_pos_pos; assumption). pose proof (sqrt_pos_INR _ H4). field. lra.
Qed.
Print Assumptions C60_full_bound_depends_on_out_channels.

Example C60_nonvacuous : exists b', reset_bias [6; 2; 3; 3] (Some (build [6; 1; 1; 1] (fun _ => 7%R))) (fun _ => (1 / 2)%R) = Ok (Some b') /\
  at_ b' [5; 0; 0; 0] = 0%R.
Proof.
  destruct (bias_reset [6; 2; 3; 3] 18 eq_refl (build [6; 1; 1; 1] (fun _ => 7%R)) (fun _ => (1 / 2)%R)) as [_ B].
  - apply wft_build. - intros; lra.
  - destruct B as (b' & E & _ & V); [lia|]. exists b'. split; [assumption|].
    destruct (V [5; 0; 0; 0]) as [-> _]; [repeat apply valid_cons; try lia; apply valid_nil|]. unfold Rdiv. replace (2 * (1 * / 2) - 1)%R with 0%R by lra. ring.
Qed.

(** ** C68: the kernel parameters *)
Definition uniform_within (reset : tensor R -> (nat -> R) -> result (tensor R)) (s : list nat) (f : nat) : Prop :=
  forall w u, has_shape w s -> (forall i, (0 <= u i < 1)%R) ->
  exists w', reset w u = Ok w' /\ has_shape w' s /\
    forall idx, valid s idx ->
      at_ w' idx = ((2 * u (ravel s idx) - 1) / sqrt (INR f))%R /\ (Rabs (at_ w' idx) <= 1 / sqrt (INR f))%R.

Theorem C68_kernel_initialisation : forall G P (k : gkernel G P),
  (* full and subgroup kernels *)
  uniform_within reset_group (full_weight_shape k) (k_out k * (k_in k / k_groups k) * prodn (k_size k)) /\
  uniform_within reset_group (group_weight_shape k) (k_out k * (k_in k / k_groups k)) /\
  (* both parameters of the separable kernel *)
  (forall weight v, has_shape weight (separable_weight_shape k) -> (forall i, (0 <= v i < 1)%R) ->
     uniform_within (fun wh u => r <- reset_separable wh weight u v ;; Ok (fst r)) (group_weight_shape k) (k_out k * (k_in k / k_groups k))) /\
  (forall weight_H u, has_shape weight_H (group_weight_shape k) -> (forall i, (0 <= u i < 1)%R) ->
     uniform_within (fun w v => r <- reset_separable weight_H w u v ;; Ok (snd r)) (separable_weight_shape k) (prodn (k_size k))) /\
  (* the lifting kernel: normal draws z scaled by 1/sqrt(3 * fan-in) *)
  (forall w z, has_shape w (lifting_weight_shape k) ->
     exists w', reset_lifting w z = Ok w' /\ has_shape w' (lifting_weight_shape k) /\
       forall idx, valid (lifting_weight_shape k) idx ->
         at_ w' idx = (z (ravel (lifting_weight_shape k) idx) / sqrt (3 * INR (k_in k / k_groups k * prodn (k_size k))))%R).
Proof.
  intros G P k.
  assert (uniform_within (kaiming_uniform (sqrt 5)) (full_weight_shape k) (k_out k * (k_in k / k_groups k) * prodn (k_size k))) as A1.
  { intros w u Hw Hu. destruct (kaiming_uniform_spec w u _ _ _ Hw Hu) as (w' & E & S & V). exists w'. split; [assumption|]. split; [assumption|].
    rewrite prodn_cons in V. rewrite <- Nat.mul_assoc. exact V. }
  assert (uniform_within (kaiming_uniform (sqrt 5)) (group_weight_shape k) (k_out k * (k_in k / k_groups k))) as A2.
  { intros w u Hw Hu. destruct (kaiming_uniform_spec w u _ _ _ Hw Hu) as (w' & E & S & V). exists w'. split; [assumption|]. split; [assumption|].
    rewrite prodn_cons in V. change (prodn []) with 1 in V. rewrite Nat.mul_1_r in V. exact V. }
  assert (uniform_within (kaiming_uniform (sqrt 5)) (separable_weight_shape k) (prodn (k_size k))) as A3.
  { intros w u Hw Hu. destruct (kaiming_uniform_spec w u _ _ _ Hw Hu) as (w' & E & S & V). exists w'. split; [assumption|]. split; [assumption|].
    rewrite Nat.mul_1_l in V. exact V. }
  split; [exact A1|]. split; [exact A2|]. split; [|split].
  - intros weight v Hwt Hv w u Hw Hu. destruct (A2 w u Hw Hu) as (w' & E & R1). destruct (A3 weight v Hwt Hv) as (x & Ex & _).
    exists w'. unfold reset_separable. rewrite E. cbn [bind]. rewrite Ex. split; [reflexivity|exact R1].
  - intros weight_H v Hwt Hv w u Hw Hu. destruct (A3 w u Hw Hu) as (w' & E & R1). destruct (A2 weight_H v Hwt Hv) as (x & Ex & _).
    exists w'. unfold reset_separable. rewrite Ex. cbn [bind]. rewrite E. split; [reflexivity|exact R1].
  - intros w z [Hs Hw]. unfold reset_lifting, kaiming_normal. rewrite Hs.
    destruct (existsb (Nat.eqb 0) (lifting_weight_shape k)) eqn:E.
    + exists w. split; [reflexivity|]. split; [split; assumption|]. intros idx Hv. exfalso.
      assert (prodn (lifting_weight_shape k) = 0) as E0.
      { destruct (Nat.eq_dec (prodn (lifting_weight_shape k)) 0) as [|N]; [assumption|]. apply no_zero in N. congruence. }
      pose proof (proj2 (in_indices _ _) Hv) as Hin. rewrite <- indices_length in E0. destruct (indices (lifting_weight_shape k)); [destruct Hin|discriminate].
    + apply no_zero in E. pose proof (fan_pos _ _ _ E) as Hf. unfold lifting_weight_shape at 1. cbn [fan_in bind].
      eexists; split; [reflexivity|]. split; [split; [reflexivity|apply wft_build]|]. intros idx Hv. rewrite at_build by assumption.
      rewrite kaiming_std5 by assumption. unfold k_cin. unfold Rdiv. rewrite Rmult_1_l. apply Rmult_comm.
Qed.
Print Assumptions C68_kernel_initialisation.

(** ** The hypotheses of C44-C48 are met *)

(** Two channel groups, 3x3 kernel, dilation 2, padding 'same' with reflection, bias, a 7x9 image. *)
Example C44_C45_nonvacuous : forall T, exists L W out,
  let k := lifting_kernel_SE2 T 4 6 3 2 "bilinear" "border" true [0%R] in
  let w := build [6; 2; 3; 3] (fun idx => INR (nth 3 idx 0)) in
  let bias := Some (build [6; 1; 1; 1] (fun idx => INR (nth 0 idx 0))) in
  let H := [0%R; (PI / 2)%R] in
  constructed 2 L 4 6 [3; 3] k 2 [1; 1] (PStr "same") [2; 2] Reflect bias /\
  lifting_kernel_forward k w H = Ok W /\ has_shape W [6; 2; 2; 3; 3] /\
  fits Reflect [7; 9] [3; 3] [1; 1] [2; 2] (lefts (PadStr "same") [3; 3] [2; 2]) (rights (PadStr "same") [3; 3] [2; 2]) /\
  lifting_forward L w (build [5; 4; 7; 9] (fun idx => INR (nth 2 idx 0))) H = Ok (out, H) /\ shape out = [5; 6; 2; 7; 9].
Proof.
  intros T. pose (k := lifting_kernel_SE2 T 4 6 3 2 "bilinear" "border" true [0%R]).
  pose (w := build [6; 2; 3; 3] (fun idx => INR (nth 3 idx 0))).
  pose (bias := Some (build [6; 1; 1; 1] (fun idx => INR (nth 0 idx 0)))). pose (H := [0%R; (PI / 2)%R]).
  destruct (C36_SE2 T 4 6 3 2 "bilinear" "border" true [0%R] (gs2 true GsBorder) w H) as (W & E & HW & _).
  { lia. } { reflexivity. } { split; [reflexivity|apply wft_build]. }
  assert (exists L, constructed 2 L 4 6 [3; 3] k 2 [1; 1] (PStr "same") [2; 2] Reflect bias) as [L HL].
  { eexists. exists "2d"%string, (GkInt 8), "reflect"%string. split; [left; auto|]. split; [reflexivity|]. split; [reflexivity|].
    split; [|split; [split; [reflexivity|apply wft_build]|lia]].
    split; [reflexivity|]. split; [reflexivity|]. split; [reflexivity|]. split; [reflexivity|]. split; [exact I|].
    repeat split; intros x [<-|[<-|[]]]; lia. }
  assert (fits Reflect [7; 9] [3; 3] [1; 1] [2; 2] (lefts (PadStr "same") [3; 3] [2; 2]) (rights (PadStr "same") [3; 3] [2; 2])) as F.
  { intros j Hj. cbn [length] in Hj. destruct j as [|[|j]]; [vm_compute; lia|vm_compute; lia|lia]. }
  destruct (C45_lifting_convolution _ _ _ 2 L 4 6 [3; 3] k 2 [1; 1] (PStr "same") [2; 2] Reflect bias w W H
    (build [5; 4; 7; 9] (fun idx => INR (nth 2 idx 0))) 5 [7; 9] HL) as [A _]; auto.
  { discriminate. } { split; [reflexivity|apply wft_build]. }
  destruct (A F) as (out & Eo & [So _] & _).
  exists L, W, out. cbv zeta. repeat (split; [assumption|]). exact So.
Qed.

(** Full and separable kernel on a two-element kernel grid, three input and output group elements. *)
Example C46_C47_nonvacuous : forall T, torch_ok T -> exists (k : gkernel R V2) L W WH WS,
  let w := build [2; 3; 2; 3; 3] (fun idx => INR (nth 0 idx 0)) in
  let wH := build [2; 3; 2] (fun idx => INR (nth 0 idx 0)) in
  let wS := build [3; 1; 3; 3] (fun idx => INR (nth 2 idx 0)) in
  let H := [0%R; 1%R; 2%R] in
  let H' := [0%R; (PI / 2)%R; 3%R] in
  kernel_SE2 T 2 3 3 1 "nearest" 1 "bilinear" "border" true [0%R; PI] = Ok k /\
  constructed 2 L 2 3 [3; 3] k 1 [1; 1] (PStr "same") [1; 1] Zeros None /\
  full_kernel_forward k w H H' = Ok W /\ has_shape W [3; 3; 2; 3; 3; 3] /\
  separable_kernel_forward k wH wS H H' = Ok (WH, WS) /\ has_shape WH [3; 3; 2; 3; 1; 1] /\ has_shape WS [3; 3; 1; 3; 3] /\
  fits Zeros [5; 5] [3; 3] [1; 1] [1; 1] (lefts (PadStr "same") [3; 3] [1; 1]) (rights (PadStr "same") [3; 3] [1; 1]).
Proof.
  intros T HT.
  assert (exists k, kernel_SE2 T 2 3 3 1 "nearest" 1 "bilinear" "border" true [0%R; PI] = Ok k) as [k Ek].
  { unfold kernel_SE2, width_SE2. rewrite default_width_given by lra. cbn [bind]. eauto. }
  assert (k_size k = [3; 3] /\ k_ops k = ops_SE2 T "nearest" 1 "bilinear" "border" /\ k_gdim k = 2 /\ k_out k = 3 /\ k_cin k = 2 /\
          k_grid_H k = [0%R; PI] /\ has_shape (k_grid_Rn k) [3; 3] /\ mask_ok (k_mask k) [3; 3]) as (S1 & S2 & S3 & S4 & S5 & S6 & S7 & S8).
  { revert Ek. unfold kernel_SE2, width_SE2. rewrite default_width_given by lra. cbn [bind]. intros E. injection E as <-.
    repeat (split; [reflexivity|]). split; [apply (grid_R2_shape 3)|apply (mask_R2_shape 3)]. }
  pose (w := build [2; 3; 2; 3; 3] (fun idx => INR (nth 0 idx 0))).
  pose (wH := build [2; 3; 2] (fun idx => INR (nth 0 idx 0))).
  pose (wS := build [3; 1; 3; 3] (fun idx => INR (nth 2 idx 0))).
  pose (H := [0%R; 1%R; 2%R]). pose (H' := [0%R; (PI / 2)%R; 3%R]).
  destruct (so2_nearest_total T HT 1 (prodn [3; 2; 3; 3]) (relatives so2_inverse_angle so2_left_apply_angle H H')
    (param_rows (k_gdim k) [3; 2; 3; 3] w) (k_grid_H k)) as (rows & Hr).
  { rewrite S6. discriminate. } { rewrite param_rows_count, S3, S6. reflexivity. }
  pose proof (sampled_SE2 k T "nearest" 1 "bilinear" "border" _ w H H' rows S2 Hr) as Hsam.
  destruct (so2_nearest_total T HT 1 (prodn [3; 2]) (relatives so2_inverse_angle so2_left_apply_angle H H')
    (param_rows (k_gdim k) [3; 2] wH) (k_grid_H k)) as (rows' & Hr').
  { rewrite S6. discriminate. } { rewrite param_rows_count, S3, S6. reflexivity. }
  pose proof (sampled_SE2 k T "nearest" 1 "bilinear" "border" _ wH H H' rows' S2 Hr') as Hsam'.
  pose proof (gops_ok_SE2 T "nearest" 1 "bilinear" "border") as Hops. rewrite <- S2 in Hops.
  assert (op_sample_Rn (k_ops k) = Ok (gs2 true GsBorder)) as Hsmp by (rewrite S2; reflexivity).
  rewrite <- S1 in S7, S8.
  assert (prodn (k_size k) <> 0) as Hp by (rewrite S1; discriminate).
  assert (k_gdim k <> 0) as Hg by (rewrite S3; discriminate).
  assert (has_shape w (full_weight_shape k)) as Hw by (unfold full_weight_shape; rewrite S1, S3, S4, S5; split; [reflexivity|apply wft_build]).
  assert (has_shape wH (group_weight_shape k)) as HwH by (unfold group_weight_shape; rewrite S3, S4, S5; split; [reflexivity|apply wft_build]).
  assert (has_shape wS (separable_weight_shape k)) as HwS by (unfold separable_weight_shape; rewrite S1, S4; split; [reflexivity|apply wft_build]).
  assert ([3; 2; 3; 3] = k_out k :: k_cin k :: k_size k) as Erow by (rewrite S1, S4, S5; reflexivity). rewrite Erow in Hsam.
  assert ([3; 2] = [k_out k; k_cin k]) as Erow' by (rewrite S4, S5; reflexivity). rewrite Erow' in Hsam'.
  destruct (full_formula k _ _ _ _ Hops S7 S8 Hp Hg (gs2 true GsBorder) w H H' _ Hsmp Hw Hsam) as (W & EW & HW & _).
  destruct (separable_formula k _ _ _ _ Hops S7 S8 Hp Hg (gs2 true GsBorder) wH wS H H' _ Hsmp HwH HwS Hsam') as (WH & WS & ES & H1 & H2 & _).
  assert (exists L, constructed 2 L 2 3 [3; 3] k 1 [1; 1] (PStr "same") [1; 1] Zeros None) as [L HL].
  { eexists. exists "2d"%string, (GkInt 8), "zeros"%string. split; [left; auto|]. split; [reflexivity|]. split; [reflexivity|].
    split; [|split; [exact I|lia]].
    split; [reflexivity|]. split; [reflexivity|]. split; [reflexivity|]. split; [exact S1|]. split; [exact I|].
    repeat split; intros x [<-|[<-|[]]]; lia. }
  rewrite ?S1, ?S4, ?S5 in HW. rewrite ?S1, ?S4, ?S5 in H1. rewrite ?S1, ?S4 in H2.
  exists k, L, W, WH, WS. cbv zeta. repeat (split; [assumption|]).
  intros j Hj. cbn [length] in Hj. destruct j as [|[|j]]; [vm_compute; lia|vm_compute; lia|lia].
Qed.

(** Shifting by (1, 1) a 6x6 image under a 3x3 kernel without padding: output (1, 1) reads inside, and so does (2, 2). *)
Example C48_nonvacuous :
  let left := lefts (PadStr "valid") [3; 3] [1; 1] in
  let X := build [1; 1; 6; 6] (fun idx => INR (nth 2 idx 0 * 6 + nth 3 idx 0)) in
  let X' := build [1; 1; 6; 6] (fun idx => (INR (nth 2 idx 0 * 6 + nth 3 idx 0)%nat - 7)%R) in
  (forall n c, n < 1 -> c < 1 -> shifted [6; 6] [6; 6] [1; 1]%Z X X' [n; c]) /\
  field_inside [6; 6] [3; 3] [1; 1] [1; 1] left [1; 1] /\ field_inside [6; 6] [3; 3] [1; 1] [1; 1] left [2; 2].
Proof.
  cbv zeta. split; [|split].
  - intros n c Hn Hc i i' Hi Hi' E. cbn [app]. rewrite !at_build by (repeat apply valid_cons; assumption).
    cbn [nth]. pose proof (E 0 ltac:(simpl; lia)) as E0. pose proof (E 1 ltac:(simpl; lia)) as E1. cbn [nth] in E0, E1.
    replace (nth 0 i' 0) with (nth 0 i 0 + 1) by lia. replace (nth 1 i' 0) with (nth 1 i 0 + 1) by lia.
    rewrite !plus_INR, !mult_INR, !plus_INR. simpl. ring.
  - intros x Hx j Hj. cbn [length] in Hj. rewrite read_pos_nth by (simpl; lia).
    pose proof (valid_nth_lt _ _ j Hx Hj). destruct j as [|[|j]]; [| |lia]; cbn in *; lia.
  - intros x Hx j Hj. cbn [length] in Hj. rewrite read_pos_nth by (simpl; lia).
    pose proof (valid_nth_lt _ _ j Hx Hj). destruct j as [|[|j]]; [| |lia]; cbn in *; lia.
Qed.
