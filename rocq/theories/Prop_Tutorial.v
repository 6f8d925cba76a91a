(** Property theorems C74: the custom SE(2) convolution of gconv_tutorial.ipynb (Tutorial.v). *)
From Coq Require Import String ZArith RelationClasses.
From Verif Require Import Prelude RMath Mat Interp SO2 SO2Facts Repulse RepulseFacts Tensor TensorFacts SignedPerm Functional FunctionalFacts Kernel KernelFacts
  GroupKernelFacts KernelMore SepProduct Conv ConvSpec ConvFacts ConvInit Public Prop_Kernel EquiSpec EquiSpecFacts Equi EquiGroups EquiLayer CustomSpec CustomFacts Prop_Custom
  Tutorial TutorialFacts.
Open Scope R_scope.

(** The tutorial's operations meet the contract of CustomSpec.v (angles up to full turns), whatever torch.topk does with
    ties; and its grids are those of the library. *)
Theorem C74_tutorial_ops_are_a_group : forall top2,
  group_ops (tut_ops top2) (fun _ => True) (fun a b => exists k : Z, a = b + 2 * PI * IZR k)
    0 (fun a => - a) (fun a b => Rmod (a + b) (2 * PI)) (fun a v => app2 (mkM2 (cos a) (- sin a) (sin a) (cos a)) v) (Some (fun _ => 1)) /\
  row_by_row (tut_ops top2) /\
  (forall n, tut_uniform_grid n = so2_uniform_grid n) /\ (forall n, tut_create_grid_R2 n = create_grid_R2 n).
Proof. intros top2. split; [exact (tut_group top2)|]. split; [apply tut_rows|]. split; reflexivity. Qed.
Print Assumptions C74_tutorial_ops_are_a_group.

Lemma tut_custom top2 cin out s n groups : custom_kernel2 (tut_kernel top2 cin out s n groups) (tut_ops top2) cin out s groups.
Proof. repeat split. left. reflexivity. Qed.
Lemma tut_gdim top2 cin out s n groups : k_gdim (tut_kernel top2 cin out s n groups) = n.
Proof. unfold k_gdim, tut_kernel. cbn. lia. Qed.

(** So the tutorial's layers are equivariant to quarter turns, for every configuration that covers the image. *)
Theorem C74_tutorial_lifting_equivariant : forall top2 L cin out s n groups st padding dl m bias lp weight (X X' Y : tensor R) N h w H q,
  constructed 2 L cin out [s; s] (tut_kernel top2 cin out s n groups) groups [st; st] padding [dl; dl] m bias ->
  (2 <= s)%nat -> padded_by 2 padding s dl lp ->
  has_shape weight (out :: cin / groups :: [s; s])%nat -> H <> [] ->
  has_shape X (N :: cin :: [h; w]) -> covered 2 s st dl lp [h; w] ->
  let g := IZR q * (PI / 2) in
  moved2 (so2_angle_to_matrix g) X X' ->
  lifting_forward L weight X H = Ok (Y, H) ->
  exists Y', lifting_forward L weight X' (map (fun a => Rmod (g + a) (2 * PI)) H) = Ok (Y', map (fun a => Rmod (g + a) (2 * PI)) H) /\
    moved2 (so2_angle_to_matrix g) Y Y'.
Proof.
  intros top2 L cin out s n groups st padding dl m bias lp weight X X' Y N h w H q Hc Hs Hpad Hw HH HX Hex g HM E.
  destruct (C73_custom_lifting_2d (tut_ops top2) _ _ _ _ _ _ _ L (tut_kernel top2 cin out s n groups) cin out s groups st padding dl m bias lp weight X X' Y N h w H g
    (so2_angle_to_matrix g) (tut_group top2)) as (Y' & E' & M & _); try assumption; auto.
  - apply tut_custom.
  - apply quarter_signed.
  - exists Y'. split; [exact E'|]. apply M. reflexivity.
Qed.
Print Assumptions C74_tutorial_lifting_equivariant.

Theorem C74_tutorial_separable_equivariant : forall top2 L cin out s n groups st padding dl m bias lp weight_H weight (X X' Y : tensor R) N h w in_H out_H q,
  constructed 2 L cin out [s; s] (tut_kernel top2 cin out s n groups) groups [st; st] padding [dl; dl] m bias ->
  (2 <= s)%nat -> padded_by 2 padding s dl lp ->
  has_shape weight_H [n; out; cin / groups]%nat -> has_shape weight (out :: 1 :: [s; s])%nat -> out_H <> [] ->
  has_shape X (N :: cin :: List.length in_H :: [h; w]) -> covered 2 1 st dl (first_pad m padding lp) [h; w] ->
  covered 2 s st dl lp (usize 2 1 st dl (first_pad m padding lp) [h; w]) ->
  let g := IZR q * (PI / 2) in
  let turned := map (fun a => Rmod (g + a) (2 * PI)) in
  moved2 (so2_angle_to_matrix g) X X' ->
  separable_forward L weight_H weight X in_H out_H = Ok (Y, out_H) ->
  exists Y', separable_forward L weight_H weight X' (turned in_H) (turned out_H) = Ok (Y', turned out_H) /\
    moved2 (so2_angle_to_matrix g) Y Y'.
Proof.
  intros top2 L cin out s n groups st padding dl m bias lp weight_H weight X X' Y N h w in_H out_H q Hc Hs Hpad HwH Hw HH HX Hex1 Hex2 g turned HM E.
  destruct (C73_custom_separable_2d (tut_ops top2) _ _ _ _ _ _ _ L (tut_kernel top2 cin out s n groups) cin out s groups st padding dl m bias lp weight_H weight X X' Y N h w
    in_H out_H g (so2_angle_to_matrix g) (tut_group top2) (tut_rows top2)) as (Y' & E' & M & _); try assumption; auto.
  - apply tut_custom.
  - rewrite tut_gdim. exact HwH.
  - apply quarter_signed.
  - exists Y'. split; [exact E'|]. apply M. reflexivity.
Qed.
Print Assumptions C74_tutorial_separable_equivariant.

(** Defect: grid_sample_so2 ("finding the two neighbouring points and linearly interpolating between them") takes the two
    elements of the signal grid farthest from the query, because topk(largest=False) is applied to dot products, and weights
    them with the dot products over 2 pi / N. *)
Theorem C74_defect_farthest_points : forall top2 S grid signal signal_grid rows, top2_ok top2 ->
  tut_grid_sample top2 S grid signal signal_grid = Ok rows ->
  (2 <= List.length signal_grid)%nat /\
  Forall2 (fun q row => exists i j si sj ri rj, i <> j /\
      nth_error signal_grid i = Some si /\ nth_error signal_grid j = Some sj /\ nth_error signal i = Some ri /\ nth_error signal j = Some rj /\
      cos (q - si) <= cos (q - sj) /\ (forall k s, nth_error signal_grid k = Some s -> k <> i -> cos (q - sj) <= cos (q - s)) /\
      row = map2 (fun x y => cos (q - si) * INR (List.length signal_grid) / (2 * PI) * x + cos (q - sj) * INR (List.length signal_grid) / (2 * PI) * y) ri rj)
    grid rows.
Proof.
  intros top2 S grid signal sg rows Ht E. unfold tut_grid_sample in E. destruct (Nat.ltb_spec (List.length sg) 2) as [|Hl]; [discriminate|].
  split; [exact Hl|]. apply mapM_rows in E. induction E as [|q row qs rs Hq _ IH]; constructor; [|exact IH]. revert Hq. clear IH.
  destruct (Ht (map (tut_dot q) sg)) as (i & j & a & b & Et & Hij & Ei & Ej & Hab & Hall); [rewrite map_length; exact Hl|]. rewrite Et.
  rewrite (nth_of_nth_error _ _ _ 0 Ei), (nth_of_nth_error _ _ _ 0 Ej).
  destruct (nth_error signal i) as [ri|] eqn:Ri; cbn [of_option bind]; [|discriminate].
  destruct (nth_error signal j) as [rj|] eqn:Rj; cbn [of_option bind]; [|discriminate]. intros H. injection H as <-.
  rewrite nth_error_map in Ei, Ej. destruct (nth_error sg i) as [si|] eqn:Si; [|discriminate]. destruct (nth_error sg j) as [sj|] eqn:Sj; [|discriminate].
  cbn in Ei, Ej. injection Ei as <-. injection Ej as <-.
  rewrite (tut_dot_cos q si), (tut_dot_cos q sj) in *.
  exists i, j, si, sj, ri, rj. do 5 (split; [assumption|]). split; [exact Hab|]. split.
  - intros k s Hk Hki. rewrite <- (tut_dot_cos q s). apply (Hall k); [rewrite nth_error_map, Hk; reflexivity|exact Hki].
  - assert (INR (List.length sg) <> 0) by (apply not_0_INR; lia). pose proof PI_neq0.
    replace (cos (q - si) / (2 * PI / INR (List.length sg))) with (cos (q - si) * INR (List.length sg) / (2 * PI)) by (field; auto).
    replace (cos (q - sj) / (2 * PI / INR (List.length sg))) with (cos (q - sj) * INR (List.length sg) / (2 * PI)) by (field; auto). reflexivity.
Qed.
Print Assumptions C74_defect_farthest_points.

(** Consequence: on every uniform grid of at least two rotations, the constant signal 1 is sampled as a number <= 0, everywhere,
    the grid elements included; < 0 from three rotations on. *)
Lemma low_bound (l : list R) i a b : nth_error l i = Some a -> (forall n z, nth_error l n = Some z -> n <> i -> b <= z) ->
  a + (INR (List.length l) - 1) * b <= sumR l.
Proof.
  revert i; induction l as [|x l IH]; intros i Hi H; [destruct i; discriminate|]. cbn [List.length]. rewrite S_INR.
  change (sumR (x :: l)) with (x + sumR l). destruct i as [|i].
  - injection Hi as ->. assert (HL : forall l', (forall z, In z l' -> b <= z) -> INR (List.length l') * b <= sumR l').
    { clear. induction l' as [|y l' IH]; intros H; [cbn; lra|]. cbn [List.length]. rewrite S_INR. change (sumR (y :: l')) with (y + sumR l').
      pose proof (H y (or_introl eq_refl)). assert (INR (List.length l') * b <= sumR l') by (apply IH; intros; apply H; right; assumption). lra. }
    assert (INR (List.length l) * b <= sumR l).
    { apply HL. intros z Hz. apply In_nth_error in Hz as [n Hn]. apply (H (S n)); [exact Hn|discriminate]. }
    lra.
  - pose proof (H 0%nat x eq_refl ltac:(discriminate)). assert (a + (INR (List.length l) - 1) * b <= sumR l).
    { apply (IH i Hi). intros n z Hn Hni. apply (H (S n) z Hn). congruence. }
    lra.
Qed.
Theorem C74_defect_constant_signal : forall top2 n q, top2_ok top2 -> (2 <= n)%nat ->
  exists v, tut_grid_sample top2 1 [q] (repeat [1] n) (tut_uniform_grid n) = Ok [[v]] /\ v <= 0 /\ ((3 <= n)%nat -> v < 0).
Proof.
  intros top2 n q Ht Hn. unfold tut_grid_sample.
  assert (Hlen : List.length (tut_uniform_grid n) = n) by (rewrite tut_uniform; apply so2_uniform_grid_length). rewrite Hlen.
  destruct (Nat.ltb_spec n 2); [lia|]. cbn [mapM].
  pose proof (cos_sum_zero n q Hn) as Hsum. set (d := map (tut_dot q) (tut_uniform_grid n)) in *.
  assert (Hd : List.length d = n) by (unfold d; rewrite map_length; exact Hlen).
  destruct (Ht d) as (i & j & a & b & Et & Hij & Ei & Ej & Hab & Hall); [lia|]. rewrite Et.
  rewrite (nth_of_nth_error _ _ _ 0 Ei), (nth_of_nth_error _ _ _ 0 Ej).
  assert (Li : (i < n)%nat) by (rewrite <- Hd; apply nth_error_Some; congruence). assert (Lj : (j < n)%nat) by (rewrite <- Hd; apply nth_error_Some; congruence).
  rewrite (nth_error_repeat [1] Li), (nth_error_repeat [1] Lj). cbn [of_option bind map2].
  exists (a / (2 * PI / INR n) * 1 + b / (2 * PI / INR n) * 1). split; [reflexivity|].
  pose proof (low_bound d i a b Ei Hall) as LB. rewrite Hd, Hsum in LB.
  assert (2 <= INR n) by (replace 2 with (INR 2) by (cbn; lra); apply le_INR; lia). pose proof PI_RGT_0.
  set (u := 2 * PI / INR n) in *. assert (0 < u) by (apply Rdiv_lt_0_compat; lra).
  replace (a / u * 1 + b / u * 1) with ((a + b) / u) by (field; lra).
  assert (Hle : a + b <= 0) by nra. split.
  - unfold Rdiv. assert (0 < / u) by (apply Rinv_0_lt_compat; assumption). nra.
  - intros H3. assert (3 <= INR n) by (replace 3 with (INR 3) by (cbn; lra); apply le_INR; lia).
    assert (Hlt : a + b < 0).
    { destruct (Rlt_dec (a + b) 0) as [|Hge]; [assumption|]. assert (a = 0 /\ b = 0) as [Ea Eb] by (split; nra). exfalso.
      (* all cosines are >= 0 and sum to 0, so all are 0; consecutive ones cannot both be *)
      assert (Hz : forall k z, nth_error d k = Some z -> z = 0).
      { intros k z Hk. destruct (Nat.eq_dec k i) as [->|Hki]; [congruence|].
        pose proof (low_bound d k z 0 Hk) as B. rewrite Hd, Hsum in B. assert (z + (INR n - 1) * 0 <= 0).
        { apply B. intros k' z' Hk' _. destruct (Nat.eq_dec k' i) as [->|Hk'i]; [right; congruence|]. rewrite <- Eb. apply (Hall k'); assumption. }
        pose proof (Hall k z Hk Hki). lra. }
      assert (Hg0 : nth_error (tut_uniform_grid n) 0 = Some (2 * PI * INR 0 / INR n)) by (rewrite tut_uniform; apply so2_uniform_grid_nth; lia).
      assert (Hg1 : nth_error (tut_uniform_grid n) 1 = Some (2 * PI * INR 1 / INR n)) by (rewrite tut_uniform; apply so2_uniform_grid_nth; lia).
      pose proof (Hz 0%nat _ ltac:(unfold d; rewrite nth_error_map, Hg0; reflexivity)) as Z0.
      pose proof (Hz 1%nat _ ltac:(unfold d; rewrite nth_error_map, Hg1; reflexivity)) as Z1.
      rewrite tut_dot_cos in Z0, Z1. cbn [INR] in Z0, Z1.
      replace (q - 2 * PI * 0 / INR n) with q in Z0 by (field; lra). replace (2 * PI * 1 / INR n) with u in Z1 by (unfold u; field; lra).
      rewrite cos_minus, Z0 in Z1. assert (u < PI).
      { apply Rmult_lt_reg_r with (INR n); [lra|]. unfold u. replace (2 * PI / INR n * INR n) with (2 * PI) by (field; lra). nra. }
      assert (0 < sin u) by (apply sin_gt_0; assumption). pose proof (sin2_cos2 q) as Q. unfold Rsqr in Q. rewrite Z0 in Q. nra. }
    unfold Rdiv. assert (0 < / u) by (apply Rinv_0_lt_compat; assumption). nra.
Qed.
Print Assumptions C74_defect_constant_signal.

(** Defect: with group_kernel_size = 1 (or 0) the tutorial's separable kernel, and hence its separable layer, always
    raises. *)
Theorem C74_defect_single_rotation : forall top2 cin out s n groups weight_H weight in_H out_H, (n < 2)%nat ->
  separable_kernel_forward (tut_kernel top2 cin out s n groups) weight_H weight in_H out_H = Err RuntimeError.
Proof.
  intros top2 cin out s n groups weight_H weight in_H out_H Hn. unfold separable_kernel_forward, sample_group.
  rewrite tut_gdim. unfold view_trail. destruct (Nat.eqb n 0); [reflexivity|]. unfold view at 1. destruct (Nat.eqb _ _); [|reflexivity].
  cbn [bind k_ops tut_kernel tut_ops op_sample_H k_grid_H]. unfold tut_grid_sample.
  assert (Hlen : List.length (tut_uniform_grid n) = n) by (rewrite tut_uniform; apply so2_uniform_grid_length). rewrite Hlen.
  destruct (Nat.ltb_spec n 2); [reflexivity|lia].
Qed.
Print Assumptions C74_defect_single_rotation.

(** Non-vacuity: there is a topk; the tutorial's own modules (cell 22: 3 -> 16 channels, kernel 5, 8 rotations on a 28 x 28
    image; cell 24: 16 -> 16) are constructed, cover the image, and the group kernel can be sampled. *)
Example tutorial_topk : exists top2, top2_ok top2. Proof. exists a_top2. exact a_top2_ok. Qed.
Example tutorial_module : exists L, tut_module a_top2 3 16 5 8 1 1 (PInt 0) 1 "zeros" None = Ok L /\
  constructed 2 L 3 16 [5; 5]%nat (tut_kernel a_top2 3 16 5 8 1) 1 [1; 1]%nat (PInt 0) [1; 1]%nat Zeros None /\
  padded_by 2 (PInt 0) 5 1 0 /\ covered 2 5 1 1 0 [28; 28]%nat.
Proof.
  eexists. split; [reflexivity|]. split; [|split].
  - exists "2d"%string, (GkInt 8), "zeros"%string. split; [left; auto|]. split; [reflexivity|]. split; [reflexivity|].
    split; [|split; [exact I|lia]].
    split; [reflexivity|]. split; [reflexivity|]. split; [reflexivity|]. split; [reflexivity|]. split; [exact I|].
    repeat split; intros x [<-|[<-|[]]]; lia.
  - left; reflexivity.
  - left; reflexivity.
Qed.
Example tutorial_constant : exists v, tut_grid_sample a_top2 1 [0] (repeat [1] 4) (tut_uniform_grid 4) = Ok [[v]] /\ v < 0.
Proof. destruct (C74_defect_constant_signal a_top2 4 0 a_top2_ok) as (v & E & _ & H); [lia|]. exists v. split; [exact E|apply H; lia]. Qed.
