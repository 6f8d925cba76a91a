(** Property theorems C102: what the lifting layers of E(2) and E(3) compute, in terms of those of SE(2) and SE(3).
    Reading guide.  [answers_related H H' rel a b] (SignSpec.v): both calls raise the same error, or both answer, on the grids H and H' (of equally many elements),
    with features of one shape, and entry by entry rel o h y y' holds, for output channel o, the element h of H, the features y of the one and y' of the other.
    [bias_value d bias o]: the bias added to output channel o (0 without one).  [turn_of h]: the angle of h, plus half a turn if its coefficient is not 1.
    [inverted pre ks w w']: w' is w flipped along every axis of the window (torch.flip). *)
From Coq Require Import String ZArith Lra.
From Verif Require Import Prelude RMath Mat SO2 SO2Facts O2 O2Facts SO3 SO3Facts O3 O3Facts Tensor TensorFacts Functional FunctionalFacts Kernel KernelFacts Layers LayersSpec
  Conv ConvSpec ConvInit ConvShift Interp InterpExample Public PublicFacts RepulseFacts Repulse ContractFacts NetDraws Prop_Kernel Prop_Conv Prop_Layers Prop_Public SignSpec SignFacts SignLayers.
Open Scope R_scope.

(** ** E(2): every feature is, up to the sign of the element, that of the SE(2) layer on turns of the plane *)
Theorem C102_E2_is_signed_SE2 : forall T cin cout s groups st padding dl pmode bias mode pm mask gks n gridE gridS M M' smp w X N sp H u u' c,
  usable 2 s st dl cin cout padding bias -> sample_R2 mode pm = Ok smp ->
  lifting_E2 T cin cout s groups st padding dl pmode false bias mode pm true gks gridE = Ok M ->
  lifting_SE2 T cin cout s groups st padding dl pmode false bias mode pm mask n gridS = Ok M' ->
  has_shape w [cout; (cin / Z.to_nat groups)%nat; s; s] -> has_shape X (N :: cin :: sp) -> List.length sp = 2%nat ->
  H <> [] -> Forall o2_wf H ->
  answers_related H (map turn_of H) (fun o h y y' => y - bias_value 2 bias o = o2c h * (y' - bias_value 2 bias o))
    (lifting_E2_call M u c w X (Some H)) (lifting_SE2_call M' u' w X (Some (map turn_of H))).
Proof.
  intros T cin cout s groups st padding dl pmode bias mode pm mask gks n gridE gridS M M' smp w X N sp H u u' c U Hs HM HM' Hw HX Hsp Hn Hwf.
  destruct (turns_2 _ _ _ _ _ _ _ _ _ _ _ _ _ _ _ _ _ _ _ _ _ _ _ _ _ u u' c U Hs HM HM' Hw HX Hsp Hn Hwf) as [E|(Y & Y' & N' & C & size & E & E' & S & S' & V)]; [left; exact E|right].
  exists Y, Y', N', C, size. do 4 (split; [assumption|]). intros m o i h x Hm Ho Hi Hx. exact (V m o i h x Hm Ho Hi Hx I).
Qed.
Print Assumptions C102_E2_is_signed_SE2.

(** ** Elements with coefficient -1: minus the features of the SE(n) layer with the inverted weight, on the rotations that come with the coefficients *)
Theorem C102_inversion_2d : forall T cin cout s groups st padding dl pmode bias pm mask gks n gridE gridS M M' smp w w' X N sp H u u' c,
  usable 2 s st dl cin cout padding bias -> sample_R2 "bilinear" pm = Ok smp ->
  lifting_E2 T cin cout s groups st padding dl pmode false bias "bilinear" pm true gks gridE = Ok M ->
  lifting_SE2 T cin cout s groups st padding dl pmode false bias "bilinear" pm mask n gridS = Ok M' ->
  inverted [cout; (cin / Z.to_nat groups)%nat] [s; s] w w' -> has_shape X (N :: cin :: sp) -> List.length sp = 2%nat -> H <> [] ->
  answers_related H (map o2a H) (fun o h y y' => o2c h = -1 -> y - bias_value 2 bias o = - (y' - bias_value 2 bias o))
    (lifting_E2_call M u c w X (Some H)) (lifting_SE2_call M' u' w' X (Some (map o2a H))).
Proof.
  intros T cin cout s groups st padding dl pmode bias pm mask gks n gridE gridS M M' smp w w' X N sp H u u' c U Hs HM HM' Hw HX Hsp Hn.
  destruct (inverted_2 _ _ _ _ _ _ _ _ _ _ _ _ _ _ _ _ _ _ _ _ _ _ _ _ _ u u' c U Hs HM HM' Hw HX Hsp Hn) as [E|(Y & Y' & N' & C & size & E & E' & S & S' & V)]; [left; exact E|right].
  exists Y, Y', N', C, size. do 4 (split; [assumption|]). intros m o i h x Hm Ho Hi Hx Hc. rewrite (V m o i h x Hm Ho Hi Hx Hc). ring.
Qed.
Print Assumptions C102_inversion_2d.

Theorem C102_inversion_3d : forall T cin cout s groups st padding dl pmode bias pm mask gks n gridE dE gridS dS M M' smp w w' X N sp H q q' c,
  usable 3 s st dl cin cout padding bias -> sample_R3 "bilinear" pm = Ok smp ->
  lifting_E3 T cin cout s groups st padding dl pmode false bias "bilinear" pm mask gks gridE dE = Ok M ->
  lifting_SE3 T cin cout s groups st padding dl pmode false bias "bilinear" pm mask n gridS dS = Ok M' ->
  inverted [cout; (cin / Z.to_nat groups)%nat] [s; s; s] w w' -> has_shape X (N :: cin :: sp) -> List.length sp = 3%nat -> H <> [] ->
  answers_related H (map o3r H) (fun o h y y' => o3c h = -1 -> y - bias_value 3 bias o = - (y' - bias_value 3 bias o))
    (lifting_E3_call M c q w X (Some H)) (lifting_SE3_call M' q' w' X (Some (map o3r H))).
Proof.
  intros T cin cout s groups st padding dl pmode bias pm mask gks n gridE dE gridS dS M M' smp w w' X N sp H q q' c U Hs HM HM' Hw HX Hsp Hn.
  destruct (inverted_3 _ _ _ _ _ _ _ _ _ _ _ _ _ _ _ _ _ _ _ _ _ _ _ _ _ _ _ q q' c U Hs HM HM' Hw HX Hsp Hn) as [E|(Y & Y' & N' & C & size & E & E' & S & S' & V)]; [left; exact E|right].
  exists Y, Y', N', C, size. do 4 (split; [assumption|]). intros m o i h x Hm Ho Hi Hx Hc. rewrite (V m o i h x Hm Ho Hi Hx Hc). ring.
Qed.
Print Assumptions C102_inversion_3d.

(** on the elements with coefficient 1 the features are those of the SE(3) layer with the same weight, whatever else is in the grid *)
Theorem C102_direct_3d : forall T cin cout s groups st padding dl pmode bias mode pm mask gks n gridE dE gridS dS M M' smp w X N sp H q q' c,
  usable 3 s st dl cin cout padding bias -> sample_R3 mode pm = Ok smp ->
  lifting_E3 T cin cout s groups st padding dl pmode false bias mode pm mask gks gridE dE = Ok M ->
  lifting_SE3 T cin cout s groups st padding dl pmode false bias mode pm mask n gridS dS = Ok M' ->
  has_shape w [cout; (cin / Z.to_nat groups)%nat; s; s; s] -> has_shape X (N :: cin :: sp) -> List.length sp = 3%nat -> H <> [] ->
  answers_related H (map o3r H) (fun o h y y' => o3c h = 1 -> y = y')
    (lifting_E3_call M c q w X (Some H)) (lifting_SE3_call M' q' w X (Some (map o3r H))).
Proof.
  intros T cin cout s groups st padding dl pmode bias mode pm mask gks n gridE dE gridS dS M M' smp w X N sp H q q' c U Hs HM HM' Hw HX Hsp Hn.
  destruct (direct_3 _ _ _ _ _ _ _ _ _ _ _ _ _ _ _ _ _ _ _ _ _ _ _ _ _ _ _ q q' c U Hs HM HM' Hw HX Hsp Hn) as [E|(Y & Y' & N' & C & size & E & E' & S & S' & V)]; [left; exact E|right].
  exists Y, Y', N', C, size. do 4 (split; [assumption|]). intros m o i h x Hm Ho Hi Hx Hc. pose proof (V m o i h x Hm Ho Hi Hx Hc). lra.
Qed.
Print Assumptions C102_direct_3d.

(** ** Mirror images: the default E(2) lifting layer (without its random turn), an image of 3 x 3 pixels, and its mirror image.
    The kernel is 1 above and 2 right of its centre; the image is 1 above and 2 right of its centre, the mirror image 1 above and 2 left of it.
    No feature of the image reaches, in absolute value, the feature 5 of the mirror image: no exchange of group elements, with or without signs, relates the two,
    and the features pooled over the group differ. *)
Lemma arm_read im a b : (a < 3)%nat -> (b < 3)%nat -> gs2 true GsBorder [3; 3]%nat im (mkV2 (INR b - 1) (INR a - 1)) = at_ (mkT [3; 3]%nat im) [a; b].
Proof.
  intros Ha Hb. assert (forall j, INR j - 1 = FunctionalFacts.lin 3 j) as E by (intros j; unfold FunctionalFacts.lin; simpl; field).
  unfold gs2. apply linear_int; [repeat apply valid_cons; try assumption; apply valid_nil|]. unfold axis2. cbn [map2 map v2x v2y].
  rewrite !E, !linear_coord_small by lia. reflexivity.
Qed.
Definition right_angle (k : nat) : R * R := match k with 0%nat => (1, 0) | 1%nat => (0, 1) | 2%nat => (-1, 0) | _ => (0, -1) end.
Lemma right_angle_eq k : (k < 4)%nat -> cos (2 * PI * INR k / INR 4) = fst (right_angle k) /\ sin (2 * PI * INR k / INR 4) = snd (right_angle k).
Proof.
  intros Hk. assert (2 * PI * INR k / INR 4 = INR k * (PI / 2)) as -> by (replace (INR 4) with 4 by (cbn; lra); field).
  destruct k as [|[|[|[|k]]]]; [| | | |lia]; cbn [right_angle fst snd].
  - replace (INR 0 * (PI / 2)) with 0 by (cbn; ring). rewrite cos_0, sin_0. auto.
  - replace (INR 1 * (PI / 2)) with (PI / 2) by (cbn; ring). rewrite cos_PI2, sin_PI2. auto.
  - replace (INR 2 * (PI / 2)) with PI by (cbn; field). rewrite cos_PI, sin_PI. auto.
  - replace (INR 3 * (PI / 2)) with (3 * (PI / 2)) by (cbn; ring). rewrite cos_3PI2, sin_3PI2. auto.
Qed.

Theorem C102_mirror_refuted : forall T, exists (M : gmodule O2 V2) (weight X Xm : tensor R),
  lifting_E2 T 1 1 3 1 1 (PInt 0) 1 "zeros" false None "bilinear" "border" true (PairTuple 4 4) None = Ok M /\
  has_shape weight [1; 1; 3; 3]%nat /\ has_shape X [1; 1; 3; 3]%nat /\ has_shape Xm [1; 1; 3; 3]%nat /\
  (forall i j, (i < 3)%nat -> (j < 3)%nat -> at_ Xm [0; 0; i; j]%nat = at_ X [0; 0; i; 2 - j]%nat) /\
  forall u c, exists (Y Ym : tensor R) H v vm i im, lifting_E2_call M u c weight X None = Ok (Y, H) /\ lifting_E2_call M u c weight Xm None = Ok (Ym, H) /\
    has_shape Y [1; 1; 8; 1; 1]%nat /\ has_shape Ym [1; 1; 8; 1; 1]%nat /\
    (forall k, (k < 8)%nat -> Rabs (at_ Y [0; 0; k; 0; 0]%nat) <= 4) /\ (exists k, (k < 8)%nat /\ at_ Ym [0; 0; k; 0; 0]%nat = 5) /\
    g_max_global_pool Y = Ok (PPair v i) /\ g_max_global_pool Ym = Ok (PPair vm im) /\ at_ v [0; 0; 0]%nat = 4 /\ at_ vm [0; 0; 0]%nat = 5.
Proof.
  intros T.
  pose (w := build [1; 1; 3; 3]%nat (fun idx => if (nth 2 idx 0 =? 0)%nat && (nth 3 idx 0 =? 1)%nat then 1 else if (nth 2 idx 0 =? 1)%nat && (nth 3 idx 0 =? 2)%nat then 2 else 0)).
  pose (X := fun side : nat => build [1; 1; 3; 3]%nat (fun idx => if (nth 2 idx 0 =? 0)%nat && (nth 3 idx 0 =? 1)%nat then 1 else if (nth 2 idx 0 =? 1)%nat && (nth 3 idx 0 =? side)%nat then 2 else 0)).
  assert (has_shape w [1; 1; 3; 3]%nat) as Hw by (split; [reflexivity|apply wft_build]).
  assert (forall side, has_shape (X side) [1; 1; 3; 3]%nat) as HX by (split; [reflexivity|apply wft_build]).
  destruct (C69_lifting_E2 T 1 1 3 1 1 (PInt 0) 1 "zeros" false None "bilinear" "border" true (PairTuple 4 4) None) as (A & _ & Eg & _).
  destruct A as (L & EM & EL & HC).
  { split; [cbn; split; [intros i [<-|[<-|[]]]; lia|lia]|]. split; [lia|]. split; [exists 1%Z; reflexivity|]. split; [exists 1%Z; reflexivity|]. split; [discriminate|simpl; auto]. }
  set (M := mkModule L false) in *. cbn [pair_rot pair_ref] in Eg.
  assert (kernel_grid M = o2_uniform_grid 4 4) as EK. { unfold kernel_grid, M. cbn [gm_layer]. rewrite EL. exact Eg. }
  destruct HC as (m & Em & HC). { repeat split; lia. } injection Em as <-.
  set (H := o2_uniform_grid 4 4) in *.
  assert (List.length H = 8%nat) as LH. { unfold H. rewrite o2_uniform_split, app_length, !map_length, !so2_uniform_grid_length. reflexivity. }
  assert (forall k, (k < 8)%nat -> nth_error H k = Some (mkO2 (if (k <? 4)%nat then 1 else -(1)) (2 * PI * INR (k mod 4) / INR 4))) as Hnth.
  { intros k Hk. unfold H. rewrite o2_uniform_split. destruct (Nat.ltb_spec k 4) as [Lt|Ge].
    - rewrite nth_error_app1 by (rewrite map_length, so2_uniform_grid_length; exact Lt). rewrite nth_error_map, so2_uniform_grid_nth by exact Lt. rewrite Nat.mod_small by exact Lt. reflexivity.
    - rewrite nth_error_app2 by (rewrite map_length, so2_uniform_grid_length; exact Ge). rewrite map_length, so2_uniform_grid_length, nth_error_map, so2_uniform_grid_nth by lia.
      replace (k mod 4)%nat with (k - 4)%nat; [reflexivity|]. replace k with (k - 4 + 1 * 4)%nat at 2 by lia. rewrite Nat.mod_add, Nat.mod_small by lia. reflexivity. }
  pose (im := slice w [3; 3]%nat [0; 0]%nat).
  assert (forall a b, (a < 3)%nat -> (b < 3)%nat -> at_ (mkT [3; 3]%nat im) [a; b] = if (a =? 0)%nat && (b =? 1)%nat then 1 else if (a =? 1)%nat && (b =? 2)%nat then 2 else 0) as Eim.
  { intros a b Ha Hb. change (mkT [3; 3]%nat im) with (build [3; 3]%nat (fun y => at_ w ([0; 0]%nat ++ y))).
    rewrite at_build by (repeat apply valid_cons; try assumption; apply valid_nil). cbn [app]. unfold w.
    rewrite at_build by (repeat apply valid_cons; try assumption; try lia; apply valid_nil). reflexivity. }
  destruct (C36_E2 T 1 1 3 1 4 4 "bilinear" "border" true H (gs2 true GsBorder) w H) as (W & EW & SW & VW); [lia|reflexivity|exact Hw|].
  rewrite LH in SW.
  pose (arm := fun k (p q : R) => let c := if (k <? 4)%nat then 1 else -(1) in
     gs2 true GsBorder [3; 3]%nat im (scalv2 c (app2 (so2_angle_to_matrix (2 * PI * INR (k mod 4) / INR 4 * -1)) (mkV2 p q))) / c).
  assert (forall side, (side = 0 \/ side = 2)%nat -> exists Y, (forall u c, lifting_E2_call M u c w (X side) None = Ok (Y, H)) /\ has_shape Y [1; 1; 8; 1; 1]%nat /\
    forall k, (k < 8)%nat -> at_ Y [0; 0; k; 0; 0]%nat = arm k (-1) 0 + 2 * arm k 0 (INR side - 1)) as Main.
  { intros side Hside.
    pose proof (C45_lifting_convolution O2 V2 _ 2 L 1 1 [3; 3]%nat _ 1 [1; 1]%nat (PInt 0) [1; 1]%nat Zeros None w W H (X side) 1 [3; 3]%nat HC) as Q. cbv zeta in Q.
    destruct Q as [Q _]; [intros Z; rewrite Z in LH; discriminate|exact EW|rewrite LH; exact SW|apply HX|reflexivity|].
    destruct Q as (Y & EY & SY & VY). { intros j Hj. cbn in Hj. destruct j as [|[|j]]; [vm_compute; lia|vm_compute; lia|lia]. }
    rewrite LH in SY. change (has_shape Y [1; 1; 8; 1; 1]%nat) in SY.
    exists Y. split.
    { intros u c. unfold lifting_E2_call, lifting_call, permuted. cbn [gm_permute gm_layer M or_else]. fold M. rewrite EK. exact EY. }
    split; [exact SY|]. intros k Hk.
    rewrite VY; [|lia|lia|rewrite LH; exact Hk|repeat apply valid_cons; try lia; apply valid_nil].
    assert (forall a b, (a < 3)%nat -> (b < 3)%nat ->
      image_at Zeros (X side) [3; 3]%nat [0; 0]%nat (read_pos [1; 1]%nat [1; 1]%nat (lefts (stored_padding 2 (PInt 0)) [3; 3]%nat [1; 1]%nat) [0; 0]%nat [a; b])
      = if (a =? 0)%nat && (b =? 1)%nat then 1 else if (a =? 1)%nat && (b =? side)%nat then 2 else 0) as HR.
    { intros a b Ha Hb. assert (read_pos [1; 1]%nat [1; 1]%nat (lefts (stored_padding 2 (PInt 0)) [3; 3]%nat [1; 1]%nat) [0; 0]%nat [a; b] = [Z.of_nat a; Z.of_nat b]) as ->.
      { unfold read_pos. change (lefts (stored_padding 2 (PInt 0)) [3; 3]%nat [1; 1]%nat) with [0; 0]%nat. unfold axes. cbn [List.length seq map nth]. f_equal; [|f_equal]; lia. }
      rewrite image_at_inside. 2:{ intros i Hi. cbn in Hi. destruct i as [|[|i]]; [cbn; lia|cbn; lia|lia]. }
      unfold axes. cbn [List.length seq map nth app]. rewrite !Nat2Z.id. unfold X. rewrite at_build by (repeat apply valid_cons; try assumption; try lia; apply valid_nil). reflexivity. }
    change (seq 0 (1 / 1)) with [0]%nat. change (indices [3; 3]%nat) with [[0; 0]; [0; 1]; [0; 2]; [1; 0]; [1; 1]; [1; 2]; [2; 0]; [2; 1]; [2; 2]]%nat.
    cbn [map]. change (0 / (1 / 1) * (1 / 1) + 0)%nat with 0%nat. rewrite !HR by lia.
    assert (forall a b, (a < 3)%nat -> (b < 3)%nat -> norm2 (mkV2 (INR a - 1) (INR b - 1)) <= 1 -> at_ W [0; k; 0; a; b]%nat = arm k (INR a - 1) (INR b - 1)) as HW.
    { intros a b Ha Hb Hn. rewrite (VW 0%nat k _ 0%nat a b ltac:(lia) (Hnth k Hk)) by (cbn; lia).
      rewrite mask_R2_at by (repeat apply valid_cons; try lia; apply valid_nil). rewrite grid_R2_at by assumption.
      assert (mkV2 (FunctionalFacts.lin 3 a) (FunctionalFacts.lin 3 b) = mkV2 (INR a - 1) (INR b - 1)) as ->. { unfold FunctionalFacts.lin. f_equal; simpl; field. }
      unfold lt_float. destruct (Rlt_dec _ (11 / 10)) as [_|N]; [|exfalso; apply N; lra]. fold im. cbn [o2c o2a]. unfold arm. rewrite Rmult_1_l. reflexivity. }
    assert (forall p q, p * p + q * q = 1 -> norm2 (mkV2 p q) <= 1) as N1. { intros p q E. unfold norm2, dot2. cbn [v2x v2y]. rewrite E, sqrt_1. lra. }
    cbn [Nat.eqb andb bias_value]. unfold sumR. cbn [fold_right].
    rewrite (HW 0%nat 1%nat) by (lia || (apply N1; simpl; ring)).
    replace (arm k (-1) 0) with (arm k (INR 0 - 1) (INR 1 - 1)) by (f_equal; simpl; ring).
    destruct Hside as [-> | ->]; cbn [Nat.eqb].
    - rewrite (HW 1%nat 0%nat) by (lia || (apply N1; simpl; ring)). replace (arm k (INR 1 - 1) (INR 0 - 1)) with (arm k 0 (INR 0 - 1)) by (f_equal; simpl; ring). ring.
    - rewrite (HW 1%nat 2%nat) by (lia || (apply N1; simpl; ring)). replace (arm k (INR 1 - 1) (INR 2 - 1)) with (arm k 0 (INR 2 - 1)) by (f_equal; simpl; ring). ring. }
  pose (sg := fun k => if (k <? 4)%nat then 1 else -(1)).
  assert (forall k a b p q, (k < 8)%nat -> (a < 3)%nat -> (b < 3)%nat ->
     sg k * (fst (right_angle (k mod 4)) * p + snd (right_angle (k mod 4)) * q) = INR b - 1 -> sg k * (- snd (right_angle (k mod 4)) * p + fst (right_angle (k mod 4)) * q) = INR a - 1 ->
     arm k p q = (if (a =? 0)%nat && (b =? 1)%nat then 1 else if (a =? 1)%nat && (b =? 2)%nat then 2 else 0) / sg k) as Harm.
  { intros k a b p q Hk Ha Hb E1 E2. unfold arm. cbv zeta. fold (sg k). f_equal. rewrite <- Eim, <- arm_read by assumption. f_equal.
    destruct (right_angle_eq (k mod 4)) as [Ec Es]; [apply Nat.mod_upper_bound; lia|]. replace (2 * PI * INR (k mod 4) / INR 4 * -1) with (- (2 * PI * INR (k mod 4) / INR 4)) by ring.
    unfold app2, so2_angle_to_matrix, scalv2. cbn [b00 b01 b10 b11 v2x v2y]. rewrite cos_neg, sin_neg, Ec, Es. f_equal; [rewrite <- E1|rewrite <- E2]; ring. }
  destruct (Main 2%nat) as (Y & CY & SY & VY); [auto|]. destruct (Main 0%nat) as (Ym & CYm & SYm & VYm); [auto|].
  assert (forall k, (k < 8)%nat -> at_ Y [0; 0; k; 0; 0]%nat = nth k [0; 4; 4; 1; -4; -1; 0; -4] 0) as TY.
  { intros k Hk. rewrite (VY k Hk). replace (INR 2 - 1) with 1 by (simpl; ring).
    assert (forall a b a' b' r, (a < 3)%nat -> (b < 3)%nat -> (a' < 3)%nat -> (b' < 3)%nat -> 
      sg k * (fst (right_angle (k mod 4)) * -1 + snd (right_angle (k mod 4)) * 0) = INR b - 1 -> sg k * (- snd (right_angle (k mod 4)) * -1 + fst (right_angle (k mod 4)) * 0) = INR a - 1 ->
      sg k * (fst (right_angle (k mod 4)) * 0 + snd (right_angle (k mod 4)) * 1) = INR b' - 1 -> sg k * (- snd (right_angle (k mod 4)) * 0 + fst (right_angle (k mod 4)) * 1) = INR a' - 1 ->
      (if (a =? 0)%nat && (b =? 1)%nat then 1 else if (a =? 1)%nat && (b =? 2)%nat then 2 else 0) / sg k
        + 2 * ((if (a' =? 0)%nat && (b' =? 1)%nat then 1 else if (a' =? 1)%nat && (b' =? 2)%nat then 2 else 0) / sg k) = r -> arm k (-1) 0 + 2 * arm k 0 1 = r) as K.
    { intros a b a' b' r Ha Hb Ha' Hb' E1 E2 E3 E4 Er. rewrite (Harm k a b), (Harm k a' b') by assumption. exact Er. }
    clear - Hk K.
    destruct k as [|[|[|[|[|[|[|[|k]]]]]]]]; [| | | | | | | |lia].
    - apply (K 1 0 2 1)%nat; first [lia|unfold sg; cbn; lra|unfold sg; cbn; field].
    - apply (K 2 1 1 2)%nat; first [lia|unfold sg; cbn; lra|unfold sg; cbn; field].
    - apply (K 1 2 0 1)%nat; first [lia|unfold sg; cbn; lra|unfold sg; cbn; field].
    - apply (K 0 1 1 0)%nat; first [lia|unfold sg; cbn; lra|unfold sg; cbn; field].
    - apply (K 1 2 0 1)%nat; first [lia|unfold sg; cbn; lra|unfold sg; cbn; field].
    - apply (K 0 1 1 0)%nat; first [lia|unfold sg; cbn; lra|unfold sg; cbn; field].
    - apply (K 1 0 2 1)%nat; first [lia|unfold sg; cbn; lra|unfold sg; cbn; field].
    - apply (K 2 1 1 2)%nat; first [lia|unfold sg; cbn; lra|unfold sg; cbn; field]. }
  assert (forall k, (k < 8)%nat -> at_ Ym [0; 0; k; 0; 0]%nat = nth k [2; 0; 2; 5; -2; -5; -2; 0] 0) as TYm.
  { intros k Hk. rewrite (VYm k Hk). replace (INR 0 - 1) with (-1) by (simpl; ring).
    assert (forall a b a' b' r, (a < 3)%nat -> (b < 3)%nat -> (a' < 3)%nat -> (b' < 3)%nat -> 
      sg k * (fst (right_angle (k mod 4)) * -1 + snd (right_angle (k mod 4)) * 0) = INR b - 1 -> sg k * (- snd (right_angle (k mod 4)) * -1 + fst (right_angle (k mod 4)) * 0) = INR a - 1 ->
      sg k * (fst (right_angle (k mod 4)) * 0 + snd (right_angle (k mod 4)) * -1) = INR b' - 1 -> sg k * (- snd (right_angle (k mod 4)) * 0 + fst (right_angle (k mod 4)) * -1) = INR a' - 1 ->
      (if (a =? 0)%nat && (b =? 1)%nat then 1 else if (a =? 1)%nat && (b =? 2)%nat then 2 else 0) / sg k
        + 2 * ((if (a' =? 0)%nat && (b' =? 1)%nat then 1 else if (a' =? 1)%nat && (b' =? 2)%nat then 2 else 0) / sg k) = r -> arm k (-1) 0 + 2 * arm k 0 (-1) = r) as K.
    { intros a b a' b' r Ha Hb Ha' Hb' E1 E2 E3 E4 Er. rewrite (Harm k a b), (Harm k a' b') by assumption. exact Er. }
    clear - Hk K.
    destruct k as [|[|[|[|[|[|[|[|k]]]]]]]]; [| | | | | | | |lia].
    - apply (K 1 0 0 1)%nat; first [lia|unfold sg; cbn; lra|unfold sg; cbn; field].
    - apply (K 2 1 1 0)%nat; first [lia|unfold sg; cbn; lra|unfold sg; cbn; field].
    - apply (K 1 2 2 1)%nat; first [lia|unfold sg; cbn; lra|unfold sg; cbn; field].
    - apply (K 0 1 1 2)%nat; first [lia|unfold sg; cbn; lra|unfold sg; cbn; field].
    - apply (K 1 2 2 1)%nat; first [lia|unfold sg; cbn; lra|unfold sg; cbn; field].
    - apply (K 0 1 1 2)%nat; first [lia|unfold sg; cbn; lra|unfold sg; cbn; field].
    - apply (K 1 0 0 1)%nat; first [lia|unfold sg; cbn; lra|unfold sg; cbn; field].
    - apply (K 2 1 1 0)%nat; first [lia|unfold sg; cbn; lra|unfold sg; cbn; field]. }
  exists M, w, (X 2%nat), (X 0%nat). split; [exact EM|]. split; [exact Hw|]. split; [apply HX|]. split; [apply HX|]. split.
  { intros i j Hi Hj. unfold X. rewrite !at_build by (repeat apply valid_cons; try assumption; try lia; apply valid_nil). cbn [nth].
    destruct j as [|[|[|j]]]; [| | |lia]; destruct i as [|[|[|i]]]; try reflexivity; lia. }
  intros u c.
  assert (forall Z vals r, has_shape Z [1; 1; 8; 1; 1]%nat -> (forall k, (k < 8)%nat -> at_ Z [0; 0; k; 0; 0]%nat = nth k vals 0) ->
    (forall k, (k < 8)%nat -> nth k vals 0 <= r) -> (exists k, (k < 8)%nat /\ nth k vals 0 = r) -> exists v i, g_max_global_pool Z = Ok (PPair v i) /\ at_ v [0; 0; 0]%nat = r) as HP.
  { clear. intros Z vals r SZ VZ Hle (k & Hk & Ek). destruct (proj1 (C54_max_global_pool Z 1 1 8 [1; 1]%nat SZ)) as (v & i & E & _ & _ & V); [cbn; lia|].
    exists v, i. split; [exact E|]. destruct (V 0%nat 0%nat) as (((z & Hz & Ez) & Lub) & _ & _); [lia|lia|].
    apply Rle_antisym.
    - rewrite <- Ez. inversion Hz as [|z0 n0 zs ns Hz0 Hzs Ea Eb]; subst. inversion Hzs as [|z1 n1 zs1 ns1 Hz1 Hzs1]; subst. inversion Hzs1 as [|z2 n2 zs2 ns2 Hz2 Hzs2]; subst. inversion Hzs2; subst.
      assert (z1 = 0%nat /\ z2 = 0%nat) as [-> ->] by lia. rewrite VZ by exact Hz0. apply Hle, Hz0.
    - rewrite <- Ek, <- VZ by exact Hk. apply Lub. repeat apply valid_cons; try lia. apply valid_nil. }
  destruct (HP Y _ 4 SY TY) as (v & i & EP & VP).
  { intros k Hk. destruct k as [|[|[|[|[|[|[|[|k]]]]]]]]; cbn; lra || lia. } { exists 1%nat. split; [lia|reflexivity]. }
  destruct (HP Ym _ 5 SYm TYm) as (vm & im' & EPm & VPm).
  { intros k Hk. destruct k as [|[|[|[|[|[|[|[|k]]]]]]]]; cbn; lra || lia. } { exists 3%nat. split; [lia|reflexivity]. }
  exists Y, Ym, H, v, vm, i, im'. split; [apply CY|]. split; [apply CYm|]. split; [exact SY|]. split; [exact SYm|]. split.
  { intros k Hk. rewrite TY by exact Hk. clear - Hk. destruct k as [|[|[|[|[|[|[|[|k]]]]]]]]; [| | | | | | | |lia]; cbn [nth]; unfold Rabs; destruct (Rcase_abs _); lra. }
  split. { exists 3%nat. split; [lia|]. rewrite TYm by lia. reflexivity. }
  auto.
Qed.
Print Assumptions C102_mirror_refuted.

(** ** Concrete case: 2d and 3d layers of both families exist for one configuration with a bias, a weight and its (different) inverted weight, grids of both signs;
    and the 3d layers answer, with the feature at the element of coefficient -1. *)
Example C102_nonvacuous : forall T, exists M2 M2' M3 M3' w2 w2' w3 w3',
  let bias := Some (build [1; 1; 1; 1; 1]%nat (fun _ => 7)) in let bias2 := Some (build [1; 1; 1; 1]%nat (fun _ => 7)) in
  let H2 := [mkO2 1 (PI / 3); mkO2 (-1) (PI / 3)] in let H3 := [mkO3 1 I3; mkO3 (-1) I3] in
  lifting_E2 T 1 1 2 1 1 (PInt 0) 1 "zeros" false bias2 "bilinear" "border" true (PairTuple 4 4) None = Ok M2 /\
  lifting_SE2 T 1 1 2 1 1 (PInt 0) 1 "zeros" false bias2 "bilinear" "border" true 4 None = Ok M2' /\
  lifting_E3 T 1 1 2 1 1 (PInt 0) 1 "zeros" false bias "bilinear" "border" false (PairTuple 1 1) (Some H3) (Err RuntimeError) = Ok M3 /\
  lifting_SE3 T 1 1 2 1 1 (PInt 0) 1 "zeros" false bias "bilinear" "border" false 1 (Some [I3]) (Err RuntimeError) = Ok M3' /\
  usable 2 2 1 1 1 1 (PInt 0) bias2 /\ usable 3 2 1 1 1 1 (PInt 0) bias /\
  inverted [1; 1]%nat [2; 2]%nat w2 w2' /\ w2 <> w2' /\ inverted [1; 1]%nat [2; 2; 2]%nat w3 w3' /\ w3 <> w3' /\ Forall o2_wf H2 /\
  forall q c, exists Y, lifting_E3_call M3 c q w3 (build [1; 1; 2; 2; 2]%nat (fun idx => INR (nth 2 idx 0%nat))) (Some H3) = Ok (Y, H3) /\ has_shape Y [1; 1; 2; 1; 1; 1]%nat.
Proof.
  intros T.
  assert (forall sh (f : list nat -> R), has_shape (build sh f) sh) as HB by (intros sh f; split; [reflexivity|apply wft_build]).
  pose (bias := Some (build [1; 1; 1; 1; 1]%nat (fun _ => 7))). pose (bias2 := Some (build [1; 1; 1; 1]%nat (fun _ => 7))).
  pose (H3 := [mkO3 1 I3; mkO3 (-1) I3]).
  assert (forall d b, bias_shape_ok d 1 b -> usable d 2 1 1 1 1 (PInt 0) b) as HU by (intros d b B; repeat split; try lia; exact B).
  assert (valid_config (pair_gks (PairTuple 4 4)) 1 1 1 (PInt 0) [1; 1]%nat "zeros") as V2.
  { split; [cbn; split; [intros i [<-|[<-|[]]]; lia|lia]|]. split; [lia|]. split; [exists 1%Z; reflexivity|]. split; [exists 1%Z; reflexivity|]. split; [discriminate|simpl; auto]. }
  assert (valid_config (GkInt (Z.of_nat 4)) 1 1 1 (PInt 0) [1; 1]%nat "zeros") as V2'.
  { split; [exact I|]. split; [lia|]. split; [exists 1%Z; reflexivity|]. split; [exists 1%Z; reflexivity|]. split; [discriminate|simpl; auto]. }
  assert (valid_config (pair_gks (PairTuple 1 1)) 1 1 1 (PInt 0) [1; 1; 1]%nat "zeros") as V3.
  { split; [cbn; split; [intros i [<-|[<-|[]]]; lia|lia]|]. split; [lia|]. split; [exists 1%Z; reflexivity|]. split; [exists 1%Z; reflexivity|]. split; [discriminate|simpl; auto]. }
  assert (valid_config (GkInt (Z.of_nat 1)) 1 1 1 (PInt 0) [1; 1; 1]%nat "zeros") as V3'.
  { split; [exact I|]. split; [lia|]. split; [exists 1%Z; reflexivity|]. split; [exists 1%Z; reflexivity|]. split; [discriminate|simpl; auto]. }
  destruct (C69_lifting_E2 T 1 1 2 1 1 (PInt 0) 1 "zeros" false bias2 "bilinear" "border" true (PairTuple 4 4) None) as (A2 & _). destruct (A2 V2) as (L2 & E2 & _).
  destruct (C69_lifting_SE2 T 1 1 2 1 1 (PInt 0) 1 "zeros" false bias2 "bilinear" "border" true 4 None) as (A2' & _). destruct (A2' V2') as (L2' & E2' & _).
  destruct (C69_lifting_E3 T 1 1 2 1 1 (PInt 0) 1 "zeros" false bias "bilinear" "border" false (PairTuple 1 1) (Some H3) (Err RuntimeError) H3 (or_introl eq_refl)) as (A3 & _). destruct (A3 V3) as (L3 & E3 & _ & HC).
  destruct (C69_lifting_SE3 T 1 1 2 1 1 (PInt 0) 1 "zeros" false bias "bilinear" "border" false 1 (Some [I3]) (Err RuntimeError) [I3] (or_introl eq_refl)) as (A3' & _). destruct (A3' V3') as (L3' & E3' & _).
  pose (w3 := build [1; 1; 2; 2; 2]%nat (fun idx => INR (nth 2 idx 0%nat))). pose (w3' := build [1; 1; 2; 2; 2]%nat (fun idx => INR (1 - nth 2 idx 0%nat))).
  exists (mkModule L2 false), (mkModule L2' false), (mkModule L3 false), (mkModule L3' false).
  exists (build [1; 1; 2; 2]%nat (fun idx => INR (nth 2 idx 0%nat))), (build [1; 1; 2; 2]%nat (fun idx => INR (1 - nth 2 idx 0%nat))), w3, w3'.
  cbv zeta. fold bias bias2 H3. split; [exact E2|]. split; [exact E2'|]. split; [exact E3|]. split; [exact E3'|].
  split; [apply HU, HB|]. split; [apply HU, HB|].
  split.
  { split; [apply HB|]. split; [apply HB|]. intros p x Hp Hx. destruct (valid2_inv 2 x Hx) as (a & b & -> & Ha & Hb).
    inversion Hp as [|p0 n0 ps ns Hp0 Hps]; subst. inversion Hps as [|p1 n1 ps1 ns1 Hp1 Hps1]; subst. inversion Hps1; subst. cbn [opposite map2 app].
    rewrite !at_build by (repeat apply valid_cons; try assumption; try lia; apply valid_nil). cbn [nth]. f_equal; lia. }
  split. { intros E. apply (f_equal (fun t => at_ t [0; 0; 0; 0]%nat)) in E. rewrite !at_build in E by (repeat apply valid_cons; try lia; apply valid_nil). cbn in E. lra. }
  split.
  { split; [apply HB|]. split; [apply HB|]. intros p x Hp Hx. destruct (valid3_inv 2 x Hx) as (a & b & e & -> & Ha & Hb & He).
    inversion Hp as [|p0 n0 ps ns Hp0 Hps]; subst. inversion Hps as [|p1 n1 ps1 ns1 Hp1 Hps1]; subst. inversion Hps1; subst. cbn [opposite map2 app].
    unfold w3, w3'. rewrite !at_build by (repeat apply valid_cons; try assumption; try lia; apply valid_nil). cbn [nth]. f_equal; lia. }
  split. { intros E. apply (f_equal (fun t => at_ t [0; 0; 0; 0; 0]%nat)) in E. unfold w3, w3' in E. rewrite !at_build in E by (repeat apply valid_cons; try lia; apply valid_nil). cbn in E. lra. }
  split. { apply Forall_cons; [left; reflexivity|apply Forall_cons; [right; reflexivity|apply Forall_nil]]. }
  intros q c. destruct HC as (m & Em & HC). { repeat split; lia. } injection Em as <-.
  destruct (C36_E3 T 1 1 2 1 1 1 "bilinear" "border" false H3 (gs3 true GsBorder) w3 H3) as (W & EW & SW & _); [lia|reflexivity|apply HB|].
  pose proof (C45_lifting_convolution O3 Mat.V3 _ 3 L3 1 1 [2; 2; 2]%nat _ 1 [1; 1; 1]%nat (PInt 0) [1; 1; 1]%nat Zeros bias w3 W H3 w3 1 [2; 2; 2]%nat HC) as Q. cbv zeta in Q.
  destruct Q as [Q _]; [discriminate|exact EW|exact SW|apply HB|reflexivity|].
  destruct Q as (Y & EY & SY & _). { intros j Hj. cbn in Hj. destruct j as [|[|[|j]]]; [vm_compute; lia|vm_compute; lia|vm_compute; lia|lia]. }
  exists Y. split; [exact EY|exact SY].
Qed.
