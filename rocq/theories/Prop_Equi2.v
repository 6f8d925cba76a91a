(** Property theorems C49-C51, continued: the moved image, the sign defect, concrete layers. *)
From Coq Require Import String ZArith Permutation Lra.
From Verif Require Import Prelude RMath Mat Interp SO2 SO2Facts O2 O2Facts SO3 SO3Facts O3 O3Facts Repulse RepulseFacts Tensor TensorFacts SignedPerm Functional
  FunctionalFacts Kernel KernelFacts GroupKernelFacts KernelMore Conv ConvSpec ConvFacts ConvInit Equi EquiLayer EquiSpec EquiSpecFacts EquiKernel EquiGroups EquiMore
  SepStages Prop_Kernel Prop_Kernel2 Prop_Conv Prop_Conv2 Prop_Equi.
Open Scope R_scope.

(** Every image has exactly one moved image, for every quarter turn and every signed permutation matrix. *)
Theorem C49_moved_image_exists_unique :
  (forall q X lead h w, has_shape X (lead ++ [h; w]) ->
     exists X', moved2 (so2_angle_to_matrix (IZR q * (PI / 2))) X X' /\
       forall X2, moved2 (so2_angle_to_matrix (IZR q * (PI / 2))) X X2 -> X2 = X') /\
  (forall g X lead d h w, signed3 g -> has_shape X (lead ++ [d; h; w]) ->
     exists X', moved3 g X X' /\ forall X2, moved3 g X X2 -> X2 = X').
Proof.
  split; intros.
  - apply (moved2_exists _ _ lead h w); [apply quarter_signed|assumption].
  - apply (moved3_exists _ _ lead d h w); assumption.
Qed.
Print Assumptions C49_moved_image_exists_unique.

(** C51: for an inversion the layer is equivariant exactly when its output is the bias everywhere. *)
Theorem C51_lifting_E2_inversion : forall T (L : gconv O2 V2) cin out s groups st padding dl m bias lp n1 n2 mode pm mask grid weight (X X' Y Y' : tensor R) N h w H q,
  constructed 2 L cin out [s; s] (lifting_kernel_E2 T cin out s groups n1 n2 mode pm mask grid) groups [st; st] padding [dl; dl] m bias ->
  (2 <= s)%nat -> padded_by 2 padding s dl lp ->
  has_shape weight (out :: cin / groups :: [s; s])%nat -> H <> [] ->
  has_shape X (N :: cin :: [h; w]) -> covered 2 s st dl lp [h; w] ->
  let g := mkO2 (-1) (IZR q * (PI / 2)) in
  moved2 (o2_acting_matrix g) X X' ->
  lifting_forward L weight X H = Ok (Y, H) ->
  lifting_forward L weight X' (map (o2_left_apply_angle g) H) = Ok (Y', map (o2_left_apply_angle g) H) ->
  forall hy wy, has_shape Y [N; out; List.length H; hy; wy] ->
  (moved2 (o2_acting_matrix g) Y Y' <->
   forall n o e i j, (n < N)%nat -> (o < out)%nat -> (e < List.length H)%nat -> (i < hy)%nat -> (j < wy)%nat ->
     at_ Y [n; o; e; i; j] = bias_value 2 bias o).
Proof.
  intros T L cin out s groups st padding dl m bias lp n1 n2 mode pm mask grid weight X X' Y Y' N h w H q Hc Hs Hpad Hw HH HX Hex g HM E E' hy wy HY.
  destruct (C51_lifting_E2 T L cin out s groups st padding dl m bias lp n1 n2 mode pm mask grid weight X X' Y N h w H (-1) q Hc Hs Hpad Hw HH HX Hex
    (or_intror eq_refl) HM E) as (Y2 & E2 & C).
  fold g in E2, C. rewrite E' in E2. injection E2 as <-.
  assert (signed2 (o2_acting_matrix g)) as HA by (apply o2_quarter_signed; right; reflexivity).
  pose proof (flip2_iff _ bias Y Y' [N; out; List.length H] hy wy HA HY C) as Q. rewrite Q. split.
  - intros B n o e i j Hn Ho He Hi Hj. apply (B [n; o; e] i j); try assumption. repeat apply valid_cons; try assumption. apply valid_nil.
  - intros B pre i j Hp Hi Hj. destruct (valid3_split _ _ _ _ Hp) as (n & o & e & -> & Hn & Ho & He). apply B; assumption.
Qed.
Print Assumptions C51_lifting_E2_inversion.

Theorem C51_lifting_E3_inversion : forall T (L : gconv O3 V3) cin out s groups st padding dl m bias lp n1 n2 mode pm mask grid weight (X X' Y Y' : tensor R) N d h w H g,
  constructed 3 L cin out [s; s; s] (lifting_kernel_E3 T cin out s groups n1 n2 mode pm mask grid) groups [st; st; st] padding [dl; dl; dl] m bias ->
  (2 <= s)%nat -> padded_by 3 padding s dl lp ->
  has_shape weight (out :: cin / groups :: [s; s; s])%nat -> H <> [] ->
  has_shape X (N :: cin :: [d; h; w]) -> covered 3 s st dl lp [d; h; w] ->
  o3_wf g -> signed3 (o3_as_matrix g) -> o3c g = -1 ->
  moved3 (o3_as_matrix g) X X' ->
  lifting_forward L weight X H = Ok (Y, H) ->
  lifting_forward L weight X' (map (o3_left_apply_O3 g) H) = Ok (Y', map (o3_left_apply_O3 g) H) ->
  forall dy hy wy, has_shape Y [N; out; List.length H; dy; hy; wy] ->
  (moved3 (o3_as_matrix g) Y Y' <->
   forall n o e i j k, (n < N)%nat -> (o < out)%nat -> (e < List.length H)%nat -> (i < dy)%nat -> (j < hy)%nat -> (k < wy)%nat ->
     at_ Y [n; o; e; i; j; k] = bias_value 3 bias o).
Proof.
  intros T L cin out s groups st padding dl m bias lp n1 n2 mode pm mask grid weight X X' Y Y' N d h w H g Hc Hs Hpad Hw HH HX Hex Hg Hsg Hcg HM E E' dy hy wy HY.
  destruct (C51_lifting_E3 T L cin out s groups st padding dl m bias lp n1 n2 mode pm mask grid weight X X' Y N d h w H g Hc Hs Hpad Hw HH HX Hex
    Hg Hsg HM E) as (Y2 & E2 & C).
  rewrite E' in E2. injection E2 as <-. rewrite Hcg in C.
  pose proof (flip3_iff _ bias Y Y' [N; out; List.length H] dy hy wy Hsg HY C) as Q. rewrite Q. split.
  - intros B n o e i j k Hn Ho He Hi Hj Hk. apply (B [n; o; e] i j k); try assumption. repeat apply valid_cons; try assumption. apply valid_nil.
  - intros B pre i j k Hp Hi Hj Hk. destruct (valid3_split _ _ _ _ Hp) as (n & o & e & -> & Hn & Ho & He). apply B; assumption.
Qed.
Print Assumptions C51_lifting_E3_inversion.

(** A concrete 2x2 layer with all weights 1 on a 2x2 image of ones, identity grid: the output is 4, and -4 after the
    inversion of image and grid. *)
Theorem C51_inversion_refutation : forall T, exists (L : gconv O2 V2) (X X' Y Y' : tensor R),
  let g := mkO2 (-1) (IZR 0 * (PI / 2)) in
  let w := build [1; 1; 2; 2]%nat (fun _ => 1) in
  constructed 2 L 1 1 [2; 2]%nat (lifting_kernel_E2 T 1 1 2 1 1 0 "nearest" "border" false [mkO2 1 0]) 1 [1; 1]%nat (PInt 0) [1; 1]%nat Zeros None /\
  moved2 (o2_acting_matrix g) X X' /\
  lifting_forward L w X [mkO2 1 0] = Ok (Y, [mkO2 1 0]) /\
  lifting_forward L w X' (map (o2_left_apply_angle g) [mkO2 1 0]) = Ok (Y', map (o2_left_apply_angle g) [mkO2 1 0]) /\
  at_ Y [0; 0; 0; 0; 0]%nat = 4 /\ ~ moved2 (o2_acting_matrix g) Y Y'.
Proof.
  intros T. pose (g := mkO2 (-1) (IZR 0 * (PI / 2))). pose (w := build [1; 1; 2; 2]%nat (fun _ => 1)).
  pose (k := lifting_kernel_E2 T 1 1 2 1 1 0 "nearest" "border" false [mkO2 1 0]).
  pose (X := build [1; 1; 2; 2]%nat (fun _ => 1)).
  assert (has_shape w [1; 1; 2; 2]%nat) as Hw by (split; [reflexivity|apply wft_build]).
  assert (has_shape X [1; 1; 2; 2]%nat) as HX by (split; [reflexivity|apply wft_build]).
  assert (exists L, constructed 2 L 1 1 [2; 2]%nat k 1 [1; 1]%nat (PInt 0) [1; 1]%nat Zeros None) as [L HL].
  { eexists. exists "2d"%string, (GkInt 1), "zeros"%string. split; [left; auto|]. split; [reflexivity|]. split; [reflexivity|].
    split; [|split; [exact I|lia]].
    split; [reflexivity|]. split; [reflexivity|]. split; [reflexivity|]. split; [reflexivity|]. split; [exact I|].
    repeat split; intros x [<-|[<-|[]]]; lia. }
  destruct (C59_nearest T 2 ltac:(lia) 1%nat 1%nat 1%nat 1%nat 0%nat false) as (_ & _ & _ & A).
  destruct (A [mkO2 1 0] w Hw) as (W & EW & VW). fold k in EW.
  destruct (C36_E2 T 1 1 2 1 1 0 "nearest" "border" false [mkO2 1 0] (gs2 false GsBorder) w [mkO2 1 0] ltac:(lia) eq_refl Hw) as (W2 & EW2 & SW & _).
  fold k in EW2. rewrite EW in EW2. injection EW2 as <-.
  destruct (C45_lifting_convolution _ _ _ 2 L 1 1 [2; 2]%nat k 1 [1; 1]%nat (PInt 0) [1; 1]%nat Zeros None w W [mkO2 1 0] X 1 [2; 2]%nat HL
    ltac:(discriminate) EW SW HX eq_refl) as [B _].
  destruct B as (Y & EY & SY & VY). { intros j Hj. cbn [List.length] in Hj. destruct j as [|[|j]]; [vm_compute; lia|vm_compute; lia|lia]. }
  assert (conv_size [2; 2] [2; 2] [1; 1] [1; 1] (lefts (stored_padding 2 (PInt 0)) [2; 2] [1; 1]) (rights (stored_padding 2 (PInt 0)) [2; 2] [1; 1]) = [1; 1])%nat
    as Esz by (vm_compute; reflexivity).
  rewrite Esz in SY, VY.
  assert (signed2 (o2_acting_matrix g)) as HA by (apply o2_quarter_signed; right; reflexivity).
  destruct (moved2_exists _ X [1; 1]%nat 2 2 HA HX) as (X' & HM & _).
  assert (covered 2 2 1 1 0 [2; 2]%nat) as Hcov by (left; reflexivity).
  assert (padded_by 2 (PInt 0) 2 1 0) as Hpad by (left; reflexivity).
  destruct (C51_lifting_E2 T L 1 1 2 1 1 (PInt 0) 1 Zeros None 0 1 0 "nearest" "border" false [mkO2 1 0] w X X' Y 1 2 2 [mkO2 1 0] (-1) 0 HL
    ltac:(lia) Hpad Hw ltac:(discriminate) HX Hcov (or_intror eq_refl) HM EY) as (Y' & EY' & _).
  assert (at_ Y [0; 0; 0; 0; 0]%nat = 4) as V4.
  { rewrite (VY 0 0 0 [0; 0])%nat; [|lia|lia|simpl; lia|repeat apply valid_cons; try lia; apply valid_nil].
    change (indices [2; 2]%nat) with [[0; 0]; [0; 1]; [1; 0]; [1; 1]]%nat. change (seq 0 (1 / 1)) with [0%nat]. cbn [map].
    rewrite !VW by (try change (1 / 1)%nat with 1%nat; lia). unfold w. rewrite !at_build by (repeat apply valid_cons; try lia; apply valid_nil).
    assert (forall a b : nat, (a < 2)%nat -> (b < 2)%nat ->
      image_at Zeros X [2; 2]%nat [0; 0 / (1 / 1) * (1 / 1) + 0]%nat
       (read_pos [1; 1] [1; 1] (lefts (stored_padding 2 (PInt 0)) [2; 2] [1; 1]) [0; 0] [a; b])%nat = 1) as I1.
    { intros a b Ha Hb. destruct a as [|[|]], b as [|[|]]; try lia; vm_compute; reflexivity. }
    rewrite !I1 by lia. cbn [sumR map fold_right bias_value]. lra. }
  exists L, X, X', Y, Y'. cbv zeta. fold g w. split; [exact HL|]. split; [exact HM|]. split; [exact EY|]. split; [exact EY'|]. split; [exact V4|].
  intros Hmv. pose proof (proj1 (C51_lifting_E2_inversion T L 1 1 2 1 1 (PInt 0) 1 Zeros None 0 1 0 "nearest" "border" false [mkO2 1 0] w X X' Y Y' 1 2 2 [mkO2 1 0] 0 HL
    ltac:(lia) Hpad Hw ltac:(discriminate) HX Hcov HM EY EY' 1 1 SY) Hmv 0%nat 0%nat 0%nat 0%nat 0%nat) as Q.
  rewrite V4 in Q. cbn [bias_value] in Q. specialize (Q ltac:(lia) ltac:(lia) ltac:(simpl; lia) ltac:(lia) ltac:(lia)). lra.
Qed.
Print Assumptions C51_inversion_refutation.

(** Hypotheses met: the layer of C44_C45_nonvacuous (4 to 6 channels, 2 channel groups, dilation 2, "same" reflect padding, bias)
    on non-square 7x9 images and their quarter turns, which are 9x7. *)
Example C49_nonvacuous : forall T, exists (L : gconv R V2) (X X' Y : tensor R),
  let w := build [6; 2; 3; 3]%nat (fun idx => INR (nth 3 idx 0%nat)) in
  let bias := Some (build [6; 1; 1; 1]%nat (fun idx => INR (nth 0 idx 0%nat))) in
  constructed 2 L 4 6 [3; 3]%nat (lifting_kernel_SE2 T 4 6 3 2 "bilinear" "border" true [0]) 2 [1; 1]%nat (PStr "same") [2; 2]%nat Reflect bias /\
  padded_by 2 (PStr "same") 3 2 2 /\ covered 2 3 1 2 2 [7; 9]%nat /\ has_shape X [5; 4; 7; 9]%nat /\ has_shape X' [5; 4; 9; 7]%nat /\
  moved2 (so2_angle_to_matrix (IZR 1 * (PI / 2))) X X' /\ lifting_forward L w X [0; PI / 2] = Ok (Y, [0; PI / 2]).
Proof.
  intros T. destruct (C44_C45_nonvacuous T) as (L & W & Y & HL & _ & _ & _ & E & _).
  pose (X := build [5; 4; 7; 9]%nat (fun idx => INR (nth 2 idx 0%nat))). fold X in E.
  assert (has_shape X [5; 4; 7; 9]%nat) as HX by (split; [reflexivity|apply wft_build]).
  destruct (proj1 C49_moved_image_exists_unique 1%Z X [5; 4]%nat 7%nat 9%nat HX) as (X' & HM & _).
  exists L, X, X', Y. cbv zeta. split; [exact HL|]. split; [right; right; right; auto|]. split; [left; reflexivity|]. split; [assumption|]. split; [|split; assumption].
  destruct HM as (lead & h & w & h' & w' & [S1 _] & S2 & Eh & Ew & _). cbn in S1. apply (app_inv_len [5; 4]%nat [7; 9]%nat) in S1; [|reflexivity].
  destruct S1 as [<- S1]. injection S1 as <- <-.
  unfold so2_angle_to_matrix in Eh, Ew. cbn [b00 b01 b10 b11] in Eh, Ew. replace (IZR 1 * (PI / 2)) with (PI / 2) in * by (simpl; lra).
  rewrite cos_PI2, sin_PI2 in Eh, Ew. assert (Rabs (- (1)) = 1) as R1 by (rewrite Rabs_Ropp; apply Rabs_R1). rewrite R1, Rabs_R0 in Eh. rewrite Rabs_R1, Rabs_R0 in Ew.
  assert (h' = 9%nat) as -> by (apply INR_eq; lra). assert (w' = 7%nat) as -> by (apply INR_eq; lra). exact S2.
Qed.

(** Group and separable layers (2 to 3 channels, kernel grid of two elements, three input and output elements) on 5x5 images. *)
Example C50_nonvacuous : forall T, torch_ok T -> exists (k : gkernel R V2) L (X X' Y Z : tensor R),
  let w := build [2; 3; 2; 3; 3]%nat (fun idx => INR (nth 0 idx 0%nat)) in
  let wH := build [2; 3; 2]%nat (fun idx => INR (nth 0 idx 0%nat)) in
  let wS := build [3; 1; 3; 3]%nat (fun idx => INR (nth 2 idx 0%nat)) in
  let H := [0; 1; 2] in
  let H' := [0; PI / 2; 3] in
  kernel_SE2 T 2 3 3 1 "nearest" 1 "bilinear" "border" true [0; PI] = Ok k /\
  constructed 2 L 2 3 [3; 3]%nat k 1 [1; 1]%nat (PStr "same") [1; 1]%nat Zeros None /\
  padded_by 2 (PStr "same") 3 1 1 /\ covered 2 3 1 1 1 [5; 5]%nat /\
  covered 2 1 1 1 (first_pad Zeros (PStr "same") 1) [5; 5]%nat /\
  covered 2 3 1 1 1 (usize 2 1 1 1 (first_pad Zeros (PStr "same") 1) [5; 5]%nat) /\
  has_shape X [4; 2; 3; 5; 5]%nat /\ moved2 (so2_angle_to_matrix (IZR 3 * (PI / 2))) X X' /\
  full_forward L w X H H' = Ok (Y, H') /\ separable_forward L wH wS X H H' = Ok (Z, H').
Proof.
  intros T HT. destruct (C46_C47_nonvacuous T HT) as (k & L & W & WH & WS & Q). cbv zeta in Q.
  destruct Q as (Hk & HL & EW & SW & ES & S1 & S2 & F).
  pose (X := build [4; 2; 3; 5; 5]%nat (fun idx => INR (nth 3 idx 0%nat))).
  assert (has_shape X [4; 2; 3; 5; 5]%nat) as HX by (split; [reflexivity|apply wft_build]).
  destruct (proj1 C49_moved_image_exists_unique 3%Z X [4; 2; 3]%nat 5%nat 5%nat HX) as (X' & HM & _).
  destruct (C46_group_convolution _ _ _ 2 L 2 3 [3; 3]%nat k 1 [1; 1]%nat (PStr "same") [1; 1]%nat Zeros None _ W [0; 1; 2] [0; PI / 2; 3] X 4 [5; 5]%nat HL
    ltac:(discriminate) EW SW HX eq_refl) as [A _].
  destruct (A F) as (Y & EY & _).
  destruct (C47_output_size _ _ _ 2 L 2 3 [3; 3]%nat k 1 [1; 1]%nat (PStr "same") [1; 1]%nat Zeros None _ _ WH WS [0; 1; 2] [0; PI / 2; 3] X 4 [5; 5]%nat HL
    ltac:(discriminate) ES S1 S2 HX eq_refl) as (Z & EZ & _).
  { intros j Hj. cbn in Hj. destruct j as [|[|j]]; [vm_compute; lia|vm_compute; lia|lia]. }
  { intros j Hj. cbn in Hj. destruct j as [|[|j]]; [vm_compute; lia|vm_compute; lia|lia]. }
  exists k, L, X, X', Y, Z. cbv zeta. split; [exact Hk|]. split; [exact HL|]. split; [right; right; right; auto|].
  split; [left; reflexivity|]. split; [left; reflexivity|]. split; [left; reflexivity|]. split; [assumption|]. split; [assumption|]. split; assumption.
Qed.

(** ** C47, continued.  All strides and paddings: the separable convolution is a pointwise convolution over channels and group elements
    followed by a depthwise spatial one, each with the stride, dilation and padding of the layer. *)
Open Scope nat_scope.
Theorem C47_two_stages : forall G P (D : Dflt P) d (L : gconv G P) cin cout ks k groups stride padding dil m bias
    weight_H weight WH WS (in_H out_H : list G) (input : tensor R) N sp,
  constructed d L cin cout ks k groups stride padding dil m bias ->
  out_H <> [] ->
  separable_kernel_forward k weight_H weight in_H out_H = Ok (WH, WS) ->
  has_shape WH (cout :: List.length in_H :: cin / groups :: List.length out_H :: repeat 1 d) ->
  has_shape WS (cout :: List.length out_H :: 1 :: ks) ->
  has_shape input (N :: cin :: List.length in_H :: sp) -> List.length sp = d ->
  let p := stored_padding d padding in
  let ks1 := match m with Zeros => repeat 1 d | _ => ks end in
  let left1 := lefts p ks1 dil in
  let right1 := rights p ks1 dil in
  let left2 := lefts p ks dil in
  let right2 := rights p ks dil in
  let size1 := conv_size sp (repeat 1 d) stride dil left1 right1 in
  let size2 := conv_size size1 ks stride dil left2 right2 in
  let WG := mkT (cout :: List.length out_H :: cin / groups :: List.length in_H :: repeat 1 d) (data WH) in
  (fits m sp (repeat 1 d) stride dil left1 right1 -> fits m size1 ks stride dil left2 right2 ->
   exists mid out, separable_forward L weight_H weight input in_H out_H = Ok (out, out_H) /\
    has_shape mid (N :: cout :: List.length out_H :: size1) /\ has_shape out (N :: cout :: List.length out_H :: size2) /\
    (forall n o g y, n < N -> o < cout -> g < List.length out_H -> valid size1 y ->
       at_ mid (n :: o :: g :: y) = sumR (map (fun c => sumR (map (fun h =>
         (at_ WG (o :: g :: c :: h :: repeat 0%nat d) *
          image_at m input sp [n; (o / (cout / groups) * (cin / groups) + c)%nat; h] (read_pos stride dil left1 y (repeat 0%nat d)))%R)
         (seq 0 (List.length in_H)))) (seq 0 (cin / groups)))) /\
    (forall n o g y, n < N -> o < cout -> g < List.length out_H -> valid size2 y ->
       at_ out (n :: o :: g :: y) = (sumR (map (fun x =>
         at_ WS (o :: g :: 0%nat :: x) * image_at m mid size1 [n; o; g] (read_pos stride dil left2 y x))
         (indices ks)) + bias_value d bias o)%R)) /\
  (~ (fits m sp (repeat 1 d) stride dil left1 right1 /\ fits m size1 ks stride dil left2 right2) ->
   separable_forward L weight_H weight input in_H out_H = Err RuntimeError).
Proof. exact separable_two_stage. Qed.
Print Assumptions C47_two_stages.
