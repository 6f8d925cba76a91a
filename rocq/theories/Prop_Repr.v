(** Property theorems C84: the printed form of layers and kernels (print(layer), repr(layer)).
    Reading guide.  [gconv_repr L] / [kernel_repr k ..] (Repr.v) is the text between the parentheses. [printed ..] below is the text
    a reader expects, written from the constructor arguments. [gconv_init], [good_args] (as many entries as spatial dimensions,
    positive sizes): as in C43; the public constructors: as in C69. *)
From Coq Require Import String Ascii ZArith.
From Verif Require Import Prelude RMath Mat Interp SO2 O2 SO3 O3 Tensor TensorFacts Functional Kernel Conv ConvSpec ConvFacts ConvInit Public Repr ReprFacts.
Open Scope nat_scope.
Open Scope string_scope.

(** ** The specification: the text, from the constructor arguments *)
Definition spaces := ", ".
(** A size given once, shown for each of the d spatial dimensions. *)
Definition shown_size (d n : nat) : string := match d with 2 => "(" ++ py_nat n ++ spaces ++ py_nat n ++ ")" | _ => "(" ++ py_nat n ++ spaces ++ py_nat n ++ spaces ++ py_nat n ++ ")" end.
(** group_kernel_size: a number, or a pair. *)
Definition shown_gks (a : pair_arg) : string := match a with PairInt n => py_nat n | PairTuple n m => "(" ++ py_nat n ++ spaces ++ py_nat m ++ ")" end.
Definition printed (d cin cout size : nat) (gks : string) (groups : Z) (stride : nat) (padding : string + nat) (dilation : nat) (padding_mode : string) (bias : bool) : string :=
  py_nat cin ++ ", " ++ py_nat cout ++ ", kernel_size=" ++ shown_size d size ++ ", group_kernel_size=" ++ gks ++ ", stride=" ++ shown_size d stride ++
  match padding with inl s => ", padding=" ++ s | inr n => if Nat.eqb n 0 then "" else ", padding=" ++ shown_size d n end ++
  (if Nat.eqb dilation 1 then "" else ", dilation=" ++ shown_size d dilation) ++
  (if Z.eqb groups 1 then "" else ", groups=" ++ py_int groups) ++
  (if bias then "" else ", bias=False") ++
  (if String.eqb padding_mode "zeros" then "" else ", padding_mode=" ++ padding_mode).
Definition padding_arg (p : string + nat) : padarg := match p with inl s => PStr s | inr n => PInt n end.

(** ** The printed form determines the configuration *)

(** Two layers, of any classes, groups and dimensions, with the same printed form were configured alike: channels, kernel size,
    group_kernel_size, stride, padding, dilation, channel groups, padding mode, and whether there is a bias. *)
Theorem C84_read_back : forall {G P G' P' : Type} conv_mode conv_mode' d d' cin cin' cout cout' ks ks' gks gks' (k : gkernel G P) (k' : gkernel G' P')
    groups groups' stride stride' padding padding' dil dil' pm pm' bias bias' L L',
  (conv_mode = "2d" /\ d = 2 \/ conv_mode = "3d" /\ d = 3) -> (conv_mode' = "2d" /\ d' = 2 \/ conv_mode' = "3d" /\ d' = 3) ->
  good_args d k ks stride dil padding -> good_args d' k' ks' stride' dil' padding' ->
  gconv_init conv_mode cin cout ks gks k groups stride padding dil pm bias = Ok L ->
  gconv_init conv_mode' cin' cout' ks' gks' k' groups' stride' padding' dil' pm' bias' = Ok L' ->
  gconv_repr L = gconv_repr L' <->
  (conv_mode = conv_mode' /\ cin = cin' /\ cout = cout' /\ ks = ks' /\ gks = gks' /\ stride = stride' /\ stored_padding d padding = stored_padding d' padding' /\
   dil = dil' /\ groups = groups' /\ (bias = None <-> bias' = None) /\ pm = pm').
Proof.
  intros G P G' P' cm cm' d d' cin cin' cout cout' ks ks' gks gks' k k' groups groups' stride stride' padding padding' dil dil' pm pm' bias bias' L L' Hm Hm' A A' H H'.
  destruct (gconv_init_fields _ _ _ _ _ _ _ _ _ _ _ _ _ _ Hm H) as (V & _ & E1 & E2 & E3 & E4 & E5 & E6 & E7 & E8 & _ & E9).
  destruct (gconv_init_fields _ _ _ _ _ _ _ _ _ _ _ _ _ _ Hm' H') as (V' & _ & F1 & F2 & F3 & F4 & F5 & F6 & F7 & F8 & _ & F9).
  assert (l_gks L = gks) as E10 by (unfold gconv_init in H; destruct (check_config _ _ _ _ _ _ _); [|discriminate]; destruct Hm as [[-> ->]|[-> ->]]; cbn [String.eqb Ascii.eqb Bool.eqb bind] in H; inversion H; reflexivity).
  assert (l_gks L' = gks') as F10 by (unfold gconv_init in H'; destruct (check_config _ _ _ _ _ _ _); [|discriminate]; destruct Hm' as [[-> ->]|[-> ->]]; cbn [String.eqb Ascii.eqb Bool.eqb bind] in H'; inversion H'; reflexivity).
  destruct A as (A1 & A2 & A3 & _ & A4 & _), A' as (B1 & B2 & B3 & _ & B4 & _).
  destruct V as (_ & Vg & _ & _ & Vp & _), V' as (_ & Wg & _ & _ & Wp & _).
  assert (forall d padding (ks : list nat) stride, length ks = d -> match padding with PTuple l => length l = d | _ => True end ->
    (forall s, padding = PStr s -> (s = "same" \/ s = "valid") /\ (s = "same" -> forall x, In x stride -> x = 1)) -> proper_pad (length ks) (stored_padding d padding)) as PP.
  { intros d0 p0 ks0 st0 Q1 Q2 Q3. destruct p0; cbn [stored_padding proper_pad]; [rewrite repeat_length; congruence|congruence|exact (proj1 (Q3 _ eq_refl))]. }
  assert (forall pm pm' m, padmode_of pm = Some m -> padmode_of pm' = Some m -> pm = pm') as PM.
  { intros a b m Ha Hb. unfold padmode_of in Ha, Hb. repeat (match goal with Q : context [String.eqb ?x ?y] |- _ => destruct (String.eqb_spec x y) end); congruence. }
  split.
  - intros R. apply repr_read in R.
    + rewrite E1, E2, E3, E4, E5, E6, E7, E9, E10, F1, F2, F3, F4, F5, F6, F7, F9, F10 in R. destruct R as (R1 & R2 & R3 & R4 & R5 & R6 & R7 & R8 & R9 & R10).
      split. { subst ks'. destruct Hm as [[-> ->]|[-> ->]], Hm' as [[-> ->]|[-> ->]]; congruence. }
      split; [exact R1|]. split; [exact R2|]. split; [exact R3|]. split; [exact R4|]. split; [exact R5|]. split; [exact R6|]. split; [exact R7|].
      split; [lia|]. split; [exact R9|]. rewrite R10 in E8. exact (PM _ _ _ E8 F8).
    + rewrite E3, E6. eapply PP; eauto.
    + rewrite E3, E7. congruence.
    + rewrite F3, F6. eapply PP; eauto.
    + rewrite F3, F7. congruence.
  - intros (R0 & R1 & R2 & R3 & R4 & R5 & R6 & R7 & R8 & R9 & R10). rewrite !repr_parts, E1, E2, E3, E4, E5, E6, E7, E9, E10, F1, F2, F3, F4, F5, F6, F7, F9, F10.
    assert (l_mode L = l_mode L') as -> by (subst pm'; rewrite E8 in F8; congruence).
    rewrite R1, R2, R3, R4, R5, R7, R8. replace (match bias with None => false | Some _ => true end) with (match bias' with None => false | Some _ => true end); [|destruct bias, bias'; try reflexivity; [discriminate (proj2 R9 eq_refl)|discriminate (proj1 R9 eq_refl)]].
    rewrite R6. reflexivity.
Qed.
Print Assumptions C84_read_back.

(** ** The printed form of the public layers *)

(** What is printed for a layer of [make2] / [make3]. *)
Lemma make_repr {G P} d cin cout size gks (k : gkernel G P) groups stride padding dilation pm bias conv_mode L :
  (conv_mode = "2d" /\ d = 2 \/ conv_mode = "3d" /\ d = 3) ->
  gconv_init conv_mode cin cout (repeat size d) gks k groups (repeat stride d) (padding_arg padding) (repeat dilation d) pm bias = Ok L ->
  gconv_repr L = printed d cin cout size (py_gks gks) groups stride padding dilation pm (match bias with Some _ => true | None => false end).
Proof.
  intros Hm H. destruct (gconv_init_fields _ _ _ _ _ _ _ _ _ _ _ _ _ _ Hm H) as (V & _ & E1 & E2 & E3 & E4 & E5 & E6 & E7 & E8 & _ & E9).
  assert (l_gks L = gks) as E10 by (unfold gconv_init in H; destruct (check_config _ _ _ _ _ _ _); [|discriminate]; destruct Hm as [[-> ->]|[-> ->]]; cbn [String.eqb Ascii.eqb Bool.eqb bind] in H; inversion H; reflexivity).
  rewrite repr_parts, E1, E2, E3, E4, E5, E6, E7, E9, E10. unfold printed. destruct V as (_ & Vg & _).
  assert (forall n, py_tuple py_nat (repeat n d) = shown_size d n) as T by (intros n; destruct Hm as [[_ ->]|[_ ->]]; cbn [repeat py_tuple py_items shown_size]; rewrite ?append_assoc; reflexivity).
  assert (forall n m, (if list_eq_dec Nat.eq_dec (repeat n d) (repeat m (length (repeat n d))) then true else false) = Nat.eqb n m) as Q.
  { intros n m. rewrite repeat_length. destruct (list_eq_dec Nat.eq_dec (repeat n d) (repeat m d)) as [E|E], (Nat.eqb_spec n m) as [F|F]; try reflexivity.
    - exfalso. apply F. destruct Hm as [[_ ->]|[_ ->]]; cbn [repeat] in E; congruence.
    - exfalso. apply E. subst. reflexivity. }
  assert (part_padding (stored_padding d (padding_arg padding)) = match padding with inl s => ", padding=" ++ s | inr n => if Nat.eqb n 0 then "" else ", padding=" ++ shown_size d n end) as P1.
  { destruct padding as [s|n]; cbn [padding_arg stored_padding part_padding]; [reflexivity|]. rewrite <- Q, T. destruct (list_eq_dec _ _ _); reflexivity. }
  assert (part_dil (repeat dilation d) = if Nat.eqb dilation 1 then "" else ", dilation=" ++ shown_size d dilation) as P2.
  { unfold part_dil. rewrite <- Q, T. destruct (list_eq_dec _ _ _); reflexivity. }
  assert (part_groups (Z.to_nat groups) = if Z.eqb groups 1 then "" else ", groups=" ++ py_int groups) as P3.
  { unfold part_groups, py_int. destruct (Nat.eqb_spec (Z.to_nat groups) 1), (Z.eqb_spec groups 1), (Z.ltb_spec groups 0); try reflexivity; lia. }
  assert (part_mode (l_mode L) = if String.eqb pm "zeros" then "" else ", padding_mode=" ++ pm) as P4.
  { unfold padmode_of in E8. repeat (match goal with Q : context [String.eqb ?x ?y] |- _ => destruct (String.eqb_spec x y) end); try discriminate E8; injection E8 as <-; subst pm; reflexivity. }
  rewrite !T, P1, P2, P3, P4. destruct bias; reflexivity.
Qed.
Lemma make2_repr {G} cin cout size (k : gkernel G V2) gks groups stride padding dilation pm permute bias M :
  make2 cin cout size groups stride (padding_arg padding) dilation pm permute bias gks k = Ok M ->
  gconv_repr (gm_layer M) = printed 2 cin cout size (py_gks gks) groups stride padding dilation pm (match bias with Some _ => true | None => false end).
Proof.
  unfold make2, gconv_init2. intros H. destruct (gconv_init _ _ _ _ _ _ _ _ _ _ _ _) as [L|] eqn:E; [|discriminate H]. injection H as <-.
  apply (make_repr 2) in E; [exact E|left; auto].
Qed.
Lemma make3_repr {G} cin cout size (k : gkernel G V3) gks groups stride padding dilation pm permute bias M :
  make3 cin cout size groups stride (padding_arg padding) dilation pm permute bias gks k = Ok M ->
  gconv_repr (gm_layer M) = printed 3 cin cout size (py_gks gks) groups stride padding dilation pm (match bias with Some _ => true | None => false end).
Proof.
  unfold make3, gconv_init3. intros H. destruct (gconv_init _ _ _ _ _ _ _ _ _ _ _ _) as [L|] eqn:E; [|discriminate H]. injection H as <-.
  apply (make_repr 3) in E; [exact E|right; auto].
Qed.
Lemma gks_nat n : py_gks (GkInt (Z.of_nat n)) = py_nat n.
Proof. cbn [py_gks]. unfold py_int. destruct (Z.ltb_spec (Z.of_nat n) 0); [lia|]. rewrite Nat2Z.id. reflexivity. Qed.
Lemma gks_pair a : py_gks (pair_gks a) = shown_gks a.
Proof.
  destruct a as [n|n m]; cbn [pair_gks shown_gks]; [apply gks_nat|]. cbn [py_gks py_tuple py_items]. pose proof (gks_nat n) as A. pose proof (gks_nat m) as B. cbn [py_gks] in A, B.
  rewrite A, B, ?append_assoc. reflexivity.
Qed.

(** All twelve constructors: the printed form is [printed] of the arguments. It shows neither the mask, the sampling modes, the
    permute flag nor the grid: with a grid given, group_kernel_size is still shown as the argument (third statement below). *)
Theorem C84_public_SEn : forall T cin cout size groups stride (padding : string + nat) dilation padding_mode permute bias mode pm mask n gmode width given given3 default,
  let text d := printed d cin cout size (py_nat n) groups stride padding dilation padding_mode (match bias with Some _ => true | None => false end) in
  (forall M, lifting_SE2 T cin cout size groups stride (padding_arg padding) dilation padding_mode permute bias mode pm mask n given = Ok M -> gconv_repr (gm_layer M) = text 2) /\
  (forall M, group_SE2 T cin cout size groups stride (padding_arg padding) dilation padding_mode permute bias mode pm mask n gmode width given = Ok M -> gconv_repr (gm_layer M) = text 2) /\
  (forall M, lifting_SE3 T cin cout size groups stride (padding_arg padding) dilation padding_mode permute bias mode pm mask n given3 default = Ok M -> gconv_repr (gm_layer M) = text 3) /\
  (forall M, group_SE3 T cin cout size groups stride (padding_arg padding) dilation padding_mode permute bias mode pm mask n gmode width given3 default = Ok M -> gconv_repr (gm_layer M) = text 3).
Proof.
  intros T cin cout size groups stride padding dilation padding_mode permute bias mode pm mask n gmode width given given3 default text.
  split; [|split; [|split]]; intros M H.
  - unfold lifting_SE2 in H. destruct (pick_grid _ _); [|discriminate H]. cbn [bind] in H. destruct (kernel_weight_groups _ _); [|discriminate H]. cbn [bind] in H.
    apply make2_repr in H. rewrite gks_nat in H. exact H.
  - unfold group_SE2 in H. destruct (pick_grid _ _); [|discriminate H]. cbn [bind] in H. destruct (kernel_SE2 _ _ _ _ _ _ _ _ _ _ _); [|discriminate H]. cbn [bind] in H.
    destruct (kernel_weight_groups _ _); [|discriminate H]. cbn [bind] in H. apply make2_repr in H. rewrite gks_nat in H. exact H.
  - unfold lifting_SE3 in H. destruct (pick_grid _ _); [|discriminate H]. cbn [bind] in H. destruct (kernel_weight_groups _ _); [|discriminate H]. cbn [bind] in H.
    apply make3_repr in H. rewrite gks_nat in H. exact H.
  - unfold group_SE3 in H. destruct (pick_grid _ _); [|discriminate H]. cbn [bind] in H. destruct (kernel_SE3 _ _ _ _ _ _ _ _ _ _ _); [|discriminate H]. cbn [bind] in H.
    destruct (kernel_weight_groups _ _); [|discriminate H]. cbn [bind] in H. apply make3_repr in H. rewrite gks_nat in H. exact H.
Qed.
Print Assumptions C84_public_SEn.

Theorem C84_public_En : forall T cin cout size groups stride (padding : string + nat) dilation padding_mode permute bias mode pm mask gks gmode rot ref given given3 default,
  let text d := printed d cin cout size (shown_gks gks) groups stride padding dilation padding_mode (match bias with Some _ => true | None => false end) in
  (forall M, lifting_E2 T cin cout size groups stride (padding_arg padding) dilation padding_mode permute bias mode pm mask gks given = Ok M -> gconv_repr (gm_layer M) = text 2) /\
  (forall M, group_E2 T cin cout size groups stride (padding_arg padding) dilation padding_mode permute bias mode pm mask gks gmode rot ref given = Ok M -> gconv_repr (gm_layer M) = text 2) /\
  (forall M, lifting_E3 T cin cout size groups stride (padding_arg padding) dilation padding_mode permute bias mode pm mask gks given3 default = Ok M -> gconv_repr (gm_layer M) = text 3) /\
  (forall M, group_E3 T cin cout size groups stride (padding_arg padding) dilation padding_mode permute bias mode pm mask gks gmode rot ref given3 default = Ok M -> gconv_repr (gm_layer M) = text 3).
Proof.
  intros T cin cout size groups stride padding dilation padding_mode permute bias mode pm mask gks gmode rot ref given given3 default text.
  split; [|split; [|split]]; intros M H.
  - unfold lifting_E2 in H. destruct (pick_grid _ _); [|discriminate H]. cbn [bind] in H. destruct (kernel_weight_groups _ _); [|discriminate H]. cbn [bind] in H.
    apply make2_repr in H. rewrite gks_pair in H. exact H.
  - unfold group_E2 in H. destruct (pick_grid _ _); [|discriminate H]. cbn [bind] in H. destruct (kernel_E2 _ _ _ _ _ _ _ _ _ _ _ _ _ _); [|discriminate H]. cbn [bind] in H.
    destruct (kernel_weight_groups _ _); [|discriminate H]. cbn [bind] in H. apply make2_repr in H. rewrite gks_pair in H. exact H.
  - unfold lifting_E3 in H. destruct (pick_grid _ _); [|discriminate H]. cbn [bind] in H. destruct (kernel_weight_groups _ _); [|discriminate H]. cbn [bind] in H.
    apply make3_repr in H. rewrite gks_pair in H. exact H.
  - unfold group_E3 in H. destruct (pick_grid _ _); [|discriminate H]. cbn [bind] in H. destruct (kernel_E3 _ _ _ _ _ _ _ _ _ _ _ _ _ _); [|discriminate H]. cbn [bind] in H.
    destruct (kernel_weight_groups _ _); [|discriminate H]. cbn [bind] in H. apply make3_repr in H. rewrite gks_pair in H. exact H.
Qed.
Print Assumptions C84_public_En.

(** The documentation of grid_H ("if given, group_kernel_size will be set to the number of grid elements", gconv_se2.py:41-43) does
    not hold of what is printed: whatever grid is given, of whatever length, the printed group_kernel_size is the argument. *)
Theorem C84_given_grid_refuted : forall T (given : list R), exists M,
  lifting_SE2 T 3 8 5 1 1 (PInt 0) 1 "zeros" true None "bilinear" "border" true 4 (Some given) = Ok M /\
  k_grid_H (l_kernel (gm_layer M)) = given /\
  gconv_repr (gm_layer M) = "3, 8, kernel_size=(5, 5), group_kernel_size=4, stride=(1, 1), bias=False".
Proof. intros T given. eexists. split; [reflexivity|]. split; reflexivity. Qed.
Print Assumptions C84_given_grid_refuted.

(** ** Kernels *)

(** The printed form of a kernel shows whether it has a mask. *)
Theorem C84_kernel_mask : forall {G P G' P' : Type} (k : gkernel G P) (k' : gkernel G' P') kwargs_H kwargs_Rn kwargs_H' kwargs_Rn',
  kernel_repr k kwargs_H kwargs_Rn = kernel_repr k' kwargs_H' kwargs_Rn' -> (k_mask k = None <-> k_mask k' = None).
Proof.
  intros G P G' P' k k' a b a' b' H. unfold kernel_repr in H. destruct (k_mask k), (k_mask k'); cbn [append] in H; try discriminate H; split; intros Q; try discriminate Q; reflexivity.
Qed.
Print Assumptions C84_kernel_mask.

(** The SE(2) kernels print mask=True whatever the mask argument; the others print the argument. *)
Theorem C84_kernel_mask_shown : forall T cin cout size groups mode pm mask kH kRn,
  let shown b r := exists rest, r = "mask=" ++ (if (b : bool) then "True" else "False") ++ rest in
  (forall grid, shown true (kernel_repr (lifting_kernel_SE2 T cin cout size groups mode pm mask grid) kH kRn)) /\
  (forall gmode w grid k, kernel_SE2 T cin cout size groups gmode w mode pm mask grid = Ok k -> shown true (kernel_repr k kH kRn)) /\
  (forall grid, shown mask (kernel_repr (lifting_kernel_SE3 T cin cout size groups mode pm mask grid) kH kRn)) /\
  (forall gmode w grid k, kernel_SE3 T cin cout size groups gmode w mode pm mask grid = Ok k -> shown mask (kernel_repr k kH kRn)) /\
  (forall n m grid, shown mask (kernel_repr (lifting_kernel_E2 T cin cout size groups n m mode pm mask grid) kH kRn)) /\
  (forall n m gmode wr wf grid k, kernel_E2 T cin cout size groups n m gmode wr wf mode pm mask grid = Ok k -> shown mask (kernel_repr k kH kRn)) /\
  (forall n m grid, shown mask (kernel_repr (lifting_kernel_E3 T cin cout size groups n m mode pm mask grid) kH kRn)) /\
  (forall n m gmode wr wf grid k, kernel_E3 T cin cout size groups n m gmode wr wf mode pm mask grid = Ok k -> shown mask (kernel_repr k kH kRn)).
Proof.
  intros T cin cout size groups mode pm mask kH kRn shown.
  assert (forall G P (k : gkernel G P), shown (match k_mask k with Some _ => true | None => false end) (kernel_repr k kH kRn)) as K.
  { intros G P k. unfold shown, kernel_repr. destruct (k_mask k); eexists; reflexivity. }
  split; [intros; apply (K _ _ (lifting_kernel_SE2 T cin cout size groups mode pm mask grid))|].
  split. { intros gmode w grid k H0. pose proof (K _ _ k) as Q. unfold kernel_SE2 in H0. destruct (width_SE2 w grid); [|discriminate H0]. cbn [bind] in H0. injection H0 as <-. exact Q. }
  split. { intros. pose proof (K _ _ (lifting_kernel_SE3 T cin cout size groups mode pm mask grid)) as Q. cbn [lifting_kernel_SE3 k_mask] in Q. destruct mask; exact Q. }
  split. { intros gmode w grid k H0. pose proof (K _ _ k) as Q. unfold kernel_SE3 in H0. destruct (width_SE3 w grid); [|discriminate H0]. cbn [bind] in H0. injection H0 as <-. cbn [k_mask] in Q. destruct mask; exact Q. }
  split. { intros. pose proof (K _ _ (lifting_kernel_E2 T cin cout size groups n m mode pm mask grid)) as Q. cbn [lifting_kernel_E2 k_mask] in Q. destruct mask; exact Q. }
  split. { intros n m gmode wr wf grid k H0. pose proof (K _ _ k) as Q. unfold kernel_E2 in H0. destruct (width_E2_rot wr n grid); [|discriminate H0]. cbn [bind] in H0.
    destruct (width_E2_ref wf n grid); [|discriminate H0]. cbn [bind] in H0. injection H0 as <-. cbn [k_mask] in Q. destruct mask; exact Q. }
  split. { intros. pose proof (K _ _ (lifting_kernel_E3 T cin cout size groups n m mode pm mask grid)) as Q. cbn [lifting_kernel_E3 k_mask] in Q. destruct mask; exact Q. }
  intros n m gmode wr wf grid k H0. pose proof (K _ _ k) as Q. unfold kernel_E3 in H0. destruct (width_E3_rot wr n grid); [|discriminate H0]. cbn [bind] in H0.
  destruct (width_E3_ref wf n grid); [|discriminate H0]. cbn [bind] in H0. injection H0 as <-. cbn [k_mask] in Q. destruct mask; exact Q.
Qed.
Print Assumptions C84_kernel_mask_shown.

(** All optional parts, on a concrete layer. *)
Example C84_nonvacuous : forall T, exists M,
  lifting_E2 T 4 8 5 2 1 (PStr "same") 3 "circular" true None "bilinear" "border" false (PairTuple 4 2) None = Ok M /\
  gconv_repr (gm_layer M) = "4, 8, kernel_size=(5, 5), group_kernel_size=(4, 2), stride=(1, 1), padding=same, dilation=(3, 3), groups=2, bias=False, padding_mode=circular" /\
  kernel_repr (l_kernel (gm_layer M)) [] [("mode", "'bilinear'"); ("padding_mode", "'border'")] = "mask=False, sample_Rn_kwargs={'mode': 'bilinear', 'padding_mode': 'border'}".
Proof. intros T. eexists. split; [reflexivity|]. split; reflexivity. Qed.
