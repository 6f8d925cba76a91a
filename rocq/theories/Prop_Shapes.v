(** Property theorems C88: inputs whose channel and group axes, or whose rank, are not what a layer expects.
    A lifting layer checks the channel axis.  The group layers flatten the channel and the group axis into one before anything is checked, so they
    check the product of the two sizes only.  [reread X X' cin n] (ShapesFacts.v): X' has cin channels and n group elements, and its entry (c, h) is the
    entry number c * n + h of the second and third axes of X counted row by row. *)
From Coq Require Import String ZArith Lra.
From Verif Require Import Prelude RMath Mat Interp SO2 Repulse RepulseFacts Tensor TensorFacts Kernel KernelFacts Conv ConvSpec ConvFacts GConvFacts ConvInit
  WeightSpec Layers LayersSpec LayersFacts NormFacts PoolFacts NoBatchFacts ShapesFacts Prop_Kernel Prop_Conv Prop_Conv2 Functional.
Open Scope nat_scope.

(** Lifting layers: a call raises RuntimeError unless the input has shape (N, cin, *sp) with d spatial axes, or (cin, *sp) (see C81). *)
Theorem C88_lifting_layer : forall G P (D : Dflt P) d (L : gconv G P) cin cout ks k groups stride padding dil m bias weight W (H : list G) (X : tensor R),
  constructed d L cin cout ks k groups stride padding dil m bias ->
  lifting_kernel_forward k weight H = Ok W -> has_shape W (cout :: List.length H :: cin / groups :: ks) ->
  ~ (exists N sp, shape X = N :: cin :: sp /\ List.length sp = d) -> ~ (exists sp, shape X = cin :: sp /\ List.length sp = d) ->
  lifting_forward L weight X H = Err RuntimeError.
Proof.
  intros G P D d L cin cout ks k groups stride padding dil m bias weight W H X Hc HK HW Hn1 Hn2.
  destruct (constructed_spec _ _ _ _ _ _ _ _ _ _ _ _ Hc)
    as (HL & Hb & Ek & Ei & Eo & Eks & Eg & Es & Ep & Ed & Em & Eb & Hlen & Hbv & Hg & Hci & Hco & Din & Dout).
  destruct (lifting_forward L weight X H) as [[Y H']|e] eqn:E.
  2: { f_equal. refine (lifting_err L weight W X H e _ E). rewrite Ek. exact HK. }
  exfalso. unfold lifting_forward in E. rewrite Ek, HK in E. cbn [bind] in E.
  pose proof (Wr_view L HL groups (cin / groups) (cout / groups) Hg Hci Hco Eg ltac:(congruence) ltac:(congruence) W H ltac:(rewrite Eo, Eks; exact HW) (l_ks L) eq_refl) as HV.
  rewrite HV in E. cbn [bind] in E. apply bind_ok' in E. destruct E as (x & Ex & _).
  destruct (conv_forward_rank L _ _ _ _ _ _ _ Ex eq_refl) as [(N & sp & E1 & E2)|(sp & E1 & E2)]; rewrite Eg, <- Din, Eks in *;
    [apply Hn1; exists N, sp|apply Hn2; exists sp]; (split; [exact E1|congruence]).
Qed.
Print Assumptions C88_lifting_layer.

(** Group layers (full and subgroup kernels): an input (N, A, B, *sp) is accepted or refused, and computed, as the input of shape (N, cin, |in_H|, *sp)
    with the same numbers in the same order, if A * B = cin * |in_H|; with any other product, and with a wrong number of spatial axes (up to C81), the
    call raises RuntimeError; with fewer than three axes ValueError. *)
Theorem C88_group_layer : forall G P (D : Dflt P) d (L : gconv G P) cin cout ks k groups stride padding dil m bias
    weight W (in_H out_H : list G) (X : tensor R) (forward : tensor R -> list G -> list G -> result (tensor R * list G)),
  constructed d L cin cout ks k groups stride padding dil m bias -> wft X ->
  (full_kernel_forward k weight in_H out_H = Ok W /\ forward = full_forward L weight \/
   subgroup_kernel_forward k weight in_H out_H = Ok W /\ forward = subgroup_forward L weight) ->
  match shape X with
  | N :: A :: B :: sp =>
    (A * B = cin * List.length in_H -> (exists X', reread X X' cin (List.length in_H)) /\
       forall X', reread X X' cin (List.length in_H) -> forward X in_H out_H = forward X' in_H out_H) /\
    (A * B <> cin * List.length in_H -> 0 < N * prodn sp -> forward X in_H out_H = Err RuntimeError) /\
    (List.length sp <> d -> S (List.length sp) <> d -> 0 < N * prodn sp -> forward X in_H out_H = Err RuntimeError)
  | _ => forward X in_H out_H = Err ValueError
  end.
Proof.
  intros G P D d L cin cout ks k groups stride padding dil m bias weight W in_H out_H X forward Hc HX HF.
  destruct (constructed_spec _ _ _ _ _ _ _ _ _ _ _ _ Hc)
    as (HL & Hb & Ek & Ei & Eo & Eks & Eg & Es & Ep & Ed & Em & Eb & Hlen & Hbv & Hg & Hci & Hco & Din & Dout).
  assert (exists kf, kf in_H out_H = Ok W /\ forward = group_forward_with L kf) as (kf & HK & ->).
  { unfold full_forward, subgroup_forward in HF. rewrite Ek in HF. destruct HF as [[? ->]|[? ->]]; eauto. }
  clear HF. destruct (shape X) as [|N [|A [|B sp]]] eqn:EX; try (unfold group_forward_with; rewrite EX; reflexivity).
  assert (has_shape X (N :: A :: B :: sp)) as HS by (split; assumption).
  assert (List.length (shape X) >= 3) as Hr by (rewrite EX; cbn [List.length]; lia).
  assert (forall r, group_forward_with L kf X in_H out_H = Ok r ->
    view (N :: cin * List.length in_H :: sp) X = Ok (mkT (N :: cin * List.length in_H :: sp) (data X)) /\
    ((exists N' sp', N :: cin * List.length in_H :: sp = N' :: cin / groups * List.length in_H * groups :: sp' /\ List.length sp' = d) \/
     (exists sp', N :: cin * List.length in_H :: sp = cin / groups * List.length in_H * groups :: sp' /\ List.length sp' = d))) as HInv.
  { intros r E. unfold group_forward_with in E. rewrite EX, HK in E. cbn [bind] in E. apply bind_ok' in E. destruct E as (i & Hi & E).
    apply bind_ok' in E. destruct E as (w & Hw & E). apply bind_ok' in E. destruct E as (x & Ex & _). rewrite Ei in Hi.
    pose proof (view_inv _ _ _ Hi) as [Q Ev]. split; [rewrite Ev in Hi; exact Hi|]. apply view_inv in Hw. destruct Hw as [_ ->].
    destruct (conv_forward_rank L _ _ _ _ _ _ _ Ex eq_refl) as [(N' & sp' & E1 & E2)|(sp' & E1 & E2)]; rewrite Ev in E1; cbn [shape] in E1; rewrite Eg, Ei in E1; [left; exists N', sp'|right; exists sp']; (split; [exact E1|congruence]). }
  split; [|split].
  - intros HAB. split; [eexists; apply (reread_exists X cin (List.length in_H) N A B sp HS HAB)|].
    intros X' HR. rewrite (reread_data X X' cin (List.length in_H) N A B sp HS HAB HR).
    unfold group_forward_with. rewrite EX. cbn [shape]. rewrite HK. cbn [bind]. rewrite Ei.
    assert (forall T : tensor R, prodn (shape T) = N * (A * (B * prodn sp)) -> view (N :: cin * List.length in_H :: sp) T = Ok (mkT (N :: cin * List.length in_H :: sp) (data T))) as HV.
    { intros T HT. apply view_ok. rewrite HT, !prodn_cons, <- HAB. rewrite !Nat.mul_assoc. reflexivity. }
    rewrite (HV X), (HV (mkT (N :: cin :: List.length in_H :: sp) (data X))); [reflexivity| |].
    + cbn [shape]. rewrite (same_product N A B cin (List.length in_H) sp HAB), !prodn_cons. reflexivity.
    + rewrite EX, !prodn_cons. reflexivity.
  - intros HAB Hpos. destruct (group_forward_with L kf X in_H out_H) as [r|e] eqn:E.
    2: { f_equal. exact (group_err L kf W X in_H out_H e HK Hr E). }
    exfalso. destruct (HInv r eq_refl) as [Hv _]. apply view_inv in Hv. destruct Hv as [Q _]. rewrite EX, !prodn_cons in Q. apply HAB.
    apply (Nat.mul_cancel_l _ _ (N * prodn sp)); [lia|]. transitivity (N * (A * (B * prodn sp))); [ring|]. rewrite <- Q. ring.
  - intros H1 H2 Hpos. destruct (group_forward_with L kf X in_H out_H) as [r|e] eqn:E.
    2: { f_equal. exact (group_err L kf W X in_H out_H e HK Hr E). }
    exfalso. destruct (HInv r eq_refl) as [_ [(N' & sp' & E1 & E2)|(sp' & E1 & E2)]]; injection E1; intros; subst sp'; [contradiction|].
    cbn [List.length] in E2. contradiction.
Qed.
Print Assumptions C88_group_layer.

(** Separable layers: the same. *)
Theorem C88_separable_layer : forall G P (D : Dflt P) d (L : gconv G P) cin cout ks k groups stride padding dil m bias
    weight_H weight WH WS (in_H out_H : list G) (X : tensor R),
  constructed d L cin cout ks k groups stride padding dil m bias -> wft X ->
  separable_kernel_forward k weight_H weight in_H out_H = Ok (WH, WS) ->
  has_shape WH (cout :: List.length in_H :: cin / groups :: List.length out_H :: repeat 1 d) ->
  match shape X with
  | N :: A :: B :: sp =>
    (A * B = cin * List.length in_H -> (exists X', reread X X' cin (List.length in_H)) /\
       forall X', reread X X' cin (List.length in_H) -> separable_forward L weight_H weight X in_H out_H = separable_forward L weight_H weight X' in_H out_H) /\
    (A * B <> cin * List.length in_H -> 0 < N * prodn sp -> separable_forward L weight_H weight X in_H out_H = Err RuntimeError) /\
    (List.length sp <> d -> S (List.length sp) <> d -> 0 < N * prodn sp -> separable_forward L weight_H weight X in_H out_H = Err RuntimeError)
  | _ => separable_forward L weight_H weight X in_H out_H = Err ValueError
  end.
Proof.
  intros G P D d L cin cout ks k groups stride padding dil m bias weight_H weight WH WS in_H out_H X Hc HX HK0 HW.
  destruct (constructed_spec _ _ _ _ _ _ _ _ _ _ _ _ Hc)
    as (HL & Hb & Ek & Ei & Eo & Eks & Eg & Es & Ep & Ed & Em & Eb & Hlen & Hbv & Hg & Hci & Hco & Din & Dout).
  assert (separable_kernel_forward (l_kernel L) weight_H weight in_H out_H = Ok (WH, WS)) as HK by (rewrite Ek; exact HK0). clear HK0.
  destruct (shape X) as [|N [|A [|B sp]]] eqn:EX; try (unfold separable_forward; rewrite EX; reflexivity).
  assert (has_shape X (N :: A :: B :: sp)) as HS by (split; assumption).
  assert (List.length (shape X) >= 3) as Hr by (rewrite EX; cbn [List.length]; lia).
  assert (forall r, separable_forward L weight_H weight X in_H out_H = Ok r ->
    view (N :: cin * List.length in_H :: sp) X = Ok (mkT (N :: cin * List.length in_H :: sp) (data X)) /\
    ((exists N' sp', N :: cin * List.length in_H :: sp = N' :: cin / groups * List.length in_H * groups :: sp' /\ List.length sp' = d) \/
     (exists sp', N :: cin * List.length in_H :: sp = cin / groups * List.length in_H * groups :: sp' /\ List.length sp' = d))) as HInv.
  { intros r E. unfold separable_forward in E. rewrite EX, HK in E. cbn [bind fst snd] in E. apply bind_ok' in E. destruct E as (i & Hi & E).
    apply bind_ok' in E. destruct E as (w & Hw & E). apply bind_ok' in E. destruct E as (x & Ex & _). rewrite Ei in Hi.
    pose proof (view_inv _ _ _ Hi) as [Q Ev]. split; [rewrite Ev in Hi; exact Hi|]. apply view_inv in Hw. destruct Hw as [_ ->].
    assert (List.length (skipn 4 (shape WH)) = d) as Lk by (rewrite (proj1 HW); cbn [skipn]; apply repeat_length).
    destruct (conv_forward_rank L _ _ _ _ _ _ _ Ex eq_refl) as [(N' & sp' & E1 & E2)|(sp' & E1 & E2)]; rewrite Ev in E1; cbn [shape] in E1; rewrite Eg, Ei in E1; [left; exists N', sp'|right; exists sp']; (split; [exact E1|congruence]). }
  split; [|split].
  - intros HAB. split; [eexists; apply (reread_exists X cin (List.length in_H) N A B sp HS HAB)|].
    intros X' HR. rewrite (reread_data X X' cin (List.length in_H) N A B sp HS HAB HR).
    unfold separable_forward. rewrite EX. cbn [shape]. rewrite HK. cbn [bind]. rewrite Ei.
    assert (forall T : tensor R, prodn (shape T) = N * (A * (B * prodn sp)) -> view (N :: cin * List.length in_H :: sp) T = Ok (mkT (N :: cin * List.length in_H :: sp) (data T))) as HV.
    { intros T HT. apply view_ok. rewrite HT, !prodn_cons, <- HAB. rewrite !Nat.mul_assoc. reflexivity. }
    rewrite (HV X), (HV (mkT (N :: cin :: List.length in_H :: sp) (data X))); [reflexivity| |].
    + cbn [shape]. rewrite (same_product N A B cin (List.length in_H) sp HAB), !prodn_cons. reflexivity.
    + rewrite EX, !prodn_cons. reflexivity.
  - intros HAB Hpos. destruct (separable_forward L weight_H weight X in_H out_H) as [r|e] eqn:E.
    2: { f_equal. exact (separable_err L weight_H weight _ X in_H out_H e HK Hr E). }
    exfalso. destruct (HInv r eq_refl) as [Hv _]. apply view_inv in Hv. destruct Hv as [Q _]. rewrite EX, !prodn_cons in Q. apply HAB.
    apply (Nat.mul_cancel_l _ _ (N * prodn sp)); [lia|]. transitivity (N * (A * (B * prodn sp))); [ring|]. rewrite <- Q. ring.
  - intros H1 H2 Hpos. destruct (separable_forward L weight_H weight X in_H out_H) as [r|e] eqn:E.
    2: { f_equal. exact (separable_err L weight_H weight _ X in_H out_H e HK Hr E). }
    exfalso. destruct (HInv r eq_refl) as [_ [(N' & sp' & E1 & E2)|(sp' & E1 & E2)]]; injection E1; intros; subst sp'; [contradiction|].
    cbn [List.length] in E2. contradiction.
Qed.
Print Assumptions C88_separable_layer.

(** Consequences.  With the right number of channels, a grid of the wrong length is always refused; with the right length, a wrong number of channels is.
    But features with the two axes exchanged, (N, |in_H|, cin, *sp), are accepted whenever the layer accepts any features of that spatial size, and are not
    read exchanged: channel c at element h reads position (c * n + h) / cin, (c * n + h) mod cin. *)
Theorem C88_exchanged_axes : forall G P (D : Dflt P) d (L : gconv G P) cin cout ks k groups stride padding dil m bias
    weight W (in_H out_H : list G) (X X' : tensor R) N sp,
  constructed d L cin cout ks k groups stride padding dil m bias -> full_kernel_forward k weight in_H out_H = Ok W ->
  has_shape W (cout :: List.length out_H :: cin / groups :: List.length in_H :: ks) -> out_H <> [] -> List.length sp = d ->
  let n := List.length in_H in
  has_shape X (N :: n :: cin :: sp) -> has_shape X' (N :: cin :: n :: sp) ->
  (forall a c h y, a < N -> c < cin -> h < n -> valid sp y -> at_ X' (a :: c :: h :: y) = at_ X (a :: (c * n + h) / cin :: (c * n + h) mod cin :: y)) ->
  full_forward L weight X in_H out_H = full_forward L weight X' in_H out_H /\
  (fits m sp ks stride dil (lefts (stored_padding d padding) ks dil) (rights (stored_padding d padding) ks dil) -> exists Y, full_forward L weight X in_H out_H = Ok (Y, out_H)).
Proof.
  intros G P D d L cin cout ks k groups stride padding dil m bias weight W in_H out_H X X' N sp Hc HK HW Ho Hsp n HX HX' HV.
  pose proof (C88_group_layer _ _ _ d L cin cout ks k groups stride padding dil m bias weight W in_H out_H X (full_forward L weight) Hc (proj2 HX) (or_introl (conj HK eq_refl))) as C.
  rewrite (proj1 HX) in C. destruct C as [C _]. destruct (C (Nat.mul_comm _ _)) as [_ C'].
  assert (full_forward L weight X in_H out_H = full_forward L weight X' in_H out_H) as E.
  { apply C'. exists N, n, cin, sp. split; [exact (proj1 HX)|]. split; [exact HX'|exact HV]. }
  split; [exact E|]. intros Hf. rewrite E.
  destruct (C46_group_convolution _ _ _ d L cin cout ks k groups stride padding dil m bias weight W in_H out_H X' N sp Hc Ho HK HW HX' Hsp) as [A _].
  destruct (A Hf) as (out & Eo & _). eauto.
Qed.
Print Assumptions C88_exchanged_axes.
Theorem C88_one_axis_wrong : forall G P (D : Dflt P) d (L : gconv G P) cin cout ks k groups stride padding dil m bias
    weight W (in_H out_H : list G) (X : tensor R) N A B sp,
  constructed d L cin cout ks k groups stride padding dil m bias -> full_kernel_forward k weight in_H out_H = Ok W ->
  has_shape X (N :: A :: B :: sp) -> 0 < N * prodn sp ->
  A = cin /\ B <> List.length in_H \/ A <> cin /\ B = List.length in_H /\ in_H <> [] ->
  full_forward L weight X in_H out_H = Err RuntimeError.
Proof.
  intros G P D d L cin cout ks k groups stride padding dil m bias weight W in_H out_H X N A B sp Hc HK HX Hpos Hw.
  destruct (constructed_spec _ _ _ _ _ _ _ _ _ _ _ _ Hc)
    as (HL & Hb & Ek & Ei & Eo & Eks & Eg & Es & Ep & Ed & Em & Eb & Hlen & Hbv & Hg & Hci & Hco & Din & Dout).
  pose proof (C88_group_layer _ _ _ d L cin cout ks k groups stride padding dil m bias weight W in_H out_H X (full_forward L weight) Hc (proj2 HX) (or_introl (conj HK eq_refl))) as C.
  rewrite (proj1 HX) in C. destruct C as [_ [C _]]. apply C; [|exact Hpos]. intros Q. destruct Hw as [[-> Hw]|(Hw & -> & Hn)].
  - apply Hw. apply (Nat.mul_cancel_l _ _ cin); [|exact Q]. apply Nat.neq_0_lt_0. rewrite Din. apply Nat.mul_pos_pos; assumption.
  - apply Hw. apply (Nat.mul_cancel_r _ _ (List.length in_H)); [|exact Q]. destruct in_H; [contradiction|discriminate].
Qed.
Print Assumptions C88_one_axis_wrong.

(** Hypotheses met: a layer with 2 input channels and 3 grid elements accepts features of shape (1, 3, 2, 5, 5), with the axes exchanged, and refuses
    (1, 2, 4, 5, 5); channel 0 at element 2 reads position (1, 0), not (2, 0). *)
Example C88_nonvacuous : forall T, torch_ok T -> exists (k : gkernel R V2) L W Y,
  let w := build [2; 3; 2; 3; 3] (fun idx => INR (nth 0 idx 0)) in
  let H := [0%R; 1%R; 2%R] in let H' := [0%R; (PI / 2)%R; 3%R] in
  let X := build [1; 3; 2; 5; 5] (fun idx => INR (nth 1 idx 0)) in
  let X' := build [1; 2; 4; 5; 5] (fun idx => INR (nth 1 idx 0)) in
  constructed 2 L 2 3 [3; 3] k 1 [1; 1] (PStr "same") [1; 1] Zeros None /\ full_kernel_forward k w H H' = Ok W /\
  has_shape W [3; 3; 2; 3; 3; 3] /\ full_forward L w X H H' = Ok (Y, H') /\ full_forward L w X' H H' = Err RuntimeError /\
  (exists X2, reread X X2 2 3 /\ at_ X2 [0; 0; 2; 0; 0] = 1%R /\ at_ X [0; 2; 0; 0; 0] = 2%R).
Proof.
  intros T HT. destruct (C46_C47_nonvacuous T HT) as (k & L & W & WH & WS & Ek & HL & EW & HW & _ & _ & _ & Hf).
  pose (w := build [2; 3; 2; 3; 3] (fun idx => INR (nth 0 idx 0))). pose (H := [0%R; 1%R; 2%R]). pose (H' := [0%R; (PI / 2)%R; 3%R]).
  pose (X := build [1; 3; 2; 5; 5] (fun idx => INR (nth 1 idx 0))). pose (X' := build [1; 2; 4; 5; 5] (fun idx => INR (nth 1 idx 0))).
  assert (has_shape X [1; 3; 2; 5; 5]) as HX by (split; [reflexivity|apply wft_build]).
  assert (has_shape X' [1; 2; 4; 5; 5]) as HX' by (split; [reflexivity|apply wft_build]).
  pose proof (reread_exists X 2 3 1 3 2 [5; 5] HX eq_refl) as HR. set (X2 := mkT [1; 2; 3; 5; 5] (data X)) in HR.
  pose proof HR as (N & A & B & sp & Hs & HX2 & HV). rewrite (proj1 HX) in Hs. injection Hs as <- <- <- <-.
  destruct (C88_exchanged_axes _ _ _ 2 L 2 3 [3; 3] k 1 [1; 1] (PStr "same") [1; 1] Zeros None w W H H' X X2 1 [5; 5] HL EW HW ltac:(discriminate) eq_refl HX HX2 HV) as [_ A].
  destruct (A Hf) as (Y & EY). exists k, L, W, Y. cbv zeta. repeat (split; [assumption|]). split.
  { apply (C88_one_axis_wrong _ _ _ 2 L 2 3 [3; 3] k 1 [1; 1] (PStr "same") [1; 1] Zeros None w W H H' X' 1 2 4 [5; 5] HL EW HX' ltac:(vm_compute; lia)). left. split; [reflexivity|discriminate]. }
  exists X2. split; [exact HR|].
  assert (forall i, i < 3 -> at_ X [0; i; 0; 0; 0] = INR i) as VX.
  { intros i Hi. unfold X. rewrite at_build; [reflexivity|]. repeat (apply valid_cons; [lia|]). apply valid_nil. }
  split.
  - rewrite HV by (try lia; repeat (apply valid_cons; [lia|]); apply valid_nil). change (at_ X [0; 1; 0; 0; 0] = 1%R). rewrite VX by lia. reflexivity.
  - rewrite VX by lia. reflexivity.
Qed.
