(** Proofs for C102: the layers. *)
From Coq Require Import String ZArith Lra.
From Verif Require Import Prelude RMath Mat SO2 SO2Facts O2 O2Facts SO3 SO3Facts O3 O3Facts Tensor TensorFacts Functional FunctionalFacts Kernel KernelFacts GroupKernelFacts KernelMore SepProduct
  Conv ConvSpec ConvInit ConvFacts ConvShift Public PublicFacts ContractFacts Repulse RepulseFacts Prop_Kernel Prop_Conv SignSpec SignFacts.
Open Scope R_scope.

(** ** Two layers whose kernels are related on the elements in Q *)
Lemma related_layers {G G' P} {D : Dflt P} d (L : gconv G P) (L' : gconv G' P) cin cout ks (k : gkernel G P) (k' : gkernel G' P) groups stride padding dil m bias
    w w' W W' (H : list G) (H' : list G') X N sp (Q : G -> Prop) (sgn : G -> R) :
  constructed d L cin cout ks k groups stride padding dil m bias -> constructed d L' cin cout ks k' groups stride padding dil m bias ->
  H <> [] -> List.length H' = List.length H ->
  lifting_kernel_forward k w H = Ok W -> lifting_kernel_forward k' w' H' = Ok W' ->
  has_shape W (cout :: List.length H :: (cin / groups)%nat :: ks) -> has_shape W' (cout :: List.length H :: (cin / groups)%nat :: ks) ->
  has_shape X (N :: cin :: sp) -> List.length sp = d ->
  (forall o i h c x, (o < cout)%nat -> nth_error H i = Some h -> Q h -> (c < cin / groups)%nat -> valid ks x ->
     at_ W (o :: i :: c :: x) = sgn h * at_ W' (o :: i :: c :: x)) ->
  answers_related H H' (fun o h y y' => Q h -> y - bias_value d bias o = sgn h * (y' - bias_value d bias o)) (lifting_forward L w X H) (lifting_forward L' w' X H').
Proof.
  intros Hc Hc' Hn Hl EW EW' SW SW' SX Hsp HW.
  pose proof (C45_lifting_convolution G P _ d L cin cout ks k groups stride padding dil m bias w W H X N sp Hc Hn EW SW SX Hsp) as A. cbv zeta in A.
  assert (H' <> []) as Hn' by (destruct H'; [destruct H; [congruence|discriminate]|discriminate]). rewrite <- Hl in SW'.
  pose proof (C45_lifting_convolution G' P _ d L' cin cout ks k' groups stride padding dil m bias w' W' H' X N sp Hc' Hn' EW' SW' SX Hsp) as A'. cbv zeta in A'.
  rewrite Hl in *. destruct A as [A B], A' as [A' B'].
  destruct (fits_em m sp ks stride dil (lefts (stored_padding d padding) ks dil) (rights (stored_padding d padding) ks dil)) as [F|F].
  2:{ left. exists RuntimeError. split; [exact (B F)|exact (B' F)]. }
  destruct (A F) as (Y & E & S & V). destruct (A' F) as (Y' & E' & S' & V').
  right. exists Y, Y', N, cout, (conv_size sp ks stride dil (lefts (stored_padding d padding) ks dil) (rights (stored_padding d padding) ks dil)).
  split; [exact E|]. split; [exact E'|]. split; [exact S|]. split; [exact S'|].
  intros n o i h x Hnn Ho Hi Hx Hq. pose proof (nth_error_Some_lt _ _ _ Hi) as Hlt.
  rewrite V, V' by assumption.
  match goal with |- ?a + ?b - ?b = _ * (?c + ?b - ?b) => replace (a + b - b) with a by ring; replace (c + b - b) with c by ring end.
  rewrite <- sumR_scale. apply sumR_ext. intros c Hcin. apply in_seq in Hcin. rewrite <- sumR_scale. apply sumR_ext. intros y Hy. apply in_indices in Hy.
  rewrite (HW o i h c y Ho Hi Hq) by (lia || exact Hy). ring.
Qed.

(** ** 2d: elements as turns *)
Lemma turn_acts h v : o2_wf h ->
  scalv2 (o2c h) (app2 (so2_angle_to_matrix (o2a h * -1)) v) = app2 (so2_angle_to_matrix (- turn_of h)) v.
Proof.
  intros W. unfold turn_of. destruct (Req_EM_T (o2c h) 1) as [E|E].
  - rewrite E. replace (o2a h * -1) with (- o2a h) by ring. unfold scalv2. destruct (app2 _ v) as [p q]. cbn [v2x v2y]. f_equal; ring.
  - assert (o2c h = -1) as E' by (destruct W as [K|K]; [contradiction|exact K]). rewrite E'. replace (o2a h * -1) with (- o2a h) by ring.
    replace (- (o2a h + PI)) with (- o2a h - PI) by ring.
    assert (cos (- o2a h - PI) = - cos (- o2a h) /\ sin (- o2a h - PI) = - sin (- o2a h)) as [C S].
    { unfold Rminus. rewrite cos_plus, sin_plus, (cos_neg PI), (sin_neg PI), cos_PI, sin_PI. split; ring. }
    unfold scalv2, app2, so2_angle_to_matrix. cbn [b00 b01 b10 b11 v2x v2y]. rewrite C, S. f_equal; ring.
Qed.

Lemma turns_2 T cin cout s groups st padding dl pmode bias mode pm mask gks n gridE gridS M M' smp w X N sp H u u' c :
  usable 2 s st dl cin cout padding bias -> sample_R2 mode pm = Ok smp ->
  lifting_E2 T cin cout s groups st padding dl pmode false bias mode pm true gks gridE = Ok M ->
  lifting_SE2 T cin cout s groups st padding dl pmode false bias mode pm mask n gridS = Ok M' ->
  has_shape w [cout; (cin / Z.to_nat groups)%nat; s; s] -> has_shape X (N :: cin :: sp) -> List.length sp = 2%nat ->
  H <> [] -> Forall o2_wf H ->
  answers_related H (map turn_of H) (fun o h y y' => True -> y - bias_value 2 bias o = o2c h * (y' - bias_value 2 bias o))
    (lifting_E2_call M u c w X (Some H)) (lifting_SE2_call M' u' w X (Some (map turn_of H))).
Proof.
  intros U Hs HM HM' Hw HX Hsp Hn Hwf. pose proof (proj1 U) as Hs0.
  destruct (made_lifting_E2 _ _ _ _ _ _ _ _ _ _ _ _ _ _ _ _ _ HM U) as (L & gE & k & m & -> & _ & Ek & Em & Hc).
  destruct (made_lifting_SE2 _ _ _ _ _ _ _ _ _ _ _ _ _ _ _ _ _ HM' U) as (L' & gS & k' & m' & -> & _ & Ek' & Em' & Hc').
  rewrite Em in Em'. injection Em' as <-. unfold lifting_E2_call, lifting_SE2_call, lifting_call, permuted. cbn [gm_layer gm_permute or_else].
  destruct (C36_E2 T cin cout s (Z.to_nat groups) (pair_rot gks) (pair_ref gks) mode pm true gE smp w H Hs0 Hs Hw) as (W & EW & SW & VW).
  destruct (C36_SE2 T cin cout s (Z.to_nat groups) mode pm mask gS smp w (map turn_of H) Hs0 Hs Hw) as (W' & EW' & SW' & VW').
  rewrite map_length in SW'. subst k k'. cbn [repeat] in Hc, Hc'.
  eapply (related_layers 2 L L' cin cout [s; s]) with (Q := fun _ => True) (sgn := o2c); try eassumption; [apply map_length|].
  intros o i h cc x Ho Hi _ Hcc Hx. destruct (valid2_inv s x Hx) as (a & b & -> & Ha & Hb).
  rewrite (VW o i h cc a b Ho Hi Hcc Ha Hb), (VW' o i (turn_of h) cc a b Ho (map_nth_error turn_of _ _ Hi) Hcc Ha Hb).
  assert (o2_wf h) as Wh by (rewrite Forall_forall in Hwf; apply Hwf; eapply nth_error_In; exact Hi).
  rewrite turn_acts by exact Wh. destruct Wh as [-> | ->]; field.
Qed.

(** ** The inverted window *)
Lemma slice_inverted cout cg ks w w' o c x : inverted [cout; cg] ks w w' -> (o < cout)%nat -> (c < cg)%nat -> valid ks x ->
  at_ (mkT ks (slice w' ks [o; c])) x = at_ (mkT ks (slice w ks [o; c])) (opposite ks x).
Proof.
  intros (_ & _ & A) Ho Hc Hx.
  assert (forall (t : tensor R) y, valid ks y -> at_ (mkT ks (slice t ks [o; c])) y = at_ t ([o; c] ++ y)) as K.
  { intros t y Hy. exact (at_build ks _ y Hy). }
  rewrite K by exact Hx. rewrite K.
  - apply A; [repeat apply valid_cons; try assumption; apply valid_nil|exact Hx].
  - clear -Hx. unfold opposite. induction Hx as [|i n x s Hi Hx IH]; [constructor|]. cbn [map2]. apply valid_cons; [lia|exact IH].
Qed.

Lemma flip_vec2 v : axis2 (scalv2 (-1) v) = map Ropp (axis2 v).
Proof. unfold axis2, scalv2. cbn [map v2x v2y]. f_equal; [ring|f_equal; ring]. Qed.
Lemma flip_vec3 v : axis3 (scalv3 (-1) v) = map Ropp (axis3 v).
Proof. unfold axis3, scalv3. cbn [map vx vy vz]. f_equal; [ring|f_equal; [ring|f_equal; ring]]. Qed.

Lemma inverted_2 T cin cout s groups st padding dl pmode bias pm mask gks n gridE gridS M M' smp w w' X N sp H u u' c :
  usable 2 s st dl cin cout padding bias -> sample_R2 "bilinear" pm = Ok smp ->
  lifting_E2 T cin cout s groups st padding dl pmode false bias "bilinear" pm true gks gridE = Ok M ->
  lifting_SE2 T cin cout s groups st padding dl pmode false bias "bilinear" pm mask n gridS = Ok M' ->
  inverted [cout; (cin / Z.to_nat groups)%nat] [s; s] w w' -> has_shape X (N :: cin :: sp) -> List.length sp = 2%nat -> H <> [] ->
  answers_related H (map o2a H) (fun o h y y' => o2c h = -1 -> y - bias_value 2 bias o = (-1) * (y' - bias_value 2 bias o))
    (lifting_E2_call M u c w X (Some H)) (lifting_SE2_call M' u' w' X (Some (map o2a H))).
Proof.
  intros U Hs HM HM' Hw HX Hsp Hn. pose proof (proj1 U) as Hs0.
  destruct (made_lifting_E2 _ _ _ _ _ _ _ _ _ _ _ _ _ _ _ _ _ HM U) as (L & gE & k & m & -> & _ & Ek & Em & Hc).
  destruct (made_lifting_SE2 _ _ _ _ _ _ _ _ _ _ _ _ _ _ _ _ _ HM' U) as (L' & gS & k' & m' & -> & _ & Ek' & Em' & Hc').
  rewrite Em in Em'. injection Em' as <-. unfold lifting_E2_call, lifting_SE2_call, lifting_call, permuted. cbn [gm_layer gm_permute or_else].
  destruct (C36_E2 T cin cout s (Z.to_nat groups) (pair_rot gks) (pair_ref gks) "bilinear" pm true gE smp w H Hs0 Hs (proj1 Hw)) as (W & EW & SW & VW).
  destruct (C36_SE2 T cin cout s (Z.to_nat groups) "bilinear" pm mask gS smp w' (map o2a H) Hs0 Hs (proj1 (proj2 Hw))) as (W' & EW' & SW' & VW').
  rewrite map_length in SW'. subst k k'. cbn [repeat] in Hc, Hc'.
  eapply (related_layers 2 L L' cin cout [s; s]) with (Q := fun h => o2c h = -1) (sgn := fun _ => -1); try eassumption; [apply map_length|].
  intros o i h cc x Ho Hi Hq Hcc Hx. destruct (valid2_inv s x Hx) as (a & b & -> & Ha & Hb).
  rewrite (VW o i h cc a b Ho Hi Hcc Ha Hb), (VW' o i (o2a h) cc a b Ho (map_nth_error o2a _ _ Hi) Hcc Ha Hb), Hq.
  unfold sample_R2 in Hs. cbn [String.eqb Ascii.eqb Bool.eqb gs_mode bind] in Hs. destruct (gs_pad pm) as [p|]; [|discriminate]. injection Hs as <-.
  unfold gs2. rewrite flip_vec2, (linear_flip p [s; s] _ (slice w' [s; s] [o; cc])).
  - replace (o2a h * -1) with (- o2a h) by ring. field.
  - intros y Hy. apply (slice_inverted cout (cin / Z.to_nat groups)%nat); assumption.
  - reflexivity.
  - repeat constructor; exact Hs0.
Qed.

Lemma inverted_3 T cin cout s groups st padding dl pmode bias pm mask gks n gridE dE gridS dS M M' smp w w' X N sp H q q' c :
  usable 3 s st dl cin cout padding bias -> sample_R3 "bilinear" pm = Ok smp ->
  lifting_E3 T cin cout s groups st padding dl pmode false bias "bilinear" pm mask gks gridE dE = Ok M ->
  lifting_SE3 T cin cout s groups st padding dl pmode false bias "bilinear" pm mask n gridS dS = Ok M' ->
  inverted [cout; (cin / Z.to_nat groups)%nat] [s; s; s] w w' -> has_shape X (N :: cin :: sp) -> List.length sp = 3%nat -> H <> [] ->
  answers_related H (map o3r H) (fun o h y y' => o3c h = -1 -> y - bias_value 3 bias o = (-1) * (y' - bias_value 3 bias o))
    (lifting_E3_call M c q w X (Some H)) (lifting_SE3_call M' q' w' X (Some (map o3r H))).
Proof.
  intros U Hs HM HM' Hw HX Hsp Hn. pose proof (proj1 U) as Hs0.
  destruct (made_lifting_E3 _ _ _ _ _ _ _ _ _ _ _ _ _ _ _ _ _ _ HM U) as (L & gE & k & m & -> & _ & Ek & Em & Hc).
  destruct (made_lifting_SE3 _ _ _ _ _ _ _ _ _ _ _ _ _ _ _ _ _ _ HM' U) as (L' & gS & k' & m' & -> & _ & Ek' & Em' & Hc').
  rewrite Em in Em'. injection Em' as <-. unfold lifting_E3_call, lifting_SE3_call, lifting_call, permuted. cbn [gm_layer gm_permute or_else].
  destruct (C36_E3 T cin cout s (Z.to_nat groups) (pair_rot gks) (pair_ref gks) "bilinear" pm mask gE smp w H Hs0 Hs (proj1 Hw)) as (W & EW & SW & VW).
  destruct (C36_SE3 T cin cout s (Z.to_nat groups) "bilinear" pm mask gS smp w' (map o3r H) Hs0 Hs (proj1 (proj2 Hw))) as (W' & EW' & SW' & VW').
  rewrite map_length in SW'. subst k k'. cbn [repeat] in Hc, Hc'.
  eapply (related_layers 3 L L' cin cout [s; s; s]) with (Q := fun h => o3c h = -1) (sgn := fun _ => -1); try eassumption; [apply map_length|].
  intros o i h cc x Ho Hi Hq Hcc Hx. destruct (valid3_inv s x Hx) as (a & b & e & -> & Ha & Hb & He).
  rewrite (VW o i h cc a b e Ho Hi Hcc Ha Hb He), (VW' o i (o3r h) cc a b e Ho (map_nth_error o3r _ _ Hi) Hcc Ha Hb He), Hq.
  unfold sample_R3 in Hs. cbn [String.eqb Ascii.eqb Bool.eqb gs_mode bind] in Hs. destruct (gs_pad pm) as [p|]; [|discriminate]. injection Hs as <-.
  unfold gs3. rewrite flip_vec3, (linear_flip p [s; s; s] _ (slice w' [s; s; s] [o; cc])).
  - field.
  - intros y Hy. apply (slice_inverted cout (cin / Z.to_nat groups)%nat); assumption.
  - reflexivity.
  - repeat constructor; exact Hs0.
Qed.

(** the elements with coefficient 1 *)
Lemma direct_3 T cin cout s groups st padding dl pmode bias mode pm mask gks n gridE dE gridS dS M M' smp w X N sp H q q' c :
  usable 3 s st dl cin cout padding bias -> sample_R3 mode pm = Ok smp ->
  lifting_E3 T cin cout s groups st padding dl pmode false bias mode pm mask gks gridE dE = Ok M ->
  lifting_SE3 T cin cout s groups st padding dl pmode false bias mode pm mask n gridS dS = Ok M' ->
  has_shape w [cout; (cin / Z.to_nat groups)%nat; s; s; s] -> has_shape X (N :: cin :: sp) -> List.length sp = 3%nat -> H <> [] ->
  answers_related H (map o3r H) (fun o h y y' => o3c h = 1 -> y - bias_value 3 bias o = 1 * (y' - bias_value 3 bias o))
    (lifting_E3_call M c q w X (Some H)) (lifting_SE3_call M' q' w X (Some (map o3r H))).
Proof.
  intros U Hs HM HM' Hw HX Hsp Hn. pose proof (proj1 U) as Hs0.
  destruct (made_lifting_E3 _ _ _ _ _ _ _ _ _ _ _ _ _ _ _ _ _ _ HM U) as (L & gE & k & m & -> & _ & Ek & Em & Hc).
  destruct (made_lifting_SE3 _ _ _ _ _ _ _ _ _ _ _ _ _ _ _ _ _ _ HM' U) as (L' & gS & k' & m' & -> & _ & Ek' & Em' & Hc').
  rewrite Em in Em'. injection Em' as <-. unfold lifting_E3_call, lifting_SE3_call, lifting_call, permuted. cbn [gm_layer gm_permute or_else].
  destruct (C36_E3 T cin cout s (Z.to_nat groups) (pair_rot gks) (pair_ref gks) mode pm mask gE smp w H Hs0 Hs Hw) as (W & EW & SW & VW).
  destruct (C36_SE3 T cin cout s (Z.to_nat groups) mode pm mask gS smp w (map o3r H) Hs0 Hs Hw) as (W' & EW' & SW' & VW').
  rewrite map_length in SW'. subst k k'. cbn [repeat] in Hc, Hc'.
  eapply (related_layers 3 L L' cin cout [s; s; s]) with (Q := fun h => o3c h = 1) (sgn := fun _ => 1); try eassumption; [apply map_length|].
  intros o i h cc x Ho Hi Hq Hcc Hx. destruct (valid3_inv s x Hx) as (a & b & e & -> & Ha & Hb & He).
  rewrite (VW o i h cc a b e Ho Hi Hcc Ha Hb He), (VW' o i (o3r h) cc a b e Ho (map_nth_error o3r _ _ Hi) Hcc Ha Hb He), Hq.
  replace (scalv3 1 (app3 (tr3 (o3r h)) (at_ (create_grid_R3 s) [a; b; e]))) with (app3 (tr3 (o3r h)) (at_ (create_grid_R3 s) [a; b; e])); [field|].
  unfold scalv3. destruct (app3 _ _) as [p1 p2 p3]. cbn [vx vy vz]. f_equal; ring.
Qed.
