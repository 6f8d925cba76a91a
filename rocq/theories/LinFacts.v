(** The convolution layers are affine in their input. *)
From Coq Require Import String ZArith.
From Verif Require Import Prelude RMath Mat Repulse RepulseFacts Tensor TensorFacts Functional FunctionalFacts Kernel KernelFacts Conv ConvSpec ConvFacts ConvInit ConvShift
  SepProduct SepStages LayersSpec LayersFacts LinSpec Regrid Prop_Conv Prop_Conv2.
Open Scope nat_scope.

(** ** Linear functionals *)
Definition linear_in {A} (l : list A) (f : (A -> R) -> R) : Prop := exists coef : A -> R, forall F, f F = sumR (map (fun a => (coef a * F a)%R) l).
Lemma linear_zero {A} (l : list A) : linear_in l (fun _ => 0%R).
Proof. exists (fun _ => 0%R). intros F. symmetry. apply sumR_zero. intros. ring. Qed.
Lemma linear_scale {A} (l : list A) k f : linear_in l f -> linear_in l (fun F => (k * f F)%R).
Proof. intros [c H]. exists (fun a => (k * c a)%R). intros F. rewrite H, <- sumR_scale. apply sumR_ext. intros. ring. Qed.
Lemma linear_sum {A B} (l : list A) (f : B -> (A -> R) -> R) (bs : list B) : (forall b, In b bs -> linear_in l (f b)) ->
  linear_in l (fun F => sumR (map (fun b => f b F) bs)).
Proof.
  induction bs as [|b bs IH]; intros H; [exact (linear_zero l)|]. destruct (H b (or_introl eq_refl)) as [c Hc].
  destruct IH as [c' Hc']; [intros; apply H; right; assumption|]. exists (fun a => (c a + c' a)%R). intros F. simpl. rewrite Hc, Hc', <- sumR_plus.
  apply sumR_ext. intros. ring.
Qed.
Lemma linear_read (l : list (list nat)) i : NoDup l -> In i l -> linear_in l (fun F => F i).
Proof.
  intros N Hi. exists (fun a => if list_eq_dec Nat.eq_dec a i then 1%R else 0%R). intros F.
  induction l as [|a l IH]; [contradiction|]. inversion N as [|? ? Na Nl]; subst. simpl. destruct (list_eq_dec Nat.eq_dec a i) as [-> |E].
  - rewrite sumR_zero; [ring|]. intros b Hb. destruct (list_eq_dec Nat.eq_dec b i) as [-> |]; [contradiction|ring].
  - destruct Hi as [|Hi]; [contradiction|]. rewrite <- (IH Nl Hi). ring.
Qed.
Lemma linear_ext {A} (l : list A) f g : (forall F, f F = g F) -> linear_in l g -> linear_in l f.
Proof. intros E [c H]. exists c. intros F. rewrite E. apply H. Qed.

Lemma flat_cons_NoDup (s : list nat) n a : NoDup (flat_map (fun c => map (cons c) (indices s)) (seq a n)).
Proof.
  revert a. induction n as [|n IH]; intros a; [constructor|]. cbn [seq flat_map].
  assert (forall l1 l2 : list (list nat), NoDup l1 -> NoDup l2 -> (forall x, In x l1 -> ~ In x l2) -> NoDup (l1 ++ l2)) as K.
  { clear. induction l1 as [|x l1 IH]; intros l2 A B D; [exact B|]. inversion A; subst. cbn. constructor.
    - rewrite in_app_iff. intros [|]; [contradiction|]. exact (D x (or_introl eq_refl) H).
    - apply IH; try assumption. intros. apply D. right. assumption. }
  apply K; [|apply IH|].
  - apply FinFun.Injective_map_NoDup; [intros x y E; congruence|apply indices_NoDup].
  - intros x Hx Hx'. apply in_map_iff in Hx. destruct Hx as (i & <- & _). apply in_flat_map in Hx'. destruct Hx' as (c & Hc & Hi).
    apply in_seq in Hc. apply in_map_iff in Hi. destruct Hi as (j & E & _). injection E as -> _. lia.
Qed.
Lemma visible_NoDup cin cout groups s o : NoDup (visible cin cout groups s o).
Proof. apply flat_cons_NoDup. Qed.
Lemma visible_in cin cout groups s o c i : c < cin / groups -> valid s i ->
  In ((o / (cout / groups) * (cin / groups) + c) :: i) (visible cin cout groups s o).
Proof.
  intros Hc Hi. unfold visible. apply in_flat_map. eexists. split; [apply in_seq|apply in_map, in_indices; exact Hi]. lia.
Qed.

(** Reading the extended image is linear. *)
Definition image_fn (m : padmode) (F : list nat -> R) (sp : list nat) (pre : list nat) (z : list Z) : R :=
  match sequence (axes (length sp) (fun j => shown m (nth j sp 0%nat) (nth j z 0%Z))) with
  | Some i => F (pre ++ i)
  | None => 0%R
  end.
Lemma image_fn_linear l m sp ks stride dil left right pre y x :
  fits m sp ks stride dil left right -> length stride = length ks -> length sp = length ks ->
  valid (conv_size sp ks stride dil left right) y -> valid ks x -> forall g : (list nat -> R) -> list nat -> R,
  (forall i, valid sp i -> linear_in l (fun F => g F (pre ++ i))) ->
  linear_in l (fun F => image_fn m (g F) sp pre (read_pos stride dil left y x)).
Proof.
  intros F Ls Lsp Hy Hx g Hl. unfold image_fn. destruct (sequence _) as [i|] eqn:Es; [|apply linear_zero]. apply Hl.
  destruct (sequence_axes _ _ _ 0 Es) as [L V]. apply valid_nth. split; [exact L|]. intros j Hj. specialize (V j Hj).
  rewrite Lsp in Hj. unfold read_pos in V. rewrite nth_axes in V by (rewrite Ls; exact Hj).
  exact (shown_lt _ _ _ _ _ _ (fits_pad_ok _ _ _ _ _ _ _ _ F Hj) (read_inside _ _ _ _ _ _ _ _ _ _ F Ls Hy Hx Hj) V).
Qed.

Lemma image_at_fn m sp ks stride dil left right (t : tensor R) g n pre y x :
  fits m sp ks stride dil left right -> length stride = length ks -> length sp = length ks ->
  valid (conv_size sp ks stride dil left right) y -> valid ks x ->
  (forall i, valid sp i -> at_ t (n :: pre ++ i) = g (pre ++ i)) ->
  image_at m t sp (n :: pre) (read_pos stride dil left y x) = image_fn m g sp pre (read_pos stride dil left y x).
Proof.
  intros F Ls Lsp Hy Hx E. unfold image_at, image_fn. destruct (sequence _) as [i|] eqn:Es; [|reflexivity]. apply E.
  destruct (sequence_axes _ _ _ 0 Es) as [L V]. apply valid_nth. split; [exact L|]. intros j Hj. specialize (V j Hj).
  rewrite Lsp in Hj. unfold read_pos in V. rewrite nth_axes in V by (rewrite Ls; exact Hj).
  exact (shown_lt _ _ _ _ _ _ (fits_pad_ok _ _ _ _ _ _ _ _ F Hj) (read_inside _ _ _ _ _ _ _ _ _ _ F Ls Hy Hx Hj) V).
Qed.

(** ** Kernel shapes from success alone *)
Section Shapes.
  Context {G P : Type} {D : Dflt P} (k : gkernel G P) (inv : G -> G) (mul : G -> G -> G) (act : G -> P -> P) (det : option (G -> R)).
  Hypothesis Hops : gops_ok (k_ops k) inv mul act det.
  Hypothesis Hg : has_shape (k_grid_Rn k) (k_size k).
  Hypothesis Hm : mask_ok (k_mask k) (k_size k).
  Hypothesis Hz : prodn (k_size k) <> 0.

  Lemma full_kernel_shape weight in_H out_H W : has_shape weight (full_weight_shape k) -> full_kernel_forward k weight in_H out_H = Ok W ->
    has_shape W (k_out k :: length out_H :: k_cin k :: length in_H :: k_size k).
  Proof.
    intros Hw E. unfold full_kernel_forward in E. destruct (sample_group k weight in_H out_H) as [w0|]; [|discriminate]. cbn [bind] in E.
    destruct (view (length out_H * length in_H :: k_cin k * k_out k :: k_size k) w0) as [w1|] eqn:E1; [|discriminate]. cbn [bind] in E.
    apply view_inv in E1. destruct E1 as [_ ->].
    destruct (op_sample_Rn (k_ops k)) as [smp|]; [|discriminate]. cbn [bind] in E.
    destruct (product_Rn_spec k inv mul act det Hops Hg out_H) as [[Hps Hpw] _].
    destruct (grid_sample_spec smp (mkT (length out_H * length in_H :: k_cin k * k_out k :: k_size k) (data w0))
      (repeat_interleave0 (length in_H) (product_Rn k out_H)) (length out_H * length in_H) (k_cin k * k_out k) (k_size k) (k_size k)) as (w2 & E2 & S2 & _);
      [reflexivity|rewrite (shape_repeat_interleave0 _ _ _ _ Hps); reflexivity|exact Hz|].
    rewrite E2 in E. cbn [bind] in E.
    destruct (has_shape_view w2 _ (length out_H :: length in_H :: k_cin k :: k_out k :: k_size k) S2) as [E3 S3]; [rewrite !prodn_cons; lia|].
    rewrite E3 in E. cbn [bind] in E. set (w3 := mkT _ (data w2)) in *.
    destruct (transpose_spec w3 _ _ _ _ _ S3) as [S4 _]. set (w4 := transpose 1 3 (transpose 0 3 w3)) in *.
    destruct (apply_mask_spec (k_mask k) (k_size k) [k_out k; length out_H; k_cin k; length in_H] w4 Hm) as (w5 & E5 & S5 & _); [exact S4|].
    rewrite E5 in E. cbn [bind] in E. rewrite (proj1 Hw) in E. unfold full_weight_shape in E.
    replace (length (k_gdim k :: k_out k :: k_cin k :: k_size k) - 2) with (S (length (k_size k))) in E by (cbn; lia).
    destruct (apply_det_spec (op_det (k_ops k)) det out_H (S (length (k_size k))) (k_out k) (k_cin k :: length in_H :: k_size k) w5) as (w6 & E6 & S6 & _);
      [apply (ok_det _ _ _ _ _ Hops)|reflexivity|exact S5|].
    rewrite E6 in E. injection E as <-. exact S6.
  Qed.

  Lemma separable_kernel_shape weight_H weight in_H out_H WH WS : has_shape weight (separable_weight_shape k) ->
    separable_kernel_forward k weight_H weight in_H out_H = Ok (WH, WS) ->
    has_shape WH (k_out k :: length in_H :: k_cin k :: length out_H :: repeat 1 (length (k_size k))) /\
    has_shape WS (k_out k :: length out_H :: 1 :: k_size k).
  Proof.
    intros Hw E. unfold separable_kernel_forward in E. destruct (sample_group k weight_H in_H out_H) as [w0|] eqn:E0; [|discriminate]. cbn [bind] in E.
    destruct (view (length in_H :: length out_H :: k_cin k :: k_out k :: repeat 1 (length (k_size k))) w0) as [w1|] eqn:E1; [|discriminate]. cbn [bind] in E.
    apply view_inv in E1. destruct E1 as [Q1 ->].
    set (w1 := mkT _ (data w0)) in *.
    assert (has_shape (transpose 1 3 (transpose 0 3 w1)) (k_out k :: length in_H :: k_cin k :: length out_H :: repeat 1 (length (k_size k)))) as S1'.
    { split; [|apply wft_transpose]. unfold transpose at 1. rewrite shape_build. unfold transpose. rewrite shape_build. unfold w1 at 1. cbn [shape].
      rewrite swap03, swap13. reflexivity. }
    destruct (op_sample_Rn (k_ops k)) as [smp|]; [|discriminate]. cbn [bind] in E.
    destruct (spatial_spec k inv mul act det Hops Hg Hz smp weight 1 out_H Hw) as (w2 & E2 & S2 & _). rewrite E2 in E. cbn [bind] in E.
    destruct (has_shape_view w2 _ (k_out k :: length out_H :: 1 :: k_size k) S2) as [E3 S3]; [rewrite !prodn_cons; lia|].
    rewrite E3 in E. cbn [bind] in E. set (w3 := mkT _ (data w2)) in *.
    destruct (apply_mask_spec (k_mask k) (k_size k) [k_out k; length out_H; 1] w3 Hm) as (w5 & E5 & S5 & _); [exact S3|].
    rewrite E5 in E. cbn [bind] in E.
    destruct (apply_det_spec (op_det (k_ops k)) det out_H (length (k_size k)) (k_out k) (1 :: k_size k) w5) as (w6 & E6 & S6 & _);
      [apply (ok_det _ _ _ _ _ Hops)|reflexivity|exact S5|].
    rewrite E6 in E. injection E as <- <-. split; assumption.
  Qed.
End Shapes.

(** ** Layers *)
Section AffineLayers.
  Context {G P : Type} {D : Dflt P} (d : nat) (L : gconv G P) (cin cout : nat) (ks : list nat) (kn : gkernel G P) (groups : nat) (stride : list nat)
          (padding : padarg) (dil : list nat) (m : padmode) (bias : option (tensor R)).
  Hypothesis Hc : constructed d L cin cout ks kn groups stride padding dil m bias.
  Context (inv : G -> G) (mul : G -> G -> G) (act : G -> P -> P) (det : option (G -> R)).
  Hypothesis Hops : gops_ok (k_ops kn) inv mul act det.
  Hypothesis Hg : has_shape (k_grid_Rn kn) (k_size kn).
  Hypothesis Hm : mask_ok (k_mask kn) (k_size kn).
  Hypothesis Hko : k_out kn = cout.
  Hypothesis Hki : k_cin kn = cin / groups.

  Lemma lifting_affine weight (H : list G) X0 N0 s out : has_shape weight (lifting_weight_shape kn) -> H <> [] ->
    has_shape X0 (N0 :: cin :: s) -> length s = d -> lifting_forward L weight X0 H = Ok (out, H) ->
    affine_layer (fun X => lifting_forward L weight X H) H cin cout groups s (bias_value d bias).
  Proof.
    intros Hw HH HX Hs E.
    destruct (con_size d L cin cout ks kn groups stride padding dil m bias Hc Hko Hki) as [Ek Hz].
    destruct (con_lengths d L cin cout ks kn groups stride padding dil m bias Hc) as (Ls & Lk & _).
    assert (exists smp, op_sample_Rn (k_ops kn) = Ok smp) as [smp Hsmp].
    { destruct (constructed_spec _ _ _ _ _ _ _ _ _ _ _ _ Hc) as (_ & _ & El & _).
      unfold lifting_forward in E. rewrite (proj1 HX), El in E. unfold lifting_kernel_forward in E.
      destruct (op_sample_Rn (k_ops kn)); [eauto|discriminate]. }
    rewrite <- Ek in Hz.
    destruct (lifting_formula kn inv mul act det Hops Hg Hm Hz smp weight H Hsmp Hw) as (W & EW & SW & _). rewrite Hko, Hki, Ek in SW.
    pose proof (fun X N HXN => C45_lifting_convolution _ _ D _ _ _ _ _ _ _ _ _ _ _ _ _ _ _ X N s Hc HH EW SW HXN Hs) as K.
    cbv zeta in K. set (l := lefts (stored_padding d padding) ks dil) in *. set (r := rights (stored_padding d padding) ks dil) in *.
    destruct (fits_em m s ks stride dil l r) as [F|F]; [|rewrite (proj2 (K X0 N0 HX) F) in E; discriminate].
    exists (length H :: conv_size s ks stride dil l r). split.
    { intros X N HXN. destruct (proj1 (K X N HXN) F) as (x & Ex & Sx & _). eauto. }
    intros o hy Ho Hy. destruct hy as [|h y]; [apply valid_length in Hy; discriminate|]. apply valid_cons_inv in Hy. destruct Hy as [Hh Hy].
    assert (linear_in (visible cin cout groups s o) (fun F => sumR (map (fun c => sumR (map (fun x => (at_ W (o :: h :: c :: x) *
       image_fn m F s [(o / (cout / groups) * (cin / groups) + c)%nat] (read_pos stride dil l y x))%R) (indices ks))) (seq 0 (cin / groups))))) as [coef Hcoef].
    { apply linear_sum. intros c Hcc. apply in_seq in Hcc. apply linear_sum. intros x Hx. apply in_indices in Hx. apply linear_scale.
      apply (image_fn_linear _ m s ks stride dil l r _ y x F) with (g := fun F => F); try assumption; try congruence.
      intros i Hi. apply linear_read; [apply visible_NoDup|]. apply visible_in; [lia|exact Hi]. }
    exists coef. intros X N Y n HXN EY Hn. destruct (proj1 (K X N HXN) F) as (x & Ex & Sx & Vx). rewrite Ex in EY. injection EY as <-.
    rewrite Vx by assumption. f_equal. exact (Hcoef (fun i => at_ X (n :: i))).
  Qed.

  Lemma full_affine weight (in_H out_H : list G) X0 N0 s out : has_shape weight (full_weight_shape kn) -> out_H <> [] ->
    has_shape X0 (N0 :: cin :: length in_H :: s) -> length s = d -> full_forward L weight X0 in_H out_H = Ok (out, out_H) ->
    affine_layer (fun X => full_forward L weight X in_H out_H) out_H cin cout groups (length in_H :: s) (bias_value d bias).
  Proof.
    intros Hw HH HX Hs E.
    destruct (con_size d L cin cout ks kn groups stride padding dil m bias Hc Hko Hki) as [Ek Hz].
    destruct (con_lengths d L cin cout ks kn groups stride padding dil m bias Hc) as (Ls & Lk & _).
    assert (exists W, full_kernel_forward kn weight in_H out_H = Ok W) as [W EW].
    { destruct (constructed_spec _ _ _ _ _ _ _ _ _ _ _ _ Hc) as (_ & _ & El & _).
      unfold full_forward, group_forward_with in E. rewrite El, (proj1 HX) in E. destruct (full_kernel_forward kn weight in_H out_H) as [W|]; [eauto|discriminate]. }
    rewrite <- Ek in Hz. pose proof (full_kernel_shape kn inv mul act det Hops Hg Hm Hz weight in_H out_H W Hw EW) as SW. rewrite Hko, Hki, Ek in SW.
    pose proof (fun X N HXN => C46_group_convolution _ _ D _ _ _ _ _ _ _ _ _ _ _ _ _ _ _ _ X N s Hc HH EW SW HXN Hs) as K.
    cbv zeta in K. set (l := lefts (stored_padding d padding) ks dil) in *. set (r := rights (stored_padding d padding) ks dil) in *.
    destruct (fits_em m s ks stride dil l r) as [F|F]; [|rewrite (proj2 (K X0 N0 HX) F) in E; discriminate].
    exists (length out_H :: conv_size s ks stride dil l r). split.
    { intros X N HXN. destruct (proj1 (K X N HXN) F) as (x & Ex & Sx & _). eauto. }
    intros o hy Ho Hy. destruct hy as [|h y]; [apply valid_length in Hy; discriminate|]. apply valid_cons_inv in Hy. destruct Hy as [Hh Hy].
    assert (linear_in (visible cin cout groups (length in_H :: s) o) (fun F => sumR (map (fun c => sumR (map (fun j => sumR (map (fun x => (at_ W (o :: h :: c :: j :: x) *
       image_fn m F s [(o / (cout / groups) * (cin / groups) + c)%nat; j] (read_pos stride dil l y x))%R) (indices ks))) (seq 0 (length in_H)))) (seq 0 (cin / groups))))) as [coef Hcoef].
    { apply linear_sum. intros c Hcc. apply in_seq in Hcc. apply linear_sum. intros j Hj. apply in_seq in Hj. apply linear_sum. intros x Hx. apply in_indices in Hx. apply linear_scale.
      apply (image_fn_linear _ m s ks stride dil l r _ y x F) with (g := fun F => F); try assumption; try congruence.
      intros i Hi. cbn [app]. apply linear_read; [apply visible_NoDup|]. apply visible_in; [lia|]. apply valid_cons; [lia|exact Hi]. }
    exists coef. intros X N Y n HXN EY Hn. destruct (proj1 (K X N HXN) F) as (x & Ex & Sx & Vx). rewrite Ex in EY. injection EY as <-.
    rewrite Vx by assumption. f_equal. exact (Hcoef (fun i => at_ X (n :: i))).
  Qed.

  Lemma separable_affine weight_H weight (in_H out_H : list G) X0 N0 s out : has_shape weight (separable_weight_shape kn) -> out_H <> [] ->
    has_shape X0 (N0 :: cin :: length in_H :: s) -> length s = d -> separable_forward L weight_H weight X0 in_H out_H = Ok (out, out_H) ->
    affine_layer (fun X => separable_forward L weight_H weight X in_H out_H) out_H cin cout groups (length in_H :: s) (bias_value d bias).
  Proof.
    intros Hw HH HX Hs E.
    destruct (con_size d L cin cout ks kn groups stride padding dil m bias Hc Hko Hki) as [Ek Hz].
    destruct (con_lengths d L cin cout ks kn groups stride padding dil m bias Hc) as (Ls & Lk & _).
    assert (exists WH WS, separable_kernel_forward kn weight_H weight in_H out_H = Ok (WH, WS)) as (WH & WS & EW).
    { destruct (constructed_spec _ _ _ _ _ _ _ _ _ _ _ _ Hc) as (_ & _ & El & _).
      unfold separable_forward in E. rewrite El, (proj1 HX) in E. cbv zeta in E. destruct (separable_kernel_forward kn weight_H weight in_H out_H) as [[WH WS]|]; [eauto|discriminate]. }
    rewrite <- Ek in Hz. destruct (separable_kernel_shape kn inv mul act det Hops Hg Hm Hz weight_H weight in_H out_H WH WS Hw EW) as [S1 S2].
    rewrite Hko, Hki, Ek, ?Lk in *.
    pose proof (fun X N HXN => separable_two_stage _ _ D _ _ _ _ _ _ _ _ _ _ _ _ _ _ _ _ _ _ X N s Hc HH EW S1 S2 HXN Hs) as K.
    cbv zeta in K. set (WG := mkT _ (data WH)) in *.
    set (ks1 := match m with Zeros => repeat 1 d | _ => ks end) in *.
    set (l1 := lefts (stored_padding d padding) ks1 dil) in *. set (r1 := rights (stored_padding d padding) ks1 dil) in *.
    set (l := lefts (stored_padding d padding) ks dil) in *. set (r := rights (stored_padding d padding) ks dil) in *.
    set (mid := conv_size s (repeat 1 d) stride dil l1 r1) in *.
    assert (fits m s (repeat 1 d) stride dil l1 r1 /\ fits m mid ks stride dil l r) as [F1 F2].
    { destruct (fits_em m s (repeat 1 d) stride dil l1 r1) as [F1|F1]; [destruct (fits_em m mid ks stride dil l r) as [F2|F2]; [auto|]|];
        rewrite (proj2 (K X0 N0 HX)) in E by tauto; discriminate. }
    assert (length mid = d) as Lmid by (unfold mid, conv_size; rewrite axes_length; apply repeat_length).
    exists (length out_H :: conv_size mid ks stride dil l r). split.
    { intros X N HXN. destruct (proj1 (K X N HXN) F1 F2) as (t & x & Ex & _ & Sx & _). eauto. }
    intros o hy Ho Hy. destruct hy as [|h y]; [apply valid_length in Hy; discriminate|]. apply valid_cons_inv in Hy. destruct Hy as [Hh Hy].
    set (stage1 := fun (F : list nat -> R) (idx : list nat) => sumR (map (fun c => sumR (map (fun j => (at_ WG (o :: h :: c :: j :: repeat 0%nat d) *
       image_fn m F s [(o / (cout / groups) * (cin / groups) + c)%nat; j] (read_pos stride dil l1 (skipn 2 idx) (repeat 0%nat d)))%R) (seq 0 (length in_H)))) (seq 0 (cin / groups)))).
    assert (linear_in (visible cin cout groups (length in_H :: s) o) (fun F => sumR (map (fun x => (at_ WS (o :: h :: 0%nat :: x) *
       image_fn m (stage1 F) mid [o; h] (read_pos stride dil l y x))%R) (indices ks)))) as [coef Hcoef].
    { apply linear_sum. intros x Hx. apply in_indices in Hx. apply linear_scale.
      apply (image_fn_linear _ m mid ks stride dil l r _ y x F2) with (g := stage1); try assumption; try congruence.
      intros i Hi. unfold stage1. cbn [app skipn]. apply linear_sum. intros c Hcc. apply in_seq in Hcc. apply linear_sum. intros j Hj. apply in_seq in Hj. apply linear_scale.
      apply (image_fn_linear _ m s (repeat 1 d) stride dil l1 r1 _ i (repeat 0 d) F1) with (g := fun F => F); rewrite ?repeat_length; try assumption; try congruence.
      - apply valid_nth. rewrite !repeat_length. split; [reflexivity|]. intros q Hq.
        rewrite (nth_indep (repeat 1 d) 0 1) by (rewrite repeat_length; exact Hq). rewrite !nth_repeat. lia.
      - intros q Hq. cbn [app]. apply linear_read; [apply visible_NoDup|]. apply visible_in; [lia|]. apply valid_cons; [lia|exact Hq]. }
    exists coef. intros X N Y n HXN EY Hn. destruct (proj1 (K X N HXN) F1 F2) as (t & x & Ex & St & Sx & Vt & Vx). rewrite Ex in EY. injection EY as <-.
    rewrite Vx by assumption. f_equal. change (total ?a) with (sumR a). rewrite <- (Hcoef (fun i => at_ X (n :: i))). apply sumR_ext. intros x0 Hx0. apply in_indices in Hx0. f_equal.
    apply (image_at_fn m mid ks stride dil l r); try assumption; try congruence. intros i Hi. cbn [app]. rewrite Vt by assumption. reflexivity.
  Qed.
End AffineLayers.
