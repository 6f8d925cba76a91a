(** Kernels on a translated group grid are re-indexed kernels, and the layers built on them are equivariant. *)
From Coq Require Import String ZArith Permutation.
From Verif Require Import Prelude RMath Mat Interp SO2 O2 SO3 O3 Repulse RepulseFacts Tensor TensorFacts SignedPerm Functional FunctionalFacts Kernel KernelFacts
  GroupKernelFacts KernelMore Conv ConvSpec ConvFacts GConvFacts SepConvFacts SepProduct ConvInit ConvShift SepStages Prop_Kernel Prop_Kernel2 Prop_Conv Equi EquiLayer EquiSpec EquiSpecFacts.
Open Scope R_scope.

(** What a kernel must satisfy for the grid symmetry g with index permutation sp; e is the sign. *)
Record kernel_moves {G P} {D : Dflt P} (d : nat) (k : gkernel G P) (inv : G -> G) (mul : G -> G -> G) (act : G -> P -> P)
    (det : option (G -> R)) (g : G) (sp : sperm) (e : R) (H : list G) : Prop := {
  km_ops : gops_ok (k_ops k) inv mul act det;
  km_grid : has_shape (k_grid_Rn k) (k_size k);
  km_mask : mask_ok (k_mask k) (k_size k);
  km_size : prodn (k_size k) <> 0%nat;
  km_sp : sp_ok d sp;
  km_cube : exists kk, k_size k = repeat kk d;
  km_act : forall h x, In h H -> valid (k_size k) x ->
    act (inv (mul g h)) (at_ (k_grid_Rn k) x) = act (inv h) (at_ (k_grid_Rn k) (sp_idx sp (k_size k) x));
  km_maskinv : forall x, valid (k_size k) x -> maskf (k_mask k) (sp_idx sp (k_size k) x) = maskf (k_mask k) x;
  km_e : e = 1 \/ e = -1;
  km_det : forall h, In h H -> detf det (mul g h) = e * detf det h;
}.

Section Moves.
  Context {G P : Type} {D : Dflt P} (d : nat) (k : gkernel G P) (inv : G -> G) (mul : G -> G -> G) (act : G -> P -> P)
    (det : option (G -> R)) (g : G) (sp : sperm) (e : R).

  Lemma e_inv : e = 1 \/ e = -1 -> / e = e.
  Proof. intros [-> | ->]; lra. Qed.
  Lemma sp_valid H x : kernel_moves d k inv mul act det g sp e H -> valid (k_size k) x -> valid (k_size k) (sp_idx sp (k_size k) x).
  Proof.
    intros K Hx. destruct (km_cube _ _ _ _ _ _ _ _ _ _ K) as [kk E]. pose proof (km_sp _ _ _ _ _ _ _ _ _ _ K) as Hok. rewrite E in *.
    apply (sp_idx_valid d sp Hok _ _ (repeat_length kk d) (sp_shape_cube d sp kk Hok)). assumption.
  Qed.

  Lemma value_moved H h x (f : P -> R) : kernel_moves d k inv mul act det g sp e H -> In h H -> valid (k_size k) x ->
    maskf (k_mask k) x * f (act (inv (mul g h)) (at_ (k_grid_Rn k) x)) / detf det (mul g h) =
    e * (maskf (k_mask k) (sp_idx sp (k_size k) x) * f (act (inv h) (at_ (k_grid_Rn k) (sp_idx sp (k_size k) x))) / detf det h).
  Proof.
    intros K Hh Hx. rewrite (km_act _ _ _ _ _ _ _ _ _ _ K h x Hh Hx), (km_maskinv _ _ _ _ _ _ _ _ _ _ K x Hx),
      (km_det _ _ _ _ _ _ _ _ _ _ K h Hh). unfold Rdiv. rewrite Rinv_mult, (e_inv (km_e _ _ _ _ _ _ _ _ _ _ K)). ring.
  Qed.

  Lemma lifting_moved weight H smp : kernel_moves d k inv mul act det g sp e H ->
    op_sample_Rn (k_ops k) = Ok smp -> has_shape weight (lifting_weight_shape k) ->
    exists W W', lifting_kernel_forward k weight H = Ok W /\ has_shape W (k_out k :: List.length H :: k_cin k :: k_size k) /\
      lifting_kernel_forward k weight (map (mul g) H) = Ok W' /\ has_shape W' (k_out k :: List.length H :: k_cin k :: k_size k) /\
      forall o h c x, (o < k_out k)%nat -> (h < List.length H)%nat -> (c < k_cin k)%nat -> valid (k_size k) x ->
        at_ W' (o :: h :: c :: x) = e * at_ W (o :: h :: c :: sp_idx sp (k_size k) x).
  Proof.
    intros K Hsmp Hw. pose proof (km_ops _ _ _ _ _ _ _ _ _ _ K) as Hops. pose proof (km_grid _ _ _ _ _ _ _ _ _ _ K) as Hg.
    pose proof (km_mask _ _ _ _ _ _ _ _ _ _ K) as Hm. pose proof (km_size _ _ _ _ _ _ _ _ _ _ K) as Hz.
    destruct (lifting_formula k inv mul act det Hops Hg Hm Hz smp weight H Hsmp Hw) as (W & E & S & A).
    destruct (lifting_formula k inv mul act det Hops Hg Hm Hz smp weight (map (mul g) H) Hsmp Hw) as (W' & E' & S' & A').
    rewrite map_length in S'.
    exists W, W'. do 4 (split; [assumption|]). intros o i c x Ho Hi Hc Hx.
    destruct (nth_error H i) as [h|] eqn:Eh; [|apply nth_error_None in Eh; lia].
    rewrite (A o i h c _ Ho Eh Hc (sp_valid H x K Hx)). rewrite (A' o i (mul g h) c x Ho) by (try assumption; rewrite nth_error_map, Eh; reflexivity).
    apply (value_moved H h x (smp (k_size k) (slice weight (k_size k) [o; c])) K); [eapply nth_error_In; eassumption|assumption].
  Qed.

  Lemma relabel_any o c : (o < k_out k)%nat -> (c < k_cin k)%nat ->
    exists o' c', (o' < k_out k)%nat /\ (c' < k_cin k)%nat /\ (o' * k_cin k + c' = c * k_out k + o)%nat.
  Proof. apply relabel_exists. Qed.

  Lemma full_moved weight in_H out_H W : kernel_moves d k inv mul act det g sp e out_H ->
    (forall weight rows, op_sample_H (k_ops k) (prodn (k_out k :: k_cin k :: k_size k)) (relatives inv mul in_H out_H)
        (param_rows (k_gdim k) (k_out k :: k_cin k :: k_size k) weight) (k_grid_H k) = Ok rows ->
     exists V, sampled k inv mul (k_out k :: k_cin k :: k_size k) weight in_H out_H V) ->
    (forall a b, In a out_H -> In b in_H -> mul (inv (mul g a)) (mul g b) = mul (inv a) b) ->
    has_shape weight (full_weight_shape k) -> full_kernel_forward k weight in_H out_H = Ok W ->
    has_shape W (k_out k :: List.length out_H :: k_cin k :: List.length in_H :: k_size k) /\
    exists W', full_kernel_forward k weight (map (mul g) in_H) (map (mul g) out_H) = Ok W' /\
      has_shape W' (k_out k :: List.length out_H :: k_cin k :: List.length in_H :: k_size k) /\
      forall o i c j x, (o < k_out k)%nat -> (i < List.length out_H)%nat -> (c < k_cin k)%nat -> (j < List.length in_H)%nat -> valid (k_size k) x ->
        at_ W' (o :: i :: c :: j :: x) = e * at_ W (o :: i :: c :: j :: sp_idx sp (k_size k) x).
  Proof.
    intros K HV Hrel Hw HW. pose proof (km_ops _ _ _ _ _ _ _ _ _ _ K) as Hops. pose proof (km_grid _ _ _ _ _ _ _ _ _ _ K) as Hg.
    pose proof (km_mask _ _ _ _ _ _ _ _ _ _ K) as Hm. pose proof (km_size _ _ _ _ _ _ _ _ _ _ K) as Hz.
    destruct (full_inv k inv mul act det Hops weight in_H out_H W Hw HW) as (Hd & smp & rows & Hsmp & Hrows).
    destruct (HV weight rows Hrows) as [V Hs].
    destruct (full_formula k inv mul act det Hops Hg Hm Hz Hd smp weight in_H out_H V Hsmp Hw Hs) as (W0 & E & S & A).
    assert (W0 = W) by congruence. subst W0.
    assert (sampled k inv mul (k_out k :: k_cin k :: k_size k) weight (map (mul g) in_H) (map (mul g) out_H) V) as Hs'.
    { unfold sampled in *. rewrite relatives_moved by assumption. exact Hs. }
    destruct (full_formula k inv mul act det Hops Hg Hm Hz Hd smp weight _ _ V Hsmp Hw Hs') as (W' & E' & S' & A').
    rewrite !map_length in S'.
    split; [assumption|]. exists W'. do 2 (split; [assumption|]). intros o i c j x Ho Hi Hc Hj Hx.
    destruct (nth_error out_H i) as [a|] eqn:Ea; [|apply nth_error_None in Ea; lia].
    destruct (nth_error in_H j) as [b|] eqn:Eb; [|apply nth_error_None in Eb; lia].
    destruct (relabel_any o c Ho Hc) as (o' & c' & Ho' & Hc' & Hoc).
    rewrite (A o i a c j b _ o' c') by (try assumption; apply (sp_valid out_H x K Hx)).
    rewrite (A' o i (mul g a) c j (mul g b) x o' c') by (try assumption; rewrite nth_error_map, ?Ea, ?Eb; reflexivity).
    rewrite Hrel by (eapply nth_error_In; eassumption).
    apply (value_moved out_H a x (smp (k_size k) (image_of (k_out k) (k_cin k) (k_size k) (V (mul (inv a) b)) o' c')) K);
      [eapply nth_error_In; eassumption|assumption].
  Qed.

  Lemma separable_moved_sp weight_H weight in_H out_H WH WS : kernel_moves d k inv mul act det g sp e out_H ->
    (forall weight rows, op_sample_H (k_ops k) (prodn [k_out k; k_cin k]) (relatives inv mul in_H out_H)
        (param_rows (k_gdim k) [k_out k; k_cin k] weight) (k_grid_H k) = Ok rows ->
     exists V, sampled k inv mul [k_out k; k_cin k] weight in_H out_H V) ->
    (forall a b, In a out_H -> In b in_H -> mul (inv (mul g a)) (mul g b) = mul (inv a) b) ->
    has_shape weight_H (group_weight_shape k) -> has_shape weight (separable_weight_shape k) ->
    separable_kernel_forward k weight_H weight in_H out_H = Ok (WH, WS) ->
    has_shape WH (k_out k :: List.length in_H :: k_cin k :: List.length out_H :: repeat 1%nat (List.length (k_size k))) /\
    has_shape WS (k_out k :: List.length out_H :: 1%nat :: k_size k) /\
    exists WS', separable_kernel_forward k weight_H weight (map (mul g) in_H) (map (mul g) out_H) = Ok (WH, WS') /\
      has_shape WS' (k_out k :: List.length out_H :: 1%nat :: k_size k) /\
      forall o i x, (o < k_out k)%nat -> (i < List.length out_H)%nat -> valid (k_size k) x ->
        at_ WS' (o :: i :: 0%nat :: x) = e * at_ WS (o :: i :: 0%nat :: sp_idx sp (k_size k) x).
  Proof.
    intros K HV Hrel HwH Hw HW. pose proof (km_ops _ _ _ _ _ _ _ _ _ _ K) as Hops. pose proof (km_grid _ _ _ _ _ _ _ _ _ _ K) as Hg.
    pose proof (km_mask _ _ _ _ _ _ _ _ _ _ K) as Hm. pose proof (km_size _ _ _ _ _ _ _ _ _ _ K) as Hz.
    destruct (separable_inv k inv mul act det Hops weight_H weight in_H out_H _ HwH HW) as (Hd & smp & rows & Hsmp & Hrows).
    destruct (HV weight_H rows Hrows) as [V Hs].
    destruct (separable_formula k inv mul act det Hops Hg Hm Hz Hd smp weight_H weight in_H out_H V Hsmp HwH Hw Hs) as (WH0 & W0 & E & S1 & S2 & _ & A).
    assert (WH0 = WH /\ W0 = WS) as [-> ->] by (split; congruence).
    assert (sampled k inv mul [k_out k; k_cin k] weight_H (map (mul g) in_H) (map (mul g) out_H) V) as Hs'.
    { unfold sampled in *. rewrite relatives_moved by assumption. exact Hs. }
    destruct (separable_formula k inv mul act det Hops Hg Hm Hz Hd smp weight_H weight _ _ V Hsmp HwH Hw Hs') as (WH' & W' & E' & _ & S2' & _ & A').
    rewrite map_length in S2'.
    destruct (separable_moved k inv mul act det Hops Hg Hm Hz smp g weight_H weight in_H out_H WH WS Hrel Hsmp Hw HW) as (W1 & E1).
    assert (WH' = WH) by congruence. subst WH'.
    split; [assumption|]. split; [assumption|]. exists W'. do 2 (split; [assumption|]). intros o i x Ho Hi Hx.
    destruct (nth_error out_H i) as [a|] eqn:Ea; [|apply nth_error_None in Ea; lia].
    rewrite (A o i a _ Ho Ea (sp_valid out_H x K Hx)). rewrite (A' o i (mul g a) x Ho) by (try assumption; rewrite nth_error_map, Ea; reflexivity).
    apply (value_moved out_H a x (smp (k_size k) (slice weight (k_size k) [o; 0%nat])) K); [eapply nth_error_In; eassumption|assumption].
  Qed.
End Moves.

(** Entries of a layer output before the bias was added, up to the sign e. *)
Definition sign_rel (d : nat) (bias : option (tensor R)) (e : R) (pre : list nat) (v v' : R) : Prop :=
  v' - bias_value d bias (nth 1 pre 0%nat) = e * (v - bias_value d bias (nth 1 pre 0%nat)).

(** Factor eps between the inputs. *)
Definition factor_rel (eps : R) (pre : list nat) (v v' : R) : Prop := v' = eps * v.

Lemma app_inv_len {A} (a b c e : list A) : a ++ b = c ++ e -> List.length b = List.length e -> a = c /\ b = e.
Proof.
  intros E L. assert (List.length a = List.length c) as La.
  { apply (f_equal (@List.length A)) in E. rewrite !app_length in E. lia. }
  clear L. revert c E La. induction a as [|x a IH]; intros [|y c] E La; try discriminate; cbn in E.
  - auto.
  - injection E as <- E. injection La as La. destruct (IH c E La) as [-> ->]. auto.
Qed.

Lemma carried_sp_inv d sp rel X X' lead s : carried_sp d sp rel X X' -> has_shape X (lead ++ s) -> List.length s = d ->
  exists s', has_shape X' (lead ++ s') /\ sp_shape sp s s' /\
    forall pre i, valid lead pre -> valid s' i -> rel pre (at_ X (pre ++ sp_idx sp s i)) (at_ X' (pre ++ i)).
Proof.
  intros (lead0 & s0 & s' & L0 & [S0 _] & S' & Hsh & V) [S _] L. rewrite S in S0.
  destruct (app_inv_len _ _ _ _ S0) as [<- <-]; [congruence|]. exists s'. auto.
Qed.

Section LayerMoves.
  Context {G P : Type} {D : Dflt P} (d : nat) (L : gconv G P) (cin cout kk : nat) (kn : gkernel G P) (groups st : nat) (padding : padarg) (dl : nat)
          (m : padmode) (bias : option (tensor R)) (lp : nat).
  Hypothesis Hc : constructed d L cin cout (repeat kk d) kn groups (repeat st d) padding (repeat dl d) m bias.
  Hypothesis Hpad : padded_by d padding kk dl lp.
  Hypothesis Hko : k_out kn = cout.
  Hypothesis Hki : k_cin kn = (cin / groups)%nat.
  Hypothesis Hks : k_size kn = repeat kk d.
  Context (inv : G -> G) (mul : G -> G -> G) (act : G -> P -> P) (det : option (G -> R)) (g : G) (sp : sperm) (e eps : R).

  Lemma lifting_layer smp weight H X X' N s out :
    kernel_moves d kn inv mul act det g sp e H ->
    op_sample_Rn (k_ops kn) = Ok smp -> has_shape weight (lifting_weight_shape kn) -> H <> [] ->
    has_shape X (N :: cin :: s) -> List.length s = d -> covered d kk st dl lp s ->
    carried_sp d sp (factor_rel eps) X X' ->
    lifting_forward L weight X H = Ok (out, H) ->
    exists out', lifting_forward L weight X' (map (mul g) H) = Ok (out', map (mul g) H) /\
      carried_sp d sp (sign_rel d bias (eps * e)) out out'.
  Proof.
    intros K Hsmp Hw HH HX Hs Hex HC E. pose proof (km_sp _ _ _ _ _ _ _ _ _ _ K) as Hok.
    destruct (carried_sp_inv _ _ _ _ _ [N; cin] s HC HX Hs) as (s' & HX' & Hsh & V). cbn [app] in HX'.
    destruct (lifting_moved d kn inv mul act det g sp e weight H smp K Hsmp Hw) as (W & W' & EW & SW & EW' & SW' & A).
    rewrite Hko, Hki, Hks in *.
    destruct (lifting_equi d sp Hok L cin cout kk kn groups st padding dl m bias lp Hc Hpad s s' Hs Hsh
      weight weight W W' H (map (mul g) H) X X' N eps e out HH (map_length _ _) EW SW EW' SW' A HX HX') as (So & out' & E' & So' & Vo); try assumption.
    - intros n c Hn Hcc i Hi. apply (V [n; c] i); [repeat apply valid_cons; try assumption; apply valid_nil|assumption].
    - exists out'. split; [assumption|]. exists [N; cout; List.length H], (usize d kk st dl lp s), (usize d kk st dl lp s').
      split; [apply usize_length|]. do 2 (split; [assumption|]). split; [apply usize_shape; assumption|].
      intros pre i Hp Hi. apply valid3_split in Hp. destruct Hp as (n & o & h & -> & Hn & Ho & Hh).
      unfold sign_rel. cbn [nth app]. apply Vo; assumption.
  Qed.

  Lemma group_layer weight in_H out_H X X' N s out :
    kernel_moves d kn inv mul act det g sp e out_H ->
    (forall weight rows, op_sample_H (k_ops kn) (prodn (k_out kn :: k_cin kn :: k_size kn)) (relatives inv mul in_H out_H)
        (param_rows (k_gdim kn) (k_out kn :: k_cin kn :: k_size kn) weight) (k_grid_H kn) = Ok rows ->
     exists V, sampled kn inv mul (k_out kn :: k_cin kn :: k_size kn) weight in_H out_H V) ->
    (forall a b, In a out_H -> In b in_H -> mul (inv (mul g a)) (mul g b) = mul (inv a) b) ->
    has_shape weight (full_weight_shape kn) -> out_H <> [] ->
    has_shape X (N :: cin :: List.length in_H :: s) -> List.length s = d -> covered d kk st dl lp s ->
    carried_sp d sp (factor_rel eps) X X' ->
    full_forward L weight X in_H out_H = Ok (out, out_H) ->
    exists out', full_forward L weight X' (map (mul g) in_H) (map (mul g) out_H) = Ok (out', map (mul g) out_H) /\
      carried_sp d sp (sign_rel d bias (eps * e)) out out'.
  Proof.
    intros K HV Hrel Hw HH HX Hs Hex HC E. pose proof (km_sp _ _ _ _ _ _ _ _ _ _ K) as Hok.
    destruct (carried_sp_inv _ _ _ _ _ [N; cin; List.length in_H] s HC HX Hs) as (s' & HX' & Hsh & V). cbn [app] in HX'.
    destruct (constructed_spec _ _ _ _ _ _ _ _ _ _ _ _ Hc) as (_ & _ & Ek & _).
    assert (exists W, full_kernel_forward kn weight in_H out_H = Ok W) as [W EW].
    { unfold full_forward, group_forward_with in E. rewrite Ek, (proj1 HX) in E. destruct (full_kernel_forward kn weight in_H out_H) as [W|]; [eauto|discriminate]. }
    destruct (full_moved d kn inv mul act det g sp e weight in_H out_H W K HV Hrel Hw EW) as (SW & W' & EW' & SW' & A).
    rewrite Hko, Hki, Hks in *.
    destruct (group_equi d sp Hok L cin cout kk kn groups st padding dl m bias lp Hc Hpad s s' Hs Hsh
      weight weight W W' in_H (map (mul g) in_H) out_H (map (mul g) out_H) X X' N eps e out HH (map_length _ _) (map_length _ _) EW SW EW' SW' A HX HX')
      as (So & out' & E' & So' & Vo); try assumption.
    - intros n c h Hn Hcc Hh i Hi. apply (V [n; c; h] i); [repeat apply valid_cons; try assumption; apply valid_nil|assumption].
    - exists out'. split; [assumption|]. exists [N; cout; List.length out_H], (usize d kk st dl lp s), (usize d kk st dl lp s').
      split; [apply usize_length|]. do 2 (split; [assumption|]). split; [apply usize_shape; assumption|].
      intros pre i Hp Hi. apply valid3_split in Hp. destruct Hp as (n & o & h & -> & Hn & Ho & Hh).
      unfold sign_rel. cbn [nth app]. apply Vo; assumption.
  Qed.

  Lemma separable_layer weight_H weight in_H out_H X X' N s out :
    kernel_moves d kn inv mul act det g sp e out_H ->
    (forall weight rows, op_sample_H (k_ops kn) (prodn [k_out kn; k_cin kn]) (relatives inv mul in_H out_H)
        (param_rows (k_gdim kn) [k_out kn; k_cin kn] weight) (k_grid_H kn) = Ok rows ->
     exists V, sampled kn inv mul [k_out kn; k_cin kn] weight in_H out_H V) ->
    (forall a b, In a out_H -> In b in_H -> mul (inv (mul g a)) (mul g b) = mul (inv a) b) ->
    has_shape weight_H (group_weight_shape kn) -> has_shape weight (separable_weight_shape kn) -> out_H <> [] ->
    has_shape X (N :: cin :: List.length in_H :: s) -> List.length s = d ->
    covered d 1 st dl (first_pad m padding lp) s -> covered d kk st dl lp (usize d 1 st dl (first_pad m padding lp) s) ->
    carried_sp d sp (factor_rel eps) X X' ->
    separable_forward L weight_H weight X in_H out_H = Ok (out, out_H) ->
    exists out', separable_forward L weight_H weight X' (map (mul g) in_H) (map (mul g) out_H) = Ok (out', map (mul g) out_H) /\
      carried_sp d sp (sign_rel d bias (eps * e)) out out'.
  Proof.
    intros K HV Hrel HwH Hw HH HX Hs Hex1 Hex2 HC E. pose proof (km_sp _ _ _ _ _ _ _ _ _ _ K) as Hok.
    destruct (carried_sp_inv _ _ _ _ _ [N; cin; List.length in_H] s HC HX Hs) as (s' & HX' & Hsh & V). cbn [app] in HX'.
    destruct (constructed_spec _ _ _ _ _ _ _ _ _ _ _ _ Hc) as (_ & _ & Ek & _).
    assert (exists WH WS, separable_kernel_forward kn weight_H weight in_H out_H = Ok (WH, WS)) as (WH & WS & EW).
    { unfold separable_forward in E. rewrite Ek, (proj1 HX) in E. cbv zeta in E. destruct (separable_kernel_forward kn weight_H weight in_H out_H) as [[WH WS]|]; [eauto|discriminate]. }
    destruct (separable_moved_sp d kn inv mul act det g sp e weight_H weight in_H out_H WH WS K HV Hrel HwH Hw EW) as (SWH & SWS & WS' & EW' & SWS' & A).
    rewrite Hko, Hki, Hks in *. rewrite repeat_length in SWH.
    destruct (separable_equi d sp Hok L cin cout kk kn groups st padding dl m bias lp Hc Hpad s s' Hs Hsh
      weight_H weight weight WH WS WS' in_H (map (mul g) in_H) out_H (map (mul g) out_H) X X' N eps e out HH (map_length _ _) (map_length _ _)
      EW EW' SWH SWS SWS' A HX HX') as (So & out' & E' & So' & Vo); try assumption.
    - intros n c h Hn Hcc Hh i Hi. apply (V [n; c; h] i); [repeat apply valid_cons; try assumption; apply valid_nil|assumption].
    - set (mid := usize d 1 st dl (first_pad m padding lp) s) in *. set (mid' := usize d 1 st dl (first_pad m padding lp) s') in *.
      exists out'. split; [assumption|]. exists [N; cout; List.length out_H], (usize d kk st dl lp mid), (usize d kk st dl lp mid').
      split; [apply usize_length|]. split; [exact So|]. split; [exact So'|].
      split; [apply usize_shape; [assumption|apply usize_shape; assumption]|].
      intros pre i Hp Hi. apply valid3_split in Hp. destruct Hp as (n & o & h & -> & Hn & Ho & Hh).
      unfold sign_rel. cbn [nth app]. apply Vo; assumption.
  Qed.
End LayerMoves.
