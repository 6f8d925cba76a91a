(** The three forward passes commute with signed permutations of the axes, given kernels that do. *)
From Coq Require Import String ZArith Permutation.
From Verif Require Import Prelude RMath Mat Repulse RepulseFacts Tensor TensorFacts SignedPerm Kernel KernelFacts
  Conv ConvSpec ConvFacts GConvFacts SepConvFacts SepProduct ConvInit ConvShift SepStages Equi Prop_Conv.
Open Scope nat_scope.

(** The same amount lp on both sides of every axis of a kernel of size k with dilation dl. *)
Definition padded_by (d : nat) (padding : padarg) (k dl lp : nat) : Prop :=
  padding = PInt lp \/ padding = PTuple (repeat lp d) \/ (padding = PStr "valid" /\ lp = 0) \/
  (padding = PStr "same" /\ 2 * lp = dl * (k - 1)).

Lemma padded_by_lists d padding k dl lp : padded_by d padding k dl lp ->
  lefts (stored_padding d padding) (repeat k d) (repeat dl d) = repeat lp d /\
  rights (stored_padding d padding) (repeat k d) (repeat dl d) = repeat lp d.
Proof.
  intros H.
  assert (forall f, (forall j, j < d -> f j = lp) -> axes d f = repeat lp d) as Hax.
  { intros f Hf. apply nth_ext with (d := 0) (d' := 0); [rewrite axes_length, repeat_length; reflexivity|].
    intros j Hj. rewrite axes_length in Hj. rewrite nth_axes, nth_rep by assumption. apply Hf. assumption. }
  unfold lefts, rights. rewrite repeat_length. split; apply Hax; intros j Hj; rewrite ?nth_rep by assumption;
    destruct H as [->|[->|[[-> ->]|[-> E]]]]; cbn [stored_padding left_pad right_pad String.eqb Ascii.eqb Bool.eqb]; rewrite ?nth_rep by assumption; auto.
  - rewrite <- E, Nat.mul_comm. apply Nat.div_mul. lia.
  - rewrite <- E, Nat.mul_comm, Nat.div_mul by lia. lia.
Qed.

(** Padding of the first stage of the separable convolution. *)
Definition first_pad (m : padmode) (padding : padarg) (lp : nat) : nat :=
  match m, padding with Zeros, PStr "same" => 0 | _, _ => lp end.
Lemma first_pad_lists d m padding kk dl lp : padded_by d padding kk dl lp ->
  let ks1 := match m with Zeros => repeat 1 d | _ => repeat kk d end in
  lefts (stored_padding d padding) ks1 (repeat dl d) = repeat (first_pad m padding lp) d /\
  rights (stored_padding d padding) ks1 (repeat dl d) = repeat (first_pad m padding lp) d.
Proof.
  intros Hpad. cbv zeta. destruct m; cbn [first_pad]; try (apply (padded_by_lists _ _ _ _ _ Hpad)).
  apply padded_by_lists.
  destruct Hpad as [->|[->|[[-> ->]|[-> E]]]]; cbn; unfold padded_by; auto.
Qed.

(** The stride divides the extent, or is 1. *)
Definition covered (d k st dl lp : nat) (s : list nat) : Prop := st = 1 \/ exact d k st dl lp s.
Lemma covered_exact d m k st dl lp s : covered d k st dl lp s ->
  fits m s (repeat k d) (repeat st d) (repeat dl d) (repeat lp d) (repeat lp d) -> exact d k st dl lp s.
Proof.
  intros [-> |H] F; [|assumption]. intros j Hj. destruct (F j) as [F1 _]; [rewrite repeat_length; assumption|].
  rewrite !nth_rep in F1 by assumption. exists (nth j s 0 + 2 * lp - (dl * (k - 1) + 1)). set (T := dl * (k - 1)) in *. lia.
Qed.

Section Layers.
  Context {G P : Type} {D : Dflt P} (d : nat) (sp : sperm) (Hok : sp_ok d sp).
  Context (L : gconv G P) (cin cout kk : nat) (kn : gkernel G P) (groups st : nat) (padding : padarg) (dl : nat) (m : padmode)
          (bias : option (tensor R)) (lp : nat).
  Hypothesis Hc : constructed d L cin cout (repeat kk d) kn groups (repeat st d) padding (repeat dl d) m bias.
  Hypothesis Hpad : padded_by d padding kk dl lp.
  Context (s s' : list nat) (Hs : length s = d) (Hsh : sp_shape sp s s').
  Let Hs' : length s' = d := eq_trans (proj1 Hsh) Hs.
  Let ci := cin / groups.
  Let fp1 := first_pad m padding lp.

  Lemma d_pos : 0 < d.
  Proof. destruct Hc as (cm & gks & pm & Hm & _). lia. Qed.
  Lemma positive : 0 < kk /\ 0 < st /\ 0 < dl.
  Proof.
    destruct Hc as (cm & gks & pm & Hm & _ & _ & (_ & _ & _ & _ & _ & A & B & C) & _).
    pose proof d_pos as Hd. assert (forall x : nat, In x (repeat x d)) as Hin by (intros x; destruct d; [lia|left; reflexivity]).
    split; [|split]; auto.
  Qed.

  Lemma lifting_equi weight weight' W W' (H H' : list G) X X' N eps eps' out :
    H <> [] -> length H' = length H ->
    lifting_kernel_forward kn weight H = Ok W -> has_shape W (cout :: length H :: ci :: repeat kk d) ->
    lifting_kernel_forward kn weight' H' = Ok W' -> has_shape W' (cout :: length H :: ci :: repeat kk d) ->
    (forall o h c x, o < cout -> h < length H -> c < ci -> valid (repeat kk d) x ->
       at_ W' (o :: h :: c :: x) = (eps' * at_ W (o :: h :: c :: sp_idx sp (repeat kk d) x))%R) ->
    has_shape X (N :: cin :: s) -> has_shape X' (N :: cin :: s') ->
    (forall n c, n < N -> c < cin -> reindexed sp s s' eps X X' [n; c] [n; c]) ->
    covered d kk st dl lp s ->
    lifting_forward L weight X H = Ok (out, H) ->
    has_shape out (N :: cout :: length H :: usize d kk st dl lp s) /\
    exists out', lifting_forward L weight' X' H' = Ok (out', H') /\
      has_shape out' (N :: cout :: length H :: usize d kk st dl lp s') /\
      forall n o h y, n < N -> o < cout -> h < length H -> valid (usize d kk st dl lp s') y ->
        (at_ out' (n :: o :: h :: y) - bias_value d bias o =
         eps * eps' * (at_ out (n :: o :: h :: sp_idx sp (usize d kk st dl lp s) y) - bias_value d bias o))%R.
  Proof.
    intros HH HL EW HW EW' HW' Hker HX HX' Hre Hex E.
    destruct positive as (Pk & Ps & Pd).
    destruct (padded_by_lists _ _ _ _ _ Hpad) as [El Er].
    destruct (C45_lifting_convolution _ _ D _ _ _ _ _ _ _ _ _ _ _ _ _ _ _ _ _ _ Hc HH EW HW HX Hs) as [A B].
    assert (H' <> []) as HH' by (destruct H'; [destruct H; [congruence|discriminate]|discriminate]).
    rewrite <- HL in HW'.
    destruct (C45_lifting_convolution _ _ D _ _ _ _ _ _ _ _ _ _ _ _ _ _ _ _ _ _ Hc HH' EW' HW' HX' Hs') as [A' _].
    cbv zeta in A, B, A'. rewrite El, Er in A, B, A'.
    fold (usize d kk st dl lp s) in A. fold (usize d kk st dl lp s') in A'.
    destruct (fits_em m s (repeat kk d) (repeat st d) (repeat dl d) (repeat lp d) (repeat lp d)) as [F|F]; [|rewrite (B F) in E; discriminate].
    apply (covered_exact _ _ _ _ _ _ _ Hex) in F as Hex'. clear Hex. rename Hex' into Hex.
    destruct (A F) as (x & Ex & Sx & Vx). rewrite Ex in E. injection E as <-. split; [assumption|].
    destruct (A' (fits_moved d sp Hok kk st dl lp s s' Hsh m F)) as (x' & Ex' & Sx' & Vx').
    exists x'. split; [assumption|]. rewrite HL in Sx'. split; [assumption|].
    intros n o h y Hn Ho Hh Hy. rewrite Vx' by (try assumption; lia).
    rewrite Vx; try assumption.
    2:{ apply (sp_idx_valid d sp Hok _ _ (usize_length _ _ _ _ _ _) (usize_shape d sp Hok kk st dl lp s s' Hsh)). assumption. }
    match goal with |- (?a + ?b - ?b)%R = (_ * (?e + ?b - ?b))%R => replace (a + b - b)%R with a by ring; replace (e + b - b)%R with e by ring end.
    rewrite <- sumR_scale. apply sumR_ext. intros c Hcc. apply in_seq in Hcc. assert (c < ci) as Hci by (unfold ci; lia).
    apply (conv_flip d sp Hok kk st dl lp Pk Ps Pd s s' Hs Hsh m eps eps' X X'
      [n; o / (cout / groups) * (cin / groups) + c] [n; o / (cout / groups) * (cin / groups) + c]
      (fun x => at_ W (o :: h :: c :: x)) (fun x => at_ W' (o :: h :: c :: x)) y); try assumption.
    - apply Hre; [assumption|]. apply (channel_read _ _ _ _ _ _ _ _ _ _ _ _ _ _ Hc); assumption.
    - intros x0 Hx0. apply Hker; assumption.
  Qed.

  Lemma group_equi weight weight' W W' (in_H in_H' out_H out_H' : list G) X X' N eps eps' out :
    out_H <> [] -> length in_H' = length in_H -> length out_H' = length out_H ->
    full_kernel_forward kn weight in_H out_H = Ok W -> has_shape W (cout :: length out_H :: ci :: length in_H :: repeat kk d) ->
    full_kernel_forward kn weight' in_H' out_H' = Ok W' -> has_shape W' (cout :: length out_H :: ci :: length in_H :: repeat kk d) ->
    (forall o g c h x, o < cout -> g < length out_H -> c < ci -> h < length in_H -> valid (repeat kk d) x ->
       at_ W' (o :: g :: c :: h :: x) = (eps' * at_ W (o :: g :: c :: h :: sp_idx sp (repeat kk d) x))%R) ->
    has_shape X (N :: cin :: length in_H :: s) -> has_shape X' (N :: cin :: length in_H :: s') ->
    (forall n c h, n < N -> c < cin -> h < length in_H -> reindexed sp s s' eps X X' [n; c; h] [n; c; h]) ->
    covered d kk st dl lp s ->
    full_forward L weight X in_H out_H = Ok (out, out_H) ->
    has_shape out (N :: cout :: length out_H :: usize d kk st dl lp s) /\
    exists out', full_forward L weight' X' in_H' out_H' = Ok (out', out_H') /\
      has_shape out' (N :: cout :: length out_H :: usize d kk st dl lp s') /\
      forall n o h y, n < N -> o < cout -> h < length out_H -> valid (usize d kk st dl lp s') y ->
        (at_ out' (n :: o :: h :: y) - bias_value d bias o =
         eps * eps' * (at_ out (n :: o :: h :: sp_idx sp (usize d kk st dl lp s) y) - bias_value d bias o))%R.
  Proof.
    intros HH HLi HL EW HW EW' HW' Hker HX HX' Hre Hex E.
    destruct positive as (Pk & Ps & Pd).
    destruct (padded_by_lists _ _ _ _ _ Hpad) as [El Er].
    destruct (C46_group_convolution _ _ D _ _ _ _ _ _ _ _ _ _ _ _ _ _ _ _ _ _ _ Hc HH EW HW HX Hs) as [A B].
    assert (out_H' <> []) as HH' by (destruct out_H'; [destruct out_H; [congruence|discriminate]|discriminate]).
    rewrite <- HL, <- HLi in HW'. rewrite <- HLi in HX'.
    destruct (C46_group_convolution _ _ D _ _ _ _ _ _ _ _ _ _ _ _ _ _ _ _ _ _ _ Hc HH' EW' HW' HX' Hs') as [A' _].
    cbv zeta in A, B, A'. rewrite El, Er in A, B, A'.
    fold (usize d kk st dl lp s) in A. fold (usize d kk st dl lp s') in A'.
    destruct (fits_em m s (repeat kk d) (repeat st d) (repeat dl d) (repeat lp d) (repeat lp d)) as [F|F]; [|rewrite (B F) in E; discriminate].
    apply (covered_exact _ _ _ _ _ _ _ Hex) in F as Hex'. clear Hex. rename Hex' into Hex.
    destruct (A F) as (x & Ex & Sx & Vx). rewrite Ex in E. injection E as <-. split; [assumption|].
    destruct (A' (fits_moved d sp Hok kk st dl lp s s' Hsh m F)) as (x' & Ex' & Sx' & Vx').
    exists x'. split; [assumption|]. rewrite HL in Sx'. split; [assumption|].
    intros n o h y Hn Ho Hh Hy. rewrite Vx' by (try assumption; lia). rewrite HLi.
    rewrite Vx; try assumption.
    2:{ apply (sp_idx_valid d sp Hok _ _ (usize_length _ _ _ _ _ _) (usize_shape d sp Hok kk st dl lp s s' Hsh)). assumption. }
    match goal with |- (?a + ?b - ?b)%R = (_ * (?e + ?b - ?b))%R => replace (a + b - b)%R with a by ring; replace (e + b - b)%R with e by ring end.
    rewrite <- sumR_scale. apply sumR_ext. intros c Hcc. apply in_seq in Hcc. assert (c < ci) as Hci by (unfold ci; lia).
    rewrite <- sumR_scale. apply sumR_ext. intros j Hj. apply in_seq in Hj.
    apply (conv_flip d sp Hok kk st dl lp Pk Ps Pd s s' Hs Hsh m eps eps' X X'
      [n; o / (cout / groups) * (cin / groups) + c; j] [n; o / (cout / groups) * (cin / groups) + c; j]
      (fun x => at_ W (o :: h :: c :: j :: x)) (fun x => at_ W' (o :: h :: c :: j :: x)) y); try assumption.
    - apply Hre; [assumption| |lia]. apply (channel_read _ _ _ _ _ _ _ _ _ _ _ _ _ _ Hc); assumption.
    - intros x0 Hx0. apply Hker; try assumption. lia.
  Qed.

  Lemma separable_equi weight_H weight weight' WH WS WS' (in_H in_H' out_H out_H' : list G) X X' N eps eps' out :
    out_H <> [] -> length in_H' = length in_H -> length out_H' = length out_H ->
    separable_kernel_forward kn weight_H weight in_H out_H = Ok (WH, WS) ->
    separable_kernel_forward kn weight_H weight' in_H' out_H' = Ok (WH, WS') ->
    has_shape WH (cout :: length in_H :: ci :: length out_H :: repeat 1 d) ->
    has_shape WS (cout :: length out_H :: 1 :: repeat kk d) -> has_shape WS' (cout :: length out_H :: 1 :: repeat kk d) ->
    (forall o g x, o < cout -> g < length out_H -> valid (repeat kk d) x ->
       at_ WS' (o :: g :: 0 :: x) = (eps' * at_ WS (o :: g :: 0%nat :: sp_idx sp (repeat kk d) x))%R) ->
    has_shape X (N :: cin :: length in_H :: s) -> has_shape X' (N :: cin :: length in_H :: s') ->
    (forall n c h, n < N -> c < cin -> h < length in_H -> reindexed sp s s' eps X X' [n; c; h] [n; c; h]) ->
    let mid := usize d 1 st dl fp1 s in
    let mid' := usize d 1 st dl fp1 s' in
    covered d 1 st dl fp1 s -> covered d kk st dl lp mid ->
    separable_forward L weight_H weight X in_H out_H = Ok (out, out_H) ->
    has_shape out (N :: cout :: length out_H :: usize d kk st dl lp mid) /\
    exists out', separable_forward L weight_H weight' X' in_H' out_H' = Ok (out', out_H') /\
      has_shape out' (N :: cout :: length out_H :: usize d kk st dl lp mid') /\
      forall n o h y, n < N -> o < cout -> h < length out_H -> valid (usize d kk st dl lp mid') y ->
        (at_ out' (n :: o :: h :: y) - bias_value d bias o =
         eps * eps' * (at_ out (n :: o :: h :: sp_idx sp (usize d kk st dl lp mid) y) - bias_value d bias o))%R.
  Proof.
    intros HH HLi HL EW EW' HWH HWS HWS' Hker HX HX' Hre mid mid' Hex1 Hex2 E.
    destruct positive as (Pk & Ps & Pd).
    destruct (padded_by_lists _ _ _ _ _ Hpad) as [El Er]. destruct (first_pad_lists _ m _ _ _ _ Hpad) as [El1 Er1]. fold fp1 in El1, Er1.
    destruct (separable_two_stage _ _ D _ _ _ _ _ _ _ _ _ _ _ _ _ _ _ _ _ _ _ _ _ Hc HH EW HWH HWS HX Hs) as [A B].
    assert (out_H' <> []) as HH' by (destruct out_H'; [destruct out_H; [congruence|discriminate]|discriminate]).
    assert (has_shape WH (cout :: length in_H' :: ci :: length out_H' :: repeat 1 d)) as HWH' by (rewrite HL, HLi; assumption).
    rewrite <- HL in HWS'. rewrite <- HLi in HX'.
    destruct (separable_two_stage _ _ D _ _ _ _ _ _ _ _ _ _ _ _ _ _ _ _ _ _ _ _ _ Hc HH' EW' HWH' HWS' HX' Hs') as [A' _].
    cbv zeta in A, B, A'. rewrite El, Er, El1, Er1 in A, B, A'.
    fold (usize d 1 st dl fp1 s) in A, B. fold (usize d 1 st dl fp1 s') in A'. fold mid in A, B. fold mid' in A'.
    fold (usize d kk st dl lp mid) in A. fold (usize d kk st dl lp mid') in A'.
    set (F1 := fits m s (repeat 1 d) (repeat st d) (repeat dl d) (repeat fp1 d) (repeat fp1 d)) in *.
    set (F2 := fits m mid (repeat kk d) (repeat st d) (repeat dl d) (repeat lp d) (repeat lp d)) in *.
    assert (F1 /\ F2) as [G1 G2].
    { destruct (fits_em m s (repeat 1 d) (repeat st d) (repeat dl d) (repeat fp1 d) (repeat fp1 d)) as [G1|G1];
        [destruct (fits_em m mid (repeat kk d) (repeat st d) (repeat dl d) (repeat lp d) (repeat lp d)) as [G2|G2]; [split; assumption|]|];
        rewrite B in E by tauto; discriminate. }
    apply (covered_exact _ _ _ _ _ _ _ Hex1) in G1 as Hex1'. apply (covered_exact _ _ _ _ _ _ _ Hex2) in G2 as Hex2'. clear Hex1 Hex2. rename Hex1' into Hex1. rename Hex2' into Hex2.
    destruct (A G1 G2) as (t & x & Ex & St & Sx & Vt & Vx). rewrite Ex in E. injection E as <-. split; [assumption|].
    pose proof (usize_shape d sp Hok 1 st dl fp1 s s' Hsh) as Hshm. fold mid mid' in Hshm.
    assert (length mid = d) as Lmid by apply usize_length.
    destruct (A' (fits_moved d sp Hok 1 st dl fp1 s s' Hsh m G1) (fits_moved d sp Hok kk st dl lp mid mid' Hshm m G2))
      as (t' & x' & Ex' & St' & Sx' & Vt' & Vx').
    exists x'. split; [assumption|]. rewrite HL in Sx'. split; [assumption|].
    intros n o h y Hn Ho Hh Hy. rewrite Vx' by (try assumption; lia).
    rewrite Vx; try assumption.
    2:{ apply (sp_idx_valid d sp Hok _ _ (usize_length _ _ _ _ _ _) (usize_shape d sp Hok kk st dl lp mid mid' Hshm)). assumption. }
    match goal with |- (?a + ?b - ?b)%R = (_ * (?e + ?b - ?b))%R => replace (a + b - b)%R with a by ring; replace (e + b - b)%R with e by ring end.
    apply (conv_flip d sp Hok kk st dl lp Pk Ps Pd mid mid' Lmid Hshm m eps eps' t t' [n; o; h] [n; o; h]
      (fun x => at_ WS (o :: h :: 0 :: x)) (fun x => at_ WS' (o :: h :: 0 :: x)) y); try assumption.
    - intros i Hi. cbn [app]. rewrite Vt' by (try assumption; lia).
      rewrite Vt; try assumption.
      2:{ apply (sp_idx_valid d sp Hok _ _ Lmid Hshm). assumption. }
      rewrite HLi, HL. rewrite <- sumR_scale. apply sumR_ext. intros c Hcc. apply in_seq in Hcc. assert (c < ci) as Hci by (unfold ci; lia).
      rewrite <- sumR_scale. apply sumR_ext. intros j Hj. apply in_seq in Hj.
      pose proof (conv_flip d sp Hok 1 st dl fp1 Nat.lt_0_1 Ps Pd s s' Hs Hsh m eps 1 X X'
        [n; o / (cout / groups) * (cin / groups) + c; j] [n; o / (cout / groups) * (cin / groups) + c; j]
        (fun _ => 1%R) (fun _ => 1%R) i Hex1 G1) as Q.
      rewrite indices_ones in Q. cbn [map sumR] in Q. rewrite !Rplus_0_r, !Rmult_1_l, Rmult_1_r in Q.
      rewrite Q; [fold mid; ring| | |exact Hi].
      + apply Hre; [assumption| |lia]. apply (channel_read _ _ _ _ _ _ _ _ _ _ _ _ _ _ Hc); assumption.
      + intros. ring.
    - intros x0 Hx0. apply Hker; assumption.
  Qed.
End Layers.
