(** When the separable convolution is the full convolution with the product kernel. *)
From Coq Require Import String ZArith.
From Verif Require Import Prelude RMath Mat Repulse RepulseFacts Tensor TensorFacts SignedPerm Kernel KernelFacts Conv ConvSpec ConvFacts GConvFacts SepConvFacts.
Open Scope nat_scope.

Lemma sumR_scale {A} k (f : A -> R) l : sumR (map (fun a => (k * f a)%R) l) = (k * sumR (map f l))%R.
Proof. induction l as [|a l IH]; simpl; [ring|]. rewrite IH. ring. Qed.
Lemma sumR_scale_r {A} k (f : A -> R) l : sumR (map (fun a => (f a * k)%R) l) = (sumR (map f l) * k)%R.
Proof. induction l as [|a l IH]; simpl; [ring|]. rewrite IH. ring. Qed.
Lemma sumR_plus {A} (f g : A -> R) l : sumR (map (fun a => (f a + g a)%R) l) = (sumR (map f l) + sumR (map g l))%R.
Proof. induction l as [|a l IH]; simpl; [ring|]. rewrite IH. ring. Qed.
Lemma sumR_zero {A} (f : A -> R) l : (forall a, In a l -> f a = 0%R) -> sumR (map f l) = 0%R.
Proof. induction l as [|a l IH]; simpl; intros H; [reflexivity|]. rewrite H, IH by auto. ring. Qed.
Lemma sumR_swap {A B} (f : A -> B -> R) la lb :
  sumR (map (fun a => sumR (map (f a) lb)) la) = sumR (map (fun b => sumR (map (fun a => f a b) la)) lb).
Proof.
  induction la as [|a la IH]; simpl.
  - symmetry. apply sumR_zero. reflexivity.
  - rewrite IH, <- sumR_plus. reflexivity.
Qed.
Lemma sumR_ext {A} (f g : A -> R) l : (forall a, In a l -> f a = g a) -> sumR (map f l) = sumR (map g l).
Proof. intros H. f_equal. apply map_ext_in. assumption. Qed.

(** The kernel whose entries are products of a group weight and a spatial weight. *)
Definition product_kernel (WH WS : tensor R) (out nO ci nI : nat) (ks : list nat) : tensor R :=
  build (out :: nO :: ci :: nI :: ks) (fun idx => match idx with
    | o :: h :: c :: j :: x => (at_ WH (o :: h :: c :: j :: repeat 0%nat (length ks)) * at_ WS (o :: h :: 0%nat :: x))%R
    | _ => 0%R
    end).

(** The first (1 x .. x 1) stage pads nothing. *)
Definition no_first_padding {G P} (L : gconv G P) : Prop :=
  match l_padding L with
  | PadTuple l => l = repeat 0 (length (l_ks L))
  | PadStr s => s = "same"%string -> l_mode L = Zeros
  end.
(** Neither stage pads. *)
Definition no_padding {G P} (L : gconv G P) : Prop :=
  match l_padding L with
  | PadTuple l => l = repeat 0 (length (l_ks L))
  | PadStr s => s <> "same"%string
  end.

(** The layer with other strides and dilations. *)
Definition restride {G P} (L : gconv G P) (stride dil : list nat) : gconv G P :=
  {| l_kernel := l_kernel L; l_in := l_in L; l_out := l_out L; l_ks := l_ks L; l_gks := l_gks L; l_groups := l_groups L;
     l_stride := stride; l_padding := l_padding L; l_dil := dil; l_mode := l_mode L; l_rev := l_rev L; l_bias := l_bias L |}.

Section Product.
  Context {G P : Type} {D : Dflt P} (L : gconv G P) (HL : layer_ok L) (Hb : bias_ok L).
  Context (g ci co : nat) (Hg : 0 < g) (Hci : 0 < ci) (Hco : 0 < co).
  Hypothesis Eg : l_groups L = g.
  Hypothesis Ein : l_in L = ci * g.
  Hypothesis Eout : l_out L = co * g.
  Context (weight_H weight WH WS : tensor R) (in_H out_H : list G) (HoH : out_H <> []).
  Hypothesis Hn : length in_H = length out_H.
  Hypothesis Hker : separable_kernel_forward (l_kernel L) weight_H weight in_H out_H = Ok (WH, WS).
  Hypothesis HWH : has_shape WH (l_out L :: length in_H :: ci :: length out_H :: repeat 1 (length (l_ks L))).
  Hypothesis HWS : has_shape WS (l_out L :: length out_H :: 1 :: l_ks L).
  Context (input : tensor R) (N : nat) (sp : list nat).
  Hypothesis Hi : has_shape input (N :: l_in L :: length in_H :: sp).
  Hypothesis Hsp : length sp = length (l_ks L).
  Let d := length (l_ks L).
  Let ones := repeat 1 d.
  Let left1 := lefts (l_padding L) (pad_ks L ones) (l_dil L).
  Let right1 := rights (l_padding L) (pad_ks L ones) (l_dil L).
  Let left2 := lefts (l_padding L) (l_ks L) (l_dil L).
  Let right2 := rights (l_padding L) (l_ks L) (l_dil L).
  Let osz1 := conv_size sp ones (l_stride L) (l_dil L) left1 right1.
  Let Wp := product_kernel WH WS (l_out L) (length out_H) ci (length in_H) (l_ks L).
  Hypothesis Hnf : no_first_padding L.

  Let dpad : length (pad_ks L ones) = d.
  Proof. unfold pad_ks, ones. destruct (l_mode L); rewrite ?repeat_length; reflexivity. Qed.
  Let l1 j : j < d -> nth j left1 0 = 0 /\ nth j right1 0 = 0.
  Proof.
    intros Hj. unfold left1, right1, lefts, rights. rewrite dpad, !nth_axes by assumption.
    unfold no_first_padding in Hnf. unfold left_pad, right_pad.
    destruct (l_padding L) as [l|s]; [rewrite Hnf, nth_repeat; auto|].
    destruct (String.eqb_spec s "same"); [|auto].
    unfold pad_ks. rewrite Hnf by assumption. unfold ones. rewrite nth_ones by assumption.
    rewrite Nat.sub_diag, Nat.mul_0_r. auto.
  Qed.
  Let l2 j : j < d -> nth j left2 0 + nth j right2 0 <= nth j (l_dil L) 0 * (nth j (l_ks L) 0 - 1).
  Proof.
    intros Hj. unfold left2, right2, lefts, rights. fold d. rewrite !nth_axes by assumption.
    unfold no_first_padding in Hnf. unfold left_pad, right_pad.
    destruct (l_padding L) as [l|s]; [rewrite Hnf, nth_repeat; apply Nat.le_0_l|].
    destruct (String.eqb_spec s "same"); [|apply Nat.le_0_l].
    set (t := nth j (l_dil L) 0 * (nth j (l_ks L) 0 - 1)). assert (t / 2 <= t) by (apply Nat.div_le_upper_bound; lia). lia.
  Qed.
  Let Lones : length ones = d.
  Proof. apply repeat_length. Qed.
  Let pos1 j : j < d -> 0 < nth j (l_stride L) 0 /\ 0 < nth j (l_dil L) 0 /\ 0 < nth j (l_ks L) 0.
  Proof. apply (lo_pos L HL). Qed.

  Let f1 : fits (l_mode L) sp ones (l_stride L) (l_dil L) left1 right1 <->
    (forall j, j < d -> 1 <= nth j sp 0).
  Proof.
    unfold fits. rewrite Lones. split; intros Hf j Hj; specialize (Hf j Hj); destruct (l1 j Hj) as [E1 E2]; rewrite E1, E2 in *;
      unfold ones in *; rewrite nth_ones in * by assumption.
    - lia.
    - split; [lia|]. destruct (l_mode L); lia.
  Qed.

  Let osz1_nth j : j < d -> nth j osz1 0 = (nth j sp 0 - 1) / nth j (l_stride L) 0 + 1.
  Proof.
    intros Hj. unfold osz1, conv_size. rewrite Lones. rewrite nth_axes by assumption. destruct (l1 j Hj) as [E1 E2].
    rewrite E1, E2. unfold ones. rewrite nth_ones by assumption. do 2 f_equal. lia.
  Qed.
  Let Losz1 : length osz1 = d.
  Proof. unfold osz1, conv_size. rewrite axes_length. exact Lones. Qed.

  Lemma Wp_shape : has_shape Wp (l_out L :: length out_H :: ci :: length in_H :: l_ks L).
  Proof. split; [reflexivity|apply wft_build]. Qed.
  Lemma Wp_at o h c j x : o < l_out L -> h < length out_H -> c < ci -> j < length in_H -> valid (l_ks L) x ->
    at_ Wp (o :: h :: c :: j :: x) =
    (at_ WH (o :: h :: c :: j :: repeat 0%nat d) * at_ WS (o :: h :: 0%nat :: x))%R.
  Proof. intros. unfold Wp, product_kernel. rewrite at_build by (repeat apply valid_cons; assumption). reflexivity. Qed.

  (** The intermediate feature map. *)
  Let nO := length out_H.
  Let nI := length in_H.
  Lemma mid_value mid : fits (l_mode L) sp ones (l_stride L) (l_dil L) left1 right1 ->
    conv_forward L (mkT (N :: l_in L * nI :: sp) (data input))
      (mkT (l_out L * nO :: ci * nI :: ones) (data WH)) (l_groups L) = Ok mid ->
    forall n o h y, n < N -> o < l_out L -> h < nO -> valid osz1 y ->
      at_ mid (n :: (o * nO + h) :: y) = sumR (map (fun c => sumR (map (fun j =>
        (at_ WH (o :: h :: c :: j :: repeat 0%nat d) *
         at_ input (n :: (o / co * ci + c)%nat :: j :: axes d (fun i => (nth i y 0 * nth i (l_stride L) 0)%nat)))%R)
        (seq 0 nI))) (seq 0 ci)).
  Proof.
    intros Hf E n o h y Hn' Ho Hh Hy.
    destruct (stage1 L HL g ci co) with (weight_H := weight_H) (weight := weight) (WS := WS) (WH := WH) (in_H := in_H) (out_H := out_H) (input := input) (N := N) (sp := sp)
      as (mid' & E' & _ & Hm); auto.
    fold nO nI ones in E'. fold d in E'. fold ones in E'. rewrite E in E'. inversion E'; subst mid'.
    fold d in Hm. fold ones in Hm. fold left1 right1 in Hm. fold osz1 in Hm. fold nO nI in Hm.
    rewrite Hm; auto; [|apply lt_pair; assumption].
    rewrite channel_group by assumption.
    apply sumR_ext. intros c Hc. apply sumR_ext. intros j Hj. apply in_seq in Hc, Hj.
    f_equal.
    - apply (at_view WH _ _ _ _ HWH). cbn [ravel]. rewrite !prodn_cons. fold d. unfold ones.
      rewrite !prodn_ones. fold nI nO. replace nI with nO by (symmetry; exact Hn). nia.
    - unfold image_at, read_pos. rewrite Hsp, (lo_stride L HL).
      fold d. rewrite (sequence_axes_some d _ (fun i => nth i y 0 * nth i (l_stride L) 0)); [reflexivity|].
      intros i Hi'. rewrite nth_axes by assumption. destruct (l1 i Hi') as [E1 _]. rewrite E1, nth_repeat, Nat.mul_0_l, Nat.add_0_r.
      pose proof (valid_nth_lt _ _ i Hy ltac:(lia)) as Hyi. rewrite osz1_nth in Hyi by assumption.
      destruct (pos1 i Hi') as (Hs & _). pose proof (proj1 f1 Hf i Hi').
      set (s := nth i (l_stride L) 0) in *. set (q := (nth i sp 0 - 1) / s) in *.
      assert (q * s <= nth i sp 0 - 1) by (unfold q; rewrite Nat.mul_comm; apply Nat.mul_div_le; lia).
      assert (nth i y 0 * s <= q * s) by (apply Nat.mul_le_mono_r; lia).
      unfold shown. rewrite (proj2 (Z.leb_le _ _)) by lia. rewrite (proj2 (Z.ltb_lt _ _)) by lia. cbn [andb]. f_equal. lia.
  Qed.

  (** *** unit stride *)
  Section Unit.
    Hypothesis Hs1 : l_stride L = ones.
    Let osz1_sp : (forall j, j < d -> 1 <= nth j sp 0) -> osz1 = sp.
    Proof.
      intros H1. apply nth_ext with (d := 0) (d' := 0); [lia|]. intros j Hj. rewrite Losz1 in Hj.
      rewrite osz1_nth by assumption. rewrite Hs1. unfold ones. rewrite nth_ones by assumption. rewrite Nat.div_1_r.
      pose proof (H1 j Hj). lia.
    Qed.
    Let f2_f1 : fits (l_mode L) sp (l_ks L) (l_stride L) (l_dil L) left2 right2 -> forall j, j < d -> 1 <= nth j sp 0.
    Proof. intros Hf j Hj. destruct (Hf j Hj) as [Hf1 _]. pose proof (l2 j Hj). lia. Qed.

    Lemma separable_is_full :
      separable_forward L weight_H weight input in_H out_H =
      group_forward_with L (fun _ _ => Ok Wp) input in_H out_H.
    Proof.
      destruct (fits_dec (l_mode L) sp (l_ks L) (l_stride L) (l_dil L) left2 right2) as [Hf|Hbad].
      - pose proof (f2_f1 Hf) as Hsp1. pose proof (proj2 f1 Hsp1) as Hf1. pose proof (osz1_sp Hsp1) as Eo.
        destruct (separable_forward_spec L HL Hb g ci co) with (weight_H := weight_H) (weight := weight) (WH := WH) (WS := WS)
          (in_H := in_H) (out_H := out_H) (input := input) (N := N) (sp := sp) as (mid & x & Ex & Em & Hms & Hxs & Hxe); auto.
        { fold d. fold ones. fold left1 right1. fold osz1. rewrite Eo. exact Hf. }
        fold d in Em, Hms, Hxs, Hxe. fold ones in Em, Hms, Hxs, Hxe. fold left1 right1 in Em, Hms, Hxs, Hxe.
        fold left2 right2 in Hxs, Hxe. fold osz1 in Hms, Hxs, Hxe. fold nO nI in Em, Hms, Hxs, Hxe.
        destruct (group_forward_spec L HL Hb g ci co) with (kf := fun _ _ : list G => Ok Wp) (W := Wp)
          (in_H := in_H) (out_H := out_H) (input := input) (N := N) (sp := sp) as (x' & Ex' & Hx's & Hx'e); auto.
        { exact Wp_shape. }
        rewrite Ex, Ex'. do 2 f_equal. rewrite Eo in Hxs, Hxe.
        fold left2 right2 in Hx's, Hx'e. fold nO nI in Hx's, Hx'e.
        destruct Hxs as [S1 W1], Hx's as [S2 W2].
        apply tensor_ext; [assumption|assumption|congruence|].
        rewrite S1. intros idx Hidx.
        apply valid_inv_cons in Hidx. destruct Hidx as (n & r1 & -> & Hn0 & Hidx).
        apply valid_inv_cons in Hidx. destruct Hidx as (o & r2 & -> & Ho & Hidx).
        apply valid_inv_cons in Hidx. destruct Hidx as (h & y & -> & Hh & Hy).
        rewrite Hxe, Hx'e by assumption. f_equal.
        transitivity (sumR (map (fun x0 => sumR (map (fun c => sumR (map (fun j =>
          (at_ Wp (o :: h :: c :: j :: x0) *
           image_at (l_mode L) input sp [n; (o / co * ci + c)%nat; j] (read_pos (l_stride L) (l_dil L) left2 y x0))%R)
           (seq 0 nI))) (seq 0 ci))) (indices (l_ks L)))).
        + apply sumR_ext. intros x0 Hx0. apply in_indices in Hx0.
          set (z := read_pos (l_stride L) (l_dil L) left2 y x0).
          transitivity (at_ WS (o :: h :: 0%nat :: x0) * sumR (map (fun c => sumR (map (fun j =>
            (at_ WH (o :: h :: c :: j :: repeat 0%nat d) * image_at (l_mode L) input sp [n; (o / co * ci + c)%nat; j] z)%R)
            (seq 0 nI))) (seq 0 ci)))%R.
          * f_equal. unfold image_at at 1. destruct (sequence _) as [i|] eqn:Es.
            -- cbn [app]. 
               rewrite (mid_value mid Hf1 Em n o h i); auto.
               ++ apply sumR_ext. intros c Hc. apply sumR_ext. intros j Hj. f_equal.
                  unfold image_at. rewrite Es. cbn [app]. do 4 f_equal. rewrite Hs1. unfold ones.
                  apply (sequence_axes _ _ _ 0) in Es. destruct Es as [Li _].
                  transitivity (axes d (fun j0 => nth j0 i 0)); [|apply axes_nth; lia].
                  apply axes_ext. intros k Hk. rewrite nth_ones by assumption. lia.
               ++ rewrite Eo. apply (sequence_axes _ _ _ 0) in Es. destruct Es as [Li Es].
                  apply valid_nth. split; [assumption|]. intros k Hk. specialize (Es k Hk). 
                  unfold z, read_pos in Es. rewrite (lo_stride L HL) in Es. fold d in Es.
                  rewrite nth_axes in Es by lia.
                  eapply shown_lt with (l := nth k left2 0) (r := nth k right2 0) in Es; [exact Es| |].
                  ** eapply fits_pad_ok; [exact Hf|lia].
                  ** destruct (Hf k) as [Hfk _]; [lia|]. rewrite Hs1. unfold ones. rewrite nth_ones by lia.
                     pose proof (valid_nth_lt _ _ k Hx0 ltac:(lia)). 
                     pose proof (valid_nth_lt _ _ k Hy ltac:(unfold conv_size; rewrite axes_length; lia)) as Hyk.
                     unfold conv_size in Hyk. rewrite nth_axes in Hyk by lia. rewrite Hs1 in Hyk. unfold ones in Hyk.
                     rewrite nth_ones in Hyk by lia. rewrite Nat.div_1_r in Hyk.
                     assert (nth k x0 0 * nth k (l_dil L) 0 <= nth k (l_dil L) 0 * (nth k (l_ks L) 0 - 1))
                       by (rewrite Nat.mul_comm; apply Nat.mul_le_mono_l; lia).
                     lia.
            -- symmetry. apply sumR_zero. intros c Hc. apply sumR_zero. intros j Hj. unfold image_at. rewrite Es. ring.
          * rewrite <- sumR_scale. apply sumR_ext. intros c Hc. rewrite <- sumR_scale. apply sumR_ext. intros j Hj.
            apply in_seq in Hc, Hj. rewrite Wp_at by (try assumption; unfold nI in *; lia). fold z. ring.
        + rewrite sumR_swap. apply sumR_ext. intros c Hc. rewrite sumR_swap. apply sumR_ext. intros j Hj. reflexivity.
      - assert (~ fits (l_mode L) sp (l_ks L) (l_stride L) (l_dil L) left2 right2) as Hnf2.
        { intros Hf. destruct Hbad as (j & Hj & [Hx|Hx]).
          - destruct (Hf j Hj). lia.
          - rewrite (fits_pad_ok _ _ _ _ _ _ _ _ Hf Hj) in Hx. discriminate. }
        rewrite (group_forward_bad L HL g ci co) with (W := Wp) (N := N) (sp := sp); auto.
        2: { exact Wp_shape. }
        destruct (fits_dec (l_mode L) sp ones (l_stride L) (l_dil L) left1 right1) as [Hf1|Hbad1].
        + apply (separable_forward_bad2 L HL g ci co) with (WH := WH) (WS := WS) (N := N) (sp := sp); auto.
          fold d. fold ones. fold left1 right1. fold osz1. rewrite osz1_sp; [exact Hnf2|]. apply f1. exact Hf1.
        + apply (separable_forward_bad1 L HL g ci co) with (WH := WH) (WS := WS) (N := N) (sp := sp); auto.
          intros Hf. destruct Hbad1 as (j & Hj & [Hx|Hx]).
          * destruct (Hf j Hj). fold d ones left1 right1 in H. fold ones in H. fold left1 right1 in H. lia.
          * fold d in Hf. fold ones in Hf. fold left1 right1 in Hf. rewrite (fits_pad_ok _ _ _ _ _ _ _ _ Hf Hj) in Hx. discriminate.
    Qed.
  End Unit.

  (** *** any stride, no padding: both stages subsample *)
  Section Strided.
    Hypothesis Hnp : no_padding L.
    Let st2 := axes d (fun j => nth j (l_stride L) 0 * nth j (l_stride L) 0).
    Let di2 := axes d (fun j => nth j (l_dil L) 0 * nth j (l_stride L) 0).
    Let L2 := restride L st2 di2.

    Let zero_pad dil j : j < d -> nth j (lefts (l_padding L) (l_ks L) dil) 0 = 0 /\ nth j (rights (l_padding L) (l_ks L) dil) 0 = 0.
    Proof.
      intros Hj. unfold lefts, rights. fold d. rewrite !nth_axes by assumption. unfold no_padding in Hnp.
      unfold left_pad, right_pad. destruct (l_padding L) as [l|s]; [rewrite Hnp, nth_repeat; auto|].
      destruct (String.eqb_spec s "same"); [contradiction|auto].
    Qed.
    Let HL2 : layer_ok L2.
    Proof.
      constructor; cbn [l_stride l_dil l_ks l_padding l_kernel l_rev L2 restride].
      - apply axes_length.
      - apply axes_length.
      - apply (lo_pad L HL).
      - apply (lo_size L HL).
      - rewrite (lo_rev L HL). unfold reversed_padding. unfold no_padding in Hnp. destruct (l_padding L) as [l|s]; [reflexivity|].
        destruct (String.eqb_spec s "same"); [contradiction|reflexivity].
      - intros j Hj. fold d in Hj. destruct (pos1 j Hj) as (H1 & H2 & H3). unfold st2, di2. rewrite !nth_axes by assumption.
        repeat split; nia.
    Qed.
    Let fits0 m s' stride dil left right : (forall j, j < d -> nth j left 0 = 0 /\ nth j right 0 = 0) ->
      (fits m s' (l_ks L) stride dil left right <->
       forall j, j < d -> nth j dil 0 * (nth j (l_ks L) 0 - 1) + 1 <= nth j s' 0).
    Proof.
      intros H0. unfold fits. fold d. split; intros Hf j Hj; specialize (Hf j Hj); destruct (H0 j Hj) as [E1 E2]; rewrite E1, E2 in *.
      - lia.
      - split; [lia|]. assert (1 <= nth j s' 0) by (eapply Nat.le_trans; [|exact Hf]; apply Nat.le_add_l). destruct m; lia.
    Qed.
    Let arith a s t k : 0 < s -> 1 <= a -> (t * (k - 1) + 1 <= (a - 1) / s + 1 <-> t * s * (k - 1) + 1 <= a).
    Proof.
      intros Hs Ha. set (T := t * (k - 1)). replace (t * s * (k - 1)) with (T * s) by (unfold T; nia).
      split; intros Hle.
      - assert (T * s <= (a - 1) / s * s) by (apply Nat.mul_le_mono_r; lia).
        assert ((a - 1) / s * s <= a - 1) by (rewrite Nat.mul_comm; apply Nat.mul_div_le; lia). lia.
      - assert (T <= (a - 1) / s) by (apply Nat.div_le_lower_bound; lia). lia.
    Qed.
    Let fits_both : fits (l_mode L) sp (l_ks L) st2 di2 (lefts (l_padding L) (l_ks L) di2) (rights (l_padding L) (l_ks L) di2) <->
      ((forall j, j < d -> 1 <= nth j sp 0) /\ fits (l_mode L) osz1 (l_ks L) (l_stride L) (l_dil L) left2 right2).
    Proof.
      rewrite (fits0 _ _ _ _ _ _ (zero_pad di2)). unfold left2, right2. rewrite (fits0 _ _ _ _ _ _ (zero_pad (l_dil L))).
      split.
      - intros Hf. assert (forall j, j < d -> 1 <= nth j sp 0) as H1 by (intros j Hj; specialize (Hf j Hj); eapply Nat.le_trans; [|exact Hf]; apply Nat.le_add_l).
        split; [assumption|]. intros j Hj. specialize (Hf j Hj). unfold di2 in Hf. rewrite nth_axes in Hf by assumption.
        rewrite osz1_nth by assumption. apply arith; auto. apply pos1; assumption.
      - intros [H1 Hf] j Hj. specialize (Hf j Hj). rewrite osz1_nth in Hf by assumption.
        unfold di2. rewrite nth_axes by assumption. apply arith; auto. apply pos1; assumption.
    Qed.

    Lemma separable_is_strided_full :
      separable_forward L weight_H weight input in_H out_H =
      group_forward_with L2 (fun _ _ => Ok Wp) input in_H out_H.
    Proof.
      destruct (fits_dec (l_mode L) sp (l_ks L) st2 di2 (lefts (l_padding L) (l_ks L) di2) (rights (l_padding L) (l_ks L) di2)) as [Hf|Hbad].
      - destruct (proj1 fits_both Hf) as [Hsp1 Hf2]. pose proof (proj2 f1 Hsp1) as Hf1.
        destruct (separable_forward_spec L HL Hb g ci co) with (weight_H := weight_H) (weight := weight) (WH := WH) (WS := WS)
          (in_H := in_H) (out_H := out_H) (input := input) (N := N) (sp := sp) as (mid & x & Ex & Em & Hms & Hxs & Hxe); auto.
        fold d in Em, Hms, Hxs, Hxe. fold ones in Em, Hms, Hxs, Hxe. fold left1 right1 in Em, Hms, Hxs, Hxe.
        fold left2 right2 in Hxs, Hxe. fold osz1 in Hms, Hxs, Hxe. fold nO nI in Em, Hms, Hxs, Hxe.
        destruct (group_forward_spec L2 HL2 Hb g ci co) with (kf := fun _ _ : list G => Ok Wp) (W := Wp)
          (in_H := in_H) (out_H := out_H) (input := input) (N := N) (sp := sp) as (x' & Ex' & Hx's & Hx'e); auto.
        { exact Wp_shape. }
        rewrite Ex, Ex'. do 2 f_equal.
        cbn [l_stride l_dil l_ks l_padding l_mode l_out L2 restride] in Hx's, Hx'e. fold nO nI in Hx's, Hx'e.
        assert (conv_size sp (l_ks L) st2 di2 (lefts (l_padding L) (l_ks L) di2) (rights (l_padding L) (l_ks L) di2) =
          conv_size osz1 (l_ks L) (l_stride L) (l_dil L) left2 right2) as Es.
        { unfold conv_size. fold d. apply axes_ext. intros j Hj. unfold left2, right2.
          destruct (zero_pad di2 j Hj) as [-> ->]. destruct (zero_pad (l_dil L) j Hj) as [-> ->].
          unfold st2, di2. rewrite !nth_axes by assumption. rewrite osz1_nth by assumption. destruct (pos1 j Hj) as (Hs & Ht & Hk).
          set (s := nth j (l_stride L) 0) in *. set (k := nth j (l_ks L) 0) in *. set (t := nth j (l_dil L) 0) in *.
          rewrite <- Nat.div_div by lia. do 2 f_equal. set (a := nth j sp 0).
          replace (t * s * (k - 1)) with (t * (k - 1) * s) by nia. set (T := t * (k - 1)).
          replace ((a - 1) / s + 1 + 0 + 0 - T - 1) with ((a - 1) / s - T) by lia.
          replace (a + 0 + 0 - T * s - 1) with (a - 1 - T * s) by lia.
          assert (T * s <= a - 1) as HTs.
          { pose proof (proj1 (fits0 _ _ _ _ _ _ (zero_pad di2)) Hf j Hj) as Hj'. unfold di2 in Hj'. rewrite nth_axes in Hj' by assumption.
            fold s k t in Hj'. fold a in Hj'. unfold T. nia. }
          replace (a - 1) with ((a - 1 - T * s) + T * s) at 2 by lia. rewrite Nat.div_add by lia. lia. }
        rewrite Es in Hx's, Hx'e.
        destruct Hxs as [S1 W1], Hx's as [S2 W2].
        apply tensor_ext; [assumption|assumption|congruence|].
        rewrite S1. intros idx Hidx.
        apply valid_inv_cons in Hidx. destruct Hidx as (n & r1 & -> & Hn0 & Hidx).
        apply valid_inv_cons in Hidx. destruct Hidx as (o & r2 & -> & Ho & Hidx).
        apply valid_inv_cons in Hidx. destruct Hidx as (h & y & -> & Hh & Hy).
        rewrite Hxe, Hx'e by assumption. f_equal.
        transitivity (sumR (map (fun x0 => sumR (map (fun c => sumR (map (fun j =>
          (at_ Wp (o :: h :: c :: j :: x0) *
           image_at (l_mode L) input sp [n; (o / co * ci + c)%nat; j] (read_pos st2 di2 (lefts (l_padding L) (l_ks L) di2) y x0))%R)
           (seq 0 nI))) (seq 0 ci))) (indices (l_ks L)))).
        + apply sumR_ext. intros x0 Hx0. apply in_indices in Hx0.
          set (p := axes d (fun i => nth i y 0 * nth i (l_stride L) 0 + nth i x0 0 * nth i (l_dil L) 0)).
          assert (valid osz1 p) as Hp.
          { unfold p. apply valid_axes; [assumption|]. intros k Hk.
            pose proof (valid_nth_lt _ _ k Hx0 ltac:(fold d; lia)) as Hxk.
            pose proof (valid_nth_lt _ _ k Hy ltac:(unfold conv_size; rewrite axes_length; fold d; lia)) as Hyk.
            unfold conv_size in Hyk. fold d in Hyk. rewrite nth_axes in Hyk by lia.
            unfold left2, right2 in Hyk. destruct (zero_pad (l_dil L) k Hk) as [E1 E2]. rewrite E1, E2 in Hyk.
            pose proof (proj1 (fits0 _ _ _ _ _ _ (zero_pad (l_dil L))) Hf2 k Hk) as Hfk.
            destruct (pos1 k Hk) as (Hs & Ht & Hk0).
            set (s := nth k (l_stride L) 0) in *. set (kk := nth k (l_ks L) 0) in *. set (t := nth k (l_dil L) 0) in *.
            set (a := nth k osz1 0) in *. replace (a + 0 + 0 - t * (kk - 1) - 1) with (a - t * (kk - 1) - 1) in Hyk by lia.
            set (q := (a - t * (kk - 1) - 1) / s) in *.
            assert (q * s <= a - t * (kk - 1) - 1) as Hq by (unfold q; rewrite Nat.mul_comm; apply Nat.mul_div_le; lia).
            assert (nth k y 0 * s <= q * s) by (apply Nat.mul_le_mono_r; lia).
            assert (nth k x0 0 * t <= t * (kk - 1)) by (rewrite Nat.mul_comm; apply Nat.mul_le_mono_l; lia). lia. }
          transitivity (at_ WS (o :: h :: 0%nat :: x0) * sumR (map (fun c => sumR (map (fun j =>
            (at_ WH (o :: h :: c :: j :: repeat 0%nat d) *
             at_ input (n :: (o / co * ci + c)%nat :: j :: axes d (fun i => (nth i p 0 * nth i (l_stride L) 0)%nat)))%R)
            (seq 0 nI))) (seq 0 ci)))%R.
          * f_equal. rewrite <- (mid_value mid Hf1 Em n o h p Hn0 Ho Hh Hp).
            unfold image_at. rewrite Losz1. unfold read_pos. rewrite (lo_stride L HL). fold d.
            rewrite (sequence_axes_some d _ (fun i => nth i p 0)); [rewrite axes_nth by (unfold p; apply axes_length); reflexivity|].
            intros k Hk. rewrite nth_axes by assumption. unfold left2. destruct (zero_pad (l_dil L) k Hk) as [E1 _]. rewrite E1.
            pose proof (valid_nth_lt _ _ k Hp ltac:(lia)) as Hpk. unfold p in *. rewrite nth_axes in * by assumption.
            unfold shown. rewrite (proj2 (Z.leb_le _ _)) by lia. rewrite (proj2 (Z.ltb_lt _ _)) by lia. cbn [andb]. f_equal. lia.
          * rewrite <- sumR_scale. apply sumR_ext. intros c Hc. rewrite <- sumR_scale. apply sumR_ext. intros j Hj.
            apply in_seq in Hc, Hj. rewrite Wp_at by (try assumption; unfold nI in *; lia).
            rewrite (Rmult_comm (at_ WS _)), !Rmult_assoc. f_equal. rewrite Rmult_comm. f_equal.
            unfold image_at. rewrite Hsp. fold d. unfold read_pos. unfold st2 at 1. rewrite axes_length.
            rewrite (sequence_axes_some d _ (fun i => nth i p 0 * nth i (l_stride L) 0)); [reflexivity|].
            intros k Hk. rewrite nth_axes by assumption. destruct (zero_pad di2 k Hk) as [E1 _]. rewrite E1.
            unfold st2, di2. rewrite !nth_axes by assumption.
            pose proof (valid_nth_lt _ _ k Hp ltac:(lia)) as Hpk. rewrite osz1_nth in Hpk by assumption.
            destruct (pos1 k Hk) as (Hs & _). pose proof (Hsp1 k Hk).
            unfold p in *. rewrite nth_axes in * by assumption.
            set (s := nth k (l_stride L) 0) in *. set (q := (nth k sp 0 - 1) / s) in *.
            assert (q * s <= nth k sp 0 - 1) by (unfold q; rewrite Nat.mul_comm; apply Nat.mul_div_le; lia).
            set (t := nth k (l_dil L) 0) in *. set (yy := nth k y 0) in *. set (xx := nth k x0 0) in *.
            assert ((yy * s + xx * t) * s <= q * s) by (apply Nat.mul_le_mono_r; lia).
            replace (yy * (s * s) + xx * (t * s)) with ((yy * s + xx * t) * s) by nia.
            unfold shown. rewrite (proj2 (Z.leb_le _ _)) by lia. rewrite (proj2 (Z.ltb_lt _ _)) by lia. cbn [andb]. f_equal. lia.
        + rewrite sumR_swap. apply sumR_ext. intros c Hc. rewrite sumR_swap. apply sumR_ext. intros j Hj. reflexivity.
      - assert (~ fits (l_mode L) sp (l_ks L) st2 di2 (lefts (l_padding L) (l_ks L) di2) (rights (l_padding L) (l_ks L) di2)) as Hnf2.
        { intros Hf. destruct Hbad as (j & Hj & [Hx|Hx]).
          - destruct (Hf j Hj). lia.
          - rewrite (fits_pad_ok _ _ _ _ _ _ _ _ Hf Hj) in Hx. discriminate. }
        rewrite (group_forward_bad L2 HL2 g ci co) with (W := Wp) (N := N) (sp := sp); auto.
        2: { exact Wp_shape. }
        destruct (fits_dec (l_mode L) sp ones (l_stride L) (l_dil L) left1 right1) as [Hf1|Hbad1].
        + apply (separable_forward_bad2 L HL g ci co) with (WH := WH) (WS := WS) (N := N) (sp := sp); auto.
          fold d. fold ones. fold left1 right1. fold osz1. intros Hf2. apply Hnf2. apply fits_both. split; [|exact Hf2].
          apply f1. exact Hf1.
        + apply (separable_forward_bad1 L HL g ci co) with (WH := WH) (WS := WS) (N := N) (sp := sp); auto.
          intros Hf. fold d in Hf. fold ones in Hf. fold left1 right1 in Hf. destruct Hbad1 as (j & Hj & [Hx|Hx]).
          * destruct (Hf j Hj). lia.
          * rewrite (fits_pad_ok _ _ _ _ _ _ _ _ Hf Hj) in Hx. discriminate.
    Qed.
  End Strided.
End Product.
