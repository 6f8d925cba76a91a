(** The two-stage (separable) convolution. *)
From Coq Require Import String ZArith.
From Verif Require Import Prelude RMath Mat Repulse RepulseFacts Tensor TensorFacts SignedPerm Kernel KernelFacts Conv ConvSpec ConvFacts GConvFacts.
Open Scope nat_scope.

Lemma nth_ones d j : j < d -> nth j (repeat 1 d) 0 = 1.
Proof. intros H. rewrite (nth_indep _ 0 1) by (rewrite repeat_length; assumption). apply nth_repeat. Qed.
Lemma prodn_ones d : prodn (repeat 1 d) = 1.
Proof. induction d as [|d IH]; [reflexivity|]. cbn [repeat]. rewrite prodn_cons, IH. reflexivity. Qed.
Lemma indices_ones d : indices (repeat 1 d) = [repeat 0 d].
Proof.
  assert (length (indices (repeat 1 d)) = 1) as Hl by (rewrite indices_length; apply prodn_ones).
  destruct (indices (repeat 1 d)) as [|a [|b l]] eqn:E; try discriminate. f_equal.
  assert (In a (indices (repeat 1 d))) as Ha by (rewrite E; left; reflexivity).
  apply in_indices in Ha. apply valid_nth in Ha. rewrite repeat_length in Ha. destruct Ha as [La Ha].
  apply nth_ext with (d := 0) (d' := 0); [rewrite repeat_length; assumption|].
  intros n Hn. rewrite La in Hn. specialize (Ha n Hn). rewrite nth_ones in Ha by assumption. rewrite nth_repeat. lia.
Qed.
Lemma valid_zeros d : valid (repeat 1 d) (repeat 0 d).
Proof. apply in_indices. rewrite indices_ones. left. reflexivity. Qed.
Lemma ravel_zeros d : ravel (repeat 1 d) (repeat 0 d) = 0.
Proof. pose proof (ravel_lt _ _ (valid_zeros d)). rewrite prodn_ones in H. lia. Qed.

Section Separable.
  Context {G P : Type} {D : Dflt P} (L : gconv G P) (HL : layer_ok L) (Hb : bias_ok L).
  Context (g ci co : nat) (Hg : 0 < g) (Hci : 0 < ci) (Hco : 0 < co).
  Hypothesis Eg : l_groups L = g.
  Hypothesis Ein : l_in L = ci * g.
  Hypothesis Eout : l_out L = co * g.
  Context (weight_H weight WH WS : tensor R) (in_H out_H : list G) (HoH : out_H <> []).
  Hypothesis Hker : separable_kernel_forward (l_kernel L) weight_H weight in_H out_H = Ok (WH, WS).
  Let d := length (l_ks L).
  Let nI := length in_H.
  Let nO := length out_H.
  Hypothesis HWH : has_shape WH (l_out L :: nI :: ci :: nO :: repeat 1 d).
  Hypothesis HWS : has_shape WS (l_out L :: nO :: 1 :: l_ks L).
  Context (input : tensor R) (N : nat) (sp : list nat).
  Hypothesis Hi : has_shape input (N :: l_in L :: nI :: sp).
  Hypothesis Hsp : length sp = d.
  Let ones := repeat 1 d.
  Let left1 := lefts (l_padding L) (pad_ks L ones) (l_dil L).
  Let right1 := rights (l_padding L) (pad_ks L ones) (l_dil L).
  Let left2 := lefts (l_padding L) (l_ks L) (l_dil L).
  Let right2 := rights (l_padding L) (l_ks L) (l_dil L).
  Let osz1 := conv_size sp ones (l_stride L) (l_dil L) left1 right1.
  Let osz2 := conv_size osz1 (l_ks L) (l_stride L) (l_dil L) left2 right2.
  Let WHr := mkT (l_out L * nO :: ci * nI :: ones) (data WH).
  Let WSr := mkT (l_out L * nO :: 1 :: l_ks L) (data WS).
  Let Ir := mkT (N :: l_in L * nI :: sp) (data input).

  Let Ir_shape : view (N :: l_in L * nI :: sp) input = Ok Ir /\ has_shape Ir (N :: l_in L * nI :: sp).
  Proof. apply (has_shape_view _ _ _ Hi). rewrite !prodn_cons. nia. Qed.
  Let WHr_shape : view (l_out L * nO :: (l_in L / l_groups L) * nI :: skipn 4 (shape WH)) WH = Ok WHr /\
    has_shape WHr (co * nO * g :: ci * nI :: ones).
  Proof.
    pose proof HWH as [Hs _]. rewrite Hs. cbn [skipn].
    rewrite Eg, Ein, Nat.div_mul by lia. replace (co * nO * g) with (l_out L * nO) by (rewrite Eout; nia).
    apply (has_shape_view _ _ _ HWH). rewrite !prodn_cons. fold ones. nia.
  Qed.
  Let WSr_shape : view (l_out L * nO :: 1 :: l_ks L) WS = Ok WSr /\ has_shape WSr (1 * (l_out L * nO) :: 1 :: l_ks L).
  Proof. rewrite Nat.mul_1_l. apply (has_shape_view _ _ _ HWS). rewrite !prodn_cons. nia. Qed.
  Let lenO : 0 < nO.
  Proof. unfold nO. destruct out_H; [contradiction|simpl; lia]. Qed.
  Let pks : pad_ks L (l_ks L) = l_ks L.
  Proof. unfold pad_ks. destruct (l_mode L); reflexivity. Qed.
  Let Lones : length ones = d.
  Proof. apply repeat_length. Qed.
  Let Losz1 : length osz1 = d.
  Proof. unfold osz1, conv_size. rewrite axes_length. exact Lones. Qed.

  (** Stage one: the group convolution with 1x..x1 kernels (padded and strided like the second). *)
  Lemma stage1 : fits (l_mode L) sp ones (l_stride L) (l_dil L) left1 right1 ->
    exists mid, conv_forward L Ir WHr (l_groups L) = Ok mid /\ has_shape mid (N :: l_out L * nO :: osz1) /\
      forall n o y, n < N -> o < l_out L * nO -> valid osz1 y ->
        at_ mid (n :: o :: y) = sumR (map (fun c => sumR (map (fun j =>
          (at_ WHr (o :: (c * nI + j)%nat :: repeat 0%nat d) *
           image_at (l_mode L) input sp [n; (o / (co * nO) * ci + c)%nat; j]
             (read_pos (l_stride L) (l_dil L) left1 y (repeat 0%nat d)))%R) (seq 0 nI))) (seq 0 ci)).
  Proof.
    intros Hf. destruct Ir_shape as [EI HI]. destruct WHr_shape as [EW HWr].
    destruct (conv_forward_spec L HL Ir WHr N (l_in L * nI) sp (l_groups L) (co * nO) (ci * nI) ones) as (x & Ex & Hxs & Hxe);
      rewrite ?Eg; auto; try lia; try nia.
    { intros j Hj. unfold ones. rewrite Lones in Hj. rewrite nth_ones by assumption. lia. }
    rewrite Eg in Hxs, Hxe, Ex. fold left1 right1 in Hxs, Hxe. fold osz1 in Hxs, Hxe.
    exists x. split; [assumption|]. replace (l_out L * nO) with (co * nO * g) by (rewrite Eout; nia).
    split; [assumption|]. intros n o y Hn Ho Hy. rewrite Hxe by assumption.
    unfold conv_value, ones. rewrite indices_ones. fold ones. cbn [map sumR].
    rewrite sum_pairs. f_equal. apply map_ext_in. intros c Hc. f_equal. apply map_ext_in. intros j Hj. apply in_seq in Hj.
    rewrite Rplus_0_r. f_equal. replace (o / (co * nO) * (ci * nI) + (c * nI + j)) with ((o / (co * nO) * ci + c) * nI + j) by nia.
    apply (image_view _ _ _ _ _ _ _ _ _ _ Hi).
  Qed.

  (** Stage two: the depthwise spatial convolution. *)
  Lemma separable_forward_spec :
    fits (l_mode L) sp ones (l_stride L) (l_dil L) left1 right1 ->
    fits (l_mode L) osz1 (l_ks L) (l_stride L) (l_dil L) left2 right2 ->
    exists mid x, separable_forward L weight_H weight input in_H out_H = Ok (x, out_H) /\
      conv_forward L Ir WHr (l_groups L) = Ok mid /\
      has_shape mid (N :: l_out L * nO :: osz1) /\
      has_shape x (N :: l_out L :: nO :: osz2) /\
      forall n o h y, n < N -> o < l_out L -> h < nO -> valid osz2 y ->
        at_ x (n :: o :: h :: y) = (sumR (map (fun x0 =>
          at_ WS (o :: h :: 0%nat :: x0) *
          image_at (l_mode L) mid osz1 [n; (o * nO + h)%nat] (read_pos (l_stride L) (l_dil L) left2 y x0))
          (indices (l_ks L))) + biasf L o)%R.
  Proof.
    intros Hf1 Hf2. destruct (stage1 Hf1) as (mid & Em & Hms & _). exists mid.
    destruct Ir_shape as [EI HI]. destruct WHr_shape as [EW HWr]. destruct WSr_shape as [ES HSr].
    pose proof Hi as [Hi' _].
    unfold separable_forward. rewrite Hi', Hker. cbn [bind fst snd]. fold nI nO. rewrite EI. cbn [bind]. rewrite EW. cbn [bind].
    rewrite Em. cbn [bind]. rewrite ES. cbn [bind].
    destruct (conv_forward_spec L HL mid WSr N (l_out L * nO) osz1 (l_out L * nO) 1 1 (l_ks L)) as (x & Ex & Hxs & Hxe);
      auto; try lia; try nia.
    { intros j Hj. destruct (lo_pos L HL j Hj) as (? & ? & ?). assumption. }
    { rewrite pks. exact Hf2. }
    rewrite pks in Hxs, Hxe. fold left2 right2 in Hxs, Hxe. fold osz2 in Hxs, Hxe. rewrite Nat.mul_1_l in Hxs, Hxe.
    rewrite Ex. cbn [bind]. pose proof Hxs as [Hxs' _]. rewrite Hxs'. cbn [skipn].
    destruct (has_shape_view x _ (N :: l_out L :: nO :: osz2) Hxs) as (Hv & Hvs).
    { rewrite !prodn_cons. nia. }
    rewrite Hv. cbn [bind].
    destruct (add_bias_spec L _ N nO osz2 Hb (axes_length _ _) Hvs) as (x' & Ex' & Hx's & Hx'e).
    rewrite Ex'. cbn [bind]. exists x'. split; [reflexivity|]. split; [reflexivity|]. split; [assumption|]. split; [assumption|].
    intros n o h y Hn Ho Hh Hy. rewrite Hx'e by assumption. f_equal.
    rewrite (at_view x _ _ (n :: o * nO + h :: y) (n :: o :: h :: y) Hxs).
    2: { cbn [ravel]. rewrite !prodn_cons. nia. }
    rewrite Hxe; auto; [|apply lt_pair; assumption].
    unfold conv_value. cbn [seq map sumR]. rewrite Rplus_0_r. f_equal. apply map_ext_in. intros x0 Hx0.
    rewrite Nat.div_1_r, Nat.mul_1_r, Nat.add_0_r. f_equal.
    apply (at_view WS _ _ _ _ HWS). cbn [ravel]. rewrite !prodn_cons. nia.
  Qed.
  Lemma separable_forward_bad1 : ~ fits (l_mode L) sp ones (l_stride L) (l_dil L) left1 right1 ->
    separable_forward L weight_H weight input in_H out_H = Err RuntimeError.
  Proof.
    intros Hf. destruct Ir_shape as [EI HI]. destruct WHr_shape as [EW HWr].
    pose proof Hi as [Hi' _].
    unfold separable_forward. rewrite Hi', Hker. cbn [bind fst snd]. fold nI nO. rewrite EI. cbn [bind]. rewrite EW. cbn [bind].
    rewrite (conv_forward_bad L HL Ir WHr N (l_in L * nI) sp (l_groups L) (co * nO) (ci * nI) ones);
      rewrite ?Eg; auto; try lia.
  Qed.
  Lemma separable_forward_bad2 : fits (l_mode L) sp ones (l_stride L) (l_dil L) left1 right1 ->
    ~ fits (l_mode L) osz1 (l_ks L) (l_stride L) (l_dil L) left2 right2 ->
    separable_forward L weight_H weight input in_H out_H = Err RuntimeError.
  Proof.
    intros Hf1 Hf. destruct (stage1 Hf1) as (mid & Em & Hms & _).
    destruct Ir_shape as [EI HI]. destruct WHr_shape as [EW HWr]. destruct WSr_shape as [ES HSr].
    pose proof Hi as [Hi' _].
    unfold separable_forward. rewrite Hi', Hker. cbn [bind fst snd]. fold nI nO. rewrite EI. cbn [bind]. rewrite EW. cbn [bind].
    rewrite Em. cbn [bind]. rewrite ES. cbn [bind].
    rewrite (conv_forward_bad L HL mid WSr N (l_out L * nO) osz1 (l_out L * nO) 1 1 (l_ks L)); auto; try lia.
    rewrite pks. exact Hf.
  Qed.
End Separable.
