(** Entry formulas of the group convolution layers. *)
From Coq Require Import String ZArith.
From Verif Require Import Prelude RMath Mat Repulse RepulseFacts Tensor TensorFacts SignedPerm Kernel KernelFacts Conv ConvSpec ConvFacts.
Open Scope nat_scope.

(** Bias: one number per output channel, stored with trailing axes of size one. *)
Definition bias_ok {G P} (L : gconv G P) : Prop :=
  match l_bias L with None => True | Some b => has_shape b (l_out L :: repeat 1 (S (length (l_ks L)))) end.
Definition biasf {G P} (L : gconv G P) (o : nat) : R :=
  match l_bias L with None => 0%R | Some b => at_ b (o :: repeat 0 (S (length (l_ks L)))) end.

Lemma Forall2_ones s : Forall2 (fun d e => e = d \/ e = 1) s (repeat 1 (length s)).
Proof. induction s; simpl; constructor; auto. Qed.
Lemma add_bias_spec {G P} (L : gconv G P) x N nH sp : bias_ok L -> length sp = length (l_ks L) ->
  has_shape x (N :: l_out L :: nH :: sp) ->
  exists x', add_bias L x = Ok x' /\ has_shape x' (N :: l_out L :: nH :: sp) /\
    forall n o h y, n < N -> o < l_out L -> h < nH -> valid sp y ->
      at_ x' (n :: o :: h :: y) = (at_ x (n :: o :: h :: y) + biasf L o)%R.
Proof.
  intros Hb Hl [Hs Hw]. unfold bias_ok, add_bias, biasf in *. destruct (l_bias L) as [b|].
  - destruct Hb as [Hbs Hbw]. unfold bcast2. rewrite Hs, Hbs.
    change (N :: l_out L :: nH :: sp) with ([N] ++ (l_out L :: nH :: sp)).
    rewrite bshape_suffix.
    + eexists; split; [reflexivity|]. split; [split; [reflexivity|apply wft_build]|].
      intros n o h y Hn Ho Hh Hy.
      assert (valid ([N] ++ l_out L :: nH :: sp) (n :: o :: h :: y)) as Hv by (repeat apply valid_cons; assumption).
      rewrite at_build by exact Hv. rewrite (bidx_self _ _ Hv). f_equal.
      change (n :: o :: h :: y) with ([n] ++ (o :: h :: y)).
      pose proof (valid_length _ _ Hy) as Ly.
      rewrite bidx_suffix by (simpl; rewrite ?repeat_length; lia).
      rewrite bidx_cons by (rewrite repeat_length; simpl; lia).
      rewrite bidx_ones by (simpl; lia).
      destruct (Nat.eqb_spec (l_out L) 1) as [E|E]; [|reflexivity]. assert (o = 0) by lia. subst o. reflexivity.
    + constructor; [left; reflexivity|]. rewrite <- Hl. apply (Forall2_ones (nH :: sp)).
  - exists x. split; [reflexivity|]. split; [split; assumption|]. intros. ring.
Qed.

Lemma channel_group o h nH co : h < nH -> 0 < co -> (o * nH + h) / (co * nH) = o / co.
Proof.
  intros H Hc. rewrite (Nat.mul_comm co nH), <- Nat.div_div by lia. rewrite div_pair by assumption. reflexivity.
Qed.

Section Lifting.
  Context {G P : Type} {D : Dflt P} (L : gconv G P) (HL : layer_ok L) (Hb : bias_ok L).
  Context (g ci co : nat) (Hg : 0 < g) (Hci : 0 < ci) (Hco : 0 < co).
  Hypothesis Eg : l_groups L = g.
  Hypothesis Ein : l_in L = ci * g.
  Hypothesis Eout : l_out L = co * g.
  Context (weight W : tensor R) (H : list G) (HH : H <> []).
  Hypothesis Hker : lifting_kernel_forward (l_kernel L) weight H = Ok W.
  Hypothesis HW : has_shape W (l_out L :: length H :: ci :: l_ks L).
  Context (input : tensor R) (N : nat) (sp : list nat).
  Hypothesis Hi : has_shape input (N :: l_in L :: sp).
  Hypothesis Hsp : length sp = length (l_ks L).
  Let left := lefts (l_padding L) (l_ks L) (l_dil L).
  Let right := rights (l_padding L) (l_ks L) (l_dil L).
  Let osz := conv_size sp (l_ks L) (l_stride L) (l_dil L) left right.

  Lemma pos_vol : prodn (l_ks L) <> 0.
  Proof.
    assert (forall s, (forall j, j < length s -> 0 < nth j s 0) -> 0 < prodn s) as A.
    { induction s as [|d s IH]; intros Hs; rewrite ?prodn_cons, ?prodn_nil; [lia|].
      pose proof (Hs 0 ltac:(simpl; lia)). simpl in H0. 
      assert (0 < prodn s) by (apply IH; intros j Hj; apply (Hs (S j)); simpl; lia). nia. }
    assert (0 < prodn (l_ks L)); [apply A; intros j Hj; apply (lo_pos L HL); assumption|lia].
  Qed.
  Lemma lenH : 0 < length H.
  Proof. destruct H; [contradiction|simpl; lia]. Qed.

  Let Wr := mkT (co * length H * g :: ci :: l_ks L) (data W).
  Lemma Wr_shape : has_shape Wr (co * length H * g :: ci :: l_ks L).
  Proof.
    destruct HW as [Hs Hw]. split; [reflexivity|]. unfold Wr, wft in *; cbn [shape data]. rewrite Hw, Hs, !prodn_cons, Eout. nia.
  Qed.
  Lemma Wr_view : view_lead ((l_in L / l_groups L) :: l_ks L) W = Ok Wr.
  Proof.
    rewrite Eg, Ein, Nat.div_mul by lia. apply view_lead_ok.
    - destruct HW as [Hs _]. rewrite Hs, !prodn_cons, Eout. nia.
    - rewrite prodn_cons. pose proof pos_vol. nia.
  Qed.
  Lemma Wr_at o h c x : h < length H -> at_ Wr (o * length H + h :: c :: x) = at_ W (o :: h :: c :: x).
  Proof.
    intros Hh. apply (at_view W _ _ _ _ HW). cbn [ravel]. rewrite !prodn_cons. nia.
  Qed.

  Let pks : pad_ks L (l_ks L) = l_ks L.
  Proof. unfold pad_ks. destruct (l_mode L); reflexivity. Qed.

  Lemma lifting_forward_spec : fits (l_mode L) sp (l_ks L) (l_stride L) (l_dil L) left right ->
    exists x, lifting_forward L weight input H = Ok (x, H) /\
      has_shape x (N :: l_out L :: length H :: osz) /\
      forall n o h y, n < N -> o < l_out L -> h < length H -> valid osz y ->
        at_ x (n :: o :: h :: y) =
        (sumR (map (fun c => sumR (map (fun x0 =>
           at_ W (o :: h :: c :: x0) *
           image_at (l_mode L) input sp [n; (o / co * ci + c)%nat] (read_pos (l_stride L) (l_dil L) left y x0))
           (indices (l_ks L)))) (seq 0 ci)) + biasf L o)%R.
  Proof.
    intros Hf. pose proof lenH as HlH.
    unfold lifting_forward. rewrite Hker. cbn [bind]. rewrite Wr_view. cbn [bind].
    destruct (conv_forward_spec L HL input Wr N (l_in L) sp (l_groups L) (co * length H) ci (l_ks L)) as (x & Ex & Hxs & Hxe);
      rewrite ?Eg; auto; try lia; try nia.
    { exact Wr_shape. }
    { intros j Hj. destruct (lo_pos L HL j Hj) as (? & ? & ?). assumption. }
    { rewrite pks. exact Hf. }
    rewrite Eg in Hxs, Hxe, Ex. rewrite pks in Hxs, Hxe. fold left right in Hxs, Hxe. fold osz in Hxs, Hxe.
    rewrite Ex. cbn [bind]. destruct Hi as [Hi' _]. rewrite Hi'. cbn [nth].
    pose proof Hxs as [Hxs' _]. rewrite Hxs'. cbn [skipn].
    destruct (has_shape_view x _ (N :: l_out L :: length H :: osz) Hxs) as (Hv & Hvs).
    { rewrite !prodn_cons, Eout. nia. }
    rewrite Hv. cbn [bind].
    destruct (add_bias_spec L _ N (length H) osz Hb (axes_length _ _) Hvs) as (x' & Ex' & Hx's & Hx'e).
    rewrite Ex'. cbn [bind]. exists x'. split; [reflexivity|]. split; [assumption|].
    intros n o h y Hn Ho Hh Hy. rewrite Hx'e by assumption. f_equal.
    rewrite (at_view x _ _ (n :: o * length H + h :: y) (n :: o :: h :: y) Hxs).
    2: { cbn [ravel]. rewrite !prodn_cons, Eout. nia. }
    rewrite Hxe; auto.
    2: { rewrite Eout in Ho. pose proof (lt_pair o (length H) h (co * g) Hh Ho). nia. }
    unfold conv_value. rewrite channel_group by assumption.
    f_equal. apply map_ext_in. intros c Hc. f_equal. apply map_ext_in. intros x0 Hx0.
    rewrite Wr_at by assumption. reflexivity.
  Qed.

  Lemma lifting_forward_bad : ~ fits (l_mode L) sp (l_ks L) (l_stride L) (l_dil L) left right ->
    lifting_forward L weight input H = Err RuntimeError.
  Proof.
    intros Hf. pose proof lenH as HlH.
    unfold lifting_forward. rewrite Hker. cbn [bind]. rewrite Wr_view. cbn [bind].
    rewrite (conv_forward_bad L HL input Wr N (l_in L) sp (l_groups L) (co * length H) ci (l_ks L));
      rewrite ?Eg; auto; try lia.
    { exact Wr_shape. }
    { rewrite pks. exact Hf. }
  Qed.
End Lifting.

Lemma sum_pairs (f : nat -> R) a b :
  sumR (map f (seq 0 (a * b))) = sumR (map (fun c => sumR (map (fun j => f (c * b + j)%nat) (seq 0 b))) (seq 0 a)).
Proof.
  induction a as [|a IH]; [reflexivity|]. rewrite seq_S, map_app, sumR_app, <- IH.
  replace (S a * b) with (a * b + b) by lia. rewrite seq_app, map_app, sumR_app. f_equal.
  cbn [plus map sumR]. rewrite Rplus_0_r. f_equal.
  assert (forall n s, map f (seq (s + a * b) n) = map (fun j => f (a * b + j)%nat) (seq s n)) as E.
  { induction n as [|n IHn]; intros s; [reflexivity|]. cbn [seq map]. rewrite <- IHn. f_equal. f_equal. lia. }
  apply (E b 0).
Qed.
(** Merging the channel and group axes of an image. *)
Lemma image_view m (input : tensor R) N C nI sp n c j z : has_shape input (N :: C :: nI :: sp) ->
  image_at m (mkT (N :: C * nI :: sp) (data input)) sp [n; c * nI + j] z = image_at m input sp [n; c; j] z.
Proof.
  intros Hi. unfold image_at. destruct (sequence _) as [i|] eqn:Es; [|reflexivity].
  apply (at_view _ _ _ _ _ Hi). cbn [app ravel]. rewrite !prodn_cons. nia.
Qed.

Section Group.
  Context {G P : Type} {D : Dflt P} (L : gconv G P) (HL : layer_ok L) (Hb : bias_ok L).
  Context (g ci co : nat) (Hg : 0 < g) (Hci : 0 < ci) (Hco : 0 < co).
  Hypothesis Eg : l_groups L = g.
  Hypothesis Ein : l_in L = ci * g.
  Hypothesis Eout : l_out L = co * g.
  Context (kf : list G -> list G -> result (tensor R)) (W : tensor R) (in_H out_H : list G) (HoH : out_H <> []).
  Hypothesis Hker : kf in_H out_H = Ok W.
  Hypothesis HW : has_shape W (l_out L :: length out_H :: ci :: length in_H :: l_ks L).
  Context (input : tensor R) (N : nat) (sp : list nat).
  Hypothesis Hi : has_shape input (N :: l_in L :: length in_H :: sp).
  Hypothesis Hsp : length sp = length (l_ks L).
  Let left := lefts (l_padding L) (l_ks L) (l_dil L).
  Let right := rights (l_padding L) (l_ks L) (l_dil L).
  Let osz := conv_size sp (l_ks L) (l_stride L) (l_dil L) left right.
  Let nI := length in_H.
  Let nO := length out_H.
  Let Wr := mkT (l_out L * nO :: ci * nI :: l_ks L) (data W).
  Let Ir := mkT (N :: l_in L * nI :: sp) (data input).

  Let Ir_shape : view (N :: l_in L * nI :: sp) input = Ok Ir /\ has_shape Ir (N :: l_in L * nI :: sp).
  Proof. apply (has_shape_view _ _ _ Hi). rewrite !prodn_cons. fold nI. nia. Qed.
  Let Wr_shape : view (l_out L * nO :: (l_in L / l_groups L) * nI :: l_ks L) W = Ok Wr /\
    has_shape Wr (co * nO * g :: ci * nI :: l_ks L).
  Proof.
    rewrite Eg, Ein, Nat.div_mul by lia. replace (co * nO * g) with (l_out L * nO) by (rewrite Eout; nia).
    apply (has_shape_view _ _ _ HW). rewrite !prodn_cons. fold nI nO. nia.
  Qed.
  Let pks : pad_ks L (l_ks L) = l_ks L.
  Proof. unfold pad_ks. destruct (l_mode L); reflexivity. Qed.
  Let lenO : 0 < nO.
  Proof. unfold nO. destruct out_H; [contradiction|simpl; lia]. Qed.

  Lemma group_forward_spec : fits (l_mode L) sp (l_ks L) (l_stride L) (l_dil L) left right ->
    exists x, group_forward_with L kf input in_H out_H = Ok (x, out_H) /\
      has_shape x (N :: l_out L :: nO :: osz) /\
      forall n o h y, n < N -> o < l_out L -> h < nO -> valid osz y ->
        at_ x (n :: o :: h :: y) =
        (sumR (map (fun c => sumR (map (fun j => sumR (map (fun x0 =>
           at_ W (o :: h :: c :: j :: x0) *
           image_at (l_mode L) input sp [n; (o / co * ci + c)%nat; j] (read_pos (l_stride L) (l_dil L) left y x0))
           (indices (l_ks L)))) (seq 0 nI))) (seq 0 ci)) + biasf L o)%R.
  Proof.
    intros Hf. destruct Ir_shape as [EI HI]. destruct Wr_shape as [EW HWr].
    pose proof Hi as [Hi' _].
    unfold group_forward_with. rewrite Hi', Hker. cbn [bind]. fold nI nO. rewrite EI. cbn [bind]. rewrite EW. cbn [bind].
    destruct (conv_forward_spec L HL Ir Wr N (l_in L * nI) sp (l_groups L) (co * nO) (ci * nI) (l_ks L)) as (x & Ex & Hxs & Hxe);
      rewrite ?Eg; auto; try lia; try nia.
    { intros j Hj. destruct (lo_pos L HL j Hj) as (? & ? & ?). assumption. }
    { rewrite pks. exact Hf. }
    rewrite Eg in Hxs, Hxe, Ex. rewrite pks in Hxs, Hxe. fold left right in Hxs, Hxe. fold osz in Hxs, Hxe.
    rewrite Ex. cbn [bind].
    pose proof Hxs as [Hxs' _]. rewrite Hxs'. cbn [skipn].
    destruct (has_shape_view x _ (N :: l_out L :: nO :: osz) Hxs) as (Hv & Hvs).
    { rewrite !prodn_cons, Eout. nia. }
    rewrite Hv. cbn [bind].
    destruct (add_bias_spec L _ N nO osz Hb (axes_length _ _) Hvs) as (x' & Ex' & Hx's & Hx'e).
    rewrite Ex'. cbn [bind]. exists x'. split; [reflexivity|]. split; [assumption|].
    intros n o h y Hn Ho Hh Hy. rewrite Hx'e by assumption. f_equal.
    rewrite (at_view x _ _ (n :: o * nO + h :: y) (n :: o :: h :: y) Hxs).
    2: { cbn [ravel]. rewrite !prodn_cons, Eout. nia. }
    rewrite Hxe; auto.
    2: { rewrite Eout in Ho. pose proof (lt_pair o nO h (co * g) Hh Ho). nia. }
    unfold conv_value. rewrite channel_group by assumption. rewrite sum_pairs.
    f_equal. apply map_ext_in. intros c Hc. f_equal. apply map_ext_in. intros j Hj. apply in_seq in Hj.
    f_equal. apply map_ext_in. intros x0 Hx0. f_equal.
    - apply (at_view W _ _ _ _ HW). cbn [ravel]. rewrite !prodn_cons. fold nI nO. nia.
    - replace (o / co * (ci * nI) + (c * nI + j)) with ((o / co * ci + c) * nI + j) by nia.
      apply (image_view _ _ _ _ _ _ _ _ _ _ Hi).
  Qed.

  Lemma group_forward_bad : ~ fits (l_mode L) sp (l_ks L) (l_stride L) (l_dil L) left right ->
    group_forward_with L kf input in_H out_H = Err RuntimeError.
  Proof.
    intros Hf. destruct Ir_shape as [EI HI]. destruct Wr_shape as [EW HWr].
    pose proof Hi as [Hi' _].
    unfold group_forward_with. rewrite Hi', Hker. cbn [bind]. fold nI nO. rewrite EI. cbn [bind]. rewrite EW. cbn [bind].
    rewrite (conv_forward_bad L HL Ir Wr N (l_in L * nI) sp (l_groups L) (co * nO) (ci * nI) (l_ks L));
      rewrite ?Eg; auto; try lia.
    { rewrite pks. exact Hf. }
  Qed.
End Group.
