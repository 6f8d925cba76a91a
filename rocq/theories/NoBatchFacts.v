(** Proofs about inputs with one axis less than the layers expect (torch then takes them as one item without batch axis). *)
From Coq Require Import String ZArith.
From Verif Require Import Prelude RMath Mat Repulse RepulseFacts Tensor TensorFacts Kernel KernelFacts Conv ConvSpec ConvFacts GConvFacts ConvInit
  WeightSpec Layers LayersSpec LayersFacts NormFacts PoolFacts.
Open Scope nat_scope.

(** ** Instance normalization *)
Section IN.
  Context {G : Type} (H : list G).
  Lemma instance_unbatched d s (x : tensor R) N rest : has_shape x (N :: rest) -> List.length rest = d ->
    instance_norm d s x = rmap (fun r => (squeeze0 (fst r), snd r)) (instance_norm d s (unsqueeze0 x)).
  Proof.
    intros [Hs _] Hd. unfold instance_norm. cbn [unsqueeze0 shape]. rewrite Hs. cbn [List.length]. rewrite Hd, Nat.eqb_refl.
    destruct (Nat.eqb_spec (S (S d)) (S d)); [lia|]. reflexivity.
  Qed.

  Lemma g_instance_unbatched d s (x : tensor R) N C n Z dims : has_shape x (N :: C :: n :: Z :: dims) -> 2 + List.length dims = d ->
    let x1 := unsqueeze0 x in
    let V := sample_values (C :: n :: Z :: dims) x1 0 in
    (in_rejected s N (C * (n * (Z * prodn dims))) -> g_instance_norm d s x H = Err ValueError) /\
    (~ in_rejected s N (C * (n * (Z * prodn dims))) -> check_channels s N = false -> g_instance_norm d s x H = Err RuntimeError) /\
    (~ in_rejected s N (C * (n * (Z * prodn dims))) -> check_channels s N = true -> exists y,
      g_instance_norm d s x H = Ok (y, H, in_next s 1 N (sample_values (C :: n :: Z :: dims) x1)) /\ has_shape y (N :: C :: n :: Z :: dims) /\
      forall a z, a < N -> valid (C :: n :: Z :: dims) z ->
        at_ y (a :: z) = affine1 (nm_weight s) (nm_bias s) a (normalized (at_ x (a :: z)) (bn_mean s (V a) a) (bn_var s (V a) a) (nm_eps s))).
  Proof.
    intros Hx Hd x1 V.
    set (rest := C :: n :: Z :: dims). set (s1 := C :: (n * Z) :: dims).
    assert (prodn s1 = prodn rest) as Ep by (unfold s1, rest; rewrite !prodn_cons; lia).
    assert (prodn (N :: s1) = prodn (N :: rest)) as Ep2 by (rewrite !(prodn_cons N), Ep; reflexivity).
    assert (has_shape x1 (1 :: N :: rest)) as Hx1.
    { destruct Hx as [Hs Hw]. unfold x1. split; [cbn [unsqueeze0 shape]; rewrite Hs; reflexivity|]. unfold wft in *. cbn [unsqueeze0 shape data].
      rewrite Hw. rewrite (prodn_cons 1). lia. }
    assert (prodn (1 :: N :: s1) = prodn (1 :: N :: rest)) as Ep3 by (rewrite !(prodn_cons 1), Ep2; reflexivity).
    pose proof (has_shape_mk x1 _ (1 :: N :: s1) Hx1 Ep3) as H1.
    assert (List.length s1 = d) as L1 by (unfold s1; cbn [List.length]; lia).
    assert (has_shape (mkT (N :: s1) (data x)) (N :: s1)) as H0 by (apply (has_shape_mk x _ _ Hx); exact Ep2).
    assert (g_instance_norm d s x H = r <- rmap (fun r => (squeeze0 (fst r), snd r)) (instance_norm d s (mkT (1 :: N :: s1) (data x1))) ;;
              y <- view (N :: rest) (fst r) ;; Ok (y, H, snd r)) as E.
    { unfold g_instance_norm, g_norm. rewrite (proj1 Hx). fold s1. rewrite view_ok by (rewrite (proj1 Hx); exact Ep2). cbn [bind].
      rewrite (instance_unbatched d s _ N s1 H0 L1). reflexivity. }
    rewrite E, (instance_norm_spec d s _ 1 N s1 H1 L1).
    assert (C * (n * (Z * prodn dims)) = prodn s1) as Eq by (rewrite Ep; unfold rest; rewrite !prodn_cons; reflexivity). rewrite Eq.
    assert (forall K, in_rejected s N K <-> (negb (Nat.eqb N (nm_features s)) && match nm_weight s with Some _ => true | None => false end) || (bn_batch s && Nat.eqb K 1) = true) as Hrej.
    { intros K. unfold in_rejected. rewrite Bool.orb_true_iff, !Bool.andb_true_iff, Bool.negb_true_iff, Nat.eqb_neq, Nat.eqb_eq.
      destruct (nm_weight s); intuition congruence. }
    split; [|split].
    - intros A. apply Hrej in A. destruct (negb _ && _); [reflexivity|]. cbn [orb] in A. rewrite A. reflexivity.
    - intros A B. rewrite B, Hrej in *. apply Bool.not_true_is_false, Bool.orb_false_iff in A. destruct A as [A1 A2]. rewrite A1, A2. reflexivity.
    - intros A B. rewrite B, Hrej in *. apply Bool.not_true_is_false, Bool.orb_false_iff in A. destruct A as [A1 A2]. rewrite A1, A2. cbn [negb bind fst snd rmap].
      set (b := build (1 :: N :: s1) _). assert (has_shape b (1 :: N :: s1)) as Hb by (split; [reflexivity|apply wft_build]).
      rewrite view_ok by (cbn [squeeze0 shape b build tl]; symmetry; exact Ep2). cbn [bind squeeze0 data].
      eexists. split; [f_equal; f_equal|].
      + apply in_next_ext; intros a c Ha Hc; rewrite (sample_reshape x1 1 N _ s1 a c Hx1 Ep Ha Hc); reflexivity.
      + split; [apply (has_shape_mk b _ _ Hb); change (prodn (N :: rest) = prodn (1 :: N :: s1)); rewrite Ep3, (prodn_cons 1), Nat.mul_1_l; reflexivity|].
        intros a z Ha Hz. pose proof (ravel_lt _ _ Hz) as Hr. fold rest in Hz, Hr.
        assert (valid s1 (unravel s1 (ravel rest z))) as Hv by (apply unravel_valid; rewrite Ep; exact Hr).
        rewrite (at_reshape (N :: rest) (1 :: N :: s1) (data b) _ (0 :: a :: unravel s1 (ravel rest z))).
        2: { cbn [ravel]. rewrite (ravel_unravel s1) by (rewrite Ep; exact Hr). rewrite Ep. reflexivity. }
        change (mkT (1 :: N :: s1) (data b)) with b. unfold b. rewrite at_build by (do 2 (apply valid_cons; [lia|]); exact Hv).
        cbn [nth]. unfold bn_mean, bn_var. f_equal.
        assert (at_ (mkT (1 :: N :: s1) (data x1)) (0 :: a :: unravel s1 (ravel rest z)) = at_ x (a :: z)) as E3.
        { destruct x as [sx dx]. destruct Hx as [Hs _]. cbn in Hs. subst sx. cbn [data x1 unsqueeze0]. apply at_reshape.
          fold rest. cbn [ravel]. rewrite (ravel_unravel s1) by (rewrite Ep; exact Hr). rewrite Ep. reflexivity. }
        rewrite E3. rewrite !sel_olist. destruct (bn_batch s); [|reflexivity].
        unfold V. rewrite (sample_reshape x1 1 N _ s1 0 a Hx1 Ep ltac:(lia) Ha). reflexivity.
  Qed.
  Lemma sample_unsqueezed (x : tensor R) rest a : sample_values rest (unsqueeze0 x) 0 a = map (fun y => at_ x (a :: y)) (indices rest).
  Proof. unfold sample_values. apply map_ext. intros y. destruct x as [sx dx]. unfold at_, unsqueeze0. cbn [shape data ravel]. reflexivity. Qed.
End IN.

(** ** Spatial pools *)
Section SPU.
  Context {G : Type} (H : list G).
  Lemma pool_unbatched d spec (x : tensor R) N rest : has_shape x (N :: rest) -> List.length rest = d ->
    pool_forward d spec x = rmap squeeze0 (pool_forward d spec (unsqueeze0 x)).
  Proof.
    intros [Hs _] Hd. unfold pool_forward. cbn [unsqueeze0 shape]. rewrite Hs. cbn [List.length]. rewrite Hd, Nat.eqb_refl.
    destruct (Nat.eqb_spec (S (S d)) (S d)); [lia|]. reflexivity.
  Qed.
  Lemma spatial_pool_unbatched d spec (x : tensor R) N C n sp : has_shape x (N :: C :: n :: sp) -> S (List.length sp) = d -> N * (C * (n * prodn sp)) <> 0 ->
    match pool_axes d spec (C * n :: sp) with
    | None => g_spatial_pool d spec x H = Err RuntimeError
    | Some axs =>
      if returns_pair spec then g_spatial_pool d spec x H = Err AttributeError
      else (prodn (map px_out axs) <> C * n -> g_spatial_pool d spec x H = Err RuntimeError) /\
           (prodn (map px_out axs) = C * n -> exists v, g_spatial_pool d spec x H = Ok (v, H) /\ has_shape v [N; C; n] /\
             forall a c e, a < N -> c < C -> e < n ->
               let z := unravel (map px_out axs) (c * n + e) in
               at_ v [a; c; e] = pool_value spec (map (fun q => at_ x (a :: hd 0 q / n :: hd 0 q mod n :: tl q)) (cart (map2 px_win axs z))) (prodn (map2 px_full axs z)))
    end.
  Proof.
    intros Hx Hd Hz. pose proof (flat12_shape x N C n sp Hx) as Hf. set (f := flat12 N C n sp x) in *.
    assert (has_shape (unsqueeze0 f) (1 :: N :: C * n :: sp)) as Hu.
    { destruct Hf as [Hs Hw]. split; [cbn [unsqueeze0 shape]; rewrite Hs; reflexivity|]. unfold wft in *. cbn [unsqueeze0 shape data]. rewrite Hw, (prodn_cons 1). lia. }
    destruct (pool_forward_spec d spec _ 1 N (C * n :: sp) Hu) as [A B]; [cbn [List.length]; exact Hd|].
    assert (N * prodn (C * n :: sp) <> 0) as Hnz by (rewrite prodn_cons; lia).
    assert (g_spatial_pool d spec x H = y <- rmap squeeze0 (pool_forward d spec (unsqueeze0 f)) ;; if returns_pair spec then Err AttributeError else v <- view [N; C; n] y ;; Ok (v, H)) as E.
    { unfold g_spatial_pool, flatten12. rewrite (proj1 Hx). fold f. cbn [bind firstn]. change (mkT (N :: C * n :: sp) (data x)) with f.
      rewrite (pool_unbatched d spec f N (C * n :: sp) Hf) by (cbn [List.length]; exact Hd). reflexivity. }
    rewrite E. destruct (pool_axes d spec (C * n :: sp)) as [axs|] eqn:Ea.
    2: { rewrite A by (left; reflexivity). reflexivity. }
    destruct (B axs eq_refl Hnz) as (y & Ey & Sy & Vy). rewrite Ey. cbn [rmap bind]. destruct (returns_pair spec); [reflexivity|].
    set (o := map px_out axs) in *. split.
    - intros Ho. rewrite view_err; [reflexivity|]. cbn [squeeze0 shape]. rewrite (proj1 Sy). cbn [tl]. rewrite !prodn_cons, prodn_nil. intros Q. apply Ho.
      apply (Nat.mul_cancel_l _ _ N); lia.
    - intros Ho. rewrite view_ok by (cbn [squeeze0 shape]; rewrite (proj1 Sy); cbn [tl]; rewrite !prodn_cons, prodn_nil, Ho; lia). cbn [bind squeeze0 data].
      eexists. split; [reflexivity|]. split; [apply (has_shape_mk y _ _ Sy); rewrite !prodn_cons, prodn_nil, Ho; lia|].
      intros a c e Ha Hc He. set (z := unravel o (c * n + e)). assert (c * n + e < C * n) as Hlt by nia.
      assert (c * n + e < prodn o) as Hlt' by (rewrite Ho; exact Hlt).
      assert (at_ (mkT [N; C; n] (data y)) [a; c; e] = at_ y (0 :: a :: z)) as Ev.
      { destruct y as [sy dy]. destruct Sy as [Hs _]. cbn in Hs. subst sy. cbn [data]. apply at_reshape. cbn [ravel]. unfold z.
        rewrite ravel_unravel by exact Hlt'. rewrite !prodn_cons, prodn_nil, Ho. lia. }
      rewrite Ev, Vy by (try lia; unfold z; apply unravel_valid; exact Hlt'). f_equal. apply map_ext_in. intros q Hq.
      assert (exists i r, q = i :: r) as (i & r & ->).
      { destruct axs as [|p axs'].
        - exfalso. unfold pool_axes in Ea.
          assert (List.length (@nil paxis) = d) as Q; [|simpl in Q; lia].
          destruct spec; (match type of Ea with (if ?c then _ else _) = _ => destruct c; [|discriminate] end);
            try (unfold all_some in Ea; apply sequence_inv in Ea; apply (f_equal (@List.length _)) in Ea; unfold axes in Ea; rewrite map_length, seq_length in Ea; rewrite Ea; reflexivity);
            apply some_inj in Ea; rewrite <- Ea; unfold axes; rewrite map_length, seq_length; reflexivity.
        - unfold z, o in Hq. cbn [map unravel] in Hq. cbn [map2 cart] in Hq. apply in_flat_map in Hq. destruct Hq as (i & _ & Hq).
          apply in_map_iff in Hq. destruct Hq as (r & <- & _). eauto. }
      cbn [hd tl]. rewrite <- (at_flat12 x N C n sp a (i / n) (i mod n) r Hx). fold f.
      rewrite (Nat.mul_comm (i / n)), <- Nat.div_mod by lia. unfold at_, unsqueeze0. cbn [shape data ravel]. reflexivity.
  Qed.
End SPU.

(** ** Convolutions *)
Lemma bind_ok' {A B} (r : result A) (k : A -> result B) b : (x <- r ;; k x) = Ok b -> exists x, r = Ok x /\ k x = Ok b.
Proof. destruct r; [eauto|discriminate]. Qed.
Lemma pad_axes_head m pads X p : pad_axes m pads X = Ok p -> exists N C sp, shape X = N :: C :: sp /\ firstn 2 (shape p) = [N; C].
Proof.
  unfold pad_axes. destruct (shape X) as [|N [|C sp]]; try discriminate. match goal with |- context [if ?c then _ else _] => destruct c end; [|discriminate].
  intros [= <-]. exists N, C, sp. split; reflexivity.
Qed.
Lemma conv_nd_inv st dl g X W Y Co Cg ks : conv_nd st dl g X W = Ok Y -> shape W = Co :: Cg :: ks ->
  exists N sp o, shape X = N :: Cg * g :: sp /\ has_shape Y (N :: Co :: o) /\ List.length o = List.length ks /\ 0 < prodn o.
Proof.
  unfold conv_nd. intros E Hw. rewrite Hw in E. destruct (shape X) as [|N [|C sp]]; try discriminate. cbv zeta in E.
  match type of E with (if ?c then _ else _) = _ => destruct c eqn:Ec; [|discriminate] end. injection E as <-.
  rewrite !Bool.andb_true_iff, !Nat.eqb_eq in Ec. destruct Ec as (((((((_ & _) & _) & _) & EC) & _) & _) & _).
  do 3 eexists. split; [rewrite EC; reflexivity|]. split; [split; [reflexivity|apply wft_build]|]. split; [apply ConvFacts.axes_length|].
  unfold axes. generalize (seq 0 (List.length ks)). intros l. induction l as [|j l IH]; [cbn; lia|]. cbn [map]. rewrite prodn_cons. apply Nat.mul_pos_pos; [unfold out_size; rewrite Nat.add_1_r; apply Nat.lt_0_succ|exact IH].
Qed.
Lemma conv_batched_inv {G P} (L : gconv G P) X W g Y Co Cg ks : conv_batched L X W g = Ok Y -> shape W = Co :: Cg :: ks ->
  exists N sp o, shape X = N :: Cg * g :: sp /\ has_shape Y (N :: Co :: o) /\ List.length o = List.length ks /\ 0 < prodn o.
Proof.
  intros E Hw. assert (exists m pads p, pad_axes m pads X = Ok p /\ conv_nd (l_stride L) (l_dil L) g p W = Ok Y) as (m & pads & p & Ep & Ec).
  { unfold conv_batched in E. destruct (l_mode L); (apply bind_ok' in E; destruct E as (p & Ep & E));
      try (unfold fpad in Ep; apply bind_ok' in Ep; destruct Ep as (pads & _ & Ep)); eauto. }
  destruct (conv_nd_inv _ _ _ _ _ _ _ _ _ Ec Hw) as (N & sp & o & Es & SY & Lo & Po).
  destruct (pad_axes_head _ _ _ _ Ep) as (N' & C' & sp' & Ex & Ef). rewrite Es in Ef. cbn [firstn] in Ef. injection Ef as -> ->.
  exists N', sp', o. auto.
Qed.
Lemma conv_unbatched {G P} (L : gconv G P) X W g : S (List.length (shape X)) = List.length (shape W) ->
  conv_forward L X W g = rmap squeeze0 (conv_forward L (unsqueeze0 X) W g).
Proof.
  intros E. unfold conv_forward. cbn [unsqueeze0 shape List.length]. rewrite E, Nat.eqb_refl.
  destruct (Nat.eqb_spec (S (List.length (shape W))) (List.length (shape W))); [lia|]. reflexivity.
Qed.
Lemma conv_forward_batched {G P} (L : gconv G P) X W g : List.length (shape X) = List.length (shape W) -> conv_forward L X W g = conv_batched L X W g.
Proof. intros E. unfold conv_forward. rewrite E. destruct (Nat.eqb_spec (S (List.length (shape W))) (List.length (shape W))); [lia|]. reflexivity. Qed.

Lemma conv_unbatched_inv {G P} (L : gconv G P) X W g Y Co Cg ks : conv_forward L X W g = Ok Y -> shape W = Co :: Cg :: ks -> List.length (shape X) = S (List.length ks) ->
  exists sp o, shape X = Cg * g :: sp /\ has_shape Y (Co :: o) /\ List.length o = List.length ks /\ 0 < prodn o.
Proof.
  intros E Hw HL. rewrite conv_unbatched in E by (rewrite Hw; cbn [List.length]; lia).
  rewrite conv_forward_batched in E by (rewrite Hw; cbn [unsqueeze0 shape List.length]; lia).
  destruct (conv_batched L (unsqueeze0 X) W g) as [y|] eqn:Ey; [|discriminate]. cbn [rmap] in E. injection E as <-.
  destruct (conv_batched_inv L _ _ _ _ _ _ _ Ey Hw) as (N & sp & o & Es & SY & Lo & Po). cbn [unsqueeze0 shape] in Es. injection Es as <- Es.
  exists sp, o. split; [exact Es|]. split; [|auto]. destruct SY as [Hs Hwf]. split; [cbn [squeeze0 shape]; rewrite Hs; reflexivity|].
  unfold wft in *. cbn [squeeze0 shape data]. rewrite Hwf, Hs. cbn [tl]. rewrite (prodn_cons 1). lia.
Qed.

(** The bias of a layer added to a tensor of the rank of the bias. *)
Lemma bshape_ones A C s : bshape (A :: s) (C :: repeat 1 (List.length s)) = match bdim A C with Some m => Some (m :: s) | None => None end.
Proof.
  unfold bshape. cbn [rev]. 
  assert (forall r r', List.length r = List.length r' -> Forall (fun x => x = 1) r' ->
    bshape_rev (r ++ [A]) (r' ++ [C]) = match bdim A C with Some m => Some (r ++ [m]) | None => None end) as K.
  { induction r as [|x r IH]; intros [|y r'] Hl HF; try discriminate.
    - cbn [app bshape_rev]. destruct (bdim A C); reflexivity.
    - inversion HF; subst. cbn [app bshape_rev]. rewrite bdim_1_r, IH by (cbn in Hl; try lia; assumption). destruct (bdim A C); reflexivity. }
  rewrite K.
  - destruct (bdim A C); [|reflexivity]. rewrite rev_app_distr, rev_involutive. reflexivity.
  - rewrite !rev_length, repeat_length. reflexivity.
  - apply Forall_forall. intros x Hx. apply in_rev in Hx. apply repeat_spec in Hx. exact Hx.
Qed.
Lemma bias_wrong_axis {G P} (L : gconv G P) b x A s : l_bias L = Some b -> bias_ok L -> List.length s = S (List.length (l_ks L)) -> has_shape x (A :: s) ->
  (A <> l_out L -> A <> 1 -> l_out L <> 1 -> add_bias L x = Err RuntimeError) /\
  (A = l_out L \/ A = 1 \/ l_out L = 1 -> 0 < A -> 0 < l_out L -> exists y, add_bias L x = Ok y /\ has_shape y (Nat.max A (l_out L) :: s) /\
     forall a z, a < Nat.max A (l_out L) -> valid s z ->
       at_ y (a :: z) = (at_ x ((if Nat.eqb A 1 then 0%nat else a) :: z) + biasf L (if Nat.eqb (l_out L) 1 then 0%nat else a))%R).
Proof.
  intros Eb Hb Hl [Hs Hw]. unfold bias_ok, add_bias, biasf in *. rewrite Eb in *. destruct Hb as [Hbs Hbw]. unfold bcast2. rewrite Hs, Hbs, <- Hl.
  rewrite bshape_ones. unfold bdim. split.
  - intros Q1 Q2 Q3. destruct (Nat.eqb_spec A (l_out L)); [contradiction|]. destruct (Nat.eqb_spec A 1); [contradiction|].
    destruct (Nat.eqb_spec (l_out L) 1); [contradiction|]. reflexivity.
  - intros Q P1 P2.
    assert ((if Nat.eqb A (l_out L) then Some A else if Nat.eqb A 1 then Some (l_out L) else if Nat.eqb (l_out L) 1 then Some A else None) = Some (Nat.max A (l_out L))) as ->.
    { destruct (Nat.eqb_spec A (l_out L)); [f_equal; lia|]. destruct (Nat.eqb_spec A 1); [f_equal; lia|]. destruct (Nat.eqb_spec (l_out L) 1); [f_equal; lia|lia]. }
    eexists. split; [reflexivity|]. split; [split; [reflexivity|apply wft_build]|]. intros a z Ha Hz.
    rewrite at_build by (apply valid_cons; assumption). pose proof (valid_length _ _ Hz) as Lz.
    rewrite !bidx_cons by (rewrite ?repeat_length; exact Lz). rewrite (bidx_self s z Hz), bidx_ones by exact Lz. reflexivity.
Qed.

Section LU.
  Context {G P : Type} {D : Dflt P} (L : gconv G P) (HL : layer_ok L) (Hb : bias_ok L).
  Context (g ci co : nat) (Hg : 0 < g) (Hci : 0 < ci) (Hco : 0 < co).
  Hypothesis Eg : l_groups L = g.
  Hypothesis Ein : l_in L = ci * g.
  Hypothesis Eout : l_out L = co * g.
  Context (weight W : tensor R) (H : list G) (HH : H <> []).
  Hypothesis Hker : lifting_kernel_forward (l_kernel L) weight H = Ok W.
  Hypothesis HW : has_shape W (l_out L :: List.length H :: ci :: l_ks L).
  Context (X : tensor R) (A : nat) (sp : list nat).
  Hypothesis Hi : has_shape X (A :: sp).
  Hypothesis Hsp : List.length sp = List.length (l_ks L).
  Hypothesis Hd : 0 < List.length (l_ks L).

  (** Memory of the batch-of-one result, and where position number q of the channel-times-first-axis grid lies. *)
  Lemma lifting_unbatched_core :
    match lifting_forward (with_bias L None) weight (unsqueeze0 X) H with
    | Err _ => lifting_forward L weight X H = Err RuntimeError
    | Ok (Y, _) => A = l_in L /\ exists o1 os, has_shape Y (1 :: l_out L :: List.length H :: o1 :: os) /\ S (List.length os) = List.length (l_ks L) /\
        0 < o1 * prodn os /\
        lifting_forward L weight X H =
          if Nat.eqb o1 A then x <- add_bias L (mkT (A :: l_out L :: List.length H :: os) (data Y)) ;; Ok (x, H) else Err RuntimeError
    end.
  Proof using HL Hb Hg Hci Hco Eg Ein Eout HH Hker HW Hi Hsp Hd.
    pose proof (Wr_view L HL g ci co Hg Hci Hco Eg Ein Eout W H HW sp Hsp) as HV.
    pose proof (Wr_shape L g ci co Hg Hci Hco Eg Ein Eout W H HW sp Hsp) as HS. 
    set (Wr := mkT (co * List.length H * g :: ci :: l_ks L) (data W)) in *.
    assert (0 < List.length H) as HlH by (destruct H; [contradiction|cbn; lia]).
    unfold lifting_forward. cbn [with_bias l_kernel l_in l_groups l_ks l_out]. rewrite Hker. cbn [bind]. rewrite HV. cbn [bind].
    replace (nth 0 (shape X) 0) with A by (rewrite (proj1 Hi); reflexivity). change (nth 0 (shape (unsqueeze0 X)) 0) with 1.
    assert (conv_forward L X Wr (l_groups L) = rmap squeeze0 (conv_batched L (unsqueeze0 X) Wr (l_groups L))) as E1.
    { rewrite conv_unbatched by (rewrite (proj1 Hi), (proj1 HS); cbn [List.length]; lia). f_equal. apply conv_forward_batched.
      cbn [unsqueeze0 shape]. rewrite (proj1 Hi), (proj1 HS). cbn [List.length]. lia. }
    assert (conv_forward (with_bias L None) (unsqueeze0 X) Wr (l_groups L) = conv_batched L (unsqueeze0 X) Wr (l_groups L)) as E2.
    { rewrite conv_forward_batched; [reflexivity|]. cbn [unsqueeze0 shape]. rewrite (proj1 Hi), (proj1 HS). cbn [List.length]. lia. }
    rewrite E1, E2. destruct (conv_batched L (unsqueeze0 X) Wr (l_groups L)) as [y|e] eqn:Ey.
    2: { cbn [rmap bind]. f_equal. clear - Ey. unfold conv_batched in Ey.
         assert (forall m pads e, pad_axes m pads (unsqueeze0 X) = Err e -> e = RuntimeError) as K1.
         { intros m pads e'. unfold pad_axes. destruct (shape (unsqueeze0 X)) as [|? [|? ?]]; try congruence.
           match goal with |- context [if ?c then _ else _] => destruct c end; congruence. }
         assert (forall st dl p e, conv_nd st dl (l_groups L) p Wr = Err e -> e = RuntimeError) as K2.
         { intros st dl p e'. unfold conv_nd. destruct (shape p) as [|? [|? ?]]; destruct (shape Wr) as [|? [|? ?]]; try congruence. cbv zeta.
           match goal with |- context [if ?c then _ else _] => destruct c end; congruence. }
         assert (forall m fl e, fpad m fl (unsqueeze0 X) = Err e -> e = RuntimeError) as K3.
         { intros m fl e'. unfold fpad. destruct (unflatten_pads _ fl) eqn:Eu; [apply K1|]. intros [= <-]. revert Eu. unfold unflatten_pads.
           match goal with |- context [if ?c then _ else _] => destruct c end; congruence. }
         destruct (l_mode L);
           [destruct (pad_axes Zeros _ (unsqueeze0 X)) eqn:E0|destruct (fpad _ (l_rev L) (unsqueeze0 X)) eqn:E0|destruct (fpad _ (l_rev L) (unsqueeze0 X)) eqn:E0|destruct (fpad _ (l_rev L) (unsqueeze0 X)) eqn:E0];
           cbn [bind] in Ey; first [eapply K2; exact Ey|injection Ey as <-; eauto]. }
    destruct (conv_batched_inv L _ _ _ _ _ _ _ Ey (proj1 HS)) as (N & sp' & o & Es & SY & Lo & Po).
    cbn [unsqueeze0 shape] in Es. rewrite (proj1 Hi) in Es. injection Es as <- EA _.
    destruct o as [|o1 os]; [cbn in Lo; lia|]. cbn [rmap bind]. rewrite (proj1 SY). cbn [skipn squeeze0 shape data]. rewrite (proj1 SY). cbn [tl skipn].
    assert (l_out L * List.length H = co * List.length H * g) as Eo by (rewrite Eout; nia).
    destruct (has_shape_view y _ (1 :: l_out L :: List.length H :: o1 :: os) SY) as (Hv & Hvs).
    { rewrite !(prodn_cons 1), (prodn_cons (co * List.length H * g)), (prodn_cons (l_out L)), (prodn_cons (List.length H)). rewrite <- Eo. nia. }
    rewrite Hv. cbn [bind]. unfold add_bias at 1. cbn [with_bias l_bias bind].
    split; [rewrite EA, Ein, Eg; reflexivity|]. exists o1, os. split; [exact Hvs|]. split; [cbn [List.length] in Lo; exact Lo|].
    split; [rewrite <- prodn_cons; exact Po|]. rewrite prodn_cons in Po.
    cbn [data]. destruct (Nat.eqb_spec o1 A) as [->|Q].
    - rewrite view_ok; [cbn [bind data]; reflexivity|]. cbn [squeeze0 shape]. rewrite (proj1 SY). cbn [tl]. rewrite !prodn_cons, <- Eo. nia.
    - rewrite view_err; [reflexivity|]. cbn [squeeze0 shape]. rewrite (proj1 SY). cbn [tl]. rewrite !prodn_cons, <- Eo. intros Q2. apply Q.
      assert (l_out L * List.length H * prodn os <> 0) as Hne by (rewrite Eout; nia).
      apply (Nat.mul_cancel_l _ _ _ Hne). nia.
  Qed.
End LU.

(** Group and separable layers. *)
Section GU.
  Context {G P : Type} {D : Dflt P} (L : gconv G P).
  Context (g ci : nat) (Hg : 0 < g) (Hci : 0 < ci).
  Hypothesis Eg : l_groups L = g.
  Hypothesis Ein : l_in L = ci * g.
  Context (in_H out_H : list G) (X : tensor R) (A B h : nat) (sp : list nat).
  Hypothesis Hi : has_shape X (A :: B :: h :: sp).
  Hypothesis Hsp : S (List.length sp) = List.length (l_ks L).
  Hypothesis Hpos : 0 < A * (B * (h * prodn sp)).

  Lemma unbatched_channels i w y Co ks : view (A :: l_in L * List.length in_H :: sp) X = Ok i -> shape w = Co :: ci * List.length in_H :: ks ->
    List.length ks = List.length (l_ks L) -> conv_forward L i w (l_groups L) = Ok y ->
    A = l_in L * List.length in_H /\ B * h = l_in L * List.length in_H.
  Proof using Hg Hci Eg Ein Hi Hsp Hpos.
    intros Ev Hw Hk Ec. apply view_inv in Ev. destruct Ev as [Ep ->]. rewrite (proj1 Hi), !prodn_cons in Ep.
    assert (0 < A * prodn sp) by nia. assert (B * h = l_in L * List.length in_H) as E2.
    { apply (Nat.mul_cancel_l _ _ (A * prodn sp)); [lia|]. nia. }
    destruct (conv_unbatched_inv L _ _ _ _ _ _ _ Ec Hw) as (sp' & o & Es & _); [cbn [shape List.length]; lia|].
    cbn [shape] in Es. injection Es as EA _. split; [|exact E2]. rewrite EA, Ein, Eg. nia.
  Qed.
  Lemma group_unbatched kf W Y H' : kf in_H out_H = Ok W -> group_forward_with L kf X in_H out_H = Ok (Y, H') ->
    A = l_in L * List.length in_H /\ B * h = l_in L * List.length in_H.
  Proof using Hg Hci Eg Ein Hi Hsp Hpos.
    intros HK E. unfold group_forward_with in E. rewrite (proj1 Hi), HK in E. cbn [bind] in E.
    apply bind_ok' in E. destruct E as (i & Ei & E). apply bind_ok' in E. destruct E as (w & Ew & E). apply bind_ok' in E. destruct E as (x & Ex & E).
    apply view_inv in Ew. destruct Ew as [_ ->].
    eapply unbatched_channels; [exact Ei| | |exact Ex]; [cbn [shape]; rewrite Eg, Ein, Nat.div_mul by lia; reflexivity|reflexivity].
  Qed.
  Lemma separable_unbatched weight_H weight WH WS Y H' : separable_kernel_forward (l_kernel L) weight_H weight in_H out_H = Ok (WH, WS) ->
    List.length (skipn 4 (shape WH)) = List.length (l_ks L) -> separable_forward L weight_H weight X in_H out_H = Ok (Y, H') ->
    A = l_in L * List.length in_H /\ B * h = l_in L * List.length in_H.
  Proof using Hg Hci Eg Ein Hi Hsp Hpos.
    intros HK Hr E. unfold separable_forward in E. rewrite (proj1 Hi), HK in E. cbn [bind fst snd] in E.
    apply bind_ok' in E. destruct E as (i & Ei & E). apply bind_ok' in E. destruct E as (w & Ew & E). apply bind_ok' in E. destruct E as (x & Ex & E).
    apply view_inv in Ew. destruct Ew as [_ ->].
    eapply unbatched_channels; [exact Ei| |exact Hr|exact Ex]. cbn [shape]. rewrite Eg, Ein, Nat.div_mul by lia. reflexivity.
  Qed.
End GU.
