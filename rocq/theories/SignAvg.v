(** Proofs for C103: what averaging over the group leaves of the features of E(n) lifting layers. *)
From Coq Require Import String ZArith Lra Permutation.
From Verif Require Import Prelude RMath Mat SO2 SO2Facts O2 O2Facts SO3 SO3Facts O3 O3Facts Tensor TensorFacts Functional FunctionalFacts Kernel KernelFacts GroupKernelFacts KernelMore SepProduct WeightFacts LinFacts
  Layers LayersSpec NormFacts PoolFacts Conv ConvSpec ConvInit ConvFacts ConvShift Public PublicFacts ContractFacts NetDraws Repulse RepulseFacts Prop_Kernel Prop_Conv Prop_Layers Prop_Public SignSpec SignFacts SignLayers.
Open Scope R_scope.

(** ** The features as sums over the window, element by element *)
Definition conv_of m (X : tensor R) sp stride dil left cpg opg ks (K : nat -> nat -> list nat -> R) (n o : nat) (z : list nat) : R :=
  sumR (map (fun c => sumR (map (fun x => K o c x * image_at m X sp [n; (o / opg * cpg + c)%nat] (read_pos stride dil left z x)) (indices ks))) (seq 0 cpg)).
Lemma conv_of_comb m X sp stride dil left cpg opg ks K K1 K2 a b n o z : (forall c x, (c < cpg)%nat -> valid ks x -> K o c x = a * K1 o c x + b * K2 o c x) ->
  conv_of m X sp stride dil left cpg opg ks K n o z = a * conv_of m X sp stride dil left cpg opg ks K1 n o z + b * conv_of m X sp stride dil left cpg opg ks K2 n o z.
Proof.
  intros H. unfold conv_of. rewrite <- !sumR_scale, <- sumR_plus. apply sumR_ext. intros c Hc. apply in_seq in Hc. rewrite <- !sumR_scale, <- sumR_plus.
  apply sumR_ext. intros x Hx. apply in_indices in Hx. rewrite H by (lia || exact Hx). ring.
Qed.

Lemma responses {G P} {D : Dflt P} d (L : gconv G P) cin cout ks (k : gkernel G P) groups stride padding dil m bias w (K : G -> nat -> nat -> list nat -> R) X N sp H Y H1 :
  constructed d L cin cout ks k groups stride padding dil m bias ->
  (exists W, lifting_kernel_forward k w H = Ok W /\ has_shape W (cout :: List.length H :: (cin / groups)%nat :: ks) /\
     forall o i h c x, (o < cout)%nat -> nth_error H i = Some h -> (c < cin / groups)%nat -> valid ks x -> at_ W (o :: i :: c :: x) = K h o c x) ->
  has_shape X (N :: cin :: sp) -> List.length sp = d -> H <> [] -> lifting_forward L w X H = Ok (Y, H1) ->
  let size := conv_size sp ks stride dil (lefts (stored_padding d padding) ks dil) (rights (stored_padding d padding) ks dil) in
  H1 = H /\ has_shape Y (N :: cout :: List.length H :: size) /\
  forall n o i h z, (n < N)%nat -> (o < cout)%nat -> nth_error H i = Some h -> valid size z ->
    at_ Y (n :: o :: i :: z) = conv_of m X sp stride dil (lefts (stored_padding d padding) ks dil) (cin / groups) (cout / groups) ks (K h) n o z + bias_value d bias o.
Proof.
  intros Hc (W & EW & SW & HW) SX Hsp Hn E size.
  pose proof (C45_lifting_convolution G P _ d L cin cout ks k groups stride padding dil m bias w W H X N sp Hc Hn EW SW SX Hsp) as A. cbv zeta in A. destruct A as [A B].
  destruct (fits_em m sp ks stride dil (lefts (stored_padding d padding) ks dil) (rights (stored_padding d padding) ks dil)) as [F|F]; [|rewrite (B F) in E; discriminate].
  destruct (A F) as (Y' & E' & S & V). rewrite E in E'. injection E' as <- ->. split; [reflexivity|]. split; [exact S|].
  intros n o i h z Hnn Ho Hi Hz. rewrite V by (assumption || exact (nth_error_Some_lt _ _ _ Hi)). f_equal. unfold conv_of.
  apply sumR_ext. intros c Hcc. apply in_seq in Hcc. apply sumR_ext. intros x Hx. apply in_indices in Hx. rewrite (HW o i h c x) by (assumption || lia). reflexivity.
Qed.

Lemma map_nth_seq {A B} (f : A -> B) (g : nat -> B) : forall l s, (forall i h, nth_error l i = Some h -> g (s + i)%nat = f h) -> map g (seq s (List.length l)) = map f l.
Proof.
  induction l as [|h l IH]; intros s H; [reflexivity|]. cbn [List.length seq map]. f_equal.
  - rewrite <- (H 0%nat h eq_refl). f_equal. lia.
  - apply IH. intros i h' E. rewrite <- (H (S i) h' E). f_equal. lia.
Qed.
Lemma sum_shift {A} (f : A -> R) b l : sumR (map (fun h => f h + b) l) = sumR (map f l) + INR (List.length l) * b.
Proof.
  induction l as [|h l IH]; [cbn; ring|]. cbn [map List.length]. change (sumR (?a :: ?b)) with (a + sumR b). rewrite S_INR.
  change (f h + b + sumR (map (fun h0 => f h0 + b) l) = f h + sumR (map f l) + (INR (List.length l) + 1) * b). rewrite IH. ring.
Qed.

(** ** 2d *)
Definition value_E2 (mask : bool) s (smp : sampler V2) (w : tensor R) (h : O2) (o c : nat) (x : list nat) : R :=
  (if mask then at_ (create_spherical_mask_R2 s) x else 1) * smp [s; s] (slice w [s; s] [o; c]) (scalv2 (o2c h) (app2 (so2_angle_to_matrix (o2a h * -1)) (at_ (create_grid_R2 s) x))) / o2c h.
Lemma kernel_E2_values T cin cout s g n m mode pm mask grid smp w H : (0 < s)%nat -> sample_R2 mode pm = Ok smp -> has_shape w [cout; (cin / g)%nat; s; s] ->
  exists W, lifting_kernel_forward (lifting_kernel_E2 T cin cout s g n m mode pm mask grid) w H = Ok W /\ has_shape W (cout :: List.length H :: (cin / g)%nat :: [s; s]) /\
    forall o i h c x, (o < cout)%nat -> nth_error H i = Some h -> (c < cin / g)%nat -> valid [s; s] x -> at_ W (o :: i :: c :: x) = value_E2 mask s smp w h o c x.
Proof.
  intros Hs Hsmp Hw. destruct (C36_E2 T cin cout s g n m mode pm mask grid smp w H Hs Hsmp Hw) as (W & EW & SW & VW). exists W. split; [exact EW|]. split; [exact SW|].
  intros o i h c x Ho Hi Hc Hx. destruct (valid2_inv s x Hx) as (a & b & -> & Ha & Hb). exact (VW o i h c a b Ho Hi Hc Ha Hb).
Qed.

Definition opposite2 (h h' : O2) : Prop := (o2c h = 1 /\ o2c h' = -1 \/ o2c h = -1 /\ o2c h' = 1) /\ exists q : Z, o2a h' = o2a h + PI + 2 * PI * IZR q.
Lemma turn_back t q v : app2 (so2_angle_to_matrix ((t + PI + 2 * PI * IZR q) * -1)) v = scalv2 (-1) (app2 (so2_angle_to_matrix (t * -1)) v).
Proof.
  replace ((t + PI + 2 * PI * IZR q) * -1) with (t * -1 + (- PI) + 2 * PI * IZR (- q)) by (rewrite opp_IZR; ring).
  assert (forall a, cos (a + 2 * PI * IZR (- q)) = cos a /\ sin (a + 2 * PI * IZR (- q)) = sin a) as P.
  { intros a. assert (Rmod (a + 2 * PI * IZR (- q)) (2 * PI) = Rmod a (2 * PI)) as E by (apply Rmod_shift; pose proof PI_RGT_0; lra).
    rewrite <- (cos_Rmod (a + _)), <- (sin_Rmod (a + _)), E, cos_Rmod, sin_Rmod. auto. }
  destruct (P (t * -1 + - PI)) as [C S]. unfold so2_angle_to_matrix. rewrite C, S, cos_plus, sin_plus, (cos_neg PI), (sin_neg PI), cos_PI, sin_PI.
  unfold scalv2, app2. cbn [b00 b01 b10 b11 v2x v2y]. f_equal; ring.
Qed.
Lemma value_opposite2 mask s smp w h h' o c x : opposite2 h h' -> value_E2 mask s smp w h' o c x = - value_E2 mask s smp w h o c x.
Proof.
  intros (Hc & q & Ea). unfold value_E2. rewrite Ea, turn_back.
  assert (forall v, scalv2 1 (scalv2 (-1) v) = scalv2 (-1) v /\ scalv2 (-1) (scalv2 (-1) v) = scalv2 1 v) as E by (intros [p r]; unfold scalv2; cbn [v2x v2y]; split; f_equal; ring).
  destruct (E (app2 (so2_angle_to_matrix (o2a h * -1)) (at_ (create_grid_R2 s) x))) as [E1 E2].
  destruct Hc as [[-> ->]|[-> ->]]; rewrite ?E1, ?E2; field.
Qed.

Lemma E2_responses T cin cout s groups st padding dl pmode permute bias mode pm mask gks grid M smp w X N sp u c given Y H :
  usable 2 s st dl cin cout padding bias -> sample_R2 mode pm = Ok smp ->
  lifting_E2 T cin cout s groups st padding dl pmode permute bias mode pm mask gks grid = Ok M ->
  has_shape w [cout; (cin / Z.to_nat groups)%nat; s; s] -> has_shape X (N :: cin :: sp) -> List.length sp = 2%nat ->
  permuted M o2_left_apply_angle (drawn_E2 u c) (or_else given (kernel_grid M)) <> [] ->
  lifting_E2_call M u c w X given = Ok (Y, H) ->
  H = permuted M o2_left_apply_angle (drawn_E2 u c) (or_else given (kernel_grid M)) /\
  exists size (F : O2 -> nat -> nat -> list nat -> R), has_shape Y (N :: cout :: List.length H :: size) /\
    (forall n o i h z, (n < N)%nat -> (o < cout)%nat -> nth_error H i = Some h -> valid size z -> at_ Y (n :: o :: i :: z) = F h n o z + bias_value 2 bias o) /\
    (forall h h' n o z, opposite2 h h' -> F h' n o z = - F h n o z).
Proof.
  intros U Hs HM Hw HX Hsp Hn E. pose proof (proj1 U) as Hs0.
  destruct (made_lifting_E2 _ _ _ _ _ _ _ _ _ _ _ _ _ _ _ _ _ HM U) as (L & gE & k & m & -> & _ & Ek & Em & Hc).
  unfold lifting_E2_call, lifting_call in E. cbn [gm_layer] in E. subst k. cbn [repeat] in Hc.
  set (H' := permuted _ _ _ _) in *.
  destruct (responses 2 L cin cout [s; s] _ _ _ _ _ _ _ w (value_E2 mask s smp w) X N sp H' Y H Hc) with (5 := E) as (-> & S & V); [| assumption | assumption | assumption |].
  { apply kernel_E2_values; assumption. }
  split; [reflexivity|]. eexists _, (fun h => conv_of _ _ _ _ _ _ _ _ _ (value_E2 mask s smp w h)). split; [exact S|]. split; [exact V|].
  intros h h' n o z Ho. cbv beta. erewrite (conv_of_comb _ _ _ _ _ _ _ _ _ (value_E2 mask s smp w h') (value_E2 mask s smp w h) (value_E2 mask s smp w h) (-1) 0).
  - ring.
  - intros cc x _ _. rewrite (value_opposite2 _ _ _ _ h h') by exact Ho. ring.
Qed.

(** Every grid the default produces, moved or not: two halves of opposite coefficients, each closed under half turns. *)
Definition halves m (H : list O2) : Prop := exists c0 f, (c0 = 1 \/ c0 = -1) /\
  H = map (fun i => mkO2 c0 (f i)) (seq 0 (2 * m)) ++ map (fun i => mkO2 (- c0) (f i)) (seq 0 (2 * m)) /\
  forall i, (i < m)%nat -> exists q : Z, f (i + m)%nat = f i + PI + 2 * PI * IZR q.
Lemma uniform_half m i : (0 < m)%nat -> 2 * PI * INR (i + m) / INR (2 * m) = 2 * PI * INR i / INR (2 * m) + PI.
Proof.
  intros Hm. rewrite plus_INR, mult_INR. assert (0 < INR m) by (apply lt_0_INR; exact Hm). change (INR 2) with (1 + 1). field. lra.
Qed.
Lemma halves_default m b mul u c : (0 < m)%nat -> mul = o2_left_apply_angle ->
  halves m (if b : bool then bcast_left mul (drawn_E2 u c) (o2_uniform_grid (2 * m) (2 * m)) else o2_uniform_grid (2 * m) (2 * m)).
Proof.
  intros Hm ->. rewrite o2_uniform_split.
  assert (so2_uniform_grid (2 * m) = map (fun i => 2 * PI * INR i / INR (2 * m)) (seq 0 (2 * m))) as E by apply so2_uniform_grid_eq.
  rewrite E, !map_map. destruct b.
  - unfold bcast_left, drawn_E2, o2_random_grid. cbn [so2_random_grid combine map flat_map]. rewrite app_nil_r, map_app, !map_map. cbn [fst snd].
    set (c0 := 2 * (if Rlt_dec (1 / 2) c then 1 else 0) - 1). assert (c0 = 1 \/ c0 = -1) as H0 by (unfold c0; destruct (Rlt_dec (1 / 2) c); [left|right]; lra).
    exists c0, (fun i => Rmod (2 * PI * u + 2 * PI * INR i / INR (2 * m)) (2 * PI)). split; [exact H0|]. split.
    + f_equal; apply map_ext; intros i; unfold o2_left_apply_angle; cbn [o2c o2a]; f_equal; ring.
    + intros i Hi. cbv beta. destruct (Rmod_decomp (2 * PI * u + 2 * PI * INR i / INR (2 * m)) (2 * PI)) as [k1 E1].
      destruct (Rmod_decomp (2 * PI * u + 2 * PI * INR (i + m) / INR (2 * m)) (2 * PI)) as [k2 E2]. rewrite uniform_half in E2 at 1 by exact Hm.
      exists (k1 - k2)%Z. rewrite minus_IZR. lra.
  - exists 1, (fun i => 2 * PI * INR i / INR (2 * m)). split; [left; reflexivity|]. split; [f_equal; apply map_ext; intros i; f_equal; ring|].
    intros i Hi. exists 0%Z. cbv beta. rewrite uniform_half by exact Hm. ring.
Qed.
Lemma halves_nonempty m H : (0 < m)%nat -> halves m H -> H <> [] /\ List.length H = (4 * m)%nat.
Proof.
  intros Hm (c0 & f & _ & E & _). subst H. assert (List.length (map (fun i => mkO2 c0 (f i)) (seq 0 (2 * m)) ++ map (fun i => mkO2 (- c0) (f i)) (seq 0 (2 * m))) = (4 * m)%nat) as L.
  { rewrite app_length, !map_length, seq_length. lia. }
  split; [|exact L]. intros Z. rewrite Z in L. cbn in L. lia.
Qed.
Lemma opposite2_back c0 a b : c0 = 1 \/ c0 = -1 -> (exists q : Z, b = a + PI + 2 * PI * IZR q) -> opposite2 (mkO2 c0 a) (mkO2 (- c0) b) /\ opposite2 (mkO2 c0 b) (mkO2 (- c0) a).
Proof.
  intros Hc [q E]. split; (split; [cbn; destruct Hc as [-> | ->]; [left|right]; split; ring|]); cbn [o2a].
  - exists q. exact E.
  - exists (- q - 1)%Z. rewrite E, minus_IZR, opp_IZR. ring.
Qed.
Lemma seq_moved k : forall l s, map (fun i => (i + k)%nat) (seq s l) = seq (s + k) l.
Proof. induction l as [|l IH]; intros s; [reflexivity|]. cbn [seq map]. f_equal. rewrite IH. reflexivity. Qed.
Lemma halves_sum m H (f : O2 -> R) : halves m H -> (forall h h', opposite2 h h' -> f h' = - f h) -> sumR (map f H) = 0.
Proof.
  intros (c0 & a & Hc & -> & Ha) Hf. rewrite map_app, sumR_app, !map_map. replace (2 * m)%nat with (m + m)%nat by lia. rewrite seq_app, !map_app, !sumR_app, Nat.add_0_l.
  assert (forall g : nat -> R, map g (seq m m) = map (fun i => g (i + m)%nat) (seq 0 m)) as E.
  { intros g. pose proof (seq_moved m m 0) as Q. rewrite Nat.add_0_l in Q. rewrite <- Q, map_map. reflexivity. }
  rewrite !E.
  assert (sumR (map (fun i => f (mkO2 (- c0) (a (i + m)%nat))) (seq 0 m)) = - 1 * sumR (map (fun i => f (mkO2 c0 (a i))) (seq 0 m))) as E1.
  { rewrite <- sumR_scale. apply sumR_ext. intros i Hi. apply in_seq in Hi. destruct (opposite2_back c0 (a i) (a (i + m)%nat) Hc (Ha i ltac:(lia))) as [Q _]. rewrite (Hf _ _ Q). ring. }
  assert (sumR (map (fun i => f (mkO2 (- c0) (a i))) (seq 0 m)) = - 1 * sumR (map (fun i => f (mkO2 c0 (a (i + m)%nat))) (seq 0 m))) as E2.
  { rewrite <- sumR_scale. apply sumR_ext. intros i Hi. apply in_seq in Hi. destruct (opposite2_back c0 (a i) (a (i + m)%nat) Hc (Ha i ltac:(lia))) as [_ Q]. rewrite (Hf _ _ Q). ring. }
  rewrite E1, E2. ring.
Qed.

(** averages of bias-shifted features *)
Lemma avg_group_const Y N C (F : O2 -> nat -> nat -> list nat -> R) H size m b p : has_shape Y (N :: C :: List.length H :: size) -> (0 < m)%nat -> halves m H ->
  (forall n o i h z, (n < N)%nat -> (o < C)%nat -> nth_error H i = Some h -> valid size z -> at_ Y (n :: o :: i :: z) = F h n o z + b o) ->
  (forall h h' n o z, opposite2 h h' -> F h' n o z = - F h n o z) ->
  g_avg_group_pool Y = Ok (PTensor p) -> forall n o z, (n < N)%nat -> (o < C)%nat -> valid size z -> at_ p (n :: o :: z) = b o.
Proof.
  intros S Hm HH V Hop Ep n o z Hn Ho Hz. destruct (C54_avg_group_pool Y N C (List.length H) size S) as (p' & Ep' & _ & Vp). rewrite Ep in Ep'. injection Ep' as <-.
  rewrite Vp by assumption. rewrite total_sumR. rewrite (map_nth_seq (fun h => F h n o z + b o)) by (intros i h Hi; apply V; assumption).
  rewrite sum_shift, (halves_sum m H (fun h => F h n o z) HH) by (intros h h' Q; apply Hop; exact Q).
  destruct (halves_nonempty m H Hm HH) as [_ L]. assert (0 < INR (List.length H)) by (apply lt_0_INR; lia). field. lra.
Qed.
Lemma sum_indices_cons (f : list nat -> R) n s : sumR (map f (indices (n :: s))) = sumR (map (fun i => sumR (map (fun z => f (i :: z)) (indices s))) (seq 0 n)).
Proof.
  rewrite (sumR_perm (map f (indices (n :: s))) (map f (flat_map (fun c => map (cons c) (indices s)) (seq 0 n)))).
  - generalize 0%nat as a. induction n as [|n IH]; intros a; [reflexivity|]. cbn [seq flat_map map]. rewrite map_app, sumR_app, map_map, IH. reflexivity.
  - apply Permutation_map, NoDup_Permutation; [apply indices_NoDup|apply flat_cons_NoDup|]. intros x. rewrite in_indices, in_flat_map. split.
    + intros Hx. inversion Hx as [|z0 n0 zs ns Hz0 Hzs]; subst. exists z0. split; [apply in_seq; lia|]. apply in_map, in_indices, Hzs.
    + intros (c & Hc & Hx). apply in_seq in Hc. apply in_map_iff in Hx. destruct Hx as (y & <- & Hy). apply in_indices in Hy. apply valid_cons; [lia|exact Hy].
Qed.
Lemma avg_global_const Y N C (F : O2 -> nat -> nat -> list nat -> R) H size m b p : has_shape Y (N :: C :: List.length H :: size) -> (0 < m)%nat -> halves m H -> (0 < prodn size)%nat ->
  (forall n o i h z, (n < N)%nat -> (o < C)%nat -> nth_error H i = Some h -> valid size z -> at_ Y (n :: o :: i :: z) = F h n o z + b o) ->
  (forall h h' n o z, opposite2 h h' -> F h' n o z = - F h n o z) ->
  g_avg_global_pool Y = Ok (PTensor p) -> forall n o, (n < N)%nat -> (o < C)%nat -> at_ p [n; o; 0%nat] = b o.
Proof.
  intros S Hm HH Hp V Hop Ep n o Hn Ho. destruct (C54_avg_global_pool Y N C (List.length H) size S) as (p' & Ep' & _ & Vp). rewrite Ep in Ep'. injection Ep' as <-.
  destruct (halves_nonempty m H Hm HH) as [_ L].
  rewrite Vp by assumption. rewrite total_sumR, sum_indices_cons.
  rewrite (map_nth_seq (fun h => sumR (map (fun z => F h n o z) (indices size)) + INR (prodn size) * b o)).
  2:{ intros i h Hi. cbn [Nat.add]. rewrite <- (indices_length size), <- sum_shift. apply sumR_ext. intros z Hz. apply in_indices in Hz. apply V; assumption. }
  rewrite sum_shift, (halves_sum m H _ HH).
  2:{ intros h h' Q. replace (- sumR (map (fun z => F h n o z) (indices size))) with (-1 * sumR (map (fun z => F h n o z) (indices size))) by ring. rewrite <- sumR_scale. apply sumR_ext. intros z _. rewrite (Hop h h') by exact Q. ring. }
  rewrite mult_INR. assert (0 < INR (List.length H)) by (apply lt_0_INR; lia). assert (0 < INR (prodn size)) by (apply lt_0_INR; exact Hp). field. split; lra.
Qed.

(** Partners *)
Lemma halves_partner m H i h : halves m H -> nth_error H i = Some h -> exists j h', (j < List.length H)%nat /\ nth_error H j = Some h' /\ opposite2 h h'.
Proof.
  intros (c0 & f & Hc & E & Hf) Hi.
  assert (exists h', In h' H /\ opposite2 h h') as (h' & Hin & Ho).
  { apply nth_error_In in Hi. rewrite E in Hi. apply in_app_iff in Hi.
    assert (forall c1, c1 = 1 \/ c1 = -1 -> forall a b, (exists q : Z, b = a + PI + 2 * PI * IZR q) -> opposite2 (mkO2 c1 a) (mkO2 (- c1) b) /\ opposite2 (mkO2 (- c1) a) (mkO2 c1 b)) as K.
    { intros c1 H1 a b Hab. split; [apply (opposite2_back c1 a b H1 Hab)|]. assert (- c1 = 1 \/ - c1 = -1) as H2 by (destruct H1 as [-> | ->]; [right|left]; ring).
      pose proof (proj1 (opposite2_back (- c1) a b H2 Hab)) as Q. rewrite Ropp_involutive in Q. exact Q. }
    assert (forall j, (j < 2 * m)%nat -> exists l, (l < 2 * m)%nat /\ exists q : Z, f l = f j + PI + 2 * PI * IZR q) as J.
    { intros j Hj. destruct (Nat.lt_ge_cases j m) as [Lt|Ge].
      - exists (j + m)%nat. split; [lia|]. apply Hf, Lt.
      - destruct (Hf (j - m)%nat ltac:(lia)) as [q Eq]. replace (j - m + m)%nat with j in Eq by lia. exists (j - m)%nat. split; [lia|]. exists (- q - 1)%Z. rewrite Eq, minus_IZR, opp_IZR. ring. }
    assert (forall c1 l, (l < 2 * m)%nat -> In (mkO2 c1 (f l)) (map (fun i => mkO2 c1 (f i)) (seq 0 (2 * m)))) as M by (intros c1 l Hl; apply in_map_iff; exists l; split; [reflexivity|apply in_seq; lia]).
    destruct Hi as [Hi|Hi]; apply in_map_iff in Hi as (j & <- & Hj); apply in_seq in Hj; destruct (J j ltac:(lia)) as (l & Hl & Q).
    - exists (mkO2 (- c0) (f l)). split; [rewrite E; apply in_app_iff; right; apply M, Hl|]. apply (K c0 Hc), Q.
    - exists (mkO2 c0 (f l)). split; [rewrite E; apply in_app_iff; left; apply M, Hl|]. apply (K c0 Hc), Q. }
  apply In_nth_error in Hin as [j Hj]. exists j, h'. split; [exact (nth_error_Some_lt _ _ _ Hj)|]. auto.
Qed.

(** ** 3d *)
Definition value_E3 (mask : bool) s (smp : sampler V3) (w : tensor R) (h : O3) (o c : nat) (x : list nat) : R :=
  (if mask then at_ (create_spherical_mask_R3 s) x else 1) * smp [s; s; s] (slice w [s; s; s] [o; c]) (scalv3 (o3c h) (app3 (tr3 (o3r h)) (at_ (create_grid_R3 s) x))) / o3c h.
Lemma kernel_E3_values T cin cout s g n m mode pm mask grid smp w H : (0 < s)%nat -> sample_R3 mode pm = Ok smp -> has_shape w [cout; (cin / g)%nat; s; s; s] ->
  exists W, lifting_kernel_forward (lifting_kernel_E3 T cin cout s g n m mode pm mask grid) w H = Ok W /\ has_shape W (cout :: List.length H :: (cin / g)%nat :: [s; s; s]) /\
    forall o i h c x, (o < cout)%nat -> nth_error H i = Some h -> (c < cin / g)%nat -> valid [s; s; s] x -> at_ W (o :: i :: c :: x) = value_E3 mask s smp w h o c x.
Proof.
  intros Hs Hsmp Hw. destruct (C36_E3 T cin cout s g n m mode pm mask grid smp w H Hs Hsmp Hw) as (W & EW & SW & VW). exists W. split; [exact EW|]. split; [exact SW|].
  intros o i h c x Ho Hi Hc Hx. destruct (valid3_inv s x Hx) as (a & b & e & -> & Ha & Hb & He). exact (VW o i h c a b e Ho Hi Hc Ha Hb He).
Qed.

Lemma odd_sample p s w v o c : (0 < s)%nat -> 
  gs3 true p [s; s; s] (slice w [s; s; s] [o; c]) v - gs3 true p [s; s; s] (slice w [s; s; s] [o; c]) (scalv3 (-1) v) =
  gs3 true p [s; s; s] (map (fun x => 1 * at_ w (o :: c :: x) + -1 * at_ w (o :: c :: opposite [s; s; s] x)) (indices [s; s; s])) v.
Proof.
  intros Hs. pose (fl := map (fun x => at_ w (o :: c :: opposite [s; s; s] x)) (indices [s; s; s])).
  assert (gs3 true p [s; s; s] (slice w [s; s; s] [o; c]) (scalv3 (-1) v) = gs3 true p [s; s; s] fl v) as ->.
  { unfold gs3. rewrite flip_vec3. apply linear_flip; [|reflexivity|repeat constructor; exact Hs].
    intros x Hx. change (mkT [s; s; s] fl) with (build [s; s; s] (fun x => at_ w (o :: c :: opposite [s; s; s] x))). rewrite at_build by exact Hx.
    change (mkT [s; s; s] (slice w [s; s; s] [o; c])) with (build [s; s; s] (fun y => at_ w ([o; c] ++ y))). rewrite at_build; [reflexivity|].
    clear -Hx. unfold opposite. induction Hx as [|i n x l Hi Hx IH]; [constructor|]. cbn [map2]. apply valid_cons; [lia|exact IH]. }
  assert (linear_sampler 1 (-1) (gs3 true p) [s; s; s]) as HL.
  { intros u x y El. destruct p.
    - apply (linear3 1 (-1) "bilinear" "zeros"); [reflexivity|exact El].
    - apply (linear3 1 (-1) "bilinear" "border"); [reflexivity|exact El].
    - apply (linear3 1 (-1) "bilinear" "reflection"); [reflexivity|exact El]. }
  rewrite (lc_map 1 (-1) (fun x => at_ w (o :: c :: x)) (fun x => at_ w (o :: c :: opposite [s; s; s] x)) _ (indices [s; s; s]) (fun _ _ => eq_refl)).
  rewrite HL by (rewrite !map_length; reflexivity). unfold slice. cbn [app]. fold fl. ring.
Qed.

Lemma pair_sum3 mask p s pre w w' R o c x : (0 < s)%nat -> same_odd_part [fst pre; snd pre] [s; s; s] w w' -> (o < fst pre)%nat -> (c < snd pre)%nat -> 
  value_E3 mask s (gs3 true p) w (mkO3 1 R) o c x + value_E3 mask s (gs3 true p) w (mkO3 (-1) R) o c x =
  value_E3 mask s (gs3 true p) w' (mkO3 1 R) o c x + value_E3 mask s (gs3 true p) w' (mkO3 (-1) R) o c x.
Proof.
  intros Hs (_ & _ & HO) Ho Hc. unfold value_E3. cbn [o3c o3r]. set (v := app3 _ _). set (k := if mask then _ else _).
  assert (forall u, scalv3 1 u = u) as E1 by (intros [a b e]; unfold scalv3; cbn; f_equal; ring). rewrite E1.
  assert (forall im, k * gs3 true p [s; s; s] im v / 1 + k * gs3 true p [s; s; s] im (scalv3 (-1) v) / -1 = k * (gs3 true p [s; s; s] im v - gs3 true p [s; s; s] im (scalv3 (-1) v))) as E2 by (intros; field).
  rewrite !E2, !odd_sample by exact Hs. f_equal. f_equal. apply map_ext_in. intros y Hy. apply in_indices in Hy.
  pose proof (HO [o; c] y ltac:(repeat apply valid_cons; try assumption; apply valid_nil) Hy) as Q. cbn [app] in Q. lra.
Qed.

Definition both_signs (H : list O3) : Prop := exists Rs, Permutation H (map (mkO3 1) Rs ++ map (mkO3 (-1)) Rs).
Lemma both_signs_moved g Rs : o3c g = 1 \/ o3c g = -1 -> both_signs (map (o3_left_apply_O3 g) (map (mkO3 1) Rs ++ map (mkO3 (-1)) Rs)).
Proof.
  intros Hg. exists (map (mul3 (o3r g)) Rs). rewrite map_app, !map_map. unfold o3_left_apply_O3. cbn [o3c o3r].
  destruct Hg as [-> | ->].
  - apply Permutation_app; apply Permutation_refl'; apply map_ext; intros r; f_equal; ring.
  - apply Permutation_trans with (2 := Permutation_app_comm _ _). apply Permutation_app; apply Permutation_refl'; apply map_ext; intros r; f_equal; ring.
Qed.

Lemma odd_sums T cin cout s groups st padding dl pmode permute bias pm mask gks grid dE M w w' X N sp q c given Y Y' H H' :
  usable 3 s st dl cin cout padding bias ->
  lifting_E3 T cin cout s groups st padding dl pmode permute bias "bilinear" pm mask gks grid dE = Ok M -> gs_pad pm <> Err ValueError ->
  same_odd_part [cout; (cin / Z.to_nat groups)%nat] [s; s; s] w w' -> has_shape X (N :: cin :: sp) -> List.length sp = 3%nat ->
  let K := permuted M o3_left_apply_O3 (drawn_E3 c q) (or_else given (kernel_grid M)) in
  K <> [] -> both_signs K -> lifting_E3_call M c q w X given = Ok (Y, H) -> lifting_E3_call M c q w' X given = Ok (Y', H') ->
  H = K /\ H' = K /\ exists size, has_shape Y (N :: cout :: List.length K :: size) /\ has_shape Y' (N :: cout :: List.length K :: size) /\
  forall n o z, (n < N)%nat -> (o < cout)%nat -> valid size z ->
    sumR (map (fun i => at_ Y (n :: o :: i :: z)) (seq 0 (List.length K))) = sumR (map (fun i => at_ Y' (n :: o :: i :: z)) (seq 0 (List.length K))).
Proof.
  intros U HM Hpm Hw HX Hsp K Hn [Rs Hp] E E'. pose proof (proj1 U) as Hs0.
  destruct (made_lifting_E3 _ _ _ _ _ _ _ _ _ _ _ _ _ _ _ _ _ _ HM U) as (L & gE & k & m & -> & _ & Ek & Em & Hc).
  unfold lifting_E3_call, lifting_call in E, E'. cbn [gm_layer] in E, E'. subst k. cbn [repeat] in Hc. fold K in E, E'.
  destruct (gs_pad pm) as [p|e] eqn:Ep; [|exfalso; revert Hpm Ep; unfold gs_pad; clear; repeat (destruct (String.eqb _ _); [discriminate|]); intros A B; injection B as <-; apply A; reflexivity].
  assert (sample_R3 "bilinear" pm = Ok (gs3 true p)) as Hs by (unfold sample_R3; cbn [String.eqb Ascii.eqb Bool.eqb gs_mode bind]; rewrite Ep; reflexivity).
  destruct (responses 3 L cin cout [s; s; s] _ _ _ _ _ _ _ w (value_E3 mask s (gs3 true p) w) X N sp K Y H Hc) with (5 := E) as (-> & S & V); [| assumption | assumption | assumption |].
  { apply kernel_E3_values; try assumption. exact (proj1 Hw). }
  destruct (responses 3 L cin cout [s; s; s] _ _ _ _ _ _ _ w' (value_E3 mask s (gs3 true p) w') X N sp K Y' H' Hc) with (5 := E') as (-> & S' & V'); [| assumption | assumption | assumption |].
  { apply kernel_E3_values; try assumption. exact (proj1 (proj2 Hw)). }
  split; [reflexivity|]. split; [reflexivity|]. eexists. split; [exact S|]. split; [exact S'|].
  intros n o z Hnn Ho Hz.
  erewrite (map_nth_seq _ _ K 0); [|intros i h Hi; exact (V n o i h z Hnn Ho Hi Hz)].
  erewrite (map_nth_seq _ (fun i => at_ Y' _) K 0); [|intros i h Hi; exact (V' n o i h z Hnn Ho Hi Hz)].
  cbv beta. rewrite !sum_shift. f_equal.
  rewrite (sumR_perm _ _ (Permutation_map _ Hp)). symmetry. rewrite (sumR_perm _ _ (Permutation_map _ Hp)). symmetry.
  rewrite !map_app, !sumR_app, !map_map, <- !sumR_plus. apply sumR_ext. intros r _.
  set (cv := fun v => conv_of m X sp [st; st; st] [dl; dl; dl] (lefts (stored_padding 3 padding) [s; s; s] [dl; dl; dl]) (cin / Z.to_nat groups) (cout / Z.to_nat groups) [s; s; s] v n o z).
  transitivity (cv (fun o c x => value_E3 mask s (gs3 true p) w (mkO3 1 r) o c x + value_E3 mask s (gs3 true p) w (mkO3 (-1) r) o c x)).
  { symmetry. unfold cv. rewrite (conv_of_comb _ _ _ _ _ _ _ _ _ _ (value_E3 mask s (gs3 true p) w (mkO3 1 r)) (value_E3 mask s (gs3 true p) w (mkO3 (-1) r)) 1 1) by (intros; cbv beta; ring). ring. }
  transitivity (cv (fun o c x => value_E3 mask s (gs3 true p) w' (mkO3 1 r) o c x + value_E3 mask s (gs3 true p) w' (mkO3 (-1) r) o c x)).
  { unfold cv, conv_of. apply sumR_ext. intros cc Hcc. apply in_seq in Hcc. apply sumR_ext. intros x _. f_equal.
    apply (pair_sum3 mask p s (cout, (cin / Z.to_nat groups)%nat)); cbn [fst snd]; try assumption. lia. }
  { unfold cv. rewrite (conv_of_comb _ _ _ _ _ _ _ _ _ _ (value_E3 mask s (gs3 true p) w' (mkO3 1 r)) (value_E3 mask s (gs3 true p) w' (mkO3 (-1) r)) 1 1) by (intros; cbv beta; ring). ring. }
Qed.

(** a weight without odd part *)
Lemma zero_sample p s v : gs3 true p [s; s; s] (map (fun _ => 0) (indices [s; s; s])) v = 0.
Proof.
  assert (linear_sampler 1 (-1) (gs3 true p) [s; s; s]) as HL.
  { intros u x y El. destruct p.
    - apply (linear3 1 (-1) "bilinear" "zeros"); [reflexivity|exact El].
    - apply (linear3 1 (-1) "bilinear" "border"); [reflexivity|exact El].
    - apply (linear3 1 (-1) "bilinear" "reflection"); [reflexivity|exact El]. }
  rewrite (lc_map 1 (-1) (fun _ : list nat => 0) (fun _ => 0) _ (indices [s; s; s])) by (intros; ring).
  rewrite HL by (rewrite !map_length; reflexivity). ring.
Qed.
Lemma even_sums T cin cout s groups st padding dl pmode permute bias pm mask gks grid dE M w X N sp q c given Y H :
  usable 3 s st dl cin cout padding bias ->
  lifting_E3 T cin cout s groups st padding dl pmode permute bias "bilinear" pm mask gks grid dE = Ok M -> gs_pad pm <> Err ValueError ->
  inverted [cout; (cin / Z.to_nat groups)%nat] [s; s; s] w w -> has_shape X (N :: cin :: sp) -> List.length sp = 3%nat ->
  let K := permuted M o3_left_apply_O3 (drawn_E3 c q) (or_else given (kernel_grid M)) in
  K <> [] -> both_signs K -> lifting_E3_call M c q w X given = Ok (Y, H) ->
  H = K /\ exists size, has_shape Y (N :: cout :: List.length K :: size) /\
  forall n o z, (n < N)%nat -> (o < cout)%nat -> valid size z ->
    sumR (map (fun i => at_ Y (n :: o :: i :: z)) (seq 0 (List.length K))) = INR (List.length K) * bias_value 3 bias o.
Proof.
  intros U HM Hpm Hw HX Hsp K Hn [Rs Hp] E. pose proof (proj1 U) as Hs0.
  destruct (made_lifting_E3 _ _ _ _ _ _ _ _ _ _ _ _ _ _ _ _ _ _ HM U) as (L & gE & k & m & -> & _ & Ek & Em & Hc).
  unfold lifting_E3_call, lifting_call in E. cbn [gm_layer] in E. subst k. cbn [repeat] in Hc. fold K in E.
  destruct (gs_pad pm) as [p|e] eqn:Ep; [|exfalso; revert Hpm Ep; unfold gs_pad; clear; repeat (destruct (String.eqb _ _); [discriminate|]); intros A B; injection B as <-; apply A; reflexivity].
  assert (sample_R3 "bilinear" pm = Ok (gs3 true p)) as Hs by (unfold sample_R3; cbn [String.eqb Ascii.eqb Bool.eqb gs_mode bind]; rewrite Ep; reflexivity).
  destruct (responses 3 L cin cout [s; s; s] _ _ _ _ _ _ _ w (value_E3 mask s (gs3 true p) w) X N sp K Y H Hc) with (5 := E) as (-> & S & V); [| assumption | assumption | assumption |].
  { apply kernel_E3_values; try assumption. exact (proj1 Hw). }
  split; [reflexivity|]. eexists. split; [exact S|].
  intros n o z Hnn Ho Hz.
  erewrite (map_nth_seq _ _ K 0); [|intros i h Hi; exact (V n o i h z Hnn Ho Hi Hz)].
  cbv beta. rewrite sum_shift. match goal with |- ?a + ?b = ?b => cut (a = 0); [lra|] end.
  rewrite (sumR_perm _ _ (Permutation_map _ Hp)). rewrite !map_app, !sumR_app, !map_map, <- !sumR_plus. apply sumR_zero. intros r _.
  set (cv := fun v => conv_of m X sp [st; st; st] [dl; dl; dl] (lefts (stored_padding 3 padding) [s; s; s] [dl; dl; dl]) (cin / Z.to_nat groups) (cout / Z.to_nat groups) [s; s; s] v n o z).
  transitivity (cv (fun o c x => value_E3 mask s (gs3 true p) w (mkO3 1 r) o c x + value_E3 mask s (gs3 true p) w (mkO3 (-1) r) o c x)).
  { symmetry. unfold cv. rewrite (conv_of_comb _ _ _ _ _ _ _ _ _ _ (value_E3 mask s (gs3 true p) w (mkO3 1 r)) (value_E3 mask s (gs3 true p) w (mkO3 (-1) r)) 1 1) by (intros; cbv beta; ring). ring. }
  unfold cv, conv_of. apply sumR_zero. intros cc Hcc. apply in_seq in Hcc. apply sumR_zero. intros x Hx.
  match goal with |- ?a * _ = 0 => cut (a = 0); [intros ->; ring|] end.
  unfold value_E3. cbn [o3c o3r]. set (v := app3 _ _). set (kk := if mask then _ else _).
  assert (forall u, scalv3 1 u = u) as E1 by (intros [a b e]; unfold scalv3; cbn; f_equal; ring). rewrite E1.
  assert (forall im, kk * gs3 true p [s; s; s] im v / 1 + kk * gs3 true p [s; s; s] im (scalv3 (-1) v) / -1 = kk * (gs3 true p [s; s; s] im v - gs3 true p [s; s; s] im (scalv3 (-1) v))) as E2 by (intros; field).
  rewrite E2, odd_sample by exact Hs0.
  transitivity (kk * gs3 true p [s; s; s] (map (fun _ => 0) (indices [s; s; s])) v); [|rewrite zero_sample; ring]. f_equal. f_equal.
  apply map_ext_in. intros y Hy. apply in_indices in Hy. destruct Hw as (_ & _ & HO).
  pose proof (HO [o; cc] y ltac:(repeat apply valid_cons; try assumption; try apply valid_nil; lia) Hy) as Q. cbn [app] in Q. lra.
Qed.

Lemma grid_of_E2 T cin cout s groups st padding dl pmode permute bias mode pm mask gks M : usable 2 s st dl cin cout padding bias ->
  lifting_E2 T cin cout s groups st padding dl pmode permute bias mode pm mask gks None = Ok M -> kernel_grid M = o2_uniform_grid (pair_rot gks) (pair_ref gks) /\ gm_permute M = permute.
Proof.
  intros U E. pose proof (C69_lifting_E2 T cin cout s groups st padding dl pmode permute bias mode pm mask gks None) as K. cbv zeta in K. destruct K as (A & B & _).
  destruct (valid_config_dec (pair_gks gks) cin cout groups padding [st; st] pmode) as [V|V]; [|destruct (B V) as (e & E' & _); rewrite E in E'; discriminate].
  destruct (A V) as (L & EL & Ek & Hc). rewrite E in EL. injection EL as ->. unfold kernel_grid. cbn [gm_layer gm_permute]. rewrite Ek. split; reflexivity.
Qed.
Lemma grid_of_E3 T cin cout s groups st padding dl pmode permute bias mode pm mask gks dE grid M : usable 3 s st dl cin cout padding bias ->
  lifting_E3 T cin cout s groups st padding dl pmode permute bias mode pm mask gks None dE = Ok M -> dE = Ok grid -> kernel_grid M = grid /\ gm_permute M = permute.
Proof.
  intros U E Eg. pose proof (C69_lifting_E3 T cin cout s groups st padding dl pmode permute bias mode pm mask gks None dE grid (or_intror (conj eq_refl Eg))) as K. cbv zeta in K. destruct K as (A & B & _).
  destruct (valid_config_dec (pair_gks gks) cin cout groups padding [st; st; st] pmode) as [V|V]; [|destruct (B V) as (e & E' & _); rewrite E in E'; discriminate].
  destruct (A V) as (L & EL & Ek & Hc). rewrite E in EL. injection EL as ->. unfold kernel_grid. cbn [gm_layer gm_permute]. rewrite Ek. split; reflexivity.
Qed.
