(** Property theorems C103: what average pooling over the group leaves of the features of E(2) and E(3) lifting layers.
    Reading guide.  The theorems speak of calls on the default output grid (argument None) that returned, for every state of the random draws (u, c; q, c).
    [bias_value d bias o]: the bias of output channel o (0 without a bias).
    [same_odd_part pre ks w w'] (SignSpec.v): in every window, w(x) - w(-x) = w'(x) - w'(-x), -x being the opposite entry; [inverted pre ks w w]: w(x) = w(-x). *)
From Coq Require Import String ZArith Lra Permutation.
From Verif Require RbfGrid LiveFacts SepProduct.
From Verif Require Import Prelude RMath Mat SO2 SO2Facts O2 O2Facts SO3 SO3Facts O3 O3Facts GridTables GridCache GridCacheFacts SO3Tables ReadyFacts Tensor TensorFacts Functional FunctionalFacts Kernel KernelFacts Layers LayersSpec NormFacts
  Conv ConvSpec ConvInit ConvShift Public PublicFacts RepulseFacts Repulse ContractFacts Prop_Kernel Prop_Conv Prop_Layers Prop_Public SignSpec SignFacts SignLayers SignAvg.
Open Scope R_scope.

(** ** E(2): on the default grid of 2m rotations and 2m reflections the features come in pairs of opposite sign; every average of them is the bias *)
Section TwoDim.
  Local Lemma E2_default T cin cout s groups st padding dl pmode permute bias mode pm mask m M smp w X N sp u c Y H :
    usable 2 s st dl cin cout padding bias -> sample_R2 mode pm = Ok smp -> (0 < m)%nat ->
    lifting_E2 T cin cout s groups st padding dl pmode permute bias mode pm mask (PairTuple (2 * m) (2 * m)) None = Ok M ->
    has_shape w [cout; (cin / Z.to_nat groups)%nat; s; s] -> has_shape X (N :: cin :: sp) -> List.length sp = 2%nat ->
    lifting_E2_call M u c w X None = Ok (Y, H) ->
    halves m H /\ exists size (F : O2 -> nat -> nat -> list nat -> R), has_shape Y (N :: cout :: List.length H :: size) /\
      (forall n o i h z, (n < N)%nat -> (o < cout)%nat -> nth_error H i = Some h -> valid size z -> at_ Y (n :: o :: i :: z) = F h n o z + bias_value 2 bias o) /\
      (forall h h' n o z, opposite2 h h' -> F h' n o z = - F h n o z).
  Proof.
    intros U Hs Hm HM Hw HX Hsp E. destruct (grid_of_E2 _ _ _ _ _ _ _ _ _ _ _ _ _ _ _ _ U HM) as [G Gp]. cbn [pair_rot pair_ref] in G.
    assert (halves m (permuted M o2_left_apply_angle (drawn_E2 u c) (or_else None (kernel_grid M)))) as HH.
    { unfold permuted. cbn [or_else]. rewrite G, Gp. apply halves_default; [exact Hm|reflexivity]. }
    destruct (E2_responses T cin cout s groups st padding dl pmode permute bias mode pm mask _ None M smp w X N sp u c None Y H U Hs HM Hw HX Hsp) with (2 := E) as (-> & R).
    - exact (proj1 (halves_nonempty m _ Hm HH)).
    - split; [exact HH|exact R].
  Qed.
End TwoDim.

Theorem C103_E2_pairs : forall T cin cout s groups st padding dl pmode permute bias mode pm mask m M smp w X N sp u c Y H,
  usable 2 s st dl cin cout padding bias -> sample_R2 mode pm = Ok smp -> (0 < m)%nat ->
  lifting_E2 T cin cout s groups st padding dl pmode permute bias mode pm mask (PairTuple (2 * m) (2 * m)) None = Ok M ->
  has_shape w [cout; (cin / Z.to_nat groups)%nat; s; s] -> has_shape X (N :: cin :: sp) -> List.length sp = 2%nat ->
  lifting_E2_call M u c w X None = Ok (Y, H) ->
  exists size, has_shape Y (N :: cout :: (4 * m)%nat :: size) /\
    forall i, (i < 4 * m)%nat -> exists j, (j < 4 * m)%nat /\ forall n o z, (n < N)%nat -> (o < cout)%nat -> valid size z ->
      at_ Y (n :: o :: j :: z) - bias_value 2 bias o = - (at_ Y (n :: o :: i :: z) - bias_value 2 bias o).
Proof.
  intros T cin cout s groups st padding dl pmode permute bias mode pm mask m M smp w X N sp u c Y H U Hs Hm HM Hw HX Hsp E.
  destruct (E2_default _ _ _ _ _ _ _ _ _ _ _ _ _ _ _ _ _ _ _ _ _ _ _ _ _ U Hs Hm HM Hw HX Hsp E) as (HH & size & F & S & V & Hop).
  destruct (halves_nonempty m H Hm HH) as [_ L]. rewrite L in S. exists size. split; [exact S|]. intros i Hi.
  destruct (nth_error H i) as [h|] eqn:Ei; [|apply nth_error_None in Ei; lia].
  destruct (halves_partner m H i h HH Ei) as (j & h' & Hj & Ej & Ho). exists j. split; [lia|]. intros n o z Hn Hoo Hz.
  rewrite (V n o i h z), (V n o j h' z), (Hop h h') by assumption. ring.
Qed.
Print Assumptions C103_E2_pairs.

Theorem C103_E2_averages : forall T cin cout s groups st padding dl pmode permute bias mode pm mask m M smp w X N sp u c Y H size,
  usable 2 s st dl cin cout padding bias -> sample_R2 mode pm = Ok smp -> (0 < m)%nat ->
  lifting_E2 T cin cout s groups st padding dl pmode permute bias mode pm mask (PairTuple (2 * m) (2 * m)) None = Ok M ->
  has_shape w [cout; (cin / Z.to_nat groups)%nat; s; s] -> has_shape X (N :: cin :: sp) -> List.length sp = 2%nat ->
  lifting_E2_call M u c w X None = Ok (Y, H) -> has_shape Y (N :: cout :: (4 * m)%nat :: size) ->
  (forall p, g_avg_group_pool Y = Ok (PTensor p) -> forall n o z, (n < N)%nat -> (o < cout)%nat -> valid size z -> at_ p (n :: o :: z) = bias_value 2 bias o) /\
  (forall p, g_avg_global_pool Y = Ok (PTensor p) -> (0 < prodn size)%nat -> forall n o, (n < N)%nat -> (o < cout)%nat -> at_ p [n; o; 0%nat] = bias_value 2 bias o) /\
  (forall v i, g_max_group_pool Y = Ok (PPair v i) -> forall n o z, (n < N)%nat -> (o < cout)%nat -> valid size z ->
     (forall e, (e < 4 * m)%nat -> Rabs (at_ Y (n :: o :: e :: z) - bias_value 2 bias o) <= at_ v (n :: o :: z) - bias_value 2 bias o) /\
     (exists e, (e < 4 * m)%nat /\ Rabs (at_ Y (n :: o :: e :: z) - bias_value 2 bias o) = at_ v (n :: o :: z) - bias_value 2 bias o)).
Proof.
  intros T cin cout s groups st padding dl pmode permute bias mode pm mask m M smp w X N sp u c Y H size U Hs Hm HM Hw HX Hsp E SY.
  destruct (E2_default _ _ _ _ _ _ _ _ _ _ _ _ _ _ _ _ _ _ _ _ _ _ _ _ _ U Hs Hm HM Hw HX Hsp E) as (HH & size' & F & S & V & Hop).
  destruct (halves_nonempty m H Hm HH) as [_ L]. assert (size' = size) as -> by (rewrite L in S; destruct S as [S _], SY as [S' _]; rewrite S in S'; injection S'; auto).
  split; [|split].
  - intros p Ep. exact (avg_group_const Y N cout F H size m (bias_value 2 bias) p S Hm HH V Hop Ep).
  - intros p Ep Hp. exact (avg_global_const Y N cout F H size m (bias_value 2 bias) p S Hm HH Hp V Hop Ep).
  - intros v i Ev n o z Hn Ho Hz. assert (forall e, (e < 4 * m)%nat -> Rabs (at_ Y (n :: o :: e :: z) - bias_value 2 bias o) <= at_ v (n :: o :: z) - bias_value 2 bias o) as Le.
  { intros e He. destruct (proj1 (C54_max_group_pool Y N cout (4 * m) size SY)) as (v' & i' & Ev' & _ & _ & Hv); [lia|]. rewrite Ev in Ev'. injection Ev' as <- <-.
    destruct (Hv n o z Hn Ho Hz) as [Hle _]. destruct (nth_error H e) as [h|] eqn:Ee; [|apply nth_error_None in Ee; lia].
    destruct (halves_partner m H e h HH Ee) as (j & h' & Hj & Ej & Hoo). pose proof (Hle e He) as A. pose proof (Hle j ltac:(lia)) as B.
    rewrite (V n o j h' z), (Hop h h') in B by assumption. rewrite (V n o e h z) in A |- * by assumption. unfold Rabs. destruct (Rcase_abs _); lra. }
  split; [exact Le|]. destruct (proj1 (C54_max_group_pool Y N cout (4 * m) size SY)) as (v' & i' & Ev' & _ & _ & Hv); [lia|]. rewrite Ev in Ev'. injection Ev' as <- <-.
  destruct (Hv n o z Hn Ho Hz) as (_ & Hi & Hv'). exists (at_ i (n :: o :: z)). split; [exact Hi|]. apply Rle_antisym; [apply Le; exact Hi|]. rewrite <- Hv'. apply Rle_abs.
Qed.
Print Assumptions C103_E2_averages.

(** ** E(3), default grids of n rotations and n reflections, 2 <= n <= 24 (in every state of the grid cache), bilinear sampling: averages only depend on the odd part of the weight *)
Section ThreeDim.
  Local Lemma E3_default T cin cout s groups st padding dl pmode permute bias pm mask n h o1 o2 M q c :
    usable 3 s st dl cin cout padding bias -> write_free h -> (2 <= n <= 24)%nat ->
    lifting_E3 T cin cout s groups st padding dl pmode permute bias "bilinear" pm mask (PairTuple n n) None (default_E3 (grun ginit h) n n o1 o2) = Ok M ->
    let K := permuted M o3_left_apply_O3 (drawn_E3 c q) (or_else None (kernel_grid M)) in K <> [] /\ both_signs K /\ List.length K = (2 * n)%nat.
  Proof.
    intros U Hh Hn HM K. pose proof (default_E3_tables h n n o1 o2 Hh Hn Hn) as Ed. destruct (grid_of_E3 _ _ _ _ _ _ _ _ _ _ _ _ _ _ _ _ _ _ U HM Ed) as [G Gp].
    assert (both_signs K /\ List.length K = (2 * n)%nat) as [B L].
    { unfold K, permuted. cbn [or_else]. rewrite G, Gp. destruct permute.
      - unfold bcast_left, drawn_E3. cbn [flat_map]. rewrite app_nil_r. split; [apply both_signs_moved; unfold o3_random; cbn [o3c]; destruct (Rlt_dec (1 / 2) c); [left|right]; ring|].
        rewrite map_length, app_length, !map_length, RbfGrid.table_matrix_length by exact Hn. lia.
      - split; [exists (table_matrix n); apply Permutation_refl|]. rewrite app_length, !map_length, RbfGrid.table_matrix_length by exact Hn. lia. }
    split; [|auto]. intros Z. rewrite Z in L. cbn in L. lia.
  Qed.
End ThreeDim.

Theorem C103_E3_odd_part : forall T cin cout s groups st padding dl pmode permute bias pm mask n h o1 o2 M w w' X N sp q c Y H Y' H',
  usable 3 s st dl cin cout padding bias -> write_free h -> (2 <= n <= 24)%nat ->
  lifting_E3 T cin cout s groups st padding dl pmode permute bias "bilinear" pm mask (PairTuple n n) None (default_E3 (grun ginit h) n n o1 o2) = Ok M ->
  same_odd_part [cout; (cin / Z.to_nat groups)%nat] [s; s; s] w w' -> has_shape X (N :: cin :: sp) -> List.length sp = 3%nat ->
  gs_pad pm <> Err ValueError ->
  lifting_E3_call M c q w X None = Ok (Y, H) -> lifting_E3_call M c q w' X None = Ok (Y', H') ->
  H = H' /\ g_avg_group_pool Y = g_avg_group_pool Y' /\ g_avg_global_pool Y = g_avg_global_pool Y' /\ (exists p p', g_avg_group_pool Y = Ok (PTensor p) /\ g_avg_global_pool Y = Ok (PTensor p')).
Proof.
  intros T cin cout s groups st padding dl pmode permute bias pm mask n h o1 o2 M w w' X N sp q c Y H Y' H' U Hh Hn HM Hw HX Hsp Hpm E E'.
  destruct (E3_default T cin cout s groups st padding dl pmode permute bias pm mask n h o1 o2 M q c U Hh Hn HM) as (K1 & K2 & K3). cbv zeta in *.
  destruct (odd_sums T cin cout s groups st padding dl pmode permute bias pm mask _ None _ M w w' X N sp q c None Y Y' H H' U HM Hpm Hw HX Hsp K1 K2 E E') as (-> & -> & size & S & S' & V).
  split; [reflexivity|]. clear Hsp. set (K := permuted _ _ _ _) in *. set (l := List.length K) in *.
  destruct (C54_avg_group_pool Y N cout l size S) as (p & Ep & Sp & Vp). destruct (C54_avg_group_pool Y' N cout l size S') as (p' & Ep' & Sp' & Vp').
  destruct (C54_avg_global_pool Y N cout l size S) as (g & Eg & Sg & Vg). destruct (C54_avg_global_pool Y' N cout l size S') as (g' & Eg' & Sg' & Vg').
  split; [|split; [|exists p, g; split; assumption]].
  - rewrite Ep, Ep'. do 2 f_equal. apply (LiveFacts.has_shape_ext p p' _ Sp Sp'). intros i Hi.
    inversion Hi as [|a n0 i1 s1 Ha Hi1]; subst. inversion Hi1 as [|b n1 i2 s2 Hb Hi2]; subst. rewrite Vp, Vp', !total_sumR, V by assumption. reflexivity.
  - rewrite Eg, Eg'. do 2 f_equal. apply (LiveFacts.has_shape_ext g g' _ Sg Sg'). intros i Hi.
    inversion Hi as [|a n0 i1 s1 Ha Hi1]; subst. inversion Hi1 as [|b n1 i2 s2 Hb Hi2]; subst. inversion Hi2 as [|e n2 i3 s3 He Hi3]; subst. inversion Hi3; subst.
    replace e with 0%nat by lia. rewrite Vg, Vg', !total_sumR, !sum_indices_cons by assumption. f_equal.
    rewrite (SepProduct.sumR_swap (fun i z => at_ Y (a :: b :: i :: z))), (SepProduct.sumR_swap (fun i z => at_ Y' (a :: b :: i :: z))).
    apply SepProduct.sumR_ext. intros z Hz. apply in_indices in Hz. apply V; assumption.
Qed.
Print Assumptions C103_E3_odd_part.

(** a weight that is symmetric about the centre of its window is averaged away *)
Theorem C103_E3_symmetric : forall T cin cout s groups st padding dl pmode permute bias pm mask n h o1 o2 M w X N sp q c Y H size,
  usable 3 s st dl cin cout padding bias -> write_free h -> (2 <= n <= 24)%nat ->
  lifting_E3 T cin cout s groups st padding dl pmode permute bias "bilinear" pm mask (PairTuple n n) None (default_E3 (grun ginit h) n n o1 o2) = Ok M ->
  inverted [cout; (cin / Z.to_nat groups)%nat] [s; s; s] w w -> has_shape X (N :: cin :: sp) -> List.length sp = 3%nat ->
  gs_pad pm <> Err ValueError ->
  lifting_E3_call M c q w X None = Ok (Y, H) -> has_shape Y (N :: cout :: (2 * n)%nat :: size) ->
  forall p, g_avg_group_pool Y = Ok (PTensor p) -> forall b o z, (b < N)%nat -> (o < cout)%nat -> valid size z -> at_ p (b :: o :: z) = bias_value 3 bias o.
Proof.
  intros T cin cout s groups st padding dl pmode permute bias pm mask n h o1 o2 M w X N sp q c Y H size U Hh Hn HM Hw HX Hsp Hpm E SY p Ep b o z Hb Ho Hz.
  destruct (E3_default T cin cout s groups st padding dl pmode permute bias pm mask n h o1 o2 M q c U Hh Hn HM) as (K1 & K2 & K3). cbv zeta in *.
  destruct (even_sums T cin cout s groups st padding dl pmode permute bias pm mask _ None _ M w X N sp q c None Y H U HM Hpm Hw HX Hsp K1 K2 E) as (-> & size' & S & V).
  rewrite K3 in *. assert (size' = size) as -> by (destruct S as [S _], SY as [S' _]; rewrite S in S'; injection S'; auto).
  destruct (C54_avg_group_pool Y N cout (2 * n) size S) as (p' & Ep' & Sp & Vp). rewrite Ep in Ep'. injection Ep' as <-.
  rewrite Vp, total_sumR, V by assumption. assert (0 < INR (2 * n)) by (apply lt_0_INR; lia). field. lra.
Qed.
Print Assumptions C103_E3_symmetric.

(** The default layers exist and answer, in every state of the draws: E(2) with 4 rotations and 4 reflections, E(3) with 2 and 2, two different weights with the same odd part, and a symmetric one that is not zero. *)
Example C103_nonvacuous : forall T o1 o2, exists M2 M3 w2 w3 w3' sym,
  let bias := Some (build [1; 1; 1; 1; 1]%nat (fun _ => 7)) in let bias2 := Some (build [1; 1; 1; 1]%nat (fun _ => 7)) in
  lifting_E2 T 1 1 2 1 1 (PInt 0) 1 "zeros" true bias2 "bilinear" "border" true (PairTuple (2 * 2) (2 * 2)) None = Ok M2 /\
  lifting_E3 T 1 1 2 1 1 (PInt 0) 1 "zeros" true bias "bilinear" "border" false (PairTuple 2 2) None (default_E3 (grun ginit []) 2 2 o1 o2) = Ok M3 /\
  usable 2 2 1 1 1 1 (PInt 0) bias2 /\ usable 3 2 1 1 1 1 (PInt 0) bias /\ write_free [] /\ bias_value 2 bias2 0 = 7 /\ bias_value 3 bias 0 = 7 /\
  same_odd_part [1; 1]%nat [2; 2; 2]%nat w3 w3' /\ w3 <> w3' /\ inverted [1; 1]%nat [2; 2; 2]%nat sym sym /\ at_ sym [0; 0; 0; 0; 0]%nat = 1 /\
  (forall u c X, has_shape X [1; 1; 2; 2]%nat -> exists Y H, lifting_E2_call M2 u c w2 X None = Ok (Y, H) /\ has_shape Y [1; 1; 8; 1; 1]%nat) /\
  (forall q c w X, has_shape w [1; 1; 2; 2; 2]%nat -> has_shape X [1; 1; 2; 2; 2]%nat -> exists Y H, lifting_E3_call M3 c q w X None = Ok (Y, H) /\ has_shape Y [1; 1; 4; 1; 1; 1]%nat).
Proof.
  intros T o1 o2.
  assert (forall sh (f : list nat -> R), has_shape (build sh f) sh) as HB by (intros sh f; split; [reflexivity|apply wft_build]).
  pose (bias := Some (build [1; 1; 1; 1; 1]%nat (fun _ => 7))). pose (bias2 := Some (build [1; 1; 1; 1]%nat (fun _ => 7))).
  assert (forall d b, bias_shape_ok d 1 b -> usable d 2 1 1 1 1 (PInt 0) b) as HU by (intros d b B; repeat split; try lia; exact B).
  assert (valid_config (pair_gks (PairTuple (2 * 2) (2 * 2))) 1 1 1 (PInt 0) [1; 1]%nat "zeros") as V2.
  { split; [cbn; split; [intros i [<-|[<-|[]]]; lia|lia]|]. split; [lia|]. split; [exists 1%Z; reflexivity|]. split; [exists 1%Z; reflexivity|]. split; [discriminate|simpl; auto]. }
  assert (valid_config (pair_gks (PairTuple 2 2)) 1 1 1 (PInt 0) [1; 1; 1]%nat "zeros") as VV3.
  { split; [cbn; split; [intros i [<-|[<-|[]]]; lia|lia]|]. split; [lia|]. split; [exists 1%Z; reflexivity|]. split; [exists 1%Z; reflexivity|]. split; [discriminate|simpl; auto]. }
  assert (write_free []) as Hh by apply Forall_nil.
  pose proof (default_E3_tables [] 2 2 o1 o2 Hh ltac:(lia) ltac:(lia)) as Ed.
  destruct (C69_lifting_E2 T 1 1 2 1 1 (PInt 0) 1 "zeros" true bias2 "bilinear" "border" true (PairTuple (2 * 2) (2 * 2)) None) as (A2 & _ & Eg & _). destruct (A2 V2) as (L2 & E2 & EL2 & HC2).
  destruct (C69_lifting_E3 T 1 1 2 1 1 (PInt 0) 1 "zeros" true bias "bilinear" "border" false (PairTuple 2 2) None (default_E3 (grun ginit []) 2 2 o1 o2) _ (or_intror (conj eq_refl Ed))) as (A3 & _ & Eg3 & _). destruct (A3 VV3) as (L3 & E3 & EL3 & HC3).
  pose (w2 := build [1; 1; 2; 2]%nat (fun _ => 1)).
  pose (w3 := build [1; 1; 2; 2; 2]%nat (fun idx => INR (nth 2 idx 0%nat))). pose (w3' := build [1; 1; 2; 2; 2]%nat (fun idx => INR (nth 2 idx 0%nat) + 1)). pose (sym := build [1; 1; 2; 2; 2]%nat (fun _ => 1)).
  exists (mkModule L2 true), (mkModule L3 true), w2, w3, w3', sym.
  cbv zeta. fold bias bias2. split; [exact E2|]. split; [exact E3|]. split; [apply HU, HB|]. split; [apply HU, HB|]. split; [exact Hh|]. split; [reflexivity|]. split; [reflexivity|].
  assert (forall x, valid [2; 2; 2]%nat x -> valid [2; 2; 2]%nat (opposite [2; 2; 2]%nat x)) as HO.
  { intros x Hx. destruct (valid3_inv 2 x Hx) as (a & b & e & -> & Ha & Hb & He). cbn [opposite map2]. repeat apply valid_cons; try lia; apply valid_nil. }
  assert (forall p x, valid [1; 1]%nat p -> valid [2; 2; 2]%nat x -> valid [1; 1; 2; 2; 2]%nat (p ++ x)) as HV by (intros p x Hp Hx; change [1; 1; 2; 2; 2]%nat with ([1; 1] ++ [2; 2; 2])%nat; apply Forall2_app; assumption).
  split.
  { split; [apply HB|]. split; [apply HB|]. intros p x Hp Hx. pose proof (HO x Hx) as Hx'. unfold w3, w3'. rewrite !at_build by (apply HV; assumption). lra. }
  split. { intros E. apply (f_equal (fun t => at_ t [0; 0; 0; 0; 0]%nat)) in E. unfold w3, w3' in E. rewrite !at_build in E by (repeat apply valid_cons; try lia; apply valid_nil). cbn in E. lra. }
  split. { split; [apply HB|]. split; [apply HB|]. intros p x Hp Hx. pose proof (HO x Hx) as Hx'. unfold sym. rewrite !at_build by (apply HV; assumption). reflexivity. }
  split. { unfold sym. rewrite at_build by (repeat apply valid_cons; try lia; apply valid_nil). reflexivity. }
  split.
  - intros u c X HX. destruct HC2 as (m & Em & HC). { repeat split; lia. } injection Em as <-.
    set (M := mkModule L2 true). set (H := permuted M o2_left_apply_angle (drawn_E2 u c) (or_else None (kernel_grid M))).
    assert (kernel_grid M = o2_uniform_grid 4 4) as EK. { unfold kernel_grid, M. cbn [gm_layer]. rewrite EL2. exact Eg. }
    assert (List.length H = 8%nat) as LH.
    { unfold H, permuted. rewrite EK. change (gm_permute M) with true. cbn [or_else]. cbv iota. destruct (halves_nonempty 2 (bcast_left o2_left_apply_angle (drawn_E2 u c) (o2_uniform_grid 4 4))) as [_ L]; [lia| |exact L].
      apply (halves_default 2 true o2_left_apply_angle u c); [lia|reflexivity]. }
    destruct (C36_E2 T 1 1 2 1 4 4 "bilinear" "border" true H (gs2 true GsBorder) w2 H) as (W & EW & SW & _); [lia|reflexivity|apply HB|]. rewrite LH in SW.
    pose proof (C45_lifting_convolution O2 Mat.V2 _ 2 L2 1 1 [2; 2]%nat _ 1 [1; 1]%nat (PInt 0) [1; 1]%nat Zeros bias2 w2 W H X 1 [2; 2]%nat HC) as Q. cbv zeta in Q.
    destruct Q as [Q _]; [intros Z; rewrite Z in LH; discriminate|exact EW|rewrite LH; exact SW|exact HX|reflexivity|].
    destruct Q as (Y & EY & SY & _). { intros j Hj. cbn in Hj. destruct j as [|[|j]]; [vm_compute; lia|vm_compute; lia|lia]. }
    rewrite LH in SY. exists Y, H. split; [exact EY|exact SY].
  - intros q c w X Hw HX. destruct HC3 as (m & Em & HC). { repeat split; lia. } injection Em as <-.
    destruct (E3_default T 1 1 2 1 1 (PInt 0) 1 "zeros" true bias "border" false 2 [] o1 o2 _ q c (HU 3%nat bias (HB [1; 1; 1; 1; 1]%nat (fun _ => 7))) Hh ltac:(lia) E3) as (_ & _ & LH). cbv zeta in LH.
    set (M := mkModule L3 true) in *. set (H := permuted M o3_left_apply_O3 (drawn_E3 c q) (or_else None (kernel_grid M))) in *.
    destruct (C36_E3 T 1 1 2 1 2 2 "bilinear" "border" false H (gs3 true GsBorder) w H) as (W & EW & SW & _); [lia|reflexivity|exact Hw|]. rewrite LH in SW.
    pose proof (C45_lifting_convolution O3 Mat.V3 _ 3 L3 1 1 [2; 2; 2]%nat _ 1 [1; 1; 1]%nat (PInt 0) [1; 1; 1]%nat Zeros bias w W H X 1 [2; 2; 2]%nat HC) as Q. cbv zeta in Q.
    destruct Q as [Q _]; [intros Z; rewrite Z in LH; discriminate|exact EW|rewrite LH; exact SW|exact HX|reflexivity|].
    destruct Q as (Y & EY & SY & _). { intros j Hj. cbn in Hj. destruct j as [|[|[|j]]]; [vm_compute; lia|vm_compute; lia|vm_compute; lia|lia]. }
    rewrite LH in SY. exists Y, H. split; [exact EY|exact SY].
Qed.
