(** The order in which group elements are listed does not matter. *)
From Coq Require Import String ZArith Permutation.
From Verif Require Import Prelude RMath Mat Interp InterpFacts SO2 SO2Facts O2 O2Facts OSplit OSplitFacts SO3 SO3Facts O3 O3Facts Repulse RepulseFacts Tensor TensorFacts Functional FunctionalFacts Kernel KernelFacts
  GroupKernelFacts KernelMore Conv ConvSpec ConvFacts GConvFacts SepConvFacts SepProduct ConvInit ConvShift SepStages LayersSpec LayersFacts Prop_Conv RegridSpec.
Open Scope R_scope.

(** ** Sampling succeeds on every sub-list of queries it succeeds on. *)
Definition selective {G Row} (samp : list G -> list Row -> list G -> result (list Row)) : Prop :=
  forall q q' s g out, samp q s g = Ok out -> incl q' q -> exists out', samp q' s g = Ok out'.

Lemma mapM_incl {A B} (f : A -> result B) l l' out : mapM f l = Ok out -> incl l' l -> exists out', mapM f l' = Ok out'.
Proof.
  intros H. assert (forall a, In a l -> exists b, f a = Ok b) as K.
  { revert out H. induction l as [|x l IH]; intros out H a Ha; [destruct Ha|]. simpl in H.
    destruct (f x) as [y|] eqn:E; [|discriminate]. simpl in H. destruct (mapM f l) as [ys|]; [|discriminate].
    destruct Ha as [<-|Ha]; [eauto|]. exact (IH ys eq_refl a Ha). }
  induction l' as [|x l' IH]; intros I; [exists []; reflexivity|]. simpl.
  destruct (K x) as [b ->]; [apply I; left; reflexivity|]. simpl.
  destruct IH as [ys ->]; [intros y Hy; apply I; right; exact Hy|]. simpl. eauto.
Qed.
Lemma NN_selective {G Row} T (dist : G -> G -> R) : selective (fun q (s : list Row) g => interpolate_NN T dist q g s).
Proof. intros q q' s g out H I. unfold interpolate_NN in *. destruct g; [discriminate|]. exact (mapM_incl _ _ _ _ H I). Qed.
Lemma RBF_selective {G} T (dist : G -> G -> R) rbf w S : selective (fun q s g => interpolate_RBF T dist rbf w S q g s).
Proof. intros q q' s g out H _. unfold interpolate_RBF in *. destruct (te_solve T _ s); [|discriminate]. simpl. eauto. Qed.

Lemma so2_selective T mode w S : selective (fun q s g => so2_grid_sample T mode w S q s g).
Proof.
  intros q q' s g out H I. unfold so2_grid_sample in *. destruct (String.eqb mode "rbf"); [exact (RBF_selective _ _ _ _ _ _ _ _ _ _ H I)|].
  destruct (String.eqb mode "nearest"); [|discriminate]. exact (NN_selective _ _ _ _ _ _ _ H I).
Qed.
Lemma incl_map {A B} (f : A -> B) l l' : incl l' l -> incl (map f l') (map f l).
Proof. intros I x Hx. apply in_map_iff in Hx. destruct Hx as (y & <- & Hy). apply in_map, I, Hy. Qed.
Lemma so3_selective T mode w S : selective (fun q s g => so3_grid_sample_matrix T mode w S q s g).
Proof.
  intros q q' s g out H I. unfold so3_grid_sample_matrix, so3_grid_sample in *. apply (incl_map so3_matrix_to_quat) in I.
  destruct (String.eqb mode "nearest"); [exact (NN_selective _ _ _ _ _ _ _ H I)|].
  destruct (String.eqb mode "rbf"); [|discriminate]. exact (RBF_selective _ _ _ _ _ _ _ _ _ _ H I).
Qed.

Lemma take_idx_incl {A} (l : list A) idx q : take_idx l idx = Ok q -> forall x, In x q <-> exists i, In i idx /\ nth_error l i = Some x.
Proof.
  unfold take_idx. revert q. induction idx as [|i idx IH]; intros q H; simpl in H.
  - injection H as <-. intros x. split; [intros []|intros (i & [] & _)].
  - destruct (nth_error l i) as [y|] eqn:E; [|discriminate]. simpl in H. destruct (mapM _ idx) as [ys|] eqn:E2; [|discriminate].
    simpl in H. injection H as <-. intros x. split.
    + intros [<-|Hx]; [exists i; split; [left; reflexivity|exact E]|]. apply (IH ys eq_refl) in Hx. destruct Hx as (j & Hj & Ej). exists j. split; [right|]; assumption.
    + intros (j & [<-|Hj] & Ej); [left; congruence|right]. apply (IH ys eq_refl). exists j. auto.
Qed.

Section SplitSelective.
  Context {E G Row : Type} (coeff : E -> R) (part : E -> G).
  Context (sr sf : list G -> list Row -> list G -> result (list Row)).
  Context (Hrot : rowwise sr) (Href : rowwise sf) (Srot : selective sr) (Sref : selective sf).

  Lemma split_selective grid grid' signal sg n m out : (forall e, In e grid -> coeff e = 1 \/ coeff e = -1) -> (n + m)%nat = List.length signal ->
    split_sample coeff part sr sf grid signal sg n m = Ok out -> incl grid' grid ->
    exists out', split_sample coeff part sr sf grid' signal sg n m = Ok out'.
  Proof.
    intros Hpm Hn H I. pose proof (split_sample_rows coeff part sr sf Hrot Href grid signal sg n m Hpm Hn out H) as [_ Hrows].
    assert (forall e, In e grid -> coeff e = 1 -> n <> 0%nat) as Hn0.
    { intros e He Hc. apply In_nth_error in He. destruct He as [i Hi]. destruct (Hrows i e Hi) as (row & _ & [(_ & A & _)|(B & _)]); [exact A|lra]. }
    assert (forall e, In e grid -> coeff e = -1 -> m <> 0%nat) as Hm0.
    { intros e He Hc. apply In_nth_error in He. destruct He as [i Hi]. destruct (Hrows i e Hi) as (row & _ & [(B & _)|(_ & A & _)]); [lra|exact A]. }
    unfold split_sample in H.
    destruct (if Nat.eqb n 0 then _ else _) as [ro|] eqn:Hro in H; [|discriminate]. cbn [bind] in H.
    destruct (if Nat.eqb m 0 then _ else _) as [re|] eqn:Hre in H; [|discriminate]. clear H.
    assert (forall c q, take_idx (map part grid) (where_eq c (map coeff grid)) = Ok q ->
      incl (map part (filter (fun e => if Req_EM_T (coeff e) c then true else false) grid')) q) as Hincl.
    { intros c q Hq x Hx. apply in_map_iff in Hx. destruct Hx as (e & <- & He). apply filter_In in He. destruct He as [He Hc].
      destruct (Req_EM_T (coeff e) c) as [Ec|]; [|discriminate]. apply I in He. apply In_nth_error in He. destruct He as [i Hi].
      apply (take_idx_incl _ _ _ Hq). exists i. split; [|rewrite nth_error_map, Hi; reflexivity].
      apply where_eq_In. rewrite nth_error_map, Hi. simpl. congruence. }
    assert (n <> 0%nat -> exists ro', sr (map part (filter (fun e => if Req_EM_T (coeff e) 1 then true else false) grid')) (firstn n signal) (map part (firstn n sg)) = Ok ro') as K1.
    { intros Hz. destruct (Nat.eqb_spec n 0); [contradiction|]. destruct (take_idx _ _) as [q|] eqn:Eq in Hro; [|discriminate]. cbn [bind] in Hro.
      exact (Srot _ _ _ _ _ Hro (Hincl _ _ Eq)). }
    assert (m <> 0%nat -> exists re', sf (map part (filter (fun e => if Req_EM_T (coeff e) (-1) then true else false) grid')) (skipn n signal) (map part (skipn n sg)) = Ok re') as K2.
    { intros Hz. destruct (Nat.eqb_spec m 0); [contradiction|]. destruct (take_idx _ _) as [q|] eqn:Eq in Hre; [|discriminate]. cbn [bind] in Hre.
      exact (Sref _ _ _ _ _ Hre (Hincl _ _ Eq)). }
    assert (exists ro', n <> 0%nat -> sr (map part (filter (fun e => if Req_EM_T (coeff e) 1 then true else false) grid')) (firstn n signal) (map part (firstn n sg)) = Ok ro') as [ro' K1'].
    { destruct (Nat.eq_dec n 0) as [->|Hz]; [exists []; intros []; reflexivity|destruct (K1 Hz) as [r Hr]; exists r; auto]. }
    assert (exists re', m <> 0%nat -> sf (map part (filter (fun e => if Req_EM_T (coeff e) (-1) then true else false) grid')) (skipn n signal) (map part (skipn n sg)) = Ok re') as [re' K2'].
    { destruct (Nat.eq_dec m 0) as [->|Hz]; [exists []; intros []; reflexivity|destruct (K2 Hz) as [r Hr]; exists r; auto]. }
    apply (split_sample_total coeff part sr sf Hrot Href grid' signal sg n m (fun e He => Hpm e (I e He)) Hn ro' re').
    - intros Hz e He Hc. exact (Hn0 e (I e He) Hc Hz).
    - intros Hz e He Hc. exact (Hm0 e (I e He) Hc Hz).
    - exact K1'.
    - exact K2'.
  Qed.
End SplitSelective.

(** ** Kernels sampled on a part of the grids are parts of the kernels. *)
Definition sampled_below {G P} {D : Dflt P} (k : gkernel G P) inv mul rest weight (in_H out_H : list G) (V : G -> list R) : Prop :=
  forall in_H' out_H', incl in_H' in_H -> incl out_H' out_H -> sampled k inv mul rest weight in_H' out_H' V.

Lemma relatives_incl {G} (inv : G -> G) mul in_H out_H in_H' out_H' : incl in_H' in_H -> incl out_H' out_H ->
  incl (relatives inv mul in_H' out_H') (relatives inv mul in_H out_H).
Proof.
  intros I O q Hq. apply relatives_In in Hq. destruct Hq as (a & b & Ha & Hb & ->). unfold relatives. apply in_concat.
  exists (map (fun h => mul (inv a) h) in_H). split; [|apply (in_map (fun h => mul (inv a) h)), I, Hb]. apply (in_map (fun g => map (fun h => mul (inv g) h) in_H)), O, Ha.
Qed.

Lemma below_SE2 (k : gkernel R V2) T gmode w mode pm rest weight in_H out_H rows :
  k_ops k = ops_SE2 T gmode w mode pm ->
  op_sample_H (k_ops k) (prodn rest) (relatives so2_inverse_angle so2_left_apply_angle in_H out_H)
    (param_rows (k_gdim k) rest weight) (k_grid_H k) = Ok rows ->
  exists V, sampled_below k so2_inverse_angle so2_left_apply_angle rest weight in_H out_H V.
Proof.
  intros Hk H. eexists. intros in_H' out_H' I O. rewrite Hk in H.
  destruct (so2_selective _ _ _ _ _ _ _ _ _ H (relatives_incl so2_inverse_angle so2_left_apply_angle _ _ _ _ I O)) as [rows' H'].
  exact (sampled_SE2 k T gmode w mode pm rest weight in_H' out_H' rows' Hk H').
Qed.
Lemma below_SE3 (k : gkernel M3 V3) T gmode w mode pm rest weight in_H out_H rows :
  k_ops k = ops_SE3 T gmode w mode pm ->
  op_sample_H (k_ops k) (prodn rest) (relatives so3_matrix_inverse mul3 in_H out_H)
    (param_rows (k_gdim k) rest weight) (k_grid_H k) = Ok rows ->
  exists V, sampled_below k so3_matrix_inverse mul3 rest weight in_H out_H V.
Proof.
  intros Hk H. eexists. intros in_H' out_H' I O. rewrite Hk in H.
  destruct (so3_selective _ _ _ _ _ _ _ _ _ H (relatives_incl so3_matrix_inverse mul3 _ _ _ _ I O)) as [rows' H'].
  exact (sampled_SE3 k T gmode w mode pm rest weight in_H' out_H' rows' Hk H').
Qed.
Lemma Forall_incl {A} (P : A -> Prop) l l' : Forall P l -> incl l' l -> Forall P l'.
Proof. rewrite !Forall_forall. auto. Qed.
Lemma below_E2 (k : gkernel O2 V2) T gmode rw fw n m mode pm rest weight in_H out_H rows :
  k_ops k = ops_E2 T gmode rw fw n m mode pm -> k_gdim k = (n + m)%nat -> Forall o2_wf in_H -> Forall o2_wf out_H ->
  op_sample_H (k_ops k) (prodn rest) (relatives o2_inverse o2_left_apply_angle in_H out_H)
    (param_rows (k_gdim k) rest weight) (k_grid_H k) = Ok rows ->
  exists V, sampled_below k o2_inverse o2_left_apply_angle rest weight in_H out_H V.
Proof.
  intros Hk Hg Wi Wo H. eexists. intros in_H' out_H' I O. rewrite Hk in H. cbn [op_sample_H ops_E2] in H.
  assert (forall e, In e (relatives o2_inverse o2_left_apply_angle in_H out_H) -> o2_wf e) as Hwf.
  { rewrite Forall_forall in Wi, Wo. intros q Hq. apply relatives_In in Hq. destruct Hq as (a & b & Ha & Hb & ->). apply o2_wf_mul; [apply o2_wf_inv|]; auto. }
  destruct (split_selective o2c o2a _ _ (so2_grid_sample_rowwise T gmode rw _) (so2_grid_sample_rowwise T gmode fw _)
    (so2_selective T gmode rw _) (so2_selective T gmode fw _) _ _ _ _ _ _ _ Hwf
    (eq_trans (eq_sym Hg) (eq_sym (param_rows_count _ rest weight))) H
    (relatives_incl o2_inverse o2_left_apply_angle _ _ _ _ I O)) as [rows' H'].
  exact (sampled_E2 k T gmode rw fw n m mode pm rest weight in_H' out_H' rows' Hk Hg (Forall_incl _ _ _ Wi I) (Forall_incl _ _ _ Wo O) H').
Qed.
Lemma below_E3 (k : gkernel O3 V3) T gmode rw fw n m mode pm rest weight in_H out_H rows :
  k_ops k = ops_E3 T gmode rw fw n m mode pm -> k_gdim k = (n + m)%nat -> Forall o3_wf in_H -> Forall o3_wf out_H ->
  op_sample_H (k_ops k) (prodn rest) (relatives o3_inverse o3_left_apply_O3 in_H out_H)
    (param_rows (k_gdim k) rest weight) (k_grid_H k) = Ok rows ->
  exists V, sampled_below k o3_inverse o3_left_apply_O3 rest weight in_H out_H V.
Proof.
  intros Hk Hg Wi Wo H. eexists. intros in_H' out_H' I O. rewrite Hk in H. cbn [op_sample_H ops_E3] in H.
  assert (forall e, In e (relatives o3_inverse o3_left_apply_O3 in_H out_H) -> o3c e = 1 \/ o3c e = -1) as Hwf.
  { rewrite Forall_forall in Wi, Wo. intros q Hq. apply relatives_In in Hq. destruct Hq as (a & b & Ha & Hb & ->).
    apply (o3_product_wf _ _ (o3_inverse_wf _ (Wo a Ha)) (Wi b Hb)). }
  destruct (split_selective o3c o3r _ _ (so3_sample_rowwise T gmode rw _) (so3_sample_rowwise T gmode fw _)
    (so3_selective T gmode rw _) (so3_selective T gmode fw _) _ _ _ _ _ _ _ Hwf
    (eq_trans (eq_sym Hg) (eq_sym (param_rows_count _ rest weight))) H
    (relatives_incl o3_inverse o3_left_apply_O3 _ _ _ _ I O)) as [rows' H'].
  exact (sampled_E3 k T gmode rw fw n m mode pm rest weight in_H' out_H' rows' Hk Hg (Forall_incl _ _ _ Wi I) (Forall_incl _ _ _ Wo O) H').
Qed.

Lemma regrid_incl {G} f (H H' : list G) : regrid f H H' -> incl H' H.
Proof. intros R x Hx. apply In_nth_error in Hx. destruct Hx as [j Hj]. apply R in Hj. exact (nth_error_In _ _ Hj). Qed.

Section RegridKernels.
  Context {G P : Type} {D : Dflt P} (k : gkernel G P) (inv : G -> G) (mul : G -> G -> G) (act : G -> P -> P) (det : option (G -> R)).
  Hypothesis Hops : gops_ok (k_ops k) inv mul act det.
  Hypothesis Hg : has_shape (k_grid_Rn k) (k_size k).
  Hypothesis Hm : mask_ok (k_mask k) (k_size k).
  Hypothesis Hz : prodn (k_size k) <> 0%nat.

  Lemma lifting_kernel_regrid smp weight (H H' : list G) f : op_sample_Rn (k_ops k) = Ok smp -> has_shape weight (lifting_weight_shape k) -> regrid f H H' ->
    exists W W', lifting_kernel_forward k weight H = Ok W /\ has_shape W (k_out k :: List.length H :: k_cin k :: k_size k) /\
      lifting_kernel_forward k weight H' = Ok W' /\ has_shape W' (k_out k :: List.length H' :: k_cin k :: k_size k) /\
      forall o h c x, (o < k_out k)%nat -> (h < List.length H')%nat -> (c < k_cin k)%nat -> valid (k_size k) x ->
        at_ W' (o :: h :: c :: x) = at_ W (o :: f h :: c :: x).
  Proof.
    intros Hsmp Hw HR. destruct (lifting_formula k inv mul act det Hops Hg Hm Hz smp weight H Hsmp Hw) as (W & E & S & A).
    destruct (lifting_formula k inv mul act det Hops Hg Hm Hz smp weight H' Hsmp Hw) as (W' & E' & S' & A').
    exists W, W'. do 4 (split; [assumption|]). intros o i c x Ho Hi Hc Hx.
    destruct (nth_error H' i) as [h|] eqn:Eh; [|apply nth_error_None in Eh; lia].
    rewrite (A o (f i) h c x), (A' o i h c x) by (try assumption; apply HR; assumption). reflexivity.
  Qed.

  Lemma full_kernel_regrid weight (in_H out_H in_H' out_H' : list G) fi fo W :
    (forall rows, op_sample_H (k_ops k) (prodn (k_out k :: k_cin k :: k_size k)) (relatives inv mul in_H out_H)
        (param_rows (k_gdim k) (k_out k :: k_cin k :: k_size k) weight) (k_grid_H k) = Ok rows ->
     exists V, sampled_below k inv mul (k_out k :: k_cin k :: k_size k) weight in_H out_H V) ->
    has_shape weight (full_weight_shape k) -> regrid fi in_H in_H' -> regrid fo out_H out_H' ->
    full_kernel_forward k weight in_H out_H = Ok W ->
    has_shape W (k_out k :: List.length out_H :: k_cin k :: List.length in_H :: k_size k) /\
    exists W', full_kernel_forward k weight in_H' out_H' = Ok W' /\
      has_shape W' (k_out k :: List.length out_H' :: k_cin k :: List.length in_H' :: k_size k) /\
      forall o i c j x, (o < k_out k)%nat -> (i < List.length out_H')%nat -> (c < k_cin k)%nat -> (j < List.length in_H')%nat -> valid (k_size k) x ->
        at_ W' (o :: i :: c :: j :: x) = at_ W (o :: fo i :: c :: fi j :: x).
  Proof.
    intros HV Hw Ri Ro HW. destruct (full_inv k inv mul act det Hops weight in_H out_H W Hw HW) as (Hd & smp & rows & Hsmp & Hrows).
    destruct (HV rows Hrows) as [V B].
    destruct (full_formula k inv mul act det Hops Hg Hm Hz Hd smp weight in_H out_H V Hsmp Hw (B _ _ (incl_refl _) (incl_refl _))) as (W0 & E & S & A).
    assert (W0 = W) by congruence. subst W0.
    destruct (full_formula k inv mul act det Hops Hg Hm Hz Hd smp weight in_H' out_H' V Hsmp Hw (B _ _ (regrid_incl _ _ _ Ri) (regrid_incl _ _ _ Ro))) as (W' & E' & S' & A').
    split; [assumption|]. exists W'. do 2 (split; [assumption|]). intros o i c j x Ho Hi Hc Hj Hx.
    destruct (nth_error out_H' i) as [a|] eqn:Ea; [|apply nth_error_None in Ea; lia].
    destruct (nth_error in_H' j) as [b|] eqn:Eb; [|apply nth_error_None in Eb; lia].
    destruct (relabel_exists (k_out k) (k_cin k) o c Ho Hc) as (o' & c' & Ho' & Hc' & Hoc).
    rewrite (A' o i a c j b x o' c'), (A o (fo i) a c (fi j) b x o' c') by (try assumption; auto). reflexivity.
  Qed.

  Lemma separable_kernel_regrid weight_H weight (in_H out_H in_H' out_H' : list G) fi fo WH WS :
    (forall rows, op_sample_H (k_ops k) (prodn [k_out k; k_cin k]) (relatives inv mul in_H out_H)
        (param_rows (k_gdim k) [k_out k; k_cin k] weight_H) (k_grid_H k) = Ok rows ->
     exists V, sampled_below k inv mul [k_out k; k_cin k] weight_H in_H out_H V) ->
    has_shape weight_H (group_weight_shape k) -> has_shape weight (separable_weight_shape k) -> regrid fi in_H in_H' -> regrid fo out_H out_H' ->
    separable_kernel_forward k weight_H weight in_H out_H = Ok (WH, WS) ->
    List.length in_H = List.length out_H -> List.length in_H' = List.length out_H' ->
    let ones := repeat 1%nat (List.length (k_size k)) in
    has_shape WH (k_out k :: List.length in_H :: k_cin k :: List.length out_H :: ones) /\
    has_shape WS (k_out k :: List.length out_H :: 1%nat :: k_size k) /\
    exists WH' WS', separable_kernel_forward k weight_H weight in_H' out_H' = Ok (WH', WS') /\
      has_shape WH' (k_out k :: List.length in_H' :: k_cin k :: List.length out_H' :: ones) /\
      has_shape WS' (k_out k :: List.length out_H' :: 1%nat :: k_size k) /\
      (forall o i c j, (o < k_out k)%nat -> (i < List.length out_H')%nat -> (c < k_cin k)%nat -> (j < List.length in_H')%nat ->
        at_ WH' (o :: i :: c :: j :: repeat 0%nat (List.length (k_size k))) = at_ WH (o :: fo i :: c :: fi j :: repeat 0%nat (List.length (k_size k)))) /\
      (forall o i x, (o < k_out k)%nat -> (i < List.length out_H')%nat -> valid (k_size k) x ->
        at_ WS' (o :: i :: 0%nat :: x) = at_ WS (o :: fo i :: 0%nat :: x)).
  Proof.
    intros HV HwH Hw Ri Ro HW EL EL' ones. destruct (separable_inv k inv mul act det Hops weight_H weight in_H out_H _ HwH HW) as (Hd & smp & rows & Hsmp & Hrows).
    destruct (HV rows Hrows) as [V B].
    destruct (separable_formula k inv mul act det Hops Hg Hm Hz Hd smp weight_H weight in_H out_H V Hsmp HwH Hw (B _ _ (incl_refl _) (incl_refl _))) as (WH0 & W0 & E & S1 & S2 & A1 & A2).
    assert (WH0 = WH /\ W0 = WS) as [-> ->] by (split; congruence).
    destruct (separable_formula k inv mul act det Hops Hg Hm Hz Hd smp weight_H weight in_H' out_H' V Hsmp HwH Hw (B _ _ (regrid_incl _ _ _ Ri) (regrid_incl _ _ _ Ro)))
      as (WH' & WS' & E' & S1' & S2' & A1' & A2').
    split; [exact S1|]. split; [exact S2|]. exists WH', WS'. split; [exact E'|]. split; [exact S1'|]. split; [exact S2'|]. split.
    - intros o i c j Ho Hi Hc Hj.
      destruct (nth_error out_H' i) as [a|] eqn:Ea; [|apply nth_error_None in Ea; lia].
      destruct (nth_error in_H' j) as [b|] eqn:Eb; [|apply nth_error_None in Eb; lia].
      pose proof (Ro _ _ Ea) as Ea'. pose proof (Ri _ _ Eb) as Eb'. pose proof (nth_error_Some_lt _ _ _ Ea'). pose proof (nth_error_Some_lt _ _ _ Eb').
      rewrite (A1' o i c j i j a b) by (try assumption; rewrite ?EL'; lia || assumption).
      rewrite (A1 o (fo i) c (fi j) (fo i) (fi j) a b) by (try assumption; rewrite ?EL; lia || assumption). reflexivity.
    - intros o i x Ho Hi Hx. destruct (nth_error out_H' i) as [a|] eqn:Ea; [|apply nth_error_None in Ea; lia].
      rewrite (A2' o i a x Ho Ea Hx), (A2 o (fo i) a x Ho (Ro _ _ Ea) Hx). reflexivity.
  Qed.
End RegridKernels.

(** ** Layers *)
Open Scope nat_scope.
Lemma read_inside m sp ks stride dil left right y x j : fits m sp ks stride dil left right -> length stride = length ks ->
  valid (conv_size sp ks stride dil left right) y -> valid ks x -> j < length ks ->
  nth j y 0 * nth j stride 0 + nth j x 0 * nth j dil 0 < nth j sp 0 + nth j left 0 + nth j right 0.
Proof.
  intros F Ls Hy Hx Hj. destruct (F j Hj) as [F1 _]. apply valid_nth in Hy. unfold conv_size in Hy. rewrite axes_length in Hy. destruct Hy as [_ Hy].
  specialize (Hy j Hj). rewrite nth_axes in Hy by assumption. apply valid_nth in Hx. destruct Hx as [_ Hx]. specialize (Hx j Hj).
  set (A := nth j sp 0 + nth j left 0 + nth j right 0) in *. set (st := nth j stride 0) in *. set (t := nth j dil 0) in *.
  set (kk := nth j ks 0) in *. set (yy := nth j y 0) in *. set (xx := nth j x 0) in *.
  assert (yy * st <= A - t * (kk - 1) - 1) as B.
  { destruct (Nat.eq_dec st 0) as [-> |E]; [rewrite Nat.mul_0_r; lia|].
    assert (yy <= (A - t * (kk - 1) - 1) / st) as C by (rewrite Nat.add_1_r in Hy; apply Nat.lt_succ_r; exact Hy).
    apply (Nat.mul_le_mono_r _ _ st) in C. pose proof (Nat.mul_div_le (A - t * (kk - 1) - 1) st E) as Q. rewrite (Nat.mul_comm st) in Q. lia. }
  assert (xx * t <= t * (kk - 1)) as C by (rewrite (Nat.mul_comm t); apply Nat.mul_le_mono_r; lia). lia.
Qed.

Lemma image_at_same m sp ks stride dil left right (t t' : tensor R) pre pre' y x :
  fits m sp ks stride dil left right -> length stride = length ks -> length sp = length ks ->
  valid (conv_size sp ks stride dil left right) y -> valid ks x ->
  (forall i, valid sp i -> at_ t' (pre' ++ i) = at_ t (pre ++ i)) ->
  image_at m t' sp pre' (read_pos stride dil left y x) = image_at m t sp pre (read_pos stride dil left y x).
Proof.
  intros F Ls Lsp Hy Hx E. unfold image_at. destruct (sequence _) as [i|] eqn:Es; [|reflexivity]. apply E.
  destruct (sequence_axes _ _ _ 0 Es) as [L V]. apply valid_nth. split; [exact L|]. intros j Hj. specialize (V j Hj).
  rewrite Lsp in Hj. unfold read_pos in V. rewrite nth_axes in V by (rewrite Ls; exact Hj).
  exact (shown_lt _ _ _ _ _ _ (fits_pad_ok _ _ _ _ _ _ _ _ F Hj) (read_inside _ _ _ _ _ _ _ _ _ _ F Ls Hy Hx Hj) V).
Qed.

Lemma regrouped_inv d f n n' X X' N C s : regrouped d f n n' X X' -> has_shape X (N :: C :: n :: s) ->
  length s = d /\ has_shape X' (N :: C :: n' :: s) /\
    forall a c e z, a < N -> c < C -> e < n' -> valid s z -> f e < n /\ at_ X' (a :: c :: e :: z) = at_ X (a :: c :: f e :: z).
Proof. intros (N0 & C0 & s0 & L & H & H' & V) HX. destruct HX as [HX _]. rewrite (proj1 H) in HX. injection HX as -> -> ->. auto. Qed.

Section RegridLayers.
  Context {G P : Type} {D : Dflt P} (d : nat) (L : gconv G P) (cin cout : nat) (ks : list nat) (kn : gkernel G P) (groups : nat) (stride : list nat)
          (padding : padarg) (dil : list nat) (m : padmode) (bias : option (tensor R)).
  Hypothesis Hc : constructed d L cin cout ks kn groups stride padding dil m bias.
  Let ci := cin / groups.

  Lemma con_lengths : length stride = d /\ length ks = d /\ (forall o c, o < cout -> c < ci -> o / (cout / groups) * (cin / groups) + c < cin).
  Proof.
    assert (length stride = d /\ length ks = d) as [A B].
    { destruct Hc as (cm & gks & pm & Hm & _ & _ & Hgood & _). unfold good_args in Hgood. tauto. }
    split; [exact A|]. split; [exact B|].
    intros. apply (channel_read _ _ _ _ _ _ _ _ _ _ _ _ _ _ Hc); assumption.
  Qed.

  Lemma lifting_regrid weight W W' (H H' : list G) f X N s out :
    H <> [] -> H' <> [] -> regrid f H H' ->
    lifting_kernel_forward kn weight H = Ok W -> has_shape W (cout :: length H :: ci :: ks) ->
    lifting_kernel_forward kn weight H' = Ok W' -> has_shape W' (cout :: length H' :: ci :: ks) ->
    (forall o h c x, o < cout -> h < length H' -> c < ci -> valid ks x -> at_ W' (o :: h :: c :: x) = at_ W (o :: f h :: c :: x)) ->
    has_shape X (N :: cin :: s) -> length s = d ->
    lifting_forward L weight X H = Ok (out, H) ->
    exists out', lifting_forward L weight X H' = Ok (out', H') /\ regrouped d f (length H) (length H') out out'.
  Proof.
    intros HH HH' HR EW HW EW' HW' Hker HX Hs E.
    destruct (C45_lifting_convolution _ _ D _ _ _ _ _ _ _ _ _ _ _ _ _ _ _ _ _ _ Hc HH EW HW HX Hs) as [A B].
    destruct (C45_lifting_convolution _ _ D _ _ _ _ _ _ _ _ _ _ _ _ _ _ _ _ _ _ Hc HH' EW' HW' HX Hs) as [A' _].
    cbv zeta in A, B, A'.
    set (l := lefts (stored_padding d padding) ks dil) in *. set (r := rights (stored_padding d padding) ks dil) in *.
    destruct (fits_em m s ks stride dil l r) as [F|F]; [|rewrite (B F) in E; discriminate].
    destruct (A F) as (x & Ex & Sx & Vx). rewrite Ex in E. injection E as <-. destruct (A' F) as (x' & Ex' & Sx' & Vx').
    exists x'. split; [assumption|]. exists N, cout, (conv_size s ks stride dil l r). split; [unfold conv_size; rewrite axes_length; destruct con_lengths as (_ & ? & _); congruence|]. split; [assumption|]. split; [assumption|].
    intros a c e z Ha Hcc He Hz.
    destruct (nth_error H' e) as [h|] eqn:Eh; [|apply nth_error_None in Eh; lia]. pose proof (nth_error_Some_lt _ _ _ (HR _ _ Eh)) as Hf.
    split; [exact Hf|]. rewrite Vx', Vx by assumption. f_equal. apply sumR_ext. intros c1 Hc1. apply in_seq in Hc1.
    apply sumR_ext. intros x0 Hx0. apply in_indices in Hx0. rewrite Hker by (try assumption; unfold ci; lia). reflexivity.
  Qed.

  Lemma group_regrid weight W W' (in_H in_H' out_H out_H' : list G) fi fo X X' N s out :
    out_H <> [] -> out_H' <> [] -> regrid fo out_H out_H' -> length in_H' = length in_H -> permutes (length in_H) fi ->
    full_kernel_forward kn weight in_H out_H = Ok W -> has_shape W (cout :: length out_H :: ci :: length in_H :: ks) ->
    full_kernel_forward kn weight in_H' out_H' = Ok W' -> has_shape W' (cout :: length out_H' :: ci :: length in_H' :: ks) ->
    (forall o g c h x, o < cout -> g < length out_H' -> c < ci -> h < length in_H' -> valid ks x ->
       at_ W' (o :: g :: c :: h :: x) = at_ W (o :: fo g :: c :: fi h :: x)) ->
    has_shape X (N :: cin :: length in_H :: s) -> length s = d -> has_shape X' (N :: cin :: length in_H' :: s) -> regrouped d fi (length in_H) (length in_H') X X' ->
    full_forward L weight X in_H out_H = Ok (out, out_H) ->
    exists out', full_forward L weight X' in_H' out_H' = Ok (out', out_H') /\ regrouped d fo (length out_H) (length out_H') out out'.
  Proof.
    intros HH HH' HR EL Hp EW HW EW' HW' Hker HX Hs HX' HXX E.
    destruct (regrouped_inv _ _ _ _ _ _ _ _ _ HXX HX) as (_ & _ & VX).
    destruct (C46_group_convolution _ _ D _ _ _ _ _ _ _ _ _ _ _ _ _ _ _ _ _ _ _ Hc HH EW HW HX Hs) as [A B].
    destruct (C46_group_convolution _ _ D _ _ _ _ _ _ _ _ _ _ _ _ _ _ _ _ _ _ _ Hc HH' EW' HW' HX' Hs) as [A' _].
    destruct con_lengths as (Ls & Lk & Hch). cbv zeta in A, B, A'.
    set (l := lefts (stored_padding d padding) ks dil) in *. set (r := rights (stored_padding d padding) ks dil) in *.
    destruct (fits_em m s ks stride dil l r) as [F|F]; [|rewrite (B F) in E; discriminate].
    destruct (A F) as (x & Ex & Sx & Vx). rewrite Ex in E. injection E as <-. destruct (A' F) as (x' & Ex' & Sx' & Vx').
    exists x'. split; [assumption|]. exists N, cout, (conv_size s ks stride dil l r). split; [unfold conv_size; rewrite axes_length; destruct con_lengths as (_ & ? & _); congruence|]. split; [assumption|]. split; [assumption|].
    intros a o e z Ha Ho He Hz.
    destruct (nth_error out_H' e) as [h|] eqn:Eh; [|apply nth_error_None in Eh; lia]. pose proof (nth_error_Some_lt _ _ _ (HR _ _ Eh)) as Hf.
    split; [exact Hf|]. rewrite Vx', Vx by assumption. f_equal. apply sumR_ext. intros c Hc1. apply in_seq in Hc1. assert (c < ci) as Hcc by (unfold ci; lia).
    rewrite EL. apply sumR_perm. apply Permutation_sym.
    match goal with |- Permutation (map ?F _) (map ?F' _) => apply Permutation_sym, (permutes_values _ fi F' F); [exact Hp|] end.
    intros j Hj. apply sumR_ext. intros x0 Hx0. apply in_indices in Hx0. rewrite Hker by (try assumption; lia). f_equal. symmetry.
    apply (image_at_same m s ks stride dil l r); try assumption; [congruence|congruence|]. intros i Hi. cbn [app]. apply VX; try assumption; try lia. apply Hch; assumption.
  Qed.

  Lemma separable_regrid weight_H weight WH WS WH' WS' (in_H in_H' out_H out_H' : list G) fi fo X X' N s out :
    out_H <> [] -> out_H' <> [] -> regrid fo out_H out_H' -> length in_H' = length in_H -> length in_H = length out_H -> length in_H' = length out_H' ->
    permutes (length in_H) fi ->
    separable_kernel_forward kn weight_H weight in_H out_H = Ok (WH, WS) ->
    has_shape WH (cout :: length in_H :: ci :: length out_H :: repeat 1 d) -> has_shape WS (cout :: length out_H :: 1 :: ks) ->
    separable_kernel_forward kn weight_H weight in_H' out_H' = Ok (WH', WS') ->
    has_shape WH' (cout :: length in_H' :: ci :: length out_H' :: repeat 1 d) -> has_shape WS' (cout :: length out_H' :: 1 :: ks) ->
    (forall o g c h, o < cout -> g < length out_H' -> c < ci -> h < length in_H' ->
       at_ WH' (o :: g :: c :: h :: repeat 0 d) = at_ WH (o :: fo g :: c :: fi h :: repeat 0 d)) ->
    (forall o g x, o < cout -> g < length out_H' -> valid ks x -> at_ WS' (o :: g :: 0 :: x) = at_ WS (o :: fo g :: 0 :: x)) ->
    has_shape X (N :: cin :: length in_H :: s) -> length s = d -> has_shape X' (N :: cin :: length in_H' :: s) -> regrouped d fi (length in_H) (length in_H') X X' ->
    separable_forward L weight_H weight X in_H out_H = Ok (out, out_H) ->
    exists out', separable_forward L weight_H weight X' in_H' out_H' = Ok (out', out_H') /\ regrouped d fo (length out_H) (length out_H') out out'.
  Proof.
    intros HH HH' HR EL EN EN' Hp EW HWH HWS EW' HWH' HWS' HkH Hker HX Hs HX' HXX E.
    destruct (regrouped_inv _ _ _ _ _ _ _ _ _ HXX HX) as (_ & _ & VX).
    destruct (separable_two_stage _ _ D _ _ _ _ _ _ _ _ _ _ _ _ _ _ _ _ _ _ _ _ _ Hc HH EW HWH HWS HX Hs) as [A B].
    destruct (separable_two_stage _ _ D _ _ _ _ _ _ _ _ _ _ _ _ _ _ _ _ _ _ _ _ _ Hc HH' EW' HWH' HWS' HX' Hs) as [A' _].
    destruct con_lengths as (Ls & Lk & Hch). cbv zeta in A, B, A'.
    assert (mkT (cout :: length out_H :: cin / groups :: length in_H :: repeat 1 d) (data WH) = WH) as EG.
    { destruct WH as [sh dt]. destruct HWH as [Sh _]. cbn [shape data] in *. rewrite Sh, EN. reflexivity. }
    assert (mkT (cout :: length out_H' :: cin / groups :: length in_H' :: repeat 1 d) (data WH') = WH') as EG'.
    { destruct WH' as [sh dt]. destruct HWH' as [Sh _]. cbn [shape data] in *. rewrite Sh, EN'. reflexivity. }
    rewrite EG in A. rewrite EG' in A'.
    set (ks1 := match m with Zeros => repeat 1 d | _ => ks end) in *.
    set (l1 := lefts (stored_padding d padding) ks1 dil) in *. set (r1 := rights (stored_padding d padding) ks1 dil) in *.
    set (l := lefts (stored_padding d padding) ks dil) in *. set (r := rights (stored_padding d padding) ks dil) in *.
    set (mid := conv_size s (repeat 1 d) stride dil l1 r1) in *.
    assert (fits m s (repeat 1 d) stride dil l1 r1 /\ fits m mid ks stride dil l r) as [F1 F2].
    { destruct (fits_em m s (repeat 1 d) stride dil l1 r1) as [F1|F1]; [destruct (fits_em m mid ks stride dil l r) as [F2|F2]; [auto|]|];
        rewrite B in E by tauto; discriminate. }
    assert (length mid = d) as Lmid by (unfold mid, conv_size; rewrite axes_length; apply repeat_length).
    destruct (A F1 F2) as (t & x & Ex & St & Sx & Vt & Vx). rewrite Ex in E. injection E as <-. destruct (A' F1 F2) as (t' & x' & Ex' & St' & Sx' & Vt' & Vx').
    exists x'. split; [assumption|]. exists N, cout, (conv_size mid ks stride dil l r). split; [unfold conv_size; rewrite axes_length; destruct con_lengths as (_ & ? & _); congruence|]. split; [assumption|]. split; [assumption|].
    intros a o e z Ha Ho He Hz.
    destruct (nth_error out_H' e) as [h|] eqn:Eh; [|apply nth_error_None in Eh; lia]. pose proof (nth_error_Some_lt _ _ _ (HR _ _ Eh)) as Hf.
    split; [exact Hf|]. rewrite Vx', Vx by assumption. f_equal. apply sumR_ext. intros x0 Hx0. apply in_indices in Hx0.
    rewrite Hker by assumption. f_equal. apply (image_at_same m mid ks stride dil l r); try assumption; [congruence|congruence|]. intros i Hi. cbn [app].
    rewrite Vt', Vt by assumption. apply sumR_ext. intros c Hc1. apply in_seq in Hc1. assert (c < ci) as Hcc by (unfold ci; lia).
    rewrite EL. apply sumR_perm. apply Permutation_sym.
    match goal with |- Permutation (map ?F _) (map ?F' _) => apply Permutation_sym, (permutes_values _ fi F' F); [exact Hp|] end.
    intros j Hj. rewrite HkH by (try assumption; lia). f_equal. symmetry.
    apply (image_at_same m s (repeat 1 d) stride dil l1 r1); try assumption; rewrite ?repeat_length; try congruence.
    - apply valid_nth. rewrite !repeat_length. split; [reflexivity|]. intros q Hq.
      rewrite (nth_indep (repeat 1 d) 0 1) by (rewrite repeat_length; exact Hq). rewrite !nth_repeat. lia.
    - intros q Hq. cbn [app]. apply VX; try assumption; try lia. apply Hch; assumption.
  Qed.
End RegridLayers.

(** Layers with their kernels. *)
Section RegridFull.
  Context {G P : Type} {D : Dflt P} (d : nat) (L : gconv G P) (cin cout : nat) (ks : list nat) (kn : gkernel G P) (groups : nat) (stride : list nat)
          (padding : padarg) (dil : list nat) (m : padmode) (bias : option (tensor R)).
  Hypothesis Hc : constructed d L cin cout ks kn groups stride padding dil m bias.
  Context (inv : G -> G) (mul : G -> G -> G) (act : G -> P -> P) (det : option (G -> R)).
  Hypothesis Hops : gops_ok (k_ops kn) inv mul act det.
  Hypothesis Hg : has_shape (k_grid_Rn kn) (k_size kn).
  Hypothesis Hm : mask_ok (k_mask kn) (k_size kn).
  Hypothesis Hko : k_out kn = cout.
  Hypothesis Hki : k_cin kn = cin / groups.

  Lemma con_size : k_size kn = ks /\ prodn ks <> 0.
  Proof.
    destruct Hc as (cm & gks & pm & _ & _ & _ & (_ & _ & _ & A & _ & B & _) & _). split; [exact A|].
    clear A Hc Hg Hm. induction ks as [|a l IH]; [cbn; lia|]. rewrite prodn_cons. intros E. apply Nat.eq_mul_0 in E. destruct E as [E|E].
    - specialize (B a (or_introl eq_refl)). lia.
    - apply IH; [|exact E]. intros x Hx. apply B. right. exact Hx.
  Qed.

  Lemma lifting_layer_regrid weight (H H' : list G) f X N s out :
    has_shape weight (lifting_weight_shape kn) -> H <> [] -> H' <> [] -> regrid f H H' ->
    has_shape X (N :: cin :: s) -> length s = d ->
    lifting_forward L weight X H = Ok (out, H) ->
    exists out', lifting_forward L weight X H' = Ok (out', H') /\ regrouped d f (length H) (length H') out out'.
  Proof.
    intros Hw HH HH' HR HX Hs E. destruct con_size as [Ek Hz].
    assert (exists smp, op_sample_Rn (k_ops kn) = Ok smp) as [smp Hsmp].
    { destruct (constructed_spec _ _ _ _ _ _ _ _ _ _ _ _ Hc) as (_ & _ & El & _).
      unfold lifting_forward in E. rewrite (proj1 HX), El in E. unfold lifting_kernel_forward in E.
      destruct (op_sample_Rn (k_ops kn)); [eauto|discriminate]. }
    rewrite <- Ek in Hz.
    destruct (lifting_kernel_regrid kn inv mul act det Hops Hg Hm Hz smp weight H H' f Hsmp Hw HR) as (W & W' & EW & SW & EW' & SW' & V).
    rewrite Hko, Hki, Ek in *.
    exact (lifting_regrid d L cin cout ks kn groups stride padding dil m bias Hc weight W W' H H' f X N s out HH HH' HR EW SW EW' SW' V HX Hs E).
  Qed.

  Lemma group_layer_regrid weight (in_H in_H' out_H out_H' : list G) fi fo X X' N s out :
    (forall weight rows, op_sample_H (k_ops kn) (prodn (k_out kn :: k_cin kn :: k_size kn)) (relatives inv mul in_H out_H)
        (param_rows (k_gdim kn) (k_out kn :: k_cin kn :: k_size kn) weight) (k_grid_H kn) = Ok rows ->
     exists V, sampled_below kn inv mul (k_out kn :: k_cin kn :: k_size kn) weight in_H out_H V) ->
    has_shape weight (full_weight_shape kn) -> out_H <> [] -> out_H' <> [] -> regrid fo out_H out_H' ->
    length in_H' = length in_H -> permutes (length in_H) fi -> regrid fi in_H in_H' ->
    has_shape X (N :: cin :: length in_H :: s) -> length s = d -> has_shape X' (N :: cin :: length in_H' :: s) -> regrouped d fi (length in_H) (length in_H') X X' ->
    full_forward L weight X in_H out_H = Ok (out, out_H) ->
    exists out', full_forward L weight X' in_H' out_H' = Ok (out', out_H') /\ regrouped d fo (length out_H) (length out_H') out out'.
  Proof.
    intros HV Hw HH HH' HR EL Hp HRi HX Hs HX' HXX E. destruct con_size as [Ek Hz]. rewrite <- Ek in Hz.
    assert (exists W, full_kernel_forward kn weight in_H out_H = Ok W) as [W EW].
    { destruct (constructed_spec _ _ _ _ _ _ _ _ _ _ _ _ Hc) as (_ & _ & El & _).
      unfold full_forward, group_forward_with in E. rewrite El, (proj1 HX) in E. destruct (full_kernel_forward kn weight in_H out_H) as [W|]; [eauto|discriminate]. }
    destruct (full_kernel_regrid kn inv mul act det Hops Hg Hm Hz weight in_H out_H in_H' out_H' fi fo W (HV weight) Hw HRi HR EW) as (SW & W' & EW' & SW' & V).
    rewrite Hko, Hki, Ek in *.
    exact (group_regrid d L cin cout ks kn groups stride padding dil m bias Hc weight W W' in_H in_H' out_H out_H' fi fo X X' N s out HH HH' HR EL Hp EW SW EW' SW' V HX Hs HX' HXX E).
  Qed.

  Lemma separable_layer_regrid weight_H weight (in_H in_H' out_H out_H' : list G) fi fo X X' N s out :
    (forall weight rows, op_sample_H (k_ops kn) (prodn [k_out kn; k_cin kn]) (relatives inv mul in_H out_H)
        (param_rows (k_gdim kn) [k_out kn; k_cin kn] weight) (k_grid_H kn) = Ok rows ->
     exists V, sampled_below kn inv mul [k_out kn; k_cin kn] weight in_H out_H V) ->
    has_shape weight_H (group_weight_shape kn) -> has_shape weight (separable_weight_shape kn) -> out_H <> [] -> regrid fo out_H out_H' ->
    length in_H' = length in_H -> length in_H = length out_H -> length in_H' = length out_H' -> permutes (length in_H) fi -> regrid fi in_H in_H' ->
    has_shape X (N :: cin :: length in_H :: s) -> length s = d -> has_shape X' (N :: cin :: length in_H' :: s) -> regrouped d fi (length in_H) (length in_H') X X' ->
    separable_forward L weight_H weight X in_H out_H = Ok (out, out_H) ->
    exists out', separable_forward L weight_H weight X' in_H' out_H' = Ok (out', out_H') /\ regrouped d fo (length out_H) (length out_H') out out'.
  Proof.
    intros HV HwH Hw HH HR EL EN EN' Hp HRi HX Hs HX' HXX E. destruct con_size as [Ek Hz]. rewrite <- Ek in Hz.
    assert (out_H' <> []) as HH' by (destruct out_H'; [destruct out_H; [congruence|cbn in *; lia]|discriminate]).
    assert (exists WH WS, separable_kernel_forward kn weight_H weight in_H out_H = Ok (WH, WS)) as (WH & WS & EW).
    { destruct (constructed_spec _ _ _ _ _ _ _ _ _ _ _ _ Hc) as (_ & _ & El & _).
      unfold separable_forward in E. rewrite El, (proj1 HX) in E. cbv zeta in E. destruct (separable_kernel_forward kn weight_H weight in_H out_H) as [[WH WS]|]; [eauto|discriminate]. }
    destruct (separable_kernel_regrid kn inv mul act det Hops Hg Hm Hz weight_H weight in_H out_H in_H' out_H' fi fo WH WS (HV weight_H) HwH Hw HRi HR EW EN EN')
      as (S1 & S2 & WH' & WS' & EW' & S1' & S2' & V1 & V2).
    assert (length ks = d) as Lk by apply (con_lengths d L cin cout ks kn groups stride padding dil m bias Hc).
    rewrite Hko, Hki, Ek, ?Lk in *.
    exact (separable_regrid d L cin cout ks kn groups stride padding dil m bias Hc weight_H weight WH WS WH' WS' in_H in_H' out_H out_H' fi fo X X' N s out
      HH HH' HR EL EN EN' Hp EW S1 S2 EW' S1' S2' V1 V2 HX Hs HX' HXX E).
  Qed.
End RegridFull.
