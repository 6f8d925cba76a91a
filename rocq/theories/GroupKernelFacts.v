(** Entry formulas of the group kernels (separable, subgroup, full). *)
From Coq Require Import String Permutation.
From Verif Require Import Prelude RMath Mat Interp InterpFacts SO2 O2 SO3 O3 Repulse Tensor TensorFacts SignedPerm
  Functional FunctionalFacts Kernel KernelFacts OSplit OSplitFacts SO2Facts O2Facts SO3Facts O3Facts.
Open Scope R_scope.

(** The (o, c) image inside a row V of a group weight with row shape (out, cin, *ks). *)
Definition image_of (out cin : nat) (ks : list nat) (V : list R) (o c : nat) : list R :=
  map (fun y => nth (ravel (out :: cin :: ks) (o :: c :: y)) V 0) (indices ks).

Section Full.
  Context {G P : Type} {D : Dflt P} (k : gkernel G P).
  Context (inv : G -> G) (mul : G -> G -> G) (act : G -> P -> P) (det : option (G -> R)).
  Hypothesis Hops : gops_ok (k_ops k) inv mul act det.
  Hypothesis Hgrid : has_shape (k_grid_Rn k) (k_size k).
  Hypothesis Hmask : mask_ok (k_mask k) (k_size k).
  Hypothesis Hks : prodn (k_size k) <> 0%nat.
  Hypothesis Hgd : k_gdim k <> 0%nat.

  (** kernel.py:439-484 *)
  Lemma full_formula smp weight in_H out_H V :
    op_sample_Rn (k_ops k) = Ok smp ->
    has_shape weight (full_weight_shape k) ->
    sampled k inv mul (k_out k :: k_cin k :: k_size k) weight in_H out_H V ->
    exists W, full_kernel_forward k weight in_H out_H = Ok W /\
      has_shape W (k_out k :: List.length out_H :: k_cin k :: List.length in_H :: k_size k) /\
      forall o i g c j h x o' c', (o < k_out k)%nat -> nth_error out_H i = Some g -> (c < k_cin k)%nat ->
        nth_error in_H j = Some h -> valid (k_size k) x ->
        (o' < k_out k)%nat -> (c' < k_cin k)%nat -> (o' * k_cin k + c' = c * k_out k + o)%nat ->
        at_ W (o :: i :: c :: j :: x) =
        maskf (k_mask k) x *
        smp (k_size k) (image_of (k_out k) (k_cin k) (k_size k) (V (mul (inv g) h)) o' c')
            (act (inv g) (at_ (k_grid_Rn k) x))
        / detf det g.
  Proof.
    intros Hsmp Hw Hs. unfold full_kernel_forward.
    set (nin := List.length in_H). set (nout := List.length out_H).
    set (out := k_out k) in *. set (cin := k_cin k) in *. set (ks := k_size k) in *.
    destruct (sample_group_spec k inv mul act det Hops Hgd (out :: cin :: ks) weight in_H out_H V Hw Hs) as (w0 & E0 & Hsh0 & A0).
    fold nin nout in Hsh0, A0. rewrite E0. cbn [bind].
    destruct (has_shape_view w0 _ ((nout * nin)%nat :: (cin * out)%nat :: ks) Hsh0) as [Ev Hv].
    { rewrite !prodn_cons, prodn_nil. lia. }
    rewrite Ev. cbn [bind]. rewrite Hsmp. cbn [bind].
    destruct (product_Rn_spec k inv mul act det Hops Hgrid out_H) as [[Hps Hpw] Hp].
    fold nout ks in Hps.
    set (w1 := mkT ((nout * nin)%nat :: (cin * out)%nat :: ks) (data w0)) in *.
    destruct (grid_sample_spec smp w1 (repeat_interleave0 nin (product_Rn k out_H)) (nout * nin) (cin * out) ks ks)
      as (w2 & E2 & Hsh2 & A2); [reflexivity|apply shape_repeat_interleave0; assumption|assumption|].
    rewrite E2. cbn [bind].
    destruct (has_shape_view w2 _ (nout :: nin :: cin :: out :: ks) Hsh2) as [Ev3 Hv3].
    { rewrite !prodn_cons. lia. }
    rewrite Ev3. cbn [bind]. set (w3 := mkT (nout :: nin :: cin :: out :: ks) (data w2)) in *.
    destruct (transpose_spec _ _ _ _ _ _ Hv3) as [Ht At].
    set (w4 := transpose 1 3 (transpose 0 3 w3)) in *.
    destruct (apply_mask_spec (k_mask k) ks [out; nout; cin; nin] w4 Hmask Ht) as (w5 & E5 & H5 & A5).
    rewrite E5. cbn [bind].
    destruct Hw as [Hws Hww]. rewrite Hws. unfold full_weight_shape. fold out cin ks.
    replace (List.length (k_gdim k :: out :: cin :: ks) - 2)%nat with (S (List.length ks)) by (simpl; lia).
    destruct (apply_det_spec (op_det (k_ops k)) det out_H (S (List.length ks)) out (cin :: nin :: ks) w5) as (w6 & E6 & H6 & A6).
    { apply (ok_det _ _ _ _ _ Hops). } { reflexivity. } { exact H5. }
    exists w6. split; [assumption|]. split; [assumption|].
    intros o i g c j h x o' c' Ho Hg Hc Hh Hx Ho' Hc' Hoc.
    assert (i < nout)%nat as Hi by (apply nth_error_Some_lt in Hg; assumption).
    assert (j < nin)%nat as Hj by (apply nth_error_Some_lt in Hh; assumption).
    rewrite (A6 o i g (c :: j :: x)) by (try assumption; repeat apply valid_cons; assumption). f_equal.
    change (o :: i :: c :: j :: x) with ([o; i; c; j] ++ x).
    rewrite A5 by (try assumption; repeat apply valid_cons; try assumption; apply valid_nil).
    f_equal. cbn [app]. unfold w4. rewrite At by assumption. unfold w3.
    assert (c * out + o < cin * out)%nat as Hq by (apply lt_pair; assumption).
    assert (i * nin + j < nout * nin)%nat as Hij by (apply lt_pair; assumption).
    rewrite (at_view w2 _ _ ((i * nin + j)%nat :: (c * out + o)%nat :: x) _ Hsh2).
    2:{ cbn [ravel]. rewrite !prodn_cons. lia. }
    rewrite A2 by assumption. f_equal.
    - unfold slice, image_of. apply map_ext_in. intros y Hy. apply in_indices in Hy. cbn [app].
      unfold w1. rewrite (at_view w0 _ _ [(i * nin + j)%nat; ((c * out + o) * prodn ks + ravel ks y)%nat] _ Hsh0).
      + rewrite (A0 i j g h); try assumption.
        * f_equal. cbn [ravel]. rewrite !prodn_cons, <- Hoc. lia.
        * rewrite !prodn_cons. pose proof (ravel_lt _ _ Hy). nia.
      + cbn [ravel]. rewrite !prodn_cons, prodn_nil. nia.
    - rewrite (at_repeat_interleave0 _ nout ks); try assumption.
      + rewrite div_pair by assumption. apply Hp; assumption.
      + apply valid_cons; assumption.
  Qed.

  (** kernel.py:350-377 *)
  Lemma subgroup_formula weight in_H out_H V :
    prodn (k_size k) = 1%nat ->
    has_shape weight (group_weight_shape k) ->
    sampled k inv mul [k_out k; k_cin k] weight in_H out_H V ->
    let n_in := List.length in_H in let n_out := List.length out_H in
    exists W, subgroup_kernel_forward k weight in_H out_H = Ok W /\
      has_shape W (k_out k :: n_in :: k_cin k :: n_out :: k_size k) /\
      forall o a c b x i j g h, (o < k_out k)%nat -> (c < k_cin k)%nat -> (a < n_in)%nat -> (b < n_out)%nat ->
        valid (k_size k) x ->
        nth_error out_H i = Some g -> nth_error in_H j = Some h -> (a * n_out + b = i * n_in + j)%nat ->
        at_ W (o :: a :: c :: b :: x) = nth (c * k_out k + o) (V (mul (inv g) h)) 0.
  Proof.
    intros H1 Hw Hs n_in n_out. unfold subgroup_kernel_forward.
    destruct (group_view_spec k inv mul act det Hops Hgd [k_out k; k_cin k] V weight in_H out_H (k_size k)
      eq_refl H1 Hw Hs) as (w0 & w & E0 & Ew & Hsh & A).
    rewrite E0. cbn [bind]. rewrite Ew. cbn [bind].
    eexists; split; [reflexivity|]. split; [exact Hsh|exact A].
  Qed.

  (** kernel.py:257-305 *)
  Lemma separable_formula smp weight_H weight in_H out_H V :
    op_sample_Rn (k_ops k) = Ok smp ->
    has_shape weight_H (group_weight_shape k) -> has_shape weight (separable_weight_shape k) ->
    sampled k inv mul [k_out k; k_cin k] weight_H in_H out_H V ->
    let n_in := List.length in_H in let n_out := List.length out_H in
    let ones := repeat 1%nat (List.length (k_size k)) in
    exists WH W, separable_kernel_forward k weight_H weight in_H out_H = Ok (WH, W) /\
      has_shape WH (k_out k :: n_in :: k_cin k :: n_out :: ones) /\
      has_shape W (k_out k :: n_out :: 1%nat :: k_size k) /\
      (forall o a c b i j g h, (o < k_out k)%nat -> (c < k_cin k)%nat -> (a < n_in)%nat -> (b < n_out)%nat ->
        nth_error out_H i = Some g -> nth_error in_H j = Some h -> (a * n_out + b = i * n_in + j)%nat ->
        at_ WH (o :: a :: c :: b :: repeat 0%nat (List.length (k_size k))) = nth (c * k_out k + o) (V (mul (inv g) h)) 0) /\
      (forall o i g x, (o < k_out k)%nat -> nth_error out_H i = Some g -> valid (k_size k) x ->
        at_ W (o :: i :: 0%nat :: x) =
        maskf (k_mask k) x * smp (k_size k) (slice weight (k_size k) [o; 0%nat]) (act (inv g) (at_ (k_grid_Rn k) x))
        / detf det g).
  Proof.
    intros Hsmp HwH Hw Hs n_in n_out ones. unfold separable_kernel_forward.
    assert (prodn ones = 1%nat) as H1.
    { unfold ones. clear. induction (List.length (k_size k)); simpl; [reflexivity|]. fold (prodn (repeat 1%nat n)). lia. }
    destruct (group_view_spec k inv mul act det Hops Hgd [k_out k; k_cin k] V weight_H in_H out_H ones
      eq_refl H1 HwH Hs) as (w0 & w & E0 & Ew & Hsh & A).
    rewrite E0. cbn [bind]. fold ones. rewrite Ew. cbn [bind].
    fold n_in n_out in Hsh, A. fold n_out.
    rewrite Hsmp. cbn [bind].
    destruct (spatial_spec k inv mul act det Hops Hgrid Hks smp weight 1 out_H Hw) as (v & Ev & Hshv & Av).
    fold n_out in Ev, Hshv, Av. rewrite Ev. cbn [bind].
    destruct (has_shape_view v _ (k_out k :: n_out :: 1%nat :: k_size k) Hshv) as [Ev1 Hv1].
    { rewrite !prodn_cons. lia. }
    rewrite Ev1. cbn [bind]. set (v1 := mkT _ (data v)) in *.
    destruct (apply_mask_spec (k_mask k) (k_size k) [k_out k; n_out; 1%nat] v1 Hmask Hv1) as (v2 & E2 & H2 & A2).
    rewrite E2. cbn [bind].
    destruct (apply_det_spec (op_det (k_ops k)) det out_H (List.length (k_size k)) (k_out k) (1%nat :: k_size k) v2) as (v3 & E3 & H3 & A3).
    { apply (ok_det _ _ _ _ _ Hops). } { reflexivity. } { exact H2. }
    rewrite E3. cbn [bind]. exists (transpose 1 3 (transpose 0 3 w)), v3.
    split; [reflexivity|]. split; [exact Hsh|]. split; [exact H3|]. split.
    - intros o a c b i j g h Ho Hc Ha Hb Hg Hh Hab. apply (A o a c b _ i j g h); try assumption.
      unfold ones. clear. induction (List.length (k_size k)); simpl; [apply valid_nil|apply valid_cons; [lia|assumption]].
    - intros o i g x Ho Hg Hx. assert (i < n_out)%nat as Hi by (apply nth_error_Some_lt in Hg; assumption).
      rewrite (A3 o i g (0%nat :: x)) by (first [assumption | apply valid_cons; (assumption || lia)]). f_equal.
      change (o :: i :: 0%nat :: x) with ([o; i; 0%nat] ++ x).
      rewrite A2 by (try assumption; repeat apply valid_cons; try assumption; try lia; apply valid_nil).
      f_equal. unfold v1. cbn [app].
      rewrite (at_view v _ _ ((o * n_out + i)%nat :: 0%nat :: x) _ Hshv).
      + apply Av; try assumption. lia.
      + cbn [ravel]. rewrite !prodn_cons. lia.
  Qed.
End Full.

(** ** The four groups *)

(** A sampler answering rows for queries, as a function of one query. *)
Definition one_row (r : result mat) : list R := match r with Ok [v] => v | _ => [] end.

Definition value_SE2 T gmode w S (rows : mat) (grid : list R) (q : R) : list R :=
  one_row (so2_grid_sample T gmode w S [q] rows grid).
Definition value_SE3 T gmode w S (rows : mat) (grid : list M3) (q : M3) : list R :=
  one_row (so3_grid_sample_matrix T gmode w S [q] rows grid).
(** The coefficient selects the half of the grid and of the weight that is interpolated. *)
Definition value_E2 T gmode rw fw n S (rows : mat) (grid : list O2) (q : O2) : list R :=
  if Req_EM_T (o2c q) 1
  then value_SE2 T gmode rw S (firstn n rows) (map o2a (firstn n grid)) (o2a q)
  else value_SE2 T gmode fw S (skipn n rows) (map o2a (skipn n grid)) (o2a q).
Definition value_E3 T gmode rw fw n S (rows : mat) (grid : list O3) (q : O3) : list R :=
  if Req_EM_T (o3c q) 1
  then value_SE3 T gmode rw S (firstn n rows) (map o3r (firstn n grid)) (o3r q)
  else value_SE3 T gmode fw S (skipn n rows) (map o3r (skipn n grid)) (o3r q).

(** The action of one element on one point. *)
Definition act1_SE2 (r : R) (v : V2) : V2 := app2 (so2_angle_to_matrix r) v.
Definition act1_SE3 (r : M3) (v : V3) : V3 := app3 r v.
Definition act1_E2 (h : O2) (v : V2) : V2 := scalv2 (o2c h) (app2 (so2_angle_to_matrix (o2a h)) v).
Definition act1_E3 (h : O3) (v : V3) : V3 := scalv3 (o3c h) (app3 (o3r h) v).

Lemma gops_ok_SE2 T gmode w mode pm :
  gops_ok (ops_SE2 T gmode w mode pm) so2_inverse_angle so2_left_apply_angle act1_SE2 None.
Proof.
  constructor; try reflexivity; try exact I. intros A v. cbn [op_left_apply_to_Rn ops_SE2].
  unfold act_SE2, so2_left_apply_angle_to_R2, so2_left_apply_matrix_to_R2. rewrite !map_map.
  apply map_ext. intros a. cbn [map concat]. rewrite app_nil_r. reflexivity.
Qed.
Lemma gops_ok_SE3 T gmode w mode pm :
  gops_ok (ops_SE3 T gmode w mode pm) so3_matrix_inverse mul3 act1_SE3 None.
Proof.
  constructor; try reflexivity; try exact I. intros A v. cbn [op_left_apply_to_Rn ops_SE3].
  unfold act_SE3, so3_left_apply_to_R3. rewrite !map_map.
  apply map_ext. intros a. cbn [map concat app]. rewrite !app_nil_r. reflexivity.
Qed.
Lemma combine_map_map {A B C} (f : A -> B) (g : A -> C) l : combine (map f l) (map g l) = map (fun x => (f x, g x)) l.
Proof. induction l as [|x l IH]; simpl; [reflexivity|]. rewrite IH. reflexivity. Qed.
Lemma gops_ok_E2 T gmode rw fw n m mode pm :
  gops_ok (ops_E2 T gmode rw fw n m mode pm) o2_inverse o2_left_apply_angle act1_E2 (Some o2_det).
Proof.
  constructor; try (intros; reflexivity); [|intros H; reflexivity]. intros A v. cbn [op_left_apply_to_Rn ops_E2].
  unfold act_E2, o2_left_apply_to_R2, so2_left_apply_angle_to_R2, so2_left_apply_matrix_to_R2. rewrite !map_map.
  rewrite combine_map_map, map_map. apply map_ext_in. intros a _. cbn [fst snd map concat].
  rewrite app_nil_r, map_map. reflexivity.
Qed.
Lemma gops_ok_E3 T gmode rw fw n m mode pm :
  gops_ok (ops_E3 T gmode rw fw n m mode pm) o3_inverse o3_left_apply_O3 act1_E3 (Some o3_det).
Proof.
  constructor; try (intros; reflexivity); [|intros H; reflexivity]. intros A v. cbn [op_left_apply_to_Rn ops_E3].
  unfold act_E3, o3_left_apply_to_R3. rewrite !map_map.
  apply map_ext. intros a. cbn [map concat app]. rewrite !app_nil_r. reflexivity.
Qed.

(** Row lengths *)
Definition rows_len {G} (S : nat) (samp : list G -> mat -> list G -> result mat) : Prop :=
  forall q s g out, (forall r, In r s -> List.length r = S) -> samp q s g = Ok out ->
    forall r, In r out -> List.length r = S.

Lemma mapM_In {A B} (f : A -> result B) l out b : mapM f l = Ok out -> In b out -> exists a, In a l /\ f a = Ok b.
Proof.
  revert out; induction l as [|a l IH]; intros out H Hb; simpl in H; [injection H as <-; destruct Hb|].
  destruct (f a) as [y|] eqn:Hy; [|discriminate]. simpl in H. destruct (mapM f l) as [ys|]; [|discriminate].
  simpl in H. injection H as <-. destruct Hb as [<-|Hb]; [exists a; split; [left|]; auto|].
  destruct (IH ys eq_refl Hb) as (a' & Ha & Hf). exists a'; split; [right|]; auto.
Qed.
Lemma NN_rows_len {G} T (dist : G -> G -> R) S : rows_len S (fun q s g => interpolate_NN T dist q g s).
Proof.
  intros q s g out Hs H r Hr. unfold interpolate_NN in H. destruct g as [|g0 g]; [discriminate|].
  destruct (mapM_In _ _ _ _ H Hr) as (a & _ & Ha). destruct (nth_error s _) as [v|] eqn:E; simpl in Ha; [|discriminate].
  injection Ha as <-. apply Hs. apply nth_error_In in E. assumption.
Qed.
Lemma so2_rows_len T mode w S : rows_len S (fun q s g => so2_grid_sample T mode w S q s g).
Proof.
  intros q s g out Hs H r Hr. unfold so2_grid_sample in H. destruct (String.eqb mode "rbf").
  - destruct (RBF_rows _ _ _ _ _ _ _ _ _ H) as (_ & H1 & _). auto.
  - destruct (String.eqb mode "nearest"); [|discriminate]. exact (NN_rows_len _ _ _ _ _ _ _ Hs H _ Hr).
Qed.
Lemma so3_rows_len T mode w S : rows_len S (fun q s g => so3_grid_sample_matrix T mode w S q s g).
Proof.
  intros q s g out Hs H r Hr. unfold so3_grid_sample_matrix, so3_grid_sample in H. destruct (String.eqb mode "nearest").
  - exact (NN_rows_len _ _ _ _ _ _ _ Hs H _ Hr).
  - destruct (String.eqb mode "rbf"); [|discriminate]. destruct (RBF_rows _ _ _ _ _ _ _ _ _ H) as (_ & H1 & _). auto.
Qed.

Lemma nth_error_len_ext {A} (l1 l2 : list A) : List.length l1 = List.length l2 ->
  (forall i x, nth_error l2 i = Some x -> nth_error l1 i = Some x) -> l1 = l2.
Proof.
  intros Hl H. apply nth_error_ext. intros i. destruct (nth_error l2 i) eqn:E; [auto|].
  apply nth_error_None in E. apply nth_error_None. lia.
Qed.

Lemma rowwise_map {G} (samp : list G -> mat -> list G -> result mat) q s g out :
  rowwise samp -> samp q s g = Ok out -> out = map (fun a => one_row (samp [a] s g)) q.
Proof.
  intros Hr H. destruct (Hr _ _ _ _ H) as [Hl Hk]. apply nth_error_len_ext; [rewrite map_length; assumption|].
  intros i x Hx. rewrite nth_error_map in Hx. destruct (nth_error q i) as [a|] eqn:E; [|discriminate].
  simpl in Hx. destruct (Hk _ _ E) as (row & H1 & H2). rewrite H2 in Hx. simpl in Hx. congruence.
Qed.

Lemma param_rows_len n rest w r : In r (param_rows n rest w) -> List.length r = prodn rest.
Proof. intros H. apply in_map_iff in H. destruct H as (i & <- & _). rewrite map_length. apply indices_length. Qed.
Lemma param_rows_count n rest w : List.length (param_rows n rest w) = n.
Proof. unfold param_rows. rewrite map_length, seq_length. reflexivity. Qed.
Lemma In_firstn {A} n (l : list A) x : In x (firstn n l) -> In x l.
Proof. intros H. rewrite <- (firstn_skipn n l). apply in_or_app. auto. Qed.
Lemma In_skipn {A} n (l : list A) x : In x (skipn n l) -> In x l.
Proof. intros H. rewrite <- (firstn_skipn n l). apply in_or_app. auto. Qed.

Lemma sampled_SE2 (k : gkernel R V2) T gmode w mode pm rest weight in_H out_H rows :
  k_ops k = ops_SE2 T gmode w mode pm ->
  so2_grid_sample T gmode w (prodn rest) (relatives so2_inverse_angle so2_left_apply_angle in_H out_H)
    (param_rows (k_gdim k) rest weight) (k_grid_H k) = Ok rows ->
  sampled k so2_inverse_angle so2_left_apply_angle rest weight in_H out_H
    (value_SE2 T gmode w (prodn rest) (param_rows (k_gdim k) rest weight) (k_grid_H k)).
Proof.
  intros Hk H. pose proof (rowwise_map _ _ _ _ _ (so2_grid_sample_rowwise T gmode w (prodn rest)) H) as Hm.
  split.
  - intros q Hq. apply (so2_rows_len T gmode w (prodn rest) _ _ _ _ (param_rows_len _ rest weight) H).
    rewrite Hm. apply (in_map (fun a => one_row (so2_grid_sample T gmode w (prodn rest) [a] _ _))). assumption.
  - rewrite Hk. cbn [op_sample_H ops_SE2]. rewrite H. f_equal. assumption.
Qed.
Lemma sampled_SE3 (k : gkernel M3 V3) T gmode w mode pm rest weight in_H out_H rows :
  k_ops k = ops_SE3 T gmode w mode pm ->
  so3_grid_sample_matrix T gmode w (prodn rest) (relatives so3_matrix_inverse mul3 in_H out_H)
    (param_rows (k_gdim k) rest weight) (k_grid_H k) = Ok rows ->
  sampled k so3_matrix_inverse mul3 rest weight in_H out_H
    (value_SE3 T gmode w (prodn rest) (param_rows (k_gdim k) rest weight) (k_grid_H k)).
Proof.
  intros Hk H. pose proof (rowwise_map _ _ _ _ _ (so3_sample_rowwise T gmode w (prodn rest)) H) as Hm.
  split.
  - intros q Hq. apply (so3_rows_len T gmode w (prodn rest) _ _ _ _ (param_rows_len _ rest weight) H).
    rewrite Hm. apply (in_map (fun a => one_row (so3_grid_sample_matrix T gmode w (prodn rest) [a] _ _))). assumption.
  - rewrite Hk. cbn [op_sample_H ops_SE3]. rewrite H. f_equal. assumption.
Qed.

Lemma relatives_In {G} (inv : G -> G) mul in_H out_H q :
  In q (relatives inv mul in_H out_H) <-> exists g h, In g out_H /\ In h in_H /\ q = mul (inv g) h.
Proof.
  unfold relatives. rewrite in_concat. split.
  - intros (l & Hl & Hq). apply in_map_iff in Hl. destruct Hl as (g & <- & Hg).
    apply in_map_iff in Hq. destruct Hq as (h & <- & Hh). exists g, h. auto.
  - intros (g & h & Hg & Hh & ->). exists (map (fun h => mul (inv g) h) in_H). split.
    + apply in_map_iff. exists g; auto.
    + apply in_map_iff. exists h; auto.
Qed.

Lemma sampled_E2 (k : gkernel O2 V2) T gmode rw fw n m mode pm rest weight in_H out_H rows :
  k_ops k = ops_E2 T gmode rw fw n m mode pm -> k_gdim k = (n + m)%nat ->
  Forall o2_wf in_H -> Forall o2_wf out_H ->
  o2_grid_sample T gmode rw fw (prodn rest) (relatives o2_inverse o2_left_apply_angle in_H out_H)
    (param_rows (k_gdim k) rest weight) (k_grid_H k) n m = Ok rows ->
  sampled k o2_inverse o2_left_apply_angle rest weight in_H out_H
    (value_E2 T gmode rw fw n (prodn rest) (param_rows (k_gdim k) rest weight) (k_grid_H k)).
Proof.
  intros Hk Hg Hi Ho H. rewrite Forall_forall in Hi, Ho.
  assert (forall q, In q (relatives o2_inverse o2_left_apply_angle in_H out_H) -> o2_wf q) as Hwf.
  { intros q Hq. apply relatives_In in Hq. destruct Hq as (g & h & Hg' & Hh & ->).
    apply o2_wf_mul; [apply o2_wf_inv; auto|auto]. }
  assert ((n + m)%nat = List.length (param_rows (k_gdim k) rest weight)) as Hnm by (rewrite param_rows_count; auto).
  destruct (o2_grid_sample_rows T gmode rw fw (prodn rest) _ _ _ n m rows Hwf Hnm H) as [Hl Hr].
  set (prm := param_rows (k_gdim k) rest weight) in *.
  assert (forall i q, nth_error (relatives o2_inverse o2_left_apply_angle in_H out_H) i = Some q ->
     nth_error rows i = Some (value_E2 T gmode rw fw n (prodn rest) prm (k_grid_H k) q) /\
     List.length (value_E2 T gmode rw fw n (prodn rest) prm (k_grid_H k) q) = prodn rest) as Hval.
  { intros i q Hq. destruct (Hr _ _ Hq) as (row & H1 & [(Hc & _ & H2)|(Hc & _ & H2)]).
    - unfold value_E2, value_SE2. destruct (Req_EM_T (o2c q) 1) as [_|Hn]; [|contradiction].
      rewrite H2. cbn [one_row]. split; [assumption|].
      refine (so2_rows_len T gmode rw (prodn rest) _ _ _ _ _ H2 row (or_introl eq_refl)).
      intros r Hin. apply In_firstn in Hin. exact (param_rows_len _ _ _ _ Hin).
    - unfold value_E2, value_SE2. destruct (Req_EM_T (o2c q) 1) as [Hn|_]; [lra|].
      rewrite H2. cbn [one_row]. split; [assumption|].
      refine (so2_rows_len T gmode fw (prodn rest) _ _ _ _ _ H2 row (or_introl eq_refl)).
      intros r Hin. apply In_skipn in Hin. exact (param_rows_len _ _ _ _ Hin). }
  split.
  - intros q Hq. apply In_nth_error in Hq. destruct Hq as [i Hq]. apply (Hval i q Hq).
  - rewrite Hk. cbn [op_sample_H ops_E2]. fold prm. rewrite H. f_equal.
    apply nth_error_len_ext; [rewrite map_length; assumption|].
    intros i x Hx. rewrite nth_error_map in Hx. destruct (nth_error (relatives _ _ _ _) i) as [q|] eqn:E; [|discriminate].
    injection Hx as <-. apply (Hval i q E).
Qed.
Lemma sampled_E3 (k : gkernel O3 V3) T gmode rw fw n m mode pm rest weight in_H out_H rows :
  k_ops k = ops_E3 T gmode rw fw n m mode pm -> k_gdim k = (n + m)%nat ->
  Forall o3_wf in_H -> Forall o3_wf out_H ->
  o3_grid_sample T gmode rw fw (prodn rest) (relatives o3_inverse o3_left_apply_O3 in_H out_H)
    (param_rows (k_gdim k) rest weight) (k_grid_H k) n m = Ok rows ->
  sampled k o3_inverse o3_left_apply_O3 rest weight in_H out_H
    (value_E3 T gmode rw fw n (prodn rest) (param_rows (k_gdim k) rest weight) (k_grid_H k)).
Proof.
  intros Hk Hg Hi Ho H. rewrite Forall_forall in Hi, Ho.
  assert (forall q, In q (relatives o3_inverse o3_left_apply_O3 in_H out_H) -> o3_wf q) as Hwf0.
  { intros q Hq. apply relatives_In in Hq. destruct Hq as (g & h & Hg' & Hh & ->).
    apply o3_product_wf; [apply o3_inverse_wf; auto|auto]. }
  assert (forall q, In q (relatives o3_inverse o3_left_apply_O3 in_H out_H) -> o3c q = 1 \/ o3c q = -1) as Hwf
    by (intros q Hq; apply (Hwf0 q Hq)).
  assert ((n + m)%nat = List.length (param_rows (k_gdim k) rest weight)) as Hnm by (rewrite param_rows_count; auto).
  destruct (o3_grid_sample_rows T gmode rw fw (prodn rest) _ _ _ n m rows Hwf Hnm H) as [Hl Hr].
  set (prm := param_rows (k_gdim k) rest weight) in *.
  assert (forall i q, nth_error (relatives o3_inverse o3_left_apply_O3 in_H out_H) i = Some q ->
     nth_error rows i = Some (value_E3 T gmode rw fw n (prodn rest) prm (k_grid_H k) q) /\
     List.length (value_E3 T gmode rw fw n (prodn rest) prm (k_grid_H k) q) = prodn rest) as Hval.
  { intros i q Hq. destruct (Hr _ _ Hq) as (row & H1 & [(Hc & _ & H2)|(Hc & _ & H2)]).
    - unfold value_E3, value_SE3. destruct (Req_EM_T (o3c q) 1) as [_|Hn]; [|contradiction].
      rewrite H2. cbn [one_row]. split; [assumption|].
      refine (so3_rows_len T gmode rw (prodn rest) _ _ _ _ _ H2 row (or_introl eq_refl)).
      intros r Hin. apply In_firstn in Hin. exact (param_rows_len _ _ _ _ Hin).
    - unfold value_E3, value_SE3. destruct (Req_EM_T (o3c q) 1) as [Hn|_]; [lra|].
      rewrite H2. cbn [one_row]. split; [assumption|].
      refine (so3_rows_len T gmode fw (prodn rest) _ _ _ _ _ H2 row (or_introl eq_refl)).
      intros r Hin. apply In_skipn in Hin. exact (param_rows_len _ _ _ _ Hin). }
  split.
  - intros q Hq. apply In_nth_error in Hq. destruct Hq as [i Hq]. apply (Hval i q Hq).
  - rewrite Hk. cbn [op_sample_H ops_E3]. fold prm. rewrite H. f_equal.
    apply nth_error_len_ext; [rewrite map_length; assumption|].
    intros i x Hx. rewrite nth_error_map in Hx. destruct (nth_error (relatives _ _ _ _) i) as [q|] eqn:E; [|discriminate].
    injection Hx as <-. apply (Hval i q E).
Qed.

(** ** Common left translation (C40) *)
Lemma relatives_moved {G} (inv : G -> G) mul (g : G) in_H out_H :
  (forall a b, In a out_H -> In b in_H -> mul (inv (mul g a)) (mul g b) = mul (inv a) b) ->
  relatives inv mul (map (mul g) in_H) (map (mul g) out_H) = relatives inv mul in_H out_H.
Proof.
  intros H. unfold relatives. rewrite map_map. f_equal. apply map_ext_in. intros a Ha.
  rewrite map_map. apply map_ext_in. intros b Hb. auto.
Qed.
Lemma sample_group_relatives {G P} {D : Dflt P} (k : gkernel G P) inv mul act det weight in_H out_H in_H' out_H' :
  gops_ok (k_ops k) inv mul act det ->
  relatives inv mul in_H out_H = relatives inv mul in_H' out_H' ->
  sample_group k weight in_H out_H = sample_group k weight in_H' out_H'.
Proof.
  intros Hops H. unfold sample_group.
  rewrite (ok_inverse _ _ _ _ _ Hops), (ok_apply_H _ _ _ _ _ Hops), map_map.
  rewrite (ok_inverse _ _ _ _ _ Hops), (ok_apply_H _ _ _ _ _ Hops), map_map.
  change (concat (map (fun x => map (mul (inv x)) in_H) out_H)) with (relatives inv mul in_H out_H).
  change (concat (map (fun x => map (mul (inv x)) in_H') out_H')) with (relatives inv mul in_H' out_H').
  rewrite H. reflexivity.
Qed.
