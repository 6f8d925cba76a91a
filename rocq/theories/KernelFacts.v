(** Entry formulas of the kernels. *)
From Coq Require Import String Permutation.
From Verif Require Import Prelude RMath Mat Interp InterpFacts SO2 O2 SO3 O3 Repulse Tensor TensorFacts SignedPerm
  Functional FunctionalFacts Kernel.
Open Scope R_scope.

(** Specification of the callables: what each does to single elements. *)
Definition det_is {G} (d : option (list G -> list R)) (f : option (G -> R)) : Prop :=
  match d, f with
  | None, None => True
  | Some d, Some f => forall H, d H = map f H
  | _, _ => False
  end.
Record gops_ok {G P} (ops : gops G P) (inv : G -> G) (mul : G -> G -> G) (act : G -> P -> P)
    (det : option (G -> R)) : Prop := {
  ok_inverse : forall H, op_inverse ops H = map inv H;
  ok_apply_H : forall A B, op_left_apply_to_H ops A B = map (fun a => map (mul a) B) A;
  ok_apply_Rn : forall A v, op_left_apply_to_Rn ops A v = map (fun a => map (act a) v) A;
  ok_det : det_is (op_det ops) det;
}.

(** Determinant factor and mask factor; 1 when absent. *)
Definition detf {G} (det : option (G -> R)) (g : G) : R := match det with Some f => f g | None => 1 end.
Definition maskf (m : option (tensor R)) (x : list nat) : R := match m with Some t => at_ t x | None => 1 end.

(** A tensor is well formed of the given shape. *)
Definition has_shape {E} (t : tensor E) (s : list nat) : Prop := shape t = s /\ wft t.
Definition mask_ok (m : option (tensor R)) (s : list nat) : Prop :=
  match m with Some t => has_shape t s | None => True end.

Lemma nth_concat {A} (rows : list (list A)) m h r d :
  (forall l, In l rows -> List.length l = m) -> (h < List.length rows)%nat -> (r < m)%nat ->
  nth (h * m + r) (concat rows) d = nth r (nth h rows []) d.
Proof.
  revert h; induction rows as [|l rows IH]; intros h Hl Hh Hr; simpl in Hh; [lia|].
  simpl concat. destruct h as [|h].
  - simpl. apply app_nth1. rewrite Hl by (left; reflexivity). assumption.
  - rewrite app_nth2 by (rewrite Hl by (left; reflexivity); simpl; lia).
    rewrite (Hl l) by (left; reflexivity). replace (S h * m + r - m)%nat with (h * m + r)%nat by (simpl; lia).
    apply IH; [intros; apply Hl; right; assumption|lia|assumption].
Qed.
Lemma concat_len {A} (rows : list (list A)) m :
  (forall l, In l rows -> List.length l = m) -> List.length (concat rows) = (List.length rows * m)%nat.
Proof.
  induction rows as [|l rows IH]; intros H; simpl; [reflexivity|].
  rewrite app_length, (H l) by (left; reflexivity). rewrite IH by (intros; apply H; right; assumption). reflexivity.
Qed.
Lemma nth_map_in {A B} (f : A -> B) l i d d' : (i < List.length l)%nat -> nth i (map f l) d = f (nth i l d').
Proof. intros H. rewrite (nth_indep _ d (f d')) by (rewrite map_length; assumption). apply map_nth. Qed.

(** *** mask and determinant *)
Lemma apply_mask_spec m ks pre w : mask_ok m ks -> has_shape w (pre ++ ks) ->
  exists w', apply_mask m w = Ok w' /\ has_shape w' (pre ++ ks) /\
    forall p x, valid pre p -> valid ks x -> at_ w' (p ++ x) = maskf m x * at_ w (p ++ x).
Proof.
  intros Hm [Hs Hw]. destruct m as [m|]; simpl.
  - destruct Hm as [Hms Hmw]. unfold bcast2. rewrite Hms, Hs, bshape_comm.
    rewrite bshape_suffix.
    + eexists; split; [reflexivity|]. split; [split; [reflexivity|apply wft_build]|].
      intros p x Hp Hx. rewrite at_build by (apply valid_app; assumption).
      rewrite (bidx_self (pre ++ ks)) by (apply valid_app; assumption).
      rewrite bidx_suffix by (apply valid_length; assumption). rewrite bidx_self by assumption. reflexivity.
    + clear. induction ks; constructor; auto.
  - exists w. split; [reflexivity|]. split; [split; assumption|]. intros. ring.
Qed.

Lemma apply_det_spec {G} (d : option (list G -> list R)) det (H : list G) wd o rest w :
  det_is d det -> List.length rest = S wd -> has_shape w (o :: List.length H :: rest) ->
  exists w', apply_det d H wd w = Ok w' /\ has_shape w' (o :: List.length H :: rest) /\
    forall i h g x, (i < o)%nat -> nth_error H h = Some g -> valid rest x ->
      at_ w' (i :: h :: x) = at_ w (i :: h :: x) / detf det g.
Proof.
  intros Hd Hl [Hs Hw]. destruct d as [d|], det as [f|]; simpl in Hd; try contradiction.
  - unfold apply_det. rewrite Hd.
    assert (prodn (1%nat :: repeat 1%nat wd) = 1%nat) as Hp1.
    { rewrite prodn_cons. clear. induction wd; simpl; [reflexivity|]. fold (prodn (repeat 1%nat wd)). lia. }
    rewrite (view_lead_ok (List.length H)) by (rewrite Hp1; simpl; rewrite ?prodn_cons, ?map_length; unfold prodn; simpl; lia).
    cbn [bind data]. unfold bcast2. rewrite Hs. cbn [shape].
    change (o :: List.length H :: rest) with ([o] ++ (List.length H :: rest)).
    rewrite bshape_suffix.
    + eexists; split; [reflexivity|]. split; [split; [reflexivity|apply wft_build]|].
      intros i h g x Hi Hg Hx. assert (h < List.length H)%nat by (apply nth_error_Some_lt in Hg; assumption).
      assert (valid ([o] ++ List.length H :: rest) (i :: h :: x)) as Hv by (repeat apply valid_cons; assumption).
      rewrite at_build by exact Hv. rewrite bidx_self by exact Hv. f_equal. simpl detf.
      pose proof (valid_length _ _ Hx) as Lx.
      change (i :: h :: x) with ([i] ++ (h :: x)).
      rewrite bidx_suffix by (simpl; rewrite repeat_length; lia).
      rewrite bidx_cons by (simpl; rewrite repeat_length; lia).
      change (1%nat :: repeat 1%nat wd) with (repeat 1%nat (S wd)).
      rewrite bidx_ones by lia.
      unfold at_; cbn [shape data].
      assert (forall n, ravel (repeat 1%nat n) (repeat 0%nat n) = 0%nat) as Hr0
        by (induction n; simpl; [reflexivity|]; rewrite IHn; reflexivity).
      assert (prodn (repeat 1%nat (S wd)) = 1%nat) as Hp2 by exact Hp1.
      cbn [ravel]. rewrite Hr0, Hp2.
      assert (((if Nat.eqb (List.length H) 1 then 0 else h) * 1 + 0 = h)%nat) as ->.
      { destruct (Nat.eqb_spec (List.length H) 1); lia. }
      erewrite nth_of_nth_error; [reflexivity|]. rewrite nth_error_map, Hg. reflexivity.
    + constructor; [left; reflexivity|].
      change (1%nat :: repeat 1%nat wd) with (repeat 1%nat (S wd)). rewrite <- Hl.
      clear. induction rest; simpl; constructor; auto.
  - exists w. split; [reflexivity|]. split; [split; assumption|]. intros; simpl. field.
Qed.

Lemma grid_sample_spec {P} {D : Dflt P} (smp : sampler P) input (grid : tensor P) b c s s' :
  shape input = b :: c :: s -> shape grid = b :: s' -> prodn s <> 0%nat ->
  exists w, grid_sample smp input grid = Ok w /\ has_shape w (b :: c :: s') /\
    forall i j x, (i < b)%nat -> (j < c)%nat -> valid s' x ->
      at_ w (i :: j :: x) = smp s (slice input s [i; j]) (at_ grid (i :: x)).
Proof.
  intros Hi Hg Hp. unfold grid_sample. rewrite Hi, Hg, Nat.eqb_refl.
  apply Nat.eqb_neq in Hp. rewrite Hp. simpl.
  eexists; split; [reflexivity|]. split; [split; [reflexivity|apply wft_build]|].
  intros i j x Hi' Hj Hx. rewrite at_build by (repeat apply valid_cons; assumption). reflexivity.
Qed.

Lemma has_shape_view {E} (t : tensor E) s s' : has_shape t s -> prodn s' = prodn s ->
  view s' t = Ok (mkT s' (data t)) /\ has_shape (mkT s' (data t)) s'.
Proof.
  intros [Hs Hw] Hp. split; [apply view_ok; rewrite Hs; assumption|]. split; [reflexivity|].
  unfold wft in *. simpl. rewrite Hw, Hs. auto.
Qed.
Lemma at_view {E} {D : Dflt E} (t : tensor E) s s' idx idx' : has_shape t s -> ravel s' idx' = ravel s idx ->
  at_ (mkT s' (data t)) idx' = at_ t idx.
Proof. intros [Hs _] H. unfold at_; simpl. rewrite H, Hs. reflexivity. Qed.

Lemma div_pair o n h : (h < n)%nat -> ((o * n + h) / n = o)%nat.
Proof. intros. rewrite Nat.div_add_l by lia. rewrite Nat.div_small by assumption. lia. Qed.
Lemma mod_pair o n h : (h < n)%nat -> ((o * n + h) mod n = h)%nat.
Proof. intros. rewrite Nat.add_comm, Nat.mod_add by lia. apply Nat.mod_small; assumption. Qed.
Lemma lt_pair o n h m : (h < n)%nat -> (o < m)%nat -> (o * n + h < m * n)%nat.
Proof. intros. nia. Qed.

Section Formulas.
  Context {G P : Type} {D : Dflt P} (k : gkernel G P).
  Context (inv : G -> G) (mul : G -> G -> G) (act : G -> P -> P) (det : option (G -> R)).
  Hypothesis Hops : gops_ok (k_ops k) inv mul act det.
  Hypothesis Hgrid : has_shape (k_grid_Rn k) (k_size k).
  Hypothesis Hmask : mask_ok (k_mask k) (k_size k).
  Hypothesis Hks : prodn (k_size k) <> 0%nat.

  Lemma product_Rn_spec (H : list G) :
    has_shape (product_Rn k H) (List.length H :: k_size k) /\
    forall h g x, nth_error H h = Some g -> valid (k_size k) x ->
      at_ (product_Rn k H) (h :: x) = act (inv g) (at_ (k_grid_Rn k) x).
  Proof.
    destruct Hgrid as [Hgs Hgw]. unfold product_Rn.
    rewrite (ok_apply_Rn _ _ _ _ _ Hops), (ok_inverse _ _ _ _ _ Hops), map_map.
    set (rows := map (fun x => map (act (inv x)) (data (k_grid_Rn k))) H).
    assert (forall l, In l rows -> List.length l = prodn (k_size k)) as Hrows.
    { intros l Hl. apply in_map_iff in Hl. destruct Hl as (x & <- & _). rewrite map_length, Hgw, Hgs. reflexivity. }
    split.
    - split; [simpl; rewrite Hgs; reflexivity|]. unfold wft; simpl.
      rewrite (concat_len rows (prodn (k_size k))) by assumption. unfold rows. rewrite map_length.
      fold (prodn (shape (k_grid_Rn k))). rewrite Hgs. reflexivity.
    - intros h g x Hg Hx. unfold at_; cbn [shape data ravel]. rewrite Hgs.
      assert (h < List.length H)%nat by (apply nth_error_Some_lt in Hg; assumption).
      rewrite (nth_concat rows (prodn (k_size k)) h);
        [|exact Hrows|unfold rows; rewrite map_length; assumption|apply ravel_lt; assumption].
      unfold rows. rewrite (nth_map_in _ H h [] g) by assumption.
      rewrite (nth_of_nth_error H h g g Hg).
      rewrite (nth_map_in _ _ _ _ dflt).
      + reflexivity.
      + rewrite Hgw, Hgs. apply ravel_lt; assumption.
  Qed.

  (** The spatial part common to lifting and separable kernels. *)
  Lemma spatial_spec smp (weight : tensor R) c (H : list G) :
    has_shape weight (k_out k :: c :: k_size k) ->
    exists w, grid_sample smp (repeat_interleave0 (List.length H) weight) (repeat0 (k_out k) (product_Rn k H)) = Ok w /\
      has_shape w ((k_out k * List.length H)%nat :: c :: k_size k) /\
      forall o h g j x, (o < k_out k)%nat -> nth_error H h = Some g -> (j < c)%nat -> valid (k_size k) x ->
        at_ w ((o * List.length H + h)%nat :: j :: x)
        = smp (k_size k) (slice weight (k_size k) [o; j]) (act (inv g) (at_ (k_grid_Rn k) x)).
  Proof.
    intros [Hws Hww]. destruct (product_Rn_spec H) as [[Hps Hpw] Hp].
    destruct (grid_sample_spec smp (repeat_interleave0 (List.length H) weight)
      (repeat0 (k_out k) (product_Rn k H)) (k_out k * List.length H) c (k_size k) (k_size k)) as (w & Hw & Hsh & Hat).
    - apply shape_repeat_interleave0. assumption.
    - apply shape_repeat0. assumption.
    - assumption.
    - exists w. split; [assumption|]. split; [assumption|]. intros o h g j x Ho Hg Hj Hx.
      assert (h < List.length H)%nat as Hh by (apply nth_error_Some_lt in Hg; assumption).
      rewrite Hat by (try assumption; apply lt_pair; assumption).
      f_equal.
      + apply slice_ext. intros y Hy. cbn [app].
        rewrite (at_repeat_interleave0 _ (k_out k) (c :: k_size k)); try assumption.
        * rewrite div_pair by assumption. reflexivity.
        * apply valid_cons; [apply lt_pair; assumption|]. apply valid_cons; assumption.
      + rewrite (at_repeat0 _ (List.length H) (k_size k)); try assumption.
        * rewrite mod_pair by assumption. apply Hp; assumption.
        * apply valid_cons; [apply lt_pair; assumption|assumption].
  Qed.

  (** kernel.py:174-195 *)
  Lemma lifting_formula smp weight (H : list G) :
    op_sample_Rn (k_ops k) = Ok smp ->
    has_shape weight (lifting_weight_shape k) ->
    exists W, lifting_kernel_forward k weight H = Ok W /\
      has_shape W (k_out k :: List.length H :: k_cin k :: k_size k) /\
      forall o h g c x, (o < k_out k)%nat -> nth_error H h = Some g -> (c < k_cin k)%nat -> valid (k_size k) x ->
        at_ W (o :: h :: c :: x) =
        maskf (k_mask k) x * smp (k_size k) (slice weight (k_size k) [o; c]) (act (inv g) (at_ (k_grid_Rn k) x))
        / detf det g.
  Proof.
    intros Hsmp Hw. unfold lifting_kernel_forward. rewrite Hsmp. cbn [bind].
    destruct (spatial_spec smp weight (k_cin k) H Hw) as (w & Ew & Hsh & Hat). rewrite Ew. cbn [bind].
    destruct (has_shape_view w _ (k_out k :: List.length H :: k_cin k :: k_size k) Hsh) as [Ev Hv].
    { rewrite !prodn_cons. lia. }
    rewrite Ev. cbn [bind]. set (w1 := mkT _ (data w)) in *.
    destruct (apply_mask_spec (k_mask k) (k_size k) [k_out k; List.length H; k_cin k] w1 Hmask Hv) as (w2 & E2 & H2 & A2).
    rewrite E2. cbn [bind].
    destruct Hw as [Hws _]. rewrite Hws. unfold lifting_weight_shape.
    replace (List.length (k_out k :: k_cin k :: k_size k) - 2)%nat with (List.length (k_size k)) by (simpl; lia).
    destruct (apply_det_spec (op_det (k_ops k)) det H (List.length (k_size k)) (k_out k) (k_cin k :: k_size k) w2) as (w3 & E3 & H3 & A3).
    { apply (ok_det _ _ _ _ _ Hops). } { reflexivity. } { exact H2. }
    exists w3. split; [assumption|]. split; [assumption|].
    intros o h g c x Ho Hg Hc Hx. assert (h < List.length H)%nat as Hh by (apply nth_error_Some_lt in Hg; assumption).
    rewrite (A3 o h g (c :: x)) by (try assumption; apply valid_cons; assumption). f_equal.
    change (o :: h :: c :: x) with ([o; h; c] ++ x). rewrite A2 by (try assumption; repeat apply valid_cons; try assumption; apply valid_nil).
    f_equal. unfold w1. cbn [app].
    rewrite (at_view w _ _ ((o * List.length H + h)%nat :: c :: x) _ Hsh).
    - apply Hat; assumption.
    - cbn [ravel]. rewrite !prodn_cons. lia.
  Qed.
End Formulas.

(** *** group weights *)
(** The rows of a parameter: entry weight[i, idx] of row i stands in column [ravel rest idx]. *)
Definition param_rows (n : nat) (rest : list nat) (weight : tensor R) : mat :=
  map (fun i => map (fun idx => at_ weight (i :: idx)) (indices rest)) (seq 0 n).

(** The relative elements inv(g) * h, out_H major. *)
Definition relatives {G} (inv : G -> G) (mul : G -> G -> G) (in_H out_H : list G) : list G :=
  concat (map (fun g => map (fun h => mul (inv g) h) in_H) out_H).

Lemma nth_error_pairs {A B C} (f : A -> B -> C) (l : list A) (m : list B) i j a b :
  nth_error l i = Some a -> nth_error m j = Some b ->
  nth_error (concat (map (fun x => map (f x) m) l)) (i * List.length m + j) = Some (f a b).
Proof.
  intros Ha Hb. assert (j < List.length m)%nat as Hj by (apply nth_error_Some_lt in Hb; assumption).
  revert i Ha. induction l as [|x l IH]; intros [|i] Ha; simpl in Ha; try discriminate.
  - inversion Ha; subst. simpl. rewrite nth_error_app1 by (rewrite map_length; assumption).
    rewrite nth_error_map, Hb. reflexivity.
  - cbn [map concat]. rewrite nth_error_app2 by (rewrite map_length; simpl; lia).
    rewrite map_length. replace (S i * List.length m + j - List.length m)%nat with (i * List.length m + j)%nat by (simpl; lia).
    apply IH. assumption.
Qed.

Lemma map_indices_flat {A} (f : nat -> A) r : map (fun idx => f (ravel r idx)) (indices r) = map f (seq 0 (prodn r)).
Proof.
  unfold indices. rewrite map_map. apply map_ext_in. intros n Hn. apply in_seq in Hn.
  rewrite ravel_unravel by lia. reflexivity.
Qed.

Lemma to_rows_param (weight : tensor R) n rest : has_shape weight (n :: rest) ->
  to_rows (mkT [n; prodn rest] (data weight)) = param_rows n rest weight.
Proof.
  intros [Hs Hw]. unfold to_rows, param_rows. cbn [shape]. apply map_ext. intros i.
  rewrite <- (map_indices_flat (fun j => at_ (mkT [n; prodn rest] (data weight)) [i; j]) rest).
  apply map_ext. intros idx. unfold at_; cbn [shape data ravel]. rewrite Hs. cbn [ravel].
  f_equal. unfold prodn; simpl. lia.
Qed.

Lemma map_nth_seq' (l : list nat) : map (fun i => nth i l 0%nat) (seq 0 (List.length l)) = l.
Proof.
  induction l as [|x l IH]; [reflexivity|]. cbn [List.length seq map nth]. f_equal.
  rewrite <- seq_shift, map_map. exact IH.
Qed.
Lemma swap03 a b c d r : swap_nth 0 3 (a :: b :: c :: d :: r) = d :: b :: c :: a :: r.
Proof.
  unfold swap_nth. cbn [List.length seq map Nat.eqb nth]. do 4 f_equal.
  rewrite <- !seq_shift, !map_map. cbn [Nat.eqb]. apply map_nth_seq'.
Qed.
Lemma swap13 a b c d r : swap_nth 1 3 (a :: b :: c :: d :: r) = a :: d :: c :: b :: r.
Proof.
  unfold swap_nth. cbn [List.length seq map Nat.eqb nth]. do 4 f_equal.
  rewrite <- !seq_shift, !map_map. cbn [Nat.eqb]. apply map_nth_seq'.
Qed.

Lemma transpose_spec (t : tensor R) a b c d r : has_shape t (a :: b :: c :: d :: r) ->
  has_shape (transpose 1 3 (transpose 0 3 t)) (d :: a :: c :: b :: r) /\
  forall i j l m x, (i < d)%nat -> (j < a)%nat -> (l < c)%nat -> (m < b)%nat -> valid r x ->
    at_ (transpose 1 3 (transpose 0 3 t)) (i :: j :: l :: m :: x) = at_ t (j :: m :: l :: i :: x).
Proof.
  intros [Hs Hw].
  assert (shape (transpose 0 3 t) = d :: b :: c :: a :: r) as Hs1 by (unfold transpose; rewrite Hs; cbn [shape build]; apply swap03).
  split.
  - split; [|apply wft_transpose]. unfold transpose at 1. rewrite Hs1. cbn [shape build]. apply swap13.
  - intros i j l m x Hi Hj Hl Hm Hx.
    rewrite at_transpose by (rewrite Hs1, swap13; repeat apply valid_cons; assumption).
    rewrite swap13.
    rewrite at_transpose by (rewrite Hs, swap03; repeat apply valid_cons; assumption).
    rewrite swap03. reflexivity.
Qed.

Section GroupFormulas.
  Context {G P : Type} {D : Dflt P} (k : gkernel G P).
  Context (inv : G -> G) (mul : G -> G -> G) (act : G -> P -> P) (det : option (G -> R)).
  Hypothesis Hops : gops_ok (k_ops k) inv mul act det.

  (** The group sampler answered, with value V q at the relative element q. *)
  Definition sampled (rest : list nat) (weight : tensor R) (in_H out_H : list G) (V : G -> list R) : Prop :=
    (forall q, In q (relatives inv mul in_H out_H) -> List.length (V q) = prodn rest) /\
    op_sample_H (k_ops k) (prodn rest) (relatives inv mul in_H out_H)
      (param_rows (k_gdim k) rest weight) (k_grid_H k) = Ok (map V (relatives inv mul in_H out_H)).

  Hypothesis Hgd : k_gdim k <> 0%nat.

  Lemma relatives_length in_H out_H : List.length (relatives inv mul in_H out_H) = (List.length out_H * List.length in_H)%nat.
  Proof.
    unfold relatives. rewrite (concat_len _ (List.length in_H)).
    - rewrite map_length. reflexivity.
    - intros l Hl. apply in_map_iff in Hl. destruct Hl as (g & <- & _). apply map_length.
  Qed.

  Lemma sample_group_spec rest weight in_H out_H V :
    has_shape weight (k_gdim k :: rest) -> sampled rest weight in_H out_H V ->
    exists w, sample_group k weight in_H out_H = Ok w /\
      has_shape w [(List.length out_H * List.length in_H)%nat; prodn rest] /\
      forall i j g h c, nth_error out_H i = Some g -> nth_error in_H j = Some h -> (c < prodn rest)%nat ->
        at_ w [(i * List.length in_H + j)%nat; c] = nth c (V (mul (inv g) h)) 0.
  Proof.
    intros Hw [Hlen Hs]. unfold sample_group.
    rewrite (view_trail_ok (k_gdim k) (prodn rest)) by (try assumption; destruct Hw as [-> _]; apply prodn_cons).
    cbn [bind shape nth]. rewrite (to_rows_param weight (k_gdim k) rest Hw).
    rewrite (ok_inverse _ _ _ _ _ Hops), (ok_apply_H _ _ _ _ _ Hops), map_map.
    change (concat (map (fun x => map (mul (inv x)) in_H) out_H)) with (relatives inv mul in_H out_H).
    rewrite Hs. cbn [bind]. rewrite map_length, relatives_length.
    assert (forall l, In l (map V (relatives inv mul in_H out_H)) -> List.length l = prodn rest) as Hl.
    { intros l Hl. apply in_map_iff in Hl. destruct Hl as (q & <- & Hq). apply Hlen; assumption. }
    eexists; split; [reflexivity|]. split.
    - split; [reflexivity|]. unfold wft; cbn [shape data].
      rewrite (concat_len _ (prodn rest) Hl), map_length, relatives_length. rewrite !prodn_cons, prodn_nil. lia.
    - intros i j g h c Hg Hh Hc. unfold at_; cbn [shape data ravel]. rewrite !prodn_cons, prodn_nil.
      replace ((i * List.length in_H + j) * (prodn rest * 1) + (c * 1 + 0))%nat
        with ((i * List.length in_H + j) * prodn rest + c)%nat by lia.
      assert (nth_error (relatives inv mul in_H out_H) (i * List.length in_H + j) = Some (mul (inv g) h)) as Hq
        by (apply (nth_error_pairs (fun g h => mul (inv g) h)); assumption).
      rewrite (nth_concat _ (prodn rest)); [|exact Hl|rewrite map_length; apply nth_error_Some_lt in Hq; assumption|assumption].
      erewrite (nth_of_nth_error (map V _)); [reflexivity|]. rewrite nth_error_map, Hq. reflexivity.
  Qed.

  (** kernel.py:350-377: entry formula of the returned tensor, in terms of the flat position of the
      sampled pair; |in_H| and |out_H| arbitrary. *)
  Lemma group_view_spec rest V weight in_H out_H ones :
    rest = [k_out k; k_cin k] -> prodn ones = 1%nat ->
    has_shape weight (k_gdim k :: rest) -> sampled rest weight in_H out_H V ->
    let n_in := List.length in_H in let n_out := List.length out_H in
    exists w0 w, sample_group k weight in_H out_H = Ok w0 /\
      view (n_in :: n_out :: k_cin k :: k_out k :: ones) w0 = Ok w /\
      has_shape (transpose 1 3 (transpose 0 3 w)) (k_out k :: n_in :: k_cin k :: n_out :: ones) /\
      forall o a c b x i j g h, (o < k_out k)%nat -> (c < k_cin k)%nat -> (a < n_in)%nat -> (b < n_out)%nat ->
        valid ones x ->
        nth_error out_H i = Some g -> nth_error in_H j = Some h -> (a * n_out + b = i * n_in + j)%nat ->
        at_ (transpose 1 3 (transpose 0 3 w)) (o :: a :: c :: b :: x)
        = nth (c * k_out k + o) (V (mul (inv g) h)) 0.
  Proof.
    intros -> H1 Hw Hs n_in n_out.
    destruct (sample_group_spec _ weight in_H out_H V Hw Hs) as (w0 & E0 & Hsh0 & A0).
    destruct (has_shape_view w0 _ (n_in :: n_out :: k_cin k :: k_out k :: ones) Hsh0) as [Ev Hv].
    { rewrite !prodn_cons, H1, prodn_nil. fold n_in n_out. lia. }
    exists w0, (mkT (n_in :: n_out :: k_cin k :: k_out k :: ones) (data w0)).
    split; [assumption|]. split; [assumption|].
    destruct (transpose_spec _ _ _ _ _ _ Hv) as [Ht At]. split; [assumption|].
    intros o a c b x i j g h Ho Hc Ha Hb Hx Hg Hh Hab. rewrite At by assumption.
    assert (c * k_out k + o < k_cin k * k_out k)%nat by (apply lt_pair; assumption).
    assert (ravel ones x = 0%nat) as Hr0 by (pose proof (ravel_lt _ _ Hx); lia).
    rewrite (at_view w0 _ _ [(i * n_in + j)%nat; (c * k_out k + o)%nat] _ Hsh0).
    - apply (A0 i j g h); try assumption. rewrite !prodn_cons, prodn_nil. lia.
    - cbn [ravel]. rewrite Hr0. rewrite !prodn_cons, H1, prodn_nil. rewrite <- Hab. fold n_in n_out. nia.
  Qed.
End GroupFormulas.
