(** Proofs about the interpolation model. *)
From Verif Require Import Prelude RMath Interp.
Open Scope R_scope.

(** ** mapM *)
Lemma mapM_length {A B} (f : A -> result B) l out : mapM f l = Ok out -> length out = length l.
Proof.
  revert out; induction l as [|a l IH]; intros out H; simpl in H.
  - injection H as <-; reflexivity.
  - destruct (f a) as [y|]; [|discriminate]; simpl in H.
    destruct (mapM f l) as [ys|]; [|discriminate]; simpl in H.
    injection H as <-. simpl. f_equal. apply IH; reflexivity.
Qed.

Lemma mapM_nth {A B} (f : A -> result B) l out k a :
  mapM f l = Ok out -> nth_error l k = Some a ->
  exists b, f a = Ok b /\ nth_error out k = Some b.
Proof.
  revert out k; induction l as [|x l IH]; intros out k H Hk; [destruct k; discriminate|].
  simpl in H. destruct (f x) as [y|] eqn:Hy; [|discriminate]; simpl in H.
  destruct (mapM f l) as [ys|]; [|discriminate]; simpl in H. injection H as <-.
  destruct k as [|k]; simpl in *.
  - injection Hk as <-. eauto.
  - apply IH; auto.
Qed.

Lemma mapM_total {A B} (f : A -> result B) (g : A -> B) l :
  (forall a, In a l -> f a = Ok (g a)) -> mapM f l = Ok (map g l).
Proof.
  induction l as [|a l IH]; intros H; simpl; [reflexivity|].
  rewrite H by (left; reflexivity). simpl. rewrite IH by (intros; apply H; right; assumption).
  reflexivity.
Qed.

Lemma mapM_ext {A B} (f g : A -> result B) l :
  (forall a, In a l -> f a = g a) -> mapM f l = mapM g l.
Proof.
  induction l as [|a l IH]; intros H; simpl; [reflexivity|].
  rewrite H by (left; reflexivity). rewrite IH by (intros; apply H; right; assumption). reflexivity.
Qed.

Lemma mapM_map {A B C} (f : B -> result C) (g : A -> B) l :
  mapM f (map g l) = mapM (fun a => f (g a)) l.
Proof. induction l as [|a l IH]; simpl; [reflexivity|]. rewrite IH. reflexivity. Qed.

Lemma mapM_ok_all {A B} (f : A -> result B) l :
  (forall a, In a l -> exists b, f a = Ok b) -> exists out, mapM f l = Ok out.
Proof.
  induction l as [|a l IH]; intros H; simpl; [eauto|].
  destruct (H a (or_introl eq_refl)) as [b Hb]. rewrite Hb. simpl.
  destruct IH as [out Ho]; [intros; apply H; right; assumption|]. rewrite Ho. simpl. eauto.
Qed.

Lemma nth_error_ext {A} (l1 l2 : list A) :
  (forall i, nth_error l1 i = nth_error l2 i) -> l1 = l2.
Proof.
  revert l2; induction l1 as [|a l1 IH]; intros l2 H.
  - destruct l2 as [|b l2]; [reflexivity|]. specialize (H 0%nat); discriminate.
  - destruct l2 as [|b l2]; [specialize (H 0%nat); discriminate|].
    pose proof (H 0%nat) as H0. simpl in H0. injection H0 as <-. f_equal.
    apply IH. intros i. exact (H (S i)).
Qed.

(** ** matrices *)
Lemma dotl_nil_l b : dotl [] b = 0.
Proof. reflexivity. Qed.

Lemma dotl_cons a l b m : dotl (a :: l) (b :: m) = a * b + dotl l m.
Proof. reflexivity. Qed.

Lemma dotl_lin r a b u v : length a = length b ->
  dotl r (map (fun ab => u * fst ab + v * snd ab) (combine a b)) = u * dotl r a + v * dotl r b.
Proof.
  revert a b; induction r as [|x r IH]; intros a b H.
  - rewrite !dotl_nil_l. ring.
  - destruct a as [|y a]; destruct b as [|z b]; try discriminate.
    + unfold dotl; simpl. ring.
    + cbn [combine map fst snd]. rewrite !dotl_cons, IH by (simpl in H; lia). ring.
Qed.

(** Entrywise linear combination of two matrices. *)
Definition mlin (u v : R) (a b : mat) : mat :=
  map (fun rs => map (fun xy => u * fst xy + v * snd xy) (combine (fst rs) (snd rs))) (combine a b).

Lemma combine_map_seq {A B} (f : nat -> A) (g : nat -> B) l :
  combine (map f l) (map g l) = map (fun i => (f i, g i)) l.
Proof. induction l as [|x l IH]; simpl; [reflexivity|]. rewrite IH. reflexivity. Qed.

Lemma nth_combine_map (f : R * R -> R) r s j :
  length r = length s -> f (0, 0) = 0 ->
  nth j (map f (combine r s)) 0 = f (nth j r 0, nth j s 0).
Proof.
  intros Hl Hf. revert s j Hl; induction r as [|x r IH]; intros s j Hl;
    destruct s as [|y s]; try discriminate.
  - destruct j; simpl; symmetry; assumption.
  - destruct j as [|j]; simpl; [reflexivity|]. apply IH. simpl in Hl; lia.
Qed.

Lemma col_mlin u v j n s a b : wfm n s a -> wfm n s b ->
  col j (mlin u v a b)
  = map (fun ab => u * fst ab + v * snd ab) (combine (col j a) (col j b)).
Proof.
  intros [Ha Ha'] [Hb Hb']. unfold col, mlin. revert b n Ha Hb Hb'.
  induction a as [|r a IH]; intros b n Ha Hb Hb'; [reflexivity|].
  destruct b as [|q b]; [reflexivity|]. cbn [combine map fst snd]. f_equal.
  - rewrite nth_combine_map.
    + reflexivity.
    + rewrite (Ha' r) by (left; reflexivity). rewrite (Hb' q) by (left; reflexivity). reflexivity.
    + simpl. ring.
  - destruct n as [|n]; [discriminate|]. apply (IH (fun r' Hr => Ha' r' (or_intror Hr)) b n).
    + simpl in Ha; lia.
    + simpl in Hb; lia.
    + intros r' Hr. apply Hb'. right; assumption.
Qed.

Lemma rowmul_mlin u v n s row a b : wfm n s a -> wfm n s b ->
  rowmul s row (mlin u v a b)
  = map (fun xy => u * fst xy + v * snd xy) (combine (rowmul s row a) (rowmul s row b)).
Proof.
  intros Ha Hb. unfold rowmul. rewrite combine_map_seq, map_map. apply map_ext.
  intros j. cbn [fst snd]. rewrite (col_mlin u v j n s) by assumption. apply dotl_lin.
  unfold col. rewrite !map_length. destruct Ha, Hb. lia.
Qed.

Lemma matmul_mlin u v n s p a b : wfm n s a -> wfm n s b ->
  matmul s p (mlin u v a b) = mlin u v (matmul s p a) (matmul s p b).
Proof.
  intros Ha Hb. unfold matmul, mlin at 2.
  induction p as [|row p IH]; [reflexivity|]. cbn [map combine fst snd].
  rewrite IH, (rowmul_mlin u v n s) by assumption. reflexivity.
Qed.

Lemma wfm_mlin u v n s a b : wfm n s a -> wfm n s b -> wfm n s (mlin u v a b).
Proof.
  intros [Ha Ha'] [Hb Hb']. unfold mlin. split.
  - rewrite map_length, combine_length, Ha, Hb. lia.
  - intros r Hr. apply in_map_iff in Hr as ([x y] & <- & Hxy). cbn [fst snd].
    rewrite map_length, combine_length.
    rewrite (Ha' x), (Hb' y); [lia| |].
    + apply in_combine_r in Hxy; assumption.
    + apply in_combine_l in Hxy; assumption.
Qed.

Lemma wfm_gram {G} (f : G -> G -> R) (nodes grid : list G) :
  wfm (length nodes) (length grid) (map (fun a => map (fun b => f a b) grid) nodes).
Proof.
  split; [apply map_length|]. intros r Hr. apply in_map_iff in Hr as (a & <- & _). apply map_length.
Qed.

Section RBF.
  Context {G : Type} (T : torch_env) (HT : torch_ok T).
  Context (dist : G -> G -> R) (rbf : R -> R -> R) (width : R) (S : nat).

  Lemma RBF_reproduces nodes grid signal out k i a :
    wfm (length grid) S signal ->
    interpolate_RBF T dist rbf width S nodes grid signal = Ok out ->
    nth_error nodes k = Some a -> nth_error grid i = Some a ->
    nth_error out k = nth_error signal i.
  Proof using HT.
    intros Hs H Hk Hi. unfold interpolate_RBF in H.
    set (m := map (fun a => map (fun b => rbf (dist a b) width) grid) grid) in *.
    destruct (te_solve T m signal) as [x|] eqn:Hx; [|discriminate]. simpl in H. injection H as <-.
    destruct (ok_solve T HT _ _ _ _ _ (wfm_gram (fun a b => rbf (dist a b) width) grid grid) Hs Hx)
      as (_ & Hm & _).
    rewrite <- Hm. unfold matmul, m. rewrite !nth_error_map, Hk, Hi. reflexivity.
  Qed.

  Lemma RBF_rows nodes grid signal out :
    interpolate_RBF T dist rbf width S nodes grid signal = Ok out ->
    length out = length nodes /\
    (forall r, In r out -> length r = S) /\
    forall k a, nth_error nodes k = Some a ->
      exists row, nth_error out k = Some row /\
        interpolate_RBF T dist rbf width S [a] grid signal = Ok [row].
  Proof using.
    intros H. unfold interpolate_RBF in *.
    destruct (te_solve T _ signal) as [x|]; [|discriminate]. simpl in *. injection H as <-.
    unfold matmul. rewrite !map_length. split; [reflexivity|]. split.
    - intros r Hr. apply in_map_iff in Hr as (row & <- & _). unfold rowmul.
      rewrite map_length, seq_length. reflexivity.
    - intros k a Hk. rewrite !nth_error_map, Hk. eexists. split; reflexivity.
  Qed.

  Lemma RBF_linear u v nodes grid s1 s2 o1 :
    wfm (length grid) S s1 -> wfm (length grid) S s2 ->
    interpolate_RBF T dist rbf width S nodes grid s1 = Ok o1 ->
    exists o2, interpolate_RBF T dist rbf width S nodes grid s2 = Ok o2 /\
    interpolate_RBF T dist rbf width S nodes grid (mlin u v s1 s2) = Ok (mlin u v o1 o2).
  Proof using HT.
    intros H1 H2 Ho1. unfold interpolate_RBF in *.
    set (m := map (fun a => map (fun b => rbf (dist a b) width) grid) grid) in *.
    assert (Hm : wfm (length grid) (length grid) m)
      by apply (wfm_gram (fun a b => rbf (dist a b) width) grid grid).
    clearbody m.
    destruct (te_solve T m s1) as [x1|] eqn:Hx1; [|discriminate]. simpl in Ho1. injection Ho1 as <-.
    destruct (ok_solve_any T HT _ _ _ _ _ _ _ Hm H1 H2 Hx1) as [x2 Hx2].
    destruct (ok_solve_any T HT _ _ _ _ _ _ _ Hm H1 (wfm_mlin u v _ _ _ _ H1 H2) Hx1) as [x3 Hx3].
    rewrite Hx2, Hx3. simpl. eexists. split; [reflexivity|]. f_equal.
    destruct (ok_solve T HT _ _ _ _ _ Hm H1 Hx1) as (W1 & E1 & _).
    destruct (ok_solve T HT _ _ _ _ _ Hm H2 Hx2) as (W2 & E2 & _).
    destruct (ok_solve T HT _ _ _ _ _ Hm (wfm_mlin u v _ _ _ _ H1 H2) Hx3) as (W3 & E3 & U3).
    assert (E : mlin u v x1 x2 = x3).
    { apply U3; [apply wfm_mlin; assumption|].
      rewrite (matmul_mlin u v _ _ _ _ _ W1 W2), E1, E2. reflexivity. }
    rewrite <- E. apply matmul_mlin with (n := length grid); assumption.
  Qed.
End RBF.

Lemma RBF_isometry {G G'} T (dist : G -> G -> R) (dist' : G' -> G' -> R) (f : G -> G')
    rbf width S nodes grid signal :
  (forall a b, dist' (f a) (f b) = dist a b) ->
  interpolate_RBF T dist' rbf width S (map f nodes) (map f grid) signal
  = interpolate_RBF T dist rbf width S nodes grid signal.
Proof.
  intros H. unfold interpolate_RBF.
  assert (E : forall l, map (fun a => map (fun b => rbf (dist' a b) width) (map f grid)) (map f l)
              = map (fun a => map (fun b => rbf (dist a b) width) grid) l).
  { intros l. rewrite map_map. apply map_ext. intros a. rewrite map_map. apply map_ext.
    intros b. rewrite H. reflexivity. }
  rewrite !E. reflexivity.
Qed.

(** More generally only the distances matter. *)
Lemma RBF_dist_ext {G G'} T (dist : G -> G -> R) (dist' : G' -> G' -> R)
    rbf width S nodes nodes' grid grid' signal :
  map (fun a => map (fun b => dist' a b) grid') grid' = map (fun a => map (fun b => dist a b) grid) grid ->
  map (fun a => map (fun b => dist' a b) grid') nodes' = map (fun a => map (fun b => dist a b) grid) nodes ->
  interpolate_RBF T dist' rbf width S nodes' grid' signal
  = interpolate_RBF T dist rbf width S nodes grid signal.
Proof.
  intros H1 H2. unfold interpolate_RBF.
  assert (E : forall (A B : Type) (d : A -> B -> R) (l : list A) (g : list B),
     map (fun a => map (fun b => rbf (d a b) width) g) l
     = map (map (fun x => rbf x width)) (map (fun a => map (fun b => d a b) g) l)).
  { intros. rewrite map_map. apply map_ext. intros a. rewrite map_map. reflexivity. }
  rewrite !E, H1, H2. reflexivity.
Qed.

(** ** nearest neighbour *)
Lemma NN_spec {G Row} T (HT : torch_ok T) (dist : G -> G -> R) nodes grid (signal : list Row) :
  grid <> [] -> length signal = length grid ->
  exists out, interpolate_NN T dist nodes grid signal = Ok out /\
    length out = length nodes /\
    forall k a, nth_error nodes k = Some a ->
      exists i b row, nth_error grid i = Some b /\ nth_error signal i = Some row /\
        nth_error out k = Some row /\
        (forall b', In b' grid -> dist a b <= dist a b') /\
        interpolate_NN T dist [a] grid signal = Ok [row].
Proof.
  intros Hne Hlen.
  assert (Hf : forall a, exists i b row, te_argmin T (map (fun b => dist a b) grid) = i /\
       nth_error grid i = Some b /\ nth_error signal i = Some row /\
       forall b', In b' grid -> dist a b <= dist a b').
  { intros a. destruct (ok_argmin T HT (map (fun b => dist a b) grid)) as (v & Hv & Hmin).
    { destruct grid; [congruence|discriminate]. }
    apply nth_error_map_inv in Hv as (b & Hb & ->).
    destruct (nth_error signal (te_argmin T (map (fun b => dist a b) grid))) as [row|] eqn:Hrow.
    - do 3 eexists. split; [reflexivity|]. split; [eassumption|]. split; [eassumption|].
      intros b' Hb'. apply Hmin. apply in_map_iff. eauto.
    - exfalso. apply nth_error_None in Hrow. apply nth_error_Some_lt in Hb. lia. }
  unfold interpolate_NN. destruct grid as [|g0 gr] eqn:Hg; [congruence|]. rewrite <- Hg in *.
  destruct (mapM_ok_all (fun a => of_option RuntimeError
      (nth_error signal (te_argmin T (map (fun b => dist a b) grid)))) nodes) as [out Hout].
  { intros a _. destruct (Hf a) as (i & b & row & Hi & _ & Hrow & _). rewrite Hi, Hrow. simpl; eauto. }
  exists out. split; [assumption|]. split; [apply mapM_length in Hout; assumption|].
  intros k a Hk. destruct (mapM_nth _ _ _ _ _ Hout Hk) as (r & Hr & Hr').
  destruct (Hf a) as (i & b & row & Hi & Hb & Hrow & Hmin).
  rewrite Hi, Hrow in Hr. simpl in Hr. injection Hr as <-.
  exists i, b, row. repeat split; try assumption. simpl. rewrite Hi, Hrow. reflexivity.
Qed.

Lemma NN_unique {G Row} T (HT : torch_ok T) (dist : G -> G -> R) nodes grid (signal : list Row) out k a i b :
  length signal = length grid ->
  interpolate_NN T dist nodes grid signal = Ok out ->
  nth_error nodes k = Some a -> nth_error grid i = Some b ->
  (forall j b', nth_error grid j = Some b' -> j <> i -> dist a b < dist a b') ->
  nth_error out k = nth_error signal i.
Proof.
  intros Hlen Ho Hk Hi Hmin.
  unfold interpolate_NN in Ho. destruct grid as [|g0 gr] eqn:Hg; [destruct i; discriminate|].
  rewrite <- Hg in *.
  destruct (mapM_nth _ _ _ _ _ Ho Hk) as (r & Hr & Hr'). rewrite Hr'.
  destruct (ok_argmin T HT (map (fun b => dist a b) grid)) as (v & Hv & Hlb).
  { rewrite Hg; discriminate. }
  set (j := te_argmin T (map (fun b => dist a b) grid)) in *.
  apply nth_error_map_inv in Hv as (b' & Hb' & ->).
  destruct (Nat.eq_dec j i) as [E|E].
  - rewrite E in Hr. destruct (nth_error signal i); [|discriminate]. simpl in Hr. congruence.
  - exfalso. specialize (Hmin j b' Hb' E).
    assert (dist a b' <= dist a b).
    { apply Hlb. apply in_map_iff. exists b. split; [reflexivity|].
      apply nth_error_In with i; assumption. }
    lra.
Qed.

Lemma NN_isometry {G G' Row} T (dist : G -> G -> R) (dist' : G' -> G' -> R) (f : G -> G')
    nodes grid (signal : list Row) :
  (forall a b, dist' (f a) (f b) = dist a b) ->
  interpolate_NN T dist' (map f nodes) (map f grid) signal = interpolate_NN T dist nodes grid signal.
Proof.
  intros H. unfold interpolate_NN. destruct grid as [|g0 gr] eqn:Hg; [reflexivity|].
  rewrite <- Hg in *. assert (E : map f grid <> []) by (rewrite Hg; discriminate).
  destruct (map f grid) eqn:Em; [congruence|]. rewrite <- Em.
  rewrite mapM_map. apply mapM_ext. intros a _.
  rewrite map_map. do 3 f_equal. apply map_ext. intros b. apply H.
Qed.

Lemma NN_empty {G Row} T (dist : G -> G -> R) nodes (signal : list Row) :
  interpolate_NN T dist nodes [] signal = Err RuntimeError.
Proof. reflexivity. Qed.

Lemma NN_rows {G Row} T (dist : G -> G -> R) nodes grid (signal : list Row) out :
  interpolate_NN T dist nodes grid signal = Ok out ->
  length out = length nodes /\
  forall k a, nth_error nodes k = Some a ->
    exists row, nth_error out k = Some row /\ interpolate_NN T dist [a] grid signal = Ok [row].
Proof.
  intros H. unfold interpolate_NN in *. destruct grid as [|g0 gr] eqn:Hg; [discriminate|].
  rewrite <- Hg in *. split; [apply mapM_length in H; assumption|].
  intros k a Hk. destruct (mapM_nth _ _ _ _ _ H Hk) as (row & Hr & Hr').
  exists row. split; [assumption|]. cbn [mapM bind]. cbv beta in Hr. rewrite Hr. reflexivity.
Qed.

(** ** barycentric *)
Lemma bcc_weights_convex eps d0 x y z a b c :
  bcc_weights eps d0 (x, y, z) = (a, b, c) ->
  (d0 <= eps \/ 0 < x \/ 0 < y \/ 0 < z) ->
  0 <= a /\ 0 <= b /\ 0 <= c /\ a + b + c = 1.
Proof.
  unfold bcc_weights. intros H Hs.
  assert (Hd : forall n s, 0 <= n -> 0 < s -> 0 <= n / s).
  { intros n s Hn Hs'. unfold Rdiv. apply Rmult_le_pos; [lra|].
    left; apply Rinv_0_lt_compat; lra. }
  destruct (Rle_dec d0 eps) as [Hle|Hgt].
  - destruct (Rlt_dec 1 0); [lra|]. destruct (Rlt_dec 0 0); [lra|].
    injection H as <- <- <-. repeat split; try (apply Hd; lra). field.
  - destruct (Rlt_dec x 0), (Rlt_dec y 0), (Rlt_dec z 0); try (exfalso; lra);
      injection H as <- <- <-; (repeat split; [apply Hd; lra..|field; lra]).
Qed.

Lemma bcc_weights_node eps d0 x y z : d0 <= eps -> bcc_weights eps d0 (x, y, z) = (1, 0, 0).
Proof.
  intros H. unfold bcc_weights. destruct (Rle_dec d0 eps); [|lra].
  destruct (Rlt_dec 1 0); [lra|]. destruct (Rlt_dec 0 0); [lra|].
  f_equal; [f_equal|]; field.
Qed.

Lemma BCC_spec {G} T (HT : torch_ok T) (dist : G -> G -> R) lstsq eps D S nodes grid signal :
  (3 <= D)%nat -> (3 <= length grid)%nat -> length signal = length grid ->
  exists out, interpolate_BCC T dist lstsq eps D S nodes grid signal = Ok out /\
  length out = length nodes /\
  forall p n, nth_error nodes p = Some n ->
  exists i j k gi gj gk si sj sk a b c row,
    nth_error grid i = Some gi /\ nth_error grid j = Some gj /\ nth_error grid k = Some gk /\
    nth_error signal i = Some si /\ nth_error signal j = Some sj /\ nth_error signal k = Some sk /\
    i <> j /\ i <> k /\ j <> k /\
    (* i, j, k are the three nearest grid nodes *)
    dist n gi <= dist n gj <= dist n gk /\
    (forall m g, nth_error grid m = Some g -> m <> i -> m <> j -> dist n gk <= dist n g) /\
    nth_error out p = Some row /\ length row = S /\
    (forall t, (t < S)%nat -> nth t row 0 = a * nth t si 0 + b * nth t sj 0 + c * nth t sk 0) /\
    (* convexity, unless every lstsq coordinate is non-positive (then torch divides 0 by 0) *)
    (let '(x, y, z) := lstsq gi gj gk n in
     dist n gi <= eps \/ 0 < x \/ 0 < y \/ 0 < z ->
     0 <= a /\ 0 <= b /\ 0 <= c /\ a + b + c = 1) /\
    (dist n gi <= eps -> forall t, (t < S)%nat -> nth t row 0 = nth t si 0).
Proof.
  intros HD H3 Hlen. unfold interpolate_BCC.
  destruct (Nat.ltb_spec D 3) as [Hlt|_]; [lia|].
  destruct (Nat.ltb_spec (length grid) 3) as [Hlt|_]; [lia|].
  match goal with |- exists out, mapM ?f nodes = _ /\ _ => set (F := f) end.
  assert (HF : forall n, exists i j k gi gj gk si sj sk a b c row, F n = Ok row /\
    nth_error grid i = Some gi /\ nth_error grid j = Some gj /\ nth_error grid k = Some gk /\
    nth_error signal i = Some si /\ nth_error signal j = Some sj /\ nth_error signal k = Some sk /\
    i <> j /\ i <> k /\ j <> k /\
    dist n gi <= dist n gj <= dist n gk /\
    (forall m g, nth_error grid m = Some g -> m <> i -> m <> j -> dist n gk <= dist n g) /\
    bcc_weights eps (dist n gi) (lstsq gi gj gk n) = (a, b, c) /\
    row = map (fun t => a * nth t si 0 + b * nth t sj 0 + c * nth t sk 0) (seq 0 S)).
  { intros n.
    destruct (ok_top3 T HT (map (fun b => dist n b) grid)) as
      (i & j & k & va & vb & vc & Htop & Hij & Hik & Hjk & Ha & Hb & Hc & Hord & Hrest).
    { rewrite map_length; assumption. }
    apply nth_error_map_inv in Ha as (gi & Hgi & ->).
    apply nth_error_map_inv in Hb as (gj & Hgj & ->).
    apply nth_error_map_inv in Hc as (gk & Hgk & ->).
    assert (Hsig : forall q g, nth_error grid q = Some g -> exists s, nth_error signal q = Some s).
    { intros q g Hq. apply nth_error_Some_lt in Hq. rewrite <- Hlen in Hq.
      destruct (nth_error signal q) eqn:E; [eauto|]. apply nth_error_None in E. lia. }
    destruct (Hsig _ _ Hgi) as [si Hsi]. destruct (Hsig _ _ Hgj) as [sj Hsj].
    destruct (Hsig _ _ Hgk) as [sk Hsk].
    destruct (bcc_weights eps (dist n gi) (lstsq gi gj gk n)) as [[a b] c] eqn:Hw.
    exists i, j, k, gi, gj, gk, si, sj, sk, a, b, c. eexists.
    split; [|repeat split; try eassumption; try lra].
    - unfold F. rewrite Htop, nth_error_map, Hgi, Hgj, Hgk, Hsi, Hsj, Hsk.
      cbn [option_map of_option bind]. rewrite Hw. reflexivity.
    - intros m g Hm Hmi Hmj. apply (Hrest m); try assumption.
      rewrite nth_error_map, Hm. reflexivity. }
  destruct (mapM_ok_all F nodes) as [out Hout].
  { intros n _. destruct (HF n) as (i & j & k & gi & gj & gk & si & sj & sk & a & b & c & row & Hr & _).
    eauto. }
  exists out. split; [assumption|]. split; [apply mapM_length in Hout; assumption|].
  intros p n Hp. destruct (mapM_nth _ _ _ _ _ Hout Hp) as (r & Hr & Hr').
  destruct (HF n) as (i & j & k & gi & gj & gk & si & sj & sk & a & b & c & row & HFn & Hgi & Hgj & Hgk
     & Hsi & Hsj & Hsk & Hij & Hik & Hjk & Hord & Hrest & Hw & Hrow).
  rewrite HFn in Hr. injection Hr as <-.
  exists i, j, k, gi, gj, gk, si, sj, sk, a, b, c, row.
  assert (Hent : forall t, (t < S)%nat -> nth t row 0 = a * nth t si 0 + b * nth t sj 0 + c * nth t sk 0).
  { intros t Ht. apply nth_error_nth. rewrite Hrow, nth_error_map, nth_error_seq by assumption.
    reflexivity. }
  repeat (split; [assumption|]). split.
  { rewrite Hrow, map_length, seq_length; reflexivity. }
  split; [assumption|]. destruct (lstsq gi gj gk n) as [[x y] z]. split.
  - intros Hp'. eapply bcc_weights_convex; eassumption.
  - intros Hle t Ht. rewrite Hent by assumption. rewrite bcc_weights_node in Hw by assumption.
    injection Hw as <- <- <-. ring.
Qed.

(** Fewer than three coordinates, or fewer than three grid nodes. *)
Lemma BCC_few_coordinates {G} T (dist : G -> G -> R) lstsq eps D S nodes grid signal :
  (D < 3)%nat -> nodes <> [] ->
  interpolate_BCC T dist lstsq eps D S nodes grid signal = Err RuntimeError.
Proof.
  intros HD Hn. unfold interpolate_BCC.
  destruct (Nat.ltb_spec D 3) as [_|Hge]; [|lia].
  destruct (Nat.ltb (length grid) 3); [reflexivity|].
  destruct nodes as [|n nodes]; [contradiction|]. cbn [mapM].
  destruct (te_top3 T (map (fun b => dist n b) grid)) as [[i j] k]. reflexivity.
Qed.

Lemma BCC_small_grid {G} T (dist : G -> G -> R) lstsq eps D S nodes grid signal :
  (length grid < 3)%nat ->
  interpolate_BCC T dist lstsq eps D S nodes grid signal = Err RuntimeError.
Proof.
  intros Hn. unfold interpolate_BCC. destruct (Nat.ltb_spec (length grid) 3); [reflexivity|lia].
Qed.

(** A convex combination lies between the extreme signals. *)
Lemma convex_between a b c x y z lo hi :
  0 <= a -> 0 <= b -> 0 <= c -> a + b + c = 1 ->
  lo <= x <= hi -> lo <= y <= hi -> lo <= z <= hi ->
  lo <= a * x + b * y + c * z <= hi.
Proof. intros. assert (E : a = 1 - b - c) by lra. subst a. split; nra. Qed.

(** ** Gaussian *)
Lemma ln2_lit_pos : 0 < ln2_lit.
Proof. unfold ln2_lit. lra. Qed.

Lemma RBF_gauss_alt x w : w <> 0 -> RBF_gauss x w = exp (- (ln2_lit * (x / w) ^ 2)).
Proof. intros Hw. unfold RBF_gauss. f_equal. pose proof ln2_lit_pos. field. lra. Qed.

Lemma RBF_gauss_range x w : 0 < w -> 0 < RBF_gauss x w <= 1.
Proof.
  intros Hw. rewrite RBF_gauss_alt by lra. split; [apply exp_pos|].
  rewrite <- exp_0. pose proof ln2_lit_pos. pose proof (pow2_ge_0 (x / w)).
  assert (0 <= ln2_lit * (x / w) ^ 2) by (apply Rmult_le_pos; lra).
  destruct (Req_dec (ln2_lit * (x / w) ^ 2) 0) as [E|E]; [rewrite E, Ropp_0; lra|].
  left. apply exp_increasing. lra.
Qed.

Lemma RBF_gauss_decr x y w : 0 < w -> Rabs x < Rabs y -> RBF_gauss y w < RBF_gauss x w.
Proof.
  intros Hw H. rewrite !RBF_gauss_alt by lra. apply exp_increasing.
  pose proof ln2_lit_pos. apply Ropp_lt_contravar. apply Rmult_lt_compat_l; [assumption|].
  assert (E : forall z, (z / w) ^ 2 = (Rabs z) ^ 2 * (/ w) ^ 2).
  { intros z. rewrite pow2_abs. unfold Rdiv. ring. }
  rewrite !E. apply Rmult_lt_compat_r.
  - apply pow_lt. apply Rinv_0_lt_compat. assumption.
  - pose proof (Rabs_pos x). nra.
Qed.

Lemma RBF_gauss_even x w : RBF_gauss (- x) w = RBF_gauss x w.
Proof. unfold RBF_gauss. do 3 f_equal. ring. Qed.

Lemma RBF_gauss_0 w : RBF_gauss 0 w = 1.
Proof.
  unfold RBF_gauss. replace (- (0 ^ 2 / (w ^ 2 / ln2_lit))) with 0; [apply exp_0|].
  unfold Rdiv. ring.
Qed.

Lemma RBF_gauss_one_iff x w : 0 < w -> (RBF_gauss x w = 1 <-> x = 0).
Proof.
  intros Hw. split.
  - intros H. destruct (Req_dec x 0) as [E|E]; [assumption|exfalso].
    assert (RBF_gauss x w < RBF_gauss 0 w).
    { apply RBF_gauss_decr; [assumption|]. rewrite Rabs_R0. apply Rabs_pos_lt; assumption. }
    rewrite RBF_gauss_0 in *. lra.
  - intros ->. apply RBF_gauss_0.
Qed.

Lemma fact_S_INR n : INR (fact (S n)) = INR (S n) * INR (fact n).
Proof. rewrite <- mult_INR. reflexivity. Qed.

(** Alternating bounds on exp(-y) for 0 <= y <= 1. *)
Lemma exp_neg_alt y N : 0 <= y <= 1 ->
  sum_f_R0 (tg_alt (fun n => y ^ n / INR (fact n))) (S (2 * N)) <= exp (- y)
  <= sum_f_R0 (tg_alt (fun n => y ^ n / INR (fact n))) (2 * N).
Proof.
  intros Hy. apply alternated_series_ineq.
  - intros n. rewrite fact_S_INR.
    assert (Hf : 0 < INR (fact n)) by apply INR_fact_lt_0.
    assert (Hn : 1 <= INR (S n)) by (rewrite S_INR; pose proof (pos_INR n); lra).
    assert (Hp : 0 <= y ^ n) by (apply pow_le; lra).
    assert (Hi : 0 < / (INR (S n) * INR (fact n))) by (apply Rinv_0_lt_compat, Rmult_lt_0_compat; lra).
    replace (y ^ n / INR (fact n)) with ((y ^ n * INR (S n)) * / (INR (S n) * INR (fact n)))
      by (field; lra).
    unfold Rdiv. apply Rmult_le_compat_r; [lra|]. simpl (y ^ S n). nra.
  - apply cv_speed_pow_fact.
  - pose proof (proj2_sig (exist_exp (- y))) as H.
    unfold exp. destruct (exist_exp (- y)) as [l Hl]. simpl in *.
    unfold exp_in, infinite_sum in H. intros eps He. destruct (H eps He) as [M HM].
    exists M. intros n Hn. specialize (HM n Hn).
    replace (sum_f_R0 (tg_alt (fun n => y ^ n / INR (fact n))) n)
      with (sum_f_R0 (fun i => / INR (fact i) * (- y) ^ i) n); [assumption|].
    apply sum_eq. intros i _. unfold tg_alt. replace (- y) with (-1 * y) by ring.
    rewrite Rpow_mult_distr. unfold Rdiv. ring.
Qed.

Fixpoint factZ (n : nat) : Z :=
  match n with O => 1%Z | S m => (Z.of_nat (S m) * factZ m)%Z end.

Lemma factZ_INR n : INR (fact n) = IZR (factZ n).
Proof.
  induction n as [|n IH]; [reflexivity|]. rewrite fact_S_INR, IH, INR_IZR_INZ, <- mult_IZR.
  reflexivity.
Qed.

Lemma exp_sum_Z y N : sum_f_R0 (tg_alt (fun n => y ^ n / INR (fact n))) N
  = sum_f_R0 (fun n => (-1) ^ n * (y ^ n / IZR (factZ n))) N.
Proof. apply sum_eq. intros i _. unfold tg_alt. rewrite factZ_INR. reflexivity. Qed.

Lemma exp_ln2_lit : 1 / 2 - / 10 ^ 8 < exp (- ln2_lit) < 1 / 2 + / 10 ^ 8.
Proof.
  pose proof (exp_neg_alt ln2_lit 5) as H.
  assert (Hy : 0 <= ln2_lit <= 1) by (unfold ln2_lit; lra). specialize (H Hy).
  rewrite !exp_sum_Z in H. unfold ln2_lit in *.
  cbn [sum_f_R0 Nat.mul Nat.add factZ pow] in H.
  change (Z.of_nat 0) with 0%Z in H.
  repeat match type of H with context [IZR ?z] => 
    let z' := eval vm_compute in z in progress (change (IZR z) with (IZR z') in H) end.
  lra.
Qed.

Lemma RBF_gauss_width w : 0 < w ->
  1 / 2 - / 10 ^ 8 < RBF_gauss w w < 1 / 2 + / 10 ^ 8.
Proof.
  intros Hw. rewrite RBF_gauss_alt by lra. replace (w / w) with 1 by (field; lra).
  replace (ln2_lit * 1 ^ 2) with ln2_lit by ring. apply exp_ln2_lit.
Qed.
