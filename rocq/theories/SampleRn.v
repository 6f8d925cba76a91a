(** The spatial samplers as weighted sums of cells. *)
From Coq Require Import String ZArith.
From Verif Require Import Prelude RMath Mat Repulse RepulseFacts Tensor TensorFacts Functional FunctionalFacts Kernel KernelFacts SepProduct LayersSpec LayersFacts LinFacts.
Open Scope R_scope.

(** Specification of torch.nn.functional.grid_sample (grid.py:5) as a sum of weighted cells. *)
Definition terms := list (R * list Z).
Definition eval (ts : terms) (g : list Z -> R) : R := sumR (map (fun t => fst t * g (snd t)) ts).
Definition mass (ts : terms) : R := sumR (map fst ts).

Lemma eval_app a b g : eval (a ++ b) g = eval a g + eval b g.
Proof. unfold eval. rewrite map_app. induction (map (fun t => fst t * g (snd t)) a) as [|x l IH]; simpl; [ring|]. rewrite IH. ring. Qed.
Lemma mass_app a b : mass (a ++ b) = mass a + mass b.
Proof. unfold mass. rewrite map_app. induction (map fst a) as [|x l IH]; simpl; [ring|]. rewrite IH. ring. Qed.

(** Specification of torch.nn.functional.grid_sample (grid.py:5) as a sum of weighted cells. *)
Fixpoint corner_terms (cs : list R) (w : R) (acc : list Z) : terms :=
  match cs with
  | [] => [(w, rev acc)]
  | c :: cs' => let z := Int_part c in
    corner_terms cs' (w * (IZR (z + 1) - c)) (z :: acc) ++ corner_terms cs' (w * (c - IZR z)) ((z + 1)%Z :: acc)
  end.
Lemma corner_terms_eval cs : forall w acc g, gs_corners cs w acc (fun w z => w * g z) = eval (corner_terms cs w acc) g.
Proof.
  induction cs as [|c cs IH]; intros w acc g; cbn [gs_corners corner_terms].
  - unfold eval. simpl. ring.
  - rewrite eval_app, !IH. reflexivity.
Qed.
Lemma floor_bounds c : IZR (Int_part c) <= c < IZR (Int_part c) + 1.
Proof. destruct (base_Int_part c). lra. Qed.
Lemma corner_terms_mass cs : forall w acc, mass (corner_terms cs w acc) = w.
Proof.
  induction cs as [|c cs IH]; intros w acc; cbn [corner_terms].
  - unfold mass. simpl. ring.
  - rewrite mass_app, !IH, plus_IZR. ring.
Qed.
Lemma corner_terms_nonneg cs : forall w acc t, 0 <= w -> In t (corner_terms cs w acc) -> 0 <= fst t.
Proof.
  induction cs as [|c cs IH]; intros w acc t Hw Ht; cbn [corner_terms] in Ht.
  - destruct Ht as [<-|[]]. exact Hw.
  - pose proof (floor_bounds c). apply in_app_iff in Ht. destruct Ht as [Ht|Ht]; eapply IH; try exact Ht; apply Rmult_le_pos; rewrite ?plus_IZR; lra.
Qed.
Lemma corner_terms_length cs : forall w acc t, In t (corner_terms cs w acc) -> List.length (snd t) = (List.length acc + List.length cs)%nat.
Proof.
  induction cs as [|c cs IH]; intros w acc t Ht; cbn [corner_terms] in Ht.
  - destruct Ht as [<-|[]]. simpl. rewrite rev_length. lia.
  - apply in_app_iff in Ht. destruct Ht as [Ht|Ht]; apply IH in Ht; rewrite Ht; simpl; lia.
Qed.

(** Specification of torch.nn.functional.grid_sample (grid.py:5) as a sum of weighted cells. *)
Definition all_in (s : list nat) (z : list Z) : Prop := Forall2 (fun n x => in_range n x = true) s z.
Lemma in_range_iff n z : in_range n z = true <-> (0 <= z < Z.of_nat n)%Z.
Proof. unfold in_range. rewrite andb_true_iff, Z.leb_le, Z.ltb_lt. reflexivity. Qed.
(** Cells outside the image have weight 0 when all coordinates are inside. *)
Lemma corner_terms_inside cs : forall s s0 w acc t, Forall2 (fun n c => 0 <= c <= INR n - 1) s cs ->
  all_in s0 (rev acc) -> In t (corner_terms cs w acc) -> fst t = 0 \/ all_in (s0 ++ s) (snd t).
Proof.
  induction cs as [|c cs IH]; intros s s0 w acc t HF Ha Ht; cbn [corner_terms] in Ht.
  - inversion HF; subst. destruct Ht as [<-|[]]. right. rewrite app_nil_r. exact Ha.
  - inversion HF as [|n ? s' ? Hc HF']; subst. pose proof (floor_bounds c) as [F1 F2].
    assert (forall z, in_range n z = true -> all_in (s0 ++ [n]) (rev (z :: acc))) as K.
    { intros z Hz. simpl. apply Forall2_app; [exact Ha|]. constructor; [exact Hz|constructor]. }
    assert (in_range n (Int_part c) = true) as I0.
    { apply in_range_iff. split.
      - apply Z.lt_succ_r. apply lt_IZR. rewrite succ_IZR. lra.
      - apply lt_IZR. rewrite <- INR_IZR_INZ. lra. }
    assert (c - IZR (Int_part c) = 0 \/ in_range n (Int_part c + 1) = true) as I1.
    { destruct (Req_dec (c - IZR (Int_part c)) 0) as [E|E]; [left; exact E|right]. apply in_range_iff in I0. apply in_range_iff. split; [lia|].
      apply lt_IZR. rewrite plus_IZR, <- INR_IZR_INZ. destruct (Z.eq_dec (Int_part c + 1) (Z.of_nat n)) as [Q|Q].
      - exfalso. apply (f_equal IZR) in Q. rewrite plus_IZR, <- INR_IZR_INZ in Q. lra.
      - rewrite <- plus_IZR, INR_IZR_INZ. apply IZR_lt. lia. }
    assert (forall zs, all_in ((s0 ++ [n]) ++ s') zs -> all_in (s0 ++ n :: s') zs) as K' by (intros zs; rewrite <- app_assoc; auto).
    apply in_app_iff in Ht. destruct Ht as [Ht|Ht].
    + destruct (IH s' (s0 ++ [n]) _ _ t HF' (K _ I0) Ht) as [|]; [left; assumption|right; apply K'; assumption].
    + destruct I1 as [E|I1].
      * left. rewrite E, Rmult_0_r in Ht. clear - Ht. revert Ht. generalize ((Int_part c + 1)%Z :: acc). revert t.
        induction cs as [|d cs IH]; intros t l Ht; cbn [corner_terms] in Ht; [destruct Ht as [<-|[]]; reflexivity|].
        rewrite !Rmult_0_l in Ht. apply in_app_iff in Ht. destruct Ht as [Ht|Ht]; exact (IH _ _ Ht).
      * destruct (IH s' (s0 ++ [n]) _ _ t HF' (K _ I1) Ht) as [|]; [left; assumption|right; apply K'; assumption].
Qed.

(** The image as a linear functional of its entries. *)
Lemma gs_read_linear s z : List.length z = List.length s ->
  exists coef, forall im, gs_read s im z = total (map (fun i => coef i * at_ (mkT s im) i) (indices s)).
Proof.
  intros Hl. unfold gs_read. destruct (forallb _ (combine s z)) eqn:E.
  - assert (valid s (map Z.to_nat z)) as V.
    { revert z Hl E. induction s as [|n s IH]; intros [|x z] Hl E; try discriminate; [apply valid_nil|]. simpl in E. apply andb_true_iff in E. destruct E as [E1 E2].
      apply in_range_iff in E1. cbn [map]. apply valid_cons; [lia|]. apply IH; [simpl in Hl; lia|exact E2]. }
    destruct (linear_read (indices s) (map Z.to_nat z) (indices_NoDup s) (proj2 (in_indices _ _) V)) as [c Hc]. exists c. intros im. exact (Hc (fun i => at_ (mkT s im) i)).
  - exists (fun _ => 0). intros im. symmetry. apply sumR_zero. intros. ring.
Qed.
Lemma eval_read_linear s ts : (forall t, In t ts -> List.length (snd t) = List.length s) ->
  exists coef, forall im, eval ts (gs_read s im) = total (map (fun i => coef i * at_ (mkT s im) i) (indices s)).
Proof.
  induction ts as [|t ts IH]; intros H.
  - exists (fun _ => 0). intros im. symmetry. apply sumR_zero. intros. ring.
  - destruct IH as [c Hc]; [intros; apply H; right; assumption|]. destruct (gs_read_linear s (snd t) (H t (or_introl eq_refl))) as [c' Hc'].
    exists (fun i => fst t * c' i + c i). intros im. unfold eval in *. cbn [map sumR]. rewrite Hc, Hc'. change total with sumR.
    rewrite <- sumR_scale, <- sumR_plus. apply sumR_ext. intros. ring.
Qed.
Lemma all_in_forallb s z : all_in s z -> forallb (fun nz => in_range (fst nz) (snd nz)) (combine s z) = true.
Proof. induction 1 as [|n x s z Hx H IH]; [reflexivity|]. simpl. rewrite Hx. exact IH. Qed.
Lemma all_in_valid s z : all_in s z -> valid s (map Z.to_nat z).
Proof. induction 1 as [|n x s z Hx H IH]; [apply valid_nil|]. cbn [map]. apply in_range_iff in Hx. apply valid_cons; [lia|exact IH]. Qed.
Lemma gs_read_in s im z : all_in s z -> gs_read s im z = at_ (mkT s im) (map Z.to_nat z).
Proof. intros H. unfold gs_read. rewrite (all_in_forallb _ _ H). reflexivity. Qed.

Lemma eval_const s im c ts : (forall i, valid s i -> at_ (mkT s im) i = c) -> (forall t, In t ts -> fst t = 0 \/ all_in s (snd t)) ->
  eval ts (gs_read s im) = mass ts * c.
Proof.
  intros Hc. induction ts as [|t ts IH]; intros H; unfold eval, mass in *; cbn [map sumR]; [ring|]. rewrite IH by (intros; apply H; right; assumption).
  destruct (H t (or_introl eq_refl)) as [E|E]; [rewrite E; ring|]. rewrite (gs_read_in _ _ _ E), Hc by (apply all_in_valid; exact E). ring.
Qed.
Lemma gs_read_bounds s im z lo hi : lo <= 0 <= hi -> List.length z = List.length s -> (forall i, valid s i -> lo <= at_ (mkT s im) i <= hi) -> lo <= gs_read s im z <= hi.
Proof.
  intros H0 Hl H. unfold gs_read. destruct (forallb _ (combine s z)) eqn:E; [|exact H0]. apply H.
  revert z Hl E. clear H. induction s as [|n s IH]; intros [|x z] Hl E; try discriminate; [apply valid_nil|]. simpl in E. apply andb_true_iff in E. destruct E as [E1 E2].
  apply in_range_iff in E1. cbn [map]. apply valid_cons; [lia|]. apply IH; [simpl in Hl; lia|exact E2].
Qed.

(** ** Coordinates *)
Lemma place_bounds pm n u : pm <> GsZeros -> (0 < n)%nat -> 0 <= gs_place pm n u <= INR n - 1.
Proof.
  intros Hp Hn. assert (0 <= INR n - 1) by (apply (le_INR 1) in Hn; simpl in Hn; lra). destruct pm; [congruence| |]; apply clamp_bounds; assumption.
Qed.
Lemma Int_part_inside n c : 0 <= c <= INR n - 1 -> in_range n (Int_part c) = true.
Proof.
  intros Hc. pose proof (floor_bounds c) as [F1 F2]. apply in_range_iff. split.
  - apply Z.lt_succ_r. apply lt_IZR. rewrite succ_IZR. lra.
  - apply lt_IZR. rewrite <- INR_IZR_INZ. lra.
Qed.
Lemma rne_inside n c : 0 <= c <= INR n - 1 -> in_range n (rne c) = true.
Proof.
  intros Hc. pose proof (floor_bounds c) as [F1 F2]. pose proof (Int_part_inside n c Hc) as I. apply in_range_iff in I.
  assert (0 < c - IZR (Int_part c) -> in_range n (Int_part c + 1) = true) as K.
  { intros Hp. apply in_range_iff. split; [lia|]. destruct (Z.eq_dec (Int_part c + 1) (Z.of_nat n)) as [Q|Q]; [|lia].
    exfalso. apply (f_equal IZR) in Q. rewrite plus_IZR, <- INR_IZR_INZ in Q. lra. }
  unfold rne. destruct (Rlt_dec _ (1 / 2)); [apply in_range_iff; exact I|]. destruct (Rlt_dec (1 / 2) _); [apply K; lra|].
  destruct (Z.even _); [apply in_range_iff; exact I|apply K; lra].
Qed.

(** ** The samplers *)
(** Terms of a sampler at a point, independent of the image. *)
(** Specification of torch.nn.functional.grid_sample (grid.py:5) as a sum of weighted cells. *)
Definition has_terms {P} (smp : sampler P) (s : list nat) (v : P) (ts : terms) : Prop := forall im, smp s im v = eval ts (gs_read s im).
Definition linear_terms (pm : gs_padding) (s : list nat) (u : list R) : terms := corner_terms (map2 (fun n x => gs_coord pm n x) s u) 1 [].
Definition nearest_terms (pm : gs_padding) (s : list nat) (u : list R) : terms := [(1, map2 (fun n x => rne (gs_coord pm n x)) s u)].
Definition cubic_terms (pm : gs_padding) (s : list nat) (u : list R) : terms :=
  let n0 := nth 0 s 0%nat in
  let n1 := nth 1 s 0%nat in
  let c0 := gs_unnormalize n0 (nth 0 u 0) in
  let c1 := gs_unnormalize n1 (nth 1 u 0) in
  let z0 := Int_part c0 in
  let z1 := Int_part c1 in
  flat_map (fun p => map (fun q => (fst p * fst q, [gs_cell pm n0 (z0 + snd p); gs_cell pm n1 (z1 + snd q)]))
      (combine (cubic_coeffs (c1 - IZR z1)) [-1; 0; 1; 2]%Z))
    (combine (cubic_coeffs (c0 - IZR z0)) [-1; 0; 1; 2]%Z).
Lemma linear_has_terms pm s im u : gs_linear pm s im u = eval (linear_terms pm s u) (gs_read s im).
Proof. unfold gs_linear, linear_terms. apply corner_terms_eval. Qed.
Lemma nearest_has_terms pm s im u : gs_nearest pm s im u = eval (nearest_terms pm s u) (gs_read s im).
Proof. unfold gs_nearest, nearest_terms, eval. simpl. ring. Qed.
Lemma cubic_has_terms pm s im u : gs_cubic pm s im u = eval (cubic_terms pm s u) (gs_read s im).
Proof.
  unfold gs_cubic, cubic_terms, eval. cbv zeta.
  set (c0 := gs_unnormalize (nth 0 s 0%nat) _). set (c1 := gs_unnormalize (nth 1 s 0%nat) _).
  unfold cubic_coeffs. generalize (c0 - IZR (Int_part c0)) (c1 - IZR (Int_part c1)). intros t0 t1.
  cbn [map2 combine flat_map map app fold_right sumR fst snd]. ring.
Qed.

Lemma cubic_unity t : cubic2 (t + 1) + cubic1 t + cubic1 (1 - t) + cubic2 (2 - t) = 1.
Proof. unfold cubic1, cubic2. field. Qed.

Lemma in_range_cell pm n z : pm <> GsZeros -> (0 < n)%nat -> in_range n (gs_cell pm n z) = true.
Proof. intros Hp Hn. unfold gs_cell. apply Int_part_inside. apply place_bounds; assumption. Qed.

Lemma cubic_terms_shape pm a b u t : In t (cubic_terms pm [a; b] u) -> exists z y, snd t = [gs_cell pm a z; gs_cell pm b y].
Proof.
  unfold cubic_terms. cbv zeta. intros Ht. apply in_flat_map in Ht. destruct Ht as (p & _ & Ht). apply in_map_iff in Ht. destruct Ht as (q & <- & _).
  cbn [snd nth]. eexists. eexists. reflexivity.
Qed.
Lemma cubic_terms_mass pm s u : mass (cubic_terms pm s u) = 1.
Proof.
  unfold cubic_terms, mass. cbv zeta. unfold cubic_coeffs.
  generalize (gs_unnormalize (nth 0 s 0%nat) (nth 0 u 0) - IZR (Int_part (gs_unnormalize (nth 0 s 0%nat) (nth 0 u 0)))).
  generalize (gs_unnormalize (nth 1 s 0%nat) (nth 1 u 0) - IZR (Int_part (gs_unnormalize (nth 1 s 0%nat) (nth 1 u 0)))).
  intros t1 t0. cbn [combine flat_map map app sumR fst snd].
  transitivity ((cubic2 (t0 + 1) + cubic1 t0 + cubic1 (1 - t0) + cubic2 (2 - t0)) * (cubic2 (t1 + 1) + cubic1 t1 + cubic1 (1 - t1) + cubic2 (2 - t1))); [ring|].
  rewrite !cubic_unity. ring.
Qed.

(** What is common to the samplers. *)
(** Specification of torch.nn.functional.grid_sample (grid.py:5) as a sum of weighted cells. *)
Record good_terms (zeros cubic : bool) (s : list nat) (ts : terms) : Prop := {
  gt_length : forall t, In t ts -> List.length (snd t) = List.length s;
  gt_mass : mass ts = 1;
  gt_inside : zeros = false -> (forall n, In n s -> (0 < n)%nat) -> forall t, In t ts -> fst t = 0 \/ all_in s (snd t);
  gt_nonneg : cubic = false -> forall t, In t ts -> 0 <= fst t }.

Lemma map2_length {A B C} (f : A -> B -> C) l l' : List.length l = List.length l' -> List.length (map2 f l l') = List.length l.
Proof. revert l'. induction l as [|a l IH]; intros [|b l'] E; try discriminate; [reflexivity|]. simpl. f_equal. apply IH. simpl in E. lia. Qed.
Lemma coords_bounds pm s u : List.length s = List.length u -> pm <> GsZeros -> (forall n, In n s -> (0 < n)%nat) ->
  Forall2 (fun n c => 0 <= c <= INR n - 1) s (map2 (fun n x => gs_coord pm n x) s u).
Proof.
  revert u. induction s as [|n s IH]; intros [|x u] El Hp Hn; try discriminate; [constructor|]. simpl. constructor.
  - apply place_bounds; [exact Hp|apply Hn; left; reflexivity].
  - apply IH; [simpl in El; lia|exact Hp|intros; apply Hn; right; assumption].
Qed.
(** Specification of torch.nn.functional.grid_sample (grid.py:5) as a sum of weighted cells. *)
Definition is_zeros (pm : gs_padding) : bool := match pm with GsZeros => true | _ => false end.
Lemma linear_good pm s u : List.length s = List.length u -> good_terms (is_zeros pm) false s (linear_terms pm s u).
Proof.
  intros El. unfold linear_terms. constructor.
  - intros t Ht. apply corner_terms_length in Ht. rewrite Ht, map2_length by exact El. reflexivity.
  - apply corner_terms_mass.
  - intros Hz Hn t Ht. refine (corner_terms_inside (map2 (fun n x => gs_coord pm n x) s u) s [] 1 [] t _ _ Ht); [|constructor]. apply coords_bounds; [exact El|destruct pm; discriminate|exact Hn].
  - intros _ t Ht. apply (corner_terms_nonneg _ _ _ _ Rle_0_1 Ht).
Qed.
Lemma nearest_good pm s u : List.length s = List.length u -> good_terms (is_zeros pm) false s (nearest_terms pm s u).
Proof.
  intros El. unfold nearest_terms. constructor.
  - intros t [<-|[]]. simpl. apply map2_length. exact El.
  - unfold mass. simpl. ring.
  - intros Hz Hn t [<-|[]]. right. simpl. assert (pm <> GsZeros) as Hp by (destruct pm; discriminate). pose proof (coords_bounds pm s u El Hp Hn) as F.
    clear Hn Hz. revert u El F. induction s as [|n s IH]; intros [|x u] El F; try discriminate; [constructor|]. simpl in F |- *. inversion F; subst.
    constructor; [apply rne_inside; assumption|]. apply IH; [simpl in El; lia|assumption].
  - intros _ t [<-|[]]. simpl. lra.
Qed.
Lemma cubic_good pm a b u : good_terms (is_zeros pm) true [a; b] (cubic_terms pm [a; b] u).
Proof.
  constructor.
  - intros t Ht. destruct (cubic_terms_shape _ _ _ _ _ Ht) as (z & y & ->). reflexivity.
  - apply cubic_terms_mass.
  - intros Hz Hn t Ht. right. destruct (cubic_terms_shape _ _ _ _ _ Ht) as (z & y & ->). assert (pm <> GsZeros) as Hp by (destruct pm; discriminate).
    repeat constructor; apply in_range_cell; try exact Hp; apply Hn; simpl; auto.
  - discriminate.
Qed.

Lemma bind_ok {A B} (m : result A) (f : A -> result B) b : bind m f = Ok b -> exists a, m = Ok a /\ f a = Ok b.
Proof. destruct m as [a|e]; [|discriminate]. intros E. exists a. split; [reflexivity|exact E]. Qed.
Lemma gs_pad_zeros pm p : gs_pad pm = Ok p -> (is_zeros p = true <-> pm = "zeros"%string).
Proof.
  unfold gs_pad. destruct (String.eqb_spec pm "zeros"); [intros [= <-]; subst; simpl; tauto|].
  destruct (String.eqb_spec pm "border"); [intros [= <-]; simpl; split; [discriminate|tauto]|].
  destruct (String.eqb_spec pm "reflection"); [intros [= <-]; simpl; split; [discriminate|tauto]|discriminate].
Qed.
Lemma sample2_good mode pm smp : sample_R2 mode pm = Ok smp -> forall a b v, exists ts z q, has_terms smp [a; b] v ts /\
  good_terms z q [a; b] ts /\ (z = true <-> pm = "zeros"%string) /\ (q = true <-> mode = "bicubic"%string).
Proof.
  unfold sample_R2. intros E a b v. destruct (String.eqb_spec mode "bicubic") as [->|Hm].
  - apply bind_ok in E. destruct E as (p & E1 & E). injection E as <-. exists (cubic_terms p [a; b] (axis2 v)), (is_zeros p), true.
    split; [intros im; apply cubic_has_terms|]. split; [apply cubic_good|]. split; [apply gs_pad_zeros; exact E1|tauto].
  - apply bind_ok in E. destruct E as (l & _ & E). apply bind_ok in E. destruct E as (p & E1 & E). injection E as <-.
    exists (if l then linear_terms p [a; b] (axis2 v) else nearest_terms p [a; b] (axis2 v)), (is_zeros p), false.
    split; [intros im; unfold gs2; destruct l; [apply linear_has_terms|apply nearest_has_terms]|].
    split; [destruct l; [apply linear_good|apply nearest_good]; reflexivity|]. split; [apply gs_pad_zeros; exact E1|].
    split; [discriminate|intros Q; contradiction].
Qed.
Lemma sample3_good mode pm smp : sample_R3 mode pm = Ok smp -> forall a b c v, exists ts z, has_terms smp [a; b; c] v ts /\
  good_terms z false [a; b; c] ts /\ (z = true <-> pm = "zeros"%string).
Proof.
  unfold sample_R3. intros E a b c v. destruct (String.eqb_spec mode "bicubic") as [->|Hm].
  - apply bind_ok in E. destruct E as (p & _ & E). discriminate.
  - apply bind_ok in E. destruct E as (l & _ & E). apply bind_ok in E. destruct E as (p & E1 & E). injection E as <-.
    exists (if l then linear_terms p [a; b; c] (axis3 v) else nearest_terms p [a; b; c] (axis3 v)), (is_zeros p).
    split; [intros im; unfold gs3; destruct l; [apply linear_has_terms|apply nearest_has_terms]|].
    split; [destruct l; [apply linear_good|apply nearest_good]; reflexivity|]. apply gs_pad_zeros; exact E1.
Qed.

Lemma eval_bounds s im lo hi ts : (forall t, In t ts -> 0 <= fst t) ->
  (forall t, In t ts -> fst t = 0 \/ lo <= gs_read s im (snd t) <= hi) ->
  mass ts * lo <= eval ts (gs_read s im) <= mass ts * hi.
Proof.
  induction ts as [|t ts IH]; intros Hn H; unfold eval, mass in *; cbn [map sumR]; [lra|].
  assert (sumR (map fst ts) * lo <= sumR (map (fun t => fst t * gs_read s im (snd t)) ts) <= sumR (map fst ts) * hi) as K.
  { apply IH; intros; [apply Hn|apply H]; right; assumption. }
  pose proof (Hn t (or_introl eq_refl)) as Hp. destruct (H t (or_introl eq_refl)) as [E|[E1 E2]].
  - rewrite E. lra.
  - pose proof (Rmult_le_compat_l _ _ _ Hp E1). pose proof (Rmult_le_compat_l _ _ _ Hp E2). lra.
Qed.

Section Consequences.
Context {P : Type} (smp : sampler P) (s : list nat) (v : P) (ts : terms) (z q : bool).
Hypothesis HT : has_terms smp s v ts.
Hypothesis HG : good_terms z q s ts.

Lemma good_linear : exists coef, forall im, smp s im v = total (map (fun i => coef i * at_ (mkT s im) i) (indices s)).
Proof. destruct (eval_read_linear s ts (gt_length _ _ _ _ HG)) as [c Hc]. exists c. intros im. rewrite HT. apply Hc. Qed.
Lemma good_const im c : z = false -> (forall n, In n s -> (0 < n)%nat) -> (forall i, valid s i -> at_ (mkT s im) i = c) -> smp s im v = c.
Proof. intros Hz Hn Hc. rewrite HT, (eval_const s im c ts Hc (gt_inside _ _ _ _ HG Hz Hn)), (gt_mass _ _ _ _ HG). ring. Qed.
Lemma good_bounds im lo hi : q = false -> (z = true -> lo <= 0 <= hi) -> (forall n, In n s -> (0 < n)%nat) ->
  (forall i, valid s i -> lo <= at_ (mkT s im) i <= hi) -> lo <= smp s im v <= hi.
Proof.
  intros Hq Hz Hn H. rewrite HT. pose proof (eval_bounds s im lo hi ts (gt_nonneg _ _ _ _ HG Hq)) as K. rewrite (gt_mass _ _ _ _ HG), !Rmult_1_l in K.
  apply K. intros t Ht. destruct z eqn:Ez.
  - right. apply gs_read_bounds; [apply Hz; reflexivity|apply (gt_length _ _ _ _ HG); exact Ht|exact H].
  - destruct (gt_inside _ _ _ _ HG eq_refl Hn t Ht) as [E|E]; [left; exact E|right]. rewrite (gs_read_in _ _ _ E). apply H. apply all_in_valid. exact E.
Qed.
End Consequences.
