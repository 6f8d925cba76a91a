(** Property theorems C94: saving, loading and sharing the SE(2), E(2) and E(3) layers (C72 is the same for SE(3)).

    The claims are in SavingSpec.v; a class is given by its constructor ([made_SE2], [made_E2], [made_E3]: the three classes of
    gconv_se2.py, gconv_e2.py, gconv_e3.py), by what its forwards do with the output grid, and by the shapes of its grids: (n, 1) angles,
    (n, 2) for O(2), (n, 10) for O(3). *)
From Coq Require Import String ZArith.
From Verif Require Import Prelude RMath Mat Interp InterpExample Repulse SO2 SO3 O2 O3 Tensor TensorFacts Functional Kernel KernelMore Conv Public Network Saving SavingFacts SavingMade SavingSpec SavingClaims.
Open Scope R_scope.

(** Restoring. In SE(2) and E(2) nothing is excluded: also a derived bandwidth is restored, because there it depends on the number of elements
    only. In E(3) the layers must use nearest, or be lifting layers, or the bandwidths (given, or derived from the construction grids) agree. *)
Theorem C94_SE2_restores : restores SEn so2_left_apply_angle 1 2 made_SE2 (fun _ _ _ _ => True).
Proof. apply (restores_gen _ _ _ _ _ fills_SE2 alike_SE2). intros. eapply refill_SE2; eassumption. Qed.
Print Assumptions C94_SE2_restores.
Theorem C94_E2_restores : restores En o2_left_apply_angle 2 2 made_E2 (fun _ _ _ _ => True).
Proof. apply (restores_gen _ _ _ _ _ fills_E2 alike_E2). intros. eapply refill_E2; eassumption. Qed.
Print Assumptions C94_E2_restores.
Theorem C94_E3_restores : restores En o3_left_apply_O3 10 3 made_E3 (fun kd A g g0 =>
  kd = KLifting \/ s_gmode A = "nearest"%string \/
  width_E3_rot (s_rot A) (pair_rot (s_gks A)) g = width_E3_rot (s_rot A) (pair_rot (s_gks A)) g0 /\
  width_E3_ref (s_ref A) (pair_rot (s_gks A)) g = width_E3_ref (s_ref A) (pair_rot (s_gks A)) g0).
Proof. apply (restores_gen _ _ _ _ _ fills_E3 alike_E3). intros kd A g g' fb fb' M M' H H' _ Hs. exact (refill_E3 kd A g g' fb fb' M M' H H' Hs). Qed.
Print Assumptions C94_E3_restores.

Theorem C94_layers_roll_back :
  rolls_back SEn so2_left_apply_angle 1 2 made_SE2 /\ rolls_back En o2_left_apply_angle 2 2 made_E2 /\ rolls_back En o3_left_apply_O3 10 3 made_E3.
Proof. split; [|split]; [exact (rolls_back_gen _ _ _ _ _ fills_SE2 alike_SE2)|exact (rolls_back_gen _ _ _ _ _ fills_E2 alike_E2)|exact (rolls_back_gen _ _ _ _ _ fills_E3 alike_E3)]. Qed.
Print Assumptions C94_layers_roll_back.

Theorem C94_loads_are_entrywise : loads_entrywise 1 2 made_SE2 /\ loads_entrywise 2 2 made_E2 /\ loads_entrywise 10 3 made_E3.
Proof. split; [|split]; [exact (loads_entrywise_gen _ _ _ fills_SE2)|exact (loads_entrywise_gen _ _ _ fills_E2)|exact (loads_entrywise_gen _ _ _ fills_E3)]. Qed.
Print Assumptions C94_loads_are_entrywise.

Theorem C94_layers_are_isolated :
  isolates SEn so2_left_apply_angle 1 2 made_SE2 /\ isolates En o2_left_apply_angle 2 2 made_E2 /\ isolates En o3_left_apply_O3 10 3 made_E3.
Proof. split; [|split]; [exact (isolates_gen _ _ _ _ _ fills_SE2)|exact (isolates_gen _ _ _ _ _ fills_E2)|exact (isolates_gen _ _ _ _ _ fills_E3)]. Qed.
Print Assumptions C94_layers_are_isolated.

Theorem C94_layers_own_their_tensors : owns_its_tensors 1 2 made_SE2 /\ owns_its_tensors 2 2 made_E2 /\ owns_its_tensors 10 3 made_E3.
Proof. split; [|split]; [exact (owns_gen _ _ _ fills_SE2)|exact (owns_gen _ _ _ fills_E2)|exact (owns_gen _ _ _ fills_E3)]. Qed.
Print Assumptions C94_layers_own_their_tensors.

Theorem C94_training_changes_parameters_only : trains_parameters_only 1 2 made_SE2 /\ trains_parameters_only 2 2 made_E2 /\ trains_parameters_only 10 3 made_E3.
Proof. split; [|split]; [exact (trains_gen _ _ _ fills_SE2)|exact (trains_gen _ _ _ fills_E2)|exact (trains_gen _ _ _ fills_E3)]. Qed.
Print Assumptions C94_training_changes_parameters_only.

(** What is saved. In SE(2) there always is a mask, whatever the mask argument; in E(2) and E(3) the weights have as many group elements as
    group_kernel_size says, which the length of a given grid need not be. *)
Theorem C94_what_is_saved :
  saves_these 1 2 made_SE2 (fun _ => true) (fun _ n => n) /\
  saves_these 2 2 made_E2 s_mask (fun A _ => (pair_rot (s_gks A) + pair_ref (s_gks A))%nat) /\
  saves_these 10 3 made_E3 s_mask (fun A _ => (pair_rot (s_gks A) + pair_ref (s_gks A))%nat).
Proof.
  split; [|split]; [apply (saves_gen _ _ _ fills_SE2)|apply (saves_gen _ _ _ fills_E2)|apply (saves_gen _ _ _ fills_E3)]; intros kd A g fb M H.
  - apply made_SE2_inv in H as (w & -> & _). alike. cbn [fold_right]. rewrite Nat.add_0_r. destruct kd; repeat split.
  - apply made_E2_inv in H as (w & v & -> & _). alike. cbn [fold_right]. rewrite Nat.add_0_r. destruct kd, (s_mask A); repeat split.
  - apply made_E3_inv in H as (w & v & -> & _). alike. cbn [fold_right]. rewrite Nat.add_0_r. destruct kd, (s_mask A); repeat split.
Qed.
Print Assumptions C94_what_is_saved.

(** E(3), group layers, every load of a file of an equally made layer: the two bandwidths stay those of the grid the loading layer was
    constructed with; they are no entries of the file. *)
Theorem C94_E3_bandwidths_stay : forall acts0 y0 acts y s' r,
  In y0 (layers 10 3 made_E3 acts0) -> In y (layers 10 3 made_E3 acts) -> o_kind y = o_kind y0 -> o_kind y <> KLifting -> o_args y = o_args y0 ->
  load 10 3 (memory 10 3 made_E3 acts) y (stored (memory 10 3 made_E3 acts0) y0) = (s', r) ->
  let A := o_args y in let n := pair_rot (s_gks A) in
  exists rw fw M, width_E3_rot (s_rot A) n (built_with y) = Ok rw /\ width_E3_ref (s_ref A) n (built_with y) = Ok fw /\
    current s' y = Ok M /\ k_ops (l_kernel (gm_layer M)) = ops_E3 (s_env A) (s_gmode A) rw fw n (pair_ref (s_gks A)) (s_mode A) (s_pm A) /\
    (List.length (built_with y) = List.length (built_with y0) -> GGrid (kernel_grid M) = contents (memory 10 3 made_E3 acts0) (o_grid_H y0)).
Proof.
  intros acts0 y0 acts y s' r H0 H Ek Hk EA E A n.
  pose proof (layer_fine 10 3 made_E3 fills_E3 _ _ H0) as L0. pose proof (layer_fine 10 3 made_E3 fills_E3 _ _ H) as L.
  assert (L1 : layer_ok 10 3 made_E3 s' y).
  { eapply layer_ok_evolved; [exact L|]. pose proof (load_frame 10 3 (memory 10 3 made_E3 acts) y (stored (memory 10 3 made_E3 acts0) y0)) as F. rewrite E in F. apply F. }
  destruct L as (_ & _ & g & fb & Ha). destruct (fills_E3 _ _ _ _ _ Ha) as [Hg _]. destruct (made_E3_inv _ _ _ _ _ Ha) as (rw & fw & EM & Hw).
  destruct (current_ok 10 3 made_E3 s' y L1) as (gr & sp & mk & b & Eg & Ec).
  exists rw, fw, (refilled (o_attr y) gr sp mk b). unfold built_with, kernel_grid. rewrite Hg.
  assert (Hw' : width_E3_rot (s_rot A) n g = Ok rw /\ width_E3_ref (s_ref A) n g = Ok fw) by (destruct (o_kind y); [contradiction|exact Hw|exact Hw]).
  split; [apply Hw'|]. split; [apply Hw'|]. split; [exact Ec|]. split.
  - rewrite EM. cbn. destruct (o_kind y); [contradiction|reflexivity|reflexivity].
  - intros El. assert (El' : List.length (kernel_grid (o_attr y)) = List.length (kernel_grid (o_attr y0))) by (unfold kernel_grid; rewrite Hg; exact El).
    destruct (load_stored 10 3 made_E3 fills_E3 alike_E3 (memory 10 3 made_E3 acts) _ y y0 (layer_fine 10 3 made_E3 fills_E3 _ _ H) L0 Ek EA El') as (s1 & E1 & Es).
    rewrite E in E1. injection E1 as <- _. destruct (stored_parts _ _ _ _ Es) as (P & _). unfold contents. rewrite <- P, Eg. reflexivity.
Qed.
Print Assumptions C94_E3_bandwidths_stay.

(** ** Examples *)
Definition f0 (_ : list nat) : R := 0.
Definition f1 (_ : list nat) : R := 1.
Definition exA (gks : pair_arg) (gmode : string) (rot : R) : sargs :=
  mkSArgs ex_env 2 4 3 gks 2%Z 1 (PStr "same") 1 "zeros" true true gmode rot 1 "bilinear" "border" true.
Lemma given_width w nn : w <> 0 -> default_width w nn = Ok w.
Proof. intros H. unfold default_width. destruct (Req_EM_T w 0); [contradiction|reflexivity]. Qed.
Lemma width1 nn : default_width 1 nn = Ok 1.
Proof. apply given_width. lra. Qed.

(** The first two layers share a given grid, the third has a default one; a load into the third spares the first, one into the second does not. *)
Definition three {G P} (A : sargs) (g : list G) : list (@action G P) :=
  [ATensor (GGrid g); ANew KFull A (inl 0%nat) f0 f1 f0; ANew KSeparable A (inl 0%nat) f0 f1 f0; ANew KLifting A (inr g) f0 f1 f0].
Lemma three_layers {G P} {D : Dflt P} edim d (make : kind -> sargs -> list G -> (list nat -> R) -> result (gmodule G P)) A g :
  (forall kd, exists M, make kd A g f0 = Ok M) ->
  (forall kd A g fb M, make kd A g fb = Ok M -> k_grid_H (l_kernel (gm_layer M)) = g /\ l_bias (gm_layer M) = new_bias d A fb) ->
  exists y1 y2 y3, layers edim d make (three A g) = [y1; y2; y3] /\ o_grid_H y1 = o_grid_H y2 /\ o_grid_H y1 <> o_grid_H y3 /\
    o_kind y1 = KFull /\ o_kind y2 = KSeparable /\ o_kind y3 = KLifting /\ o_args y1 = A /\
    (forall f, spares (execute edim d make (three A g)) (ALoad 2 f) 0 y1) /\ (forall f, ~ spares (execute edim d make (three A g)) (ALoad 1 f) 0 y1) /\
    contents (memory edim d make (three A g)) (o_grid_H y1) = GGrid g.
Proof.
  intros HM HF. destruct (HM KFull) as [M1 E1]. destruct (HM KSeparable) as [M2 E2]. destruct (HM KLifting) as [M3 E3].
  assert (N : forall s kd l grid, (exists M, make kd A g f0 = Ok M) -> (match grid with inl l => nth l s (GSpace (mkT [] [])) = GGrid g /\ (l < List.length s)%nat | inr g' => g' = g end) ->
     l = snd (grid_stage s grid) -> exists y t, construct make s kd A grid f0 f1 f0 = (s ++ t, Ok y) /\ o_grid_H y = l /\ o_kind y = kd /\ o_args y = A).
  { intros s kd l grid [M EM] Hg Hl. destruct (construct make s kd A grid f0 f1 f0) as [s' r] eqn:E.
    destruct (construct_app make s kd A grid f0 f1 f0) as [t Ht]. rewrite E in Ht. cbn [fst] in Ht. subst s'.
    assert (exists y, r = Ok y) as [y ->].
    { revert E. unfold construct. destruct grid as [l'|g'].
      - destruct Hg as [Hg _]. rewrite Hg. cbn [the_grid bind]. rewrite EM. intros E; injection E as _ <-. eexists; reflexivity.
      - subst g'. rewrite app_nth2, Nat.sub_diag by lia. cbn [nth the_grid bind]. rewrite EM. intros E; injection E as _ <-. eexists; reflexivity. }
    destruct (construct_ok 0 d make HF _ _ _ _ _ _ _ _ _ E) as (Ek & EA & El & _). exists y, t. split; [reflexivity|]. subst l. auto. }
  destruct (N [GGrid g] KFull 0%nat (inl 0%nat) (HM _)) as (y1 & t1 & C1 & G1 & K1 & A1); [split; [reflexivity|cbn; lia]|reflexivity|].
  set (s1 := [GGrid g] ++ t1) in *.
  destruct (N s1 KSeparable 0%nat (inl 0%nat) (HM _)) as (y2 & t2 & C2 & G2 & K2 & A2); [split; [reflexivity|cbn; lia]|reflexivity|].
  destruct (N (s1 ++ t2) KLifting (List.length (s1 ++ t2)) (inr g) (HM _) eq_refl eq_refl) as (y3 & t3 & C3 & G3 & K3 & A3).
  assert (E : execute edim d make (three A g) = mkProcess ((s1 ++ t2) ++ t3) [y1; y2; y3]).
  { unfold execute, three. cbn [fold_left act p_heap p_layers app]. rewrite C1. cbn [p_heap p_layers app]. fold s1. rewrite C2. cbn [p_heap p_layers app]. rewrite C3. reflexivity. }
  exists y1, y2, y3. unfold layers, memory, spares. rewrite E. cbn [p_layers p_heap nth_error].
  split; [reflexivity|]. split; [congruence|]. split; [rewrite G1, G3; cbn; lia|]. repeat (split; [assumption|]).
  split; [intros f; split; [discriminate|intros y' Ey; injection Ey as <-; rewrite G1, G3; cbn; lia]|].
  split; [intros f [_ Hn]; apply (Hn y2 eq_refl); congruence|]. rewrite G1. reflexivity.
Qed.
Example programs_exist :
  (exists y1 y2 y3, layers 1 2 made_SE2 (three (exA (PairInt 2) "rbf" 1) [0; PI]) = [y1; y2; y3]) /\
  (exists y1 y2 y3, layers 2 2 made_E2 (three (exA (PairTuple 2 1) "rbf" 1) [mkO2 1 0; mkO2 1 PI; mkO2 (-1) 0]) = [y1; y2; y3]) /\
  (exists y1 y2 y3, layers 10 3 made_E3 (three (exA (PairTuple 2 1) "nearest" 1) [mkO3 1 I3; mkO3 1 I3; mkO3 (-1) I3]) = [y1; y2; y3]).
Proof.
  split; [|split].
  - destruct (three_layers 1 2 made_SE2 (exA (PairInt 2) "rbf" 1) [0; PI]) as (y1 & y2 & y3 & E & _); [|exact fills_SE2|exists y1, y2, y3; exact E].
    intros []; unfold made_SE2, group_SE2, pick_grid, kernel_SE2, width_SE2; cbn [bind exA s_rot]; rewrite ?width1; eexists; reflexivity.
  - destruct (three_layers 2 2 made_E2 (exA (PairTuple 2 1) "rbf" 1) [mkO2 1 0; mkO2 1 PI; mkO2 (-1) 0]) as (y1 & y2 & y3 & E & _); [|exact fills_E2|exists y1, y2, y3; exact E].
    intros []; unfold made_E2, group_E2, pick_grid, kernel_E2, width_E2_rot, width_E2_ref; cbn [bind exA s_rot s_ref]; rewrite ?width1; cbn [bind]; rewrite ?width1; eexists; reflexivity.
  - destruct (three_layers 10 3 made_E3 (exA (PairTuple 2 1) "nearest" 1) [mkO3 1 I3; mkO3 1 I3; mkO3 (-1) I3]) as (y1 & y2 & y3 & E & _); [|exact fills_E3|exists y1, y2, y3; exact E].
    intros []; unfold made_E3, group_E3, pick_grid, kernel_E3, width_E3_rot, width_E3_ref; cbn [bind exA s_rot s_ref]; rewrite ?width1; cbn [bind]; rewrite ?width1; eexists; reflexivity.
Qed.

(** Defect: also in E(3) a derived bandwidth is not restored. Two GConvE3 layers with equal arguments and grids of equal length; the load
    succeeds, every entry of the state_dict then agrees, and the two layers interpolate with different bandwidths. *)
Definition mZ : M3 := mkM3 (-1) 0 0 0 (-1) 0 0 0 1.
Definition gI : list O3 := [mkO3 1 I3; mkO3 1 I3; mkO3 (-1) I3].
Definition gZ : list O3 := [mkO3 1 I3; mkO3 1 mZ; mkO3 (-1) I3].
Lemma flat_width a b x : flat_geodesic (o3_flat a) (o3_flat a) so3_eps = acos (1 - so3_eps) -> flat_geodesic (o3_flat b) (o3_flat b) so3_eps = acos (1 - so3_eps) ->
  flat_geodesic (o3_flat a) (o3_flat b) so3_eps = x -> flat_geodesic (o3_flat b) (o3_flat a) so3_eps = x -> acos (1 - so3_eps) <= x ->
  width_E3_rot 0 2 [a; b; mkO3 (-1) I3] = Ok (8 / 10 * x).
Proof.
  intros H1 H2 H3 H4 Hx. unfold width_E3_rot. rewrite default_width_zero. unfold so3_nearest_neighbour_distance_flat.
  cbn [map firstn List.length Nat.ltb Nat.leb mapM]. rewrite H1, H2, H3, H4. unfold sortR. cbn [fold_right insertR].
  destruct (Rle_dec (acos (1 - so3_eps)) x) as [_|N]; [|contradiction].
  destruct (Rle_dec x (acos (1 - so3_eps))) as [L|L]; cbn [nth_error of_option bind]; f_equal; unfold meanR; cbn; [|field].
  replace (acos (1 - so3_eps)) with x by lra. field.
Qed.
Lemma flat_dot a b : dotl (o3_flat a) (o3_flat b) = o3c a * o3c b + trace3 (mul3 (tr3 (o3r a)) (o3r b)).
Proof. destruct a as [c [m1 m2 m3 m4 m5 m6 m7 m8 m9]], b as [c' [n1 n2 n3 n4 n5 n6 n7 n8 n9]]. unfold o3_flat, dotl, trace3, mul3, tr3. cbn. ring. Qed.
Lemma flat_widths : width_E3_rot 0 2 gI = Ok (8 / 10 * acos (1 - so3_eps)) /\ width_E3_rot 0 2 gZ = Ok (8 / 10 * (PI / 2)) /\ acos (1 - so3_eps) < PI / 2.
Proof.
  assert (E : 0 < so3_eps < 1 / 10) by (unfold so3_eps; lra).
  assert (Hl : acos (1 - so3_eps) < PI / 2) by (rewrite <- acos_0; apply acos_decr_lt; lra).
  assert (S : forall a b, o3c a * o3c b + trace3 (mul3 (tr3 (o3r a)) (o3r b)) = 4 -> flat_geodesic (o3_flat a) (o3_flat b) so3_eps = acos (1 - so3_eps)).
  { intros a b H. unfold flat_geodesic. rewrite flat_dot, H, Rabs_right by lra. rewrite clamp_hi by lra. reflexivity. }
  assert (Z : forall a b, o3c a * o3c b + trace3 (mul3 (tr3 (o3r a)) (o3r b)) = 0 -> flat_geodesic (o3_flat a) (o3_flat b) so3_eps = PI / 2).
  { intros a b H. unfold flat_geodesic. rewrite flat_dot, H, Rabs_R0. rewrite clamp_id by lra. apply acos_0. }
  split; [|split]; [| |exact Hl].
  - apply flat_width; try apply S; try lra; unfold trace3, mul3, tr3, I3, mZ; cbn; ring.
  - apply flat_width; try apply S; try apply Z; try lra; unfold trace3, mul3, tr3, I3, mZ; cbn; ring.
Qed.
Theorem C94_defect_E3_bandwidth_not_restored : exists acts0 y0 acts y s' M M0 rw rw0 fw,
  In y0 (layers 10 3 made_E3 acts0) /\ In y (layers 10 3 made_E3 acts) /\ o_kind y = o_kind y0 /\ o_args y = o_args y0 /\
  s_gmode (o_args y) = "rbf"%string /\ s_rot (o_args y) = 0 /\ List.length (built_with y) = List.length (built_with y0) /\
  load 10 3 (memory 10 3 made_E3 acts) y (stored (memory 10 3 made_E3 acts0) y0) = (s', Ok tt) /\
  stored s' y = stored (memory 10 3 made_E3 acts0) y0 /\
  current s' y = Ok M /\ current (memory 10 3 made_E3 acts0) y0 = Ok M0 /\
  k_ops (l_kernel (gm_layer M)) = ops_E3 ex_env "rbf" rw fw 2 1 "bilinear" "border" /\
  k_ops (l_kernel (gm_layer M0)) = ops_E3 ex_env "rbf" rw0 fw 2 1 "bilinear" "border" /\ rw < rw0.
Proof.
  destruct flat_widths as (WI & WZ & Hlt). set (A := exA (PairTuple 2 1) "rbf" 0).
  assert (HM : forall g, g = gI \/ g = gZ -> forall kd, exists M, made_E3 kd A g f0 = Ok M).
  { intros g Hg kd. assert (exists w, width_E3_rot 0 2 g = Ok w) as [w Hw] by (destruct Hg as [->| ->]; eexists; eassumption).
    destruct kd; unfold made_E3, group_E3, pick_grid, kernel_E3, width_E3_ref; cbn [bind A exA s_rot s_ref s_gks pair_rot]; rewrite ?Hw; cbn [bind]; rewrite ?width1; eexists; reflexivity. }
  destruct (three_layers 10 3 made_E3 A gZ (HM gZ (or_intror eq_refl)) fills_E3) as (y0 & y02 & y03 & L0 & _ & _ & K0 & _ & _ & A0 & _ & _ & G0).
  destruct (three_layers 10 3 made_E3 A gI (HM gI (or_introl eq_refl)) fills_E3) as (y & y2 & y3 & L & _ & _ & K & _ & _ & A1 & _ & _ & G1).
  assert (I0 : In y0 (layers 10 3 made_E3 (three A gZ))) by (rewrite L0; left; reflexivity).
  assert (I1 : In y (layers 10 3 made_E3 (three A gI))) by (rewrite L; left; reflexivity).
  assert (B : forall g z, In z (layers 10 3 made_E3 (three A g)) -> contents (memory 10 3 made_E3 (three A g)) (o_grid_H z) = GGrid g -> o_kind z = KFull -> o_args z = A ->
     List.length (built_with z) = List.length g).
  { intros g z Hz Hg _ _. destruct (layer_fine 10 3 made_E3 fills_E3 _ _ Hz) as (T & _). destruct (typed_grid 10 3 _ z T) as (g' & E & El). unfold contents in Hg.
    rewrite Hg in E. injection E as <-. symmetry. exact El. }
  assert (El : List.length (built_with y) = List.length (built_with y0)) by (rewrite (B gI y), (B gZ y0) by assumption; reflexivity).
  destruct (C94_E3_restores (three A gZ) y0 (three A gI) y I0 I1 ltac:(congruence) ltac:(congruence) El) as (s' & EL & Es & _).
  exists (three A gZ), y0, (three A gI), y, s'.
  assert (Bg : forall g z, (g = gI \/ g = gZ) -> layers 10 3 made_E3 (three A g) = z :: tl (layers 10 3 made_E3 (three A g)) -> built_with z = g).
  { intros g z Hg Hz. revert Hz. unfold layers, execute, three. cbn [fold_left act p_heap p_layers app].
    destruct (construct made_E3 [GGrid g] KFull A (inl 0%nat) f0 f1 f0) as [s1 [z1|]] eqn:E1.
    2:{ exfalso. revert E1. unfold construct. cbn [nth the_grid bind]. destruct (HM g Hg KFull) as [M EM]. rewrite EM. discriminate. }
    assert (Hb : built_with z1 = g).
    { revert E1. unfold construct. cbn [nth the_grid bind]. destruct (HM g Hg KFull) as [M EM]. rewrite EM. intros E1. injection E1 as _ <-. unfold built_with. cbn [o_attr].
      exact (proj1 (fills_E3 _ _ _ _ _ EM)). }
    cbn [p_layers p_heap app]. destruct (construct made_E3 s1 KSeparable A (inl 0%nat) f0 f1 f0) as [s2 [z2|]]; cbn [p_layers p_heap app];
      destruct (construct made_E3 s2 KLifting A (inr g) f0 f1 f0) as [s3 [z3|]]; cbn [p_layers app tl]; intros Hz; injection Hz as <-; exact Hb. }
  assert (By : built_with y = gI) by (apply Bg; [left; reflexivity|rewrite L; reflexivity]).
  assert (By0 : built_with y0 = gZ) by (apply Bg; [right; reflexivity|rewrite L0; reflexivity]).
  destruct (C94_E3_bandwidths_stay (three A gZ) y0 (three A gI) y s' (Ok tt) I0 I1 ltac:(congruence) ltac:(congruence) ltac:(congruence) EL) as (rw & fw & M & Hr & Hf & Hc & Ho & _).
  destruct (C94_layers_roll_back) as (_ & _ & RB). destruct (RB (three A gZ) [] y0 I0) as (s0 & EL0 & Es0 & _). rewrite app_nil_r in EL0.
  destruct (C94_E3_bandwidths_stay (three A gZ) y0 (three A gZ) y0 s0 (Ok tt) I0 I0 eq_refl ltac:(congruence) eq_refl EL0) as (rw0 & fw0 & M0 & Hr0 & Hf0 & Hc0 & Ho0 & _).
  rewrite A1 in Hr, Hf, Ho. rewrite A0 in Hr0, Hf0, Ho0. rewrite By in Hr, Hf. rewrite By0 in Hr0, Hf0. cbn [A exA s_rot s_ref s_gks pair_rot pair_ref s_gmode s_env s_mode s_pm] in *.
  rewrite WI in Hr. rewrite WZ in Hr0. unfold width_E3_ref in Hf, Hf0. rewrite width1 in Hf, Hf0. injection Hr as <-. injection Hr0 as <-. injection Hf as <-. injection Hf0 as <-.
  exists M, M0, (8 / 10 * acos (1 - so3_eps)), (8 / 10 * (PI / 2)), 1.
  assert (Hc1 : current (memory 10 3 made_E3 (three A gZ)) y0 = Ok M0).
  { rewrite <- Hc0. unfold current. destruct (stored_parts _ _ _ _ Es0) as (E1 & E2 & _ & E4 & E5 & _). rewrite !the_opt_map, E1, E2, E4, E5. reflexivity. }
  rewrite A1. repeat (split; [first [assumption|congruence|reflexivity]|]). nra.
Qed.
Print Assumptions C94_defect_E3_bandwidth_not_restored.
