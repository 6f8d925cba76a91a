(** Property theorems C95: memory layouts.  A tensor in memory ([strided]) is a window with a stride per axis on a storage; [dense x] are its
    values in row-major order.  [place]: the layouts torch chooses for the results of its operations, any choice with the right values. *)
From Coq Require Import String ZArith.
From Verif Require Import Prelude RMath Mat Interp Tensor TensorFacts Kernel KernelFacts Layers Conv ConvInit NormFacts Functional
  Strides StridesSpec StridesFacts StridesLayers Prop_NoBatch.
Open Scope nat_scope.

(** torch.Tensor.view accepts a shape with as many entries exactly when the entries can be addressed in that shape in the same memory, and then
    it is the row-major reshape of the values; otherwise it raises RuntimeError. *)
Theorem C95_view : forall x new, laid_out x -> prodn new = prodn (s_shape x) ->
  (addressable new x -> exists y, sview new x = Ok y /\ laid_out y /\ s_memory y = s_memory x /\ s_offset y = s_offset x /\
    dense y = mkT new (data (dense x))) /\
  (~ addressable new x -> sview new x = Err RuntimeError).
Proof.
  intros x new Hl Hp. split.
  - intros Ha. destruct (proj2 (sview_addressable new x Hl Hp) Ha) as [y Hy]. exists y. split; [exact Hy|].
    destruct (sview_ok _ _ _ Hl Hy) as [_ [_ [A B]]]. split; [exact A|].
    unfold sview in Hy. destruct (Nat.eqb _ _); [|discriminate]. destruct (view_strides _ _ _); [|discriminate]. injection Hy as <-. auto.
  - intros Ha. destruct (sview new x) as [y|e] eqn:E; [|rewrite (sview_err _ _ _ E); reflexivity].
    exfalso. apply Ha. apply (sview_addressable new x Hl Hp). eauto.
Qed.
Print Assumptions C95_view.

(** The convolution layers take inputs in every memory layout (but for inputs that lack just the batch axis, C81): same values, same errors as for the contiguous copy, whatever
    layouts the backend gives the intermediate results. *)
Theorem C95_convolutions_take_every_layout : forall G P (D : Dflt P) (L : gconv G P) place, faithful place ->
  (forall weight x (H : list G), laid_out x -> List.length (s_shape x) <> 1 + List.length (l_ks L) ->
     values (s_lifting_forward L place weight x H) = lifting_forward L weight (dense x) H) /\
  (forall weight x (in_H out_H : list G), laid_out x -> List.length (s_shape x) <> 2 + List.length (l_ks L) ->
     values (s_full_forward L place weight x in_H out_H) = full_forward L weight (dense x) in_H out_H /\
     values (s_subgroup_forward L place weight x in_H out_H) = subgroup_forward L weight (dense x) in_H out_H) /\
  (forall weight_H weight x (in_H out_H : list G), laid_out x -> List.length (s_shape x) <> 2 + List.length (l_ks L) ->
     k_size (l_kernel L) = l_ks L ->
     values (s_separable_forward L place weight_H weight x in_H out_H) = separable_forward L weight_H weight (dense x) in_H out_H).
Proof.
  intros G P D L place Hf. split; [|split].
  - intros weight x H Hl Hr. apply lifting_layout; assumption.
  - intros weight x in_H out_H Hl Hr. split; apply group_layout; assumption.
  - intros weight_H weight x in_H out_H Hl Hr Hk. apply separable_layout; assumption.
Qed.
Print Assumptions C95_convolutions_take_every_layout.

(** So do the spatial pools (on features of the expected rank) and GLayerNorm. *)
Theorem C95_pools_and_layer_norm_take_every_layout : forall place, faithful place ->
  (forall G d spec x (H : list G), laid_out x -> List.length (s_shape x) = 3 + d ->
     values (s_spatial_pool place d spec x H) = g_spatial_pool d spec (dense x) H) /\
  (forall G ns eps w b x (H : list G), values (s_layer_norm place ns eps w b x H) = g_layer_norm ns eps w b (dense x) H).
Proof.
  intros place Hf. split.
  - intros G d spec x H Hl Hr. apply pool_layout; assumption.
  - intros G ns eps w b x H. unfold s_layer_norm, g_layer_norm. destruct (layer_norm ns eps w b (dense x)) as [y|e] eqn:E; [|reflexivity].
    cbn [bind values rmap fst snd]. unfold values. cbn [rmap fst snd]. do 2 f_equal. apply Hf.
    unfold layer_norm in E. destruct (list_eq_dec _ _ _); [|discriminate]. destruct ns; [discriminate|]. injection E as <-. apply wft_build.
Qed.
Print Assumptions C95_pools_and_layer_norm_take_every_layout.

(** GBatchNorm2d/3d and GInstanceNorm2d/3d do not: they give the values, the running statistics and the errors of the contiguous copy when the group axis
    and the first spatial axis lie in memory as one axis (or one of them has size one, or the tensor is empty), and raise RuntimeError otherwise. *)
Theorem C95_norms_need_one_axis : forall G place d s x (H : list G), faithful place -> laid_out x ->
  (one_axis x ->
     values3 (s_batch_norm place d s x H) = g_batch_norm d s (dense x) H /\
     values3 (s_instance_norm place d s x H) = g_instance_norm d s (dense x) H) /\
  (~ one_axis x -> 4 <= List.length (s_shape x) ->
     s_batch_norm place d s x H = Err RuntimeError /\ s_instance_norm place d s x H = Err RuntimeError).
Proof.
  intros G place d s x H Hf Hl. split.
  - intros Ho. split; apply norm_accepts; try assumption; [apply batch_norm_keeps|apply instance_norm_keeps].
  - intros Ho Hr. split; apply norm_refuses; assumption.
Qed.
Print Assumptions C95_norms_need_one_axis.

(** After a convolution layer whose results are contiguous they never raise for the layout, whatever the layout of the input of the layer. *)
Theorem C95_norms_after_contiguous_convolutions : forall G P (D : Dflt P) (L : gconv G P) y (H' : list G), 4 <= List.length (s_shape y) ->
  (exists weight x H, s_lifting_forward L contiguous weight x H = Ok (y, H')) \/
  (exists weight x in_H out_H, s_full_forward L contiguous weight x in_H out_H = Ok (y, H')) \/
  (exists weight x in_H out_H, s_subgroup_forward L contiguous weight x in_H out_H = Ok (y, H')) \/
  (exists weight_H weight x in_H out_H, s_separable_forward L contiguous weight_H weight x in_H out_H = Ok (y, H')) ->
  forall place d s, faithful place ->
  values3 (s_batch_norm place d s y H') = g_batch_norm d s (dense y) H' /\ values3 (s_instance_norm place d s y H') = g_instance_norm d s (dense y) H'.
Proof.
  intros G P D L y H' Hr HL place d s Hf.
  assert (Ho : in_order y).
  { destruct HL as [(w & x & H & E)|[(w & x & i & o & E)|[(w & x & i & o & E)|(w & w' & x & i & o & E)]]].
    - exact (lifting_in_order L _ _ _ _ E).
    - exact (group_in_order L _ _ _ _ _ E).
    - exact (group_in_order L _ _ _ _ _ E).
    - exact (separable_in_order L _ _ _ _ _ _ E). }
  apply (C95_norms_need_one_axis G place d s y H' Hf (proj1 Ho)). apply in_order_one_axis; assumption.
Qed.
Print Assumptions C95_norms_after_contiguous_convolutions.

(** Defect: after a convolution layer whose results are in channels_last layout, as torch returns them for inputs in that layout, the
    normalization layers raise RuntimeError on every output with at least two group elements and two rows. *)
Theorem C95_defect_channels_last : forall G P (D : Dflt P) (L : gconv G P) y (H' : list G), l_bias L = None -> 1 <= List.length (l_ks L) ->
  (exists weight x H, laid_out x /\ List.length (s_shape x) = 2 + List.length (l_ks L) /\ s_lifting_forward L channels_last weight x H = Ok (y, H')) \/
  (exists weight x in_H out_H, laid_out x /\ List.length (s_shape x) = 3 + List.length (l_ks L) /\
     (s_full_forward L channels_last weight x in_H out_H = Ok (y, H') \/ s_subgroup_forward L channels_last weight x in_H out_H = Ok (y, H'))) ->
  2 <= nth 2 (s_shape y) 0 -> 2 <= nth 3 (s_shape y) 0 -> prodn (s_shape y) <> 0 ->
  forall place d s, s_batch_norm place d s y H' = Err RuntimeError /\ s_instance_norm place d s y H' = Err RuntimeError.
Proof.
  intros G P D L y H' Hb Hd HL Hn HZ H0 place d s.
  assert (laid_out y /\ 4 <= List.length (s_shape y) /\ ~ one_axis y) as (Hl & Hr & Ho).
  { destruct HL as [(w & x & H & Hl & Hr & E)|(w & x & i & o & Hl & Hr & [E|E])].
    - exact (lifting_channels_last L Hb _ _ _ _ Hl Hr Hd E Hn HZ H0).
    - exact (group_channels_last L Hb _ _ _ _ _ Hl Hr Hd E Hn HZ H0).
    - exact (group_channels_last L Hb _ _ _ _ _ Hl Hr Hd E Hn HZ H0). }
  split; apply norm_refuses; assumption.
Qed.
Print Assumptions C95_defect_channels_last.

(** Both layouts are choices of layouts; a lifting layer of 3 input and 6 output channels on an image of 5 by 7, lifted to two group elements: it
    answers in both layouts with the same values; GBatchNorm2d then takes the first answer and refuses the second. A permuted
    feature map is refused as well. *)
Example C95_nonvacuous : forall T, faithful contiguous /\ faithful channels_last /\ exists L w x (H : list R) y y' (t : tensor R),
  let s := {| nm_features := 6; nm_eps := 1/100000; nm_momentum := Some (1/10); nm_weight := None; nm_bias := None;
    nm_mean := None; nm_var := None; nm_count := 0; nm_training := true |}%R in
  constructed 2 L 3 6 [3; 3] (lifting_kernel_SE2 T 3 6 3 1 "bilinear"%string "border"%string true [0%R]) 1 [1; 1] (PInt 0) [1; 1] Zeros None /\
  laid_out x /\ s_lifting_forward L contiguous w x H = Ok (y, H) /\ s_lifting_forward L channels_last w x H = Ok (y', H) /\
  dense y = t /\ dense y' = t /\ shape t = [1; 6; 2; 3; 5] /\ one_axis y /\ ~ one_axis y' /\
  (exists z s', s_batch_norm contiguous 2 s y H = Ok (z, H, s')) /\
  s_batch_norm contiguous 2 s y' H = Err RuntimeError /\
  ~ one_axis (mkS [2; 3; 4; 5; 6] [360; 120; 1; 4; 20] 0 (fun _ => 0%R)).
Proof.
  intros T. split; [exact contiguous_faithful|]. split; [exact channels_last_faithful|].
  destruct (C81_nonvacuous T) as (L & W & Y & out & HL & _ & _ & EY & SY & _).
  destruct (constructed_spec _ _ _ _ _ _ _ _ _ _ _ _ HL) as (_ & _ & _ & _ & _ & Eks & _ & _ & _ & _ & _ & Eb & _).
  pose (X := unsqueeze0 (build [3; 5; 7] (fun idx => INR (nth 1 idx 0)))).
  pose (w := build [6; 3; 3; 3] (fun idx => INR (nth 3 idx 0))).
  assert (HX : wft X). { unfold wft, X. cbn [unsqueeze0 shape data build]. rewrite map_length, indices_length, (prodn_cons 1). lia. }
  destruct (contiguous_faithful X HX) as [Hxl Hxd].
  assert (Hr : List.length (s_shape (contiguous X)) = 2 + List.length (l_ks L)) by (rewrite Eks; reflexivity).
  pose proof (proj1 (C95_convolutions_take_every_layout _ _ _ L contiguous contiguous_faithful) w _ [0%R; (PI / 2)%R] Hxl ltac:(lia)) as V1.
  pose proof (proj1 (C95_convolutions_take_every_layout _ _ _ L channels_last channels_last_faithful) w _ [0%R; (PI / 2)%R] Hxl ltac:(lia)) as V2.
  rewrite Hxd in V1, V2. unfold X, w in V1, V2. rewrite EY in V1, V2. fold X w in V1, V2.
  apply rmap_ok in V1. destruct V1 as ((y & H1) & E1 & Q1). injection Q1 as Q1 ->.
  apply rmap_ok in V2. destruct V2 as ((y' & H2) & E2 & Q2). injection Q2 as Q2 ->.
  assert (S1 : s_shape y = [1; 6; 2; 3; 5]) by (rewrite <- dense_shape; cbn [fst] in Q1; rewrite Q1; exact (proj1 SY)).
  assert (S2 : s_shape y' = [1; 6; 2; 3; 5]) by (rewrite <- dense_shape; cbn [fst] in Q2; rewrite Q2; exact (proj1 SY)).
  pose proof (lifting_in_order L _ _ _ _ E1) as O1. cbn [fst] in O1.
  assert (A1 : one_axis y) by (apply in_order_one_axis; [exact O1|rewrite S1; cbn; lia]).
  destruct (lifting_channels_last L Eb _ _ _ _ Hxl Hr ltac:(rewrite Eks; cbn; lia) E2) as (L2 & R2 & A2);
    [cbn [fst]; rewrite S2; cbn; lia|cbn [fst]; rewrite S2; cbn; lia|cbn [fst]; rewrite S2; cbn; lia|]. cbn [fst] in *.
  exists L, w, (contiguous X), [0%R; (PI / 2)%R], y, y', Y. cbv zeta.
  split; [exact HL|]. split; [exact Hxl|]. split; [exact E1|]. split; [exact E2|]. split; [exact Q1|]. split; [exact Q2|].
  split; [exact (proj1 SY)|]. split; [exact A1|]. split; [exact A2|]. split; [|split].
  - set (s := Build_norm_state _ _ _ _ _ _ _ _ _).
    pose proof (proj1 (proj1 (C95_norms_need_one_axis R contiguous 2 s y [0%R; (PI / 2)%R] contiguous_faithful (proj1 O1)) A1)) as E.
    destruct (s_batch_norm contiguous 2 s y [0%R; (PI / 2)%R]) as [[[z H1] s']|e] eqn:Es.
    + assert (H1 = [0%R; (PI / 2)%R]).
      { unfold s_batch_norm, s_norm in Es. rewrite S1 in Es. do 3 (apply NoBatchFacts.bind_ok' in Es; destruct Es as (? & _ & Es)). congruence. }
      subst H1. eauto.
    + exfalso. rewrite Q1 in E. unfold g_batch_norm, g_norm in E. rewrite (proj1 SY) in E.
      rewrite view_ok in E by (rewrite (proj1 SY); reflexivity). cbn [bind] in E.
      unfold batch_norm in E. cbn [shape List.length Nat.eqb negb] in E.
      cbn [s nm_mean nm_training nm_count nm_momentum andb orb negb] in E. discriminate E.
  - apply norm_refuses; assumption.
  - unfold one_axis. cbn [s_shape s_strides nth]. intros [E|[E|[E|E]]]; vm_compute in E; discriminate.
Qed.
