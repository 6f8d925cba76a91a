(** Whole networks: lifting, group and separable convolutions, normalizations and activations in any order, global pooling at the end (C52). *)
From Coq Require Import String ZArith Permutation.
From Verif Require Import Prelude RMath Mat Interp SO2 SO2Facts O2 O2Facts SO3 SO3Facts SO3More O3 O3Facts Repulse RepulseFacts Tensor TensorFacts SignedPerm Functional FunctionalFacts Kernel KernelFacts GroupKernelFacts KernelMore Conv ConvSpec ConvFacts ConvInit
  EquiSpec EquiSpecFacts EquiKernel EquiGroups Layers LayersSpec LayersFacts Prop_Conv Prop_Equi Prop_Layers RegridSpec Public PublicFacts Prop_Public Network NetworkSpec NetworkCond NetFacts NetGroups NetDraws.
Open Scope R_scope.

(** 2d, rotations: turning the image by q quarter turns moves the output features and the group elements they live on, and leaves the globally pooled
    features (and the running statistics left in the normalization modules) exactly as they are. *)
Theorem C52_SE2 : forall q : Z, let g := IZR q * (PI / 2) in
  forall (M : gmodule R V2) (weight : tensor R) (K : option (list R)) rs rs' prog prog' (X X' Y : tensor R) HY modules,
  ready_lifting_SE2 M weight X ->
  network_ok SEn 2 so2_left_apply_angle ready_SE2 M weight rs K prog X ->
  partner_lifting so2_left_apply_angle g M K rs rs' -> partners SEn so2_left_apply_angle g prog prog' ->
  moved2 (so2_angle_to_matrix g) X X' ->
  network SEn 2 so2_left_apply_angle M weight rs K prog X = Ok (Y, HY, modules) ->
  exists Y' HY', network SEn 2 so2_left_apply_angle M weight rs' K prog' X' = Ok (Y', HY', modules) /\
    same_up_to 2 (moved2 (so2_angle_to_matrix g)) (so2_left_apply_angle g) Y HY Y' HY' /\
    g_avg_global_pool Y' = g_avg_global_pool Y /\
    (forall v i, g_max_global_pool Y = Ok (PPair v i) -> exists i', g_max_global_pool Y' = Ok (PPair v i')).
Proof.
  intros q g M weight K rs rs' prog prog' X X' Y HY modules HL HN HPl HPs HM E.
  destruct (symmetry2 (so2_angle_to_matrix (IZR q * (PI / 2))) (quarter_signed q)) as (sp & Hok & _ & Hiff).
  refine (network_equi SEn 2 so2_left_apply_angle g sp Hok _ (moved2 (so2_angle_to_matrix g)) (fun X Z => Hiff _ X Z) ready_SE2 M weight K rs rs' prog prog' X X' Y HY modules _ _ HN HPl HPs E).
  - lia.
  - intros b rs0 X0 H0 HR. exact (ready_equi_SE2 q sp b rs0 X0 H0 Hiff HR).
  - intros o o' f Y0 Ho E0 EL Hp HRg. exact (lifting_equi_SE2 q sp M weight X X' o o' f Y0 Hiff HL Ho HM E0 EL Hp HRg).
Qed.
Print Assumptions C52_SE2.

(** 3d, rotations: moving the image by one of the 24 rotations of the cube moves the output features and the group elements they live on, and leaves the globally pooled
    features (and the running statistics left in the normalization modules) exactly as they are. *)
Theorem C52_SE3 : forall g0 : M3, signed3 g0 -> det3 g0 = 1 -> let g := g0 in
  forall (M : gmodule M3 V3) (weight : tensor R) (K : option (list M3)) rs rs' prog prog' (X X' Y : tensor R) HY modules,
  ready_lifting_SE3 M weight X ->
  network_ok SEn 3 so3_left_apply_matrix ready_SE3 M weight rs K prog X ->
  partner_lifting so3_left_apply_matrix g M K rs rs' -> partners SEn so3_left_apply_matrix g prog prog' ->
  moved3 g X X' ->
  network SEn 3 so3_left_apply_matrix M weight rs K prog X = Ok (Y, HY, modules) ->
  exists Y' HY', network SEn 3 so3_left_apply_matrix M weight rs' K prog' X' = Ok (Y', HY', modules) /\
    same_up_to 3 (moved3 g) (so3_left_apply_matrix g) Y HY Y' HY' /\
    g_avg_global_pool Y' = g_avg_global_pool Y /\
    (forall v i, g_max_global_pool Y = Ok (PPair v i) -> exists i', g_max_global_pool Y' = Ok (PPair v i')).
Proof.
  intros g0 Hsg Hdet g M weight K rs rs' prog prog' X X' Y HY modules HL HN HPl HPs HM E.
  destruct (symmetry3 (g0) Hsg) as (sp & Hok & _ & Hiff).
  refine (network_equi SEn 3 so3_left_apply_matrix g sp Hok _ (moved3 g) (fun X Z => Hiff _ X Z) ready_SE3 M weight K rs rs' prog prog' X X' Y HY modules _ _ HN HPl HPs E).
  - lia.
  - intros b rs0 X0 H0 HR. exact (ready_equi_SE3 g0 Hsg Hdet sp b rs0 X0 H0 Hiff HR).
  - intros o o' f Y0 Ho E0 EL Hp HRg. exact (lifting_equi_SE3 g0 Hsg Hdet sp M weight X X' o o' f Y0 Hiff HL Ho HM E0 EL Hp HRg).
Qed.
Print Assumptions C52_SE3.

(** 2d, rotations and inversions: turning by q quarter turns moves the output features and the group elements they live on, and leaves the globally pooled
    features (and the running statistics left in the normalization modules) exactly as they are. *)
Theorem C52_E2 : forall q : Z, let g := mkO2 1 (IZR q * (PI / 2)) in
  forall (M : gmodule O2 V2) (weight : tensor R) (K : option (list O2)) rs rs' prog prog' (X X' Y : tensor R) HY modules,
  ready_lifting_E2 M weight X ->
  network_ok En 2 o2_left_apply_angle ready_E2 M weight rs K prog X ->
  partner_lifting o2_left_apply_angle g M K rs rs' -> partners En o2_left_apply_angle g prog prog' ->
  moved2 (o2_acting_matrix g) X X' ->
  network En 2 o2_left_apply_angle M weight rs K prog X = Ok (Y, HY, modules) ->
  exists Y' HY', network En 2 o2_left_apply_angle M weight rs' K prog' X' = Ok (Y', HY', modules) /\
    same_up_to 2 (moved2 (o2_acting_matrix g)) (o2_left_apply_angle g) Y HY Y' HY' /\
    g_avg_global_pool Y' = g_avg_global_pool Y /\
    (forall v i, g_max_global_pool Y = Ok (PPair v i) -> exists i', g_max_global_pool Y' = Ok (PPair v i')).
Proof.
  intros q g M weight K rs rs' prog prog' X X' Y HY modules HL HN HPl HPs HM E.
  destruct (symmetry2 (o2_acting_matrix (mkO2 1 (IZR q * (PI / 2)))) (o2_quarter_signed 1 q (or_introl eq_refl))) as (sp & Hok & _ & Hiff).
  refine (network_equi En 2 o2_left_apply_angle g sp Hok _ (moved2 (o2_acting_matrix g)) (fun X Z => Hiff _ X Z) ready_E2 M weight K rs rs' prog prog' X X' Y HY modules _ _ HN HPl HPs E).
  - lia.
  - intros b rs0 X0 H0 HR. exact (ready_equi_E2 q sp b rs0 X0 H0 Hiff HR).
  - intros o o' f Y0 Ho E0 EL Hp HRg. exact (lifting_equi_E2 q sp M weight X X' o o' f Y0 Hiff HL Ho HM E0 EL Hp HRg).
Qed.
Print Assumptions C52_E2.

(** 3d, rotations and inversions: moving by one of the 24 rotations of the cube moves the output features and the group elements they live on, and leaves the globally pooled
    features (and the running statistics left in the normalization modules) exactly as they are. *)
Theorem C52_E3 : forall g0 : O3, o3_wf g0 -> o3c g0 = 1 -> signed3 (o3_as_matrix g0) -> let g := g0 in
  forall (M : gmodule O3 V3) (weight : tensor R) (K : option (list O3)) rs rs' prog prog' (X X' Y : tensor R) HY modules,
  ready_lifting_E3 M weight X ->
  network_ok En 3 o3_left_apply_O3 ready_E3 M weight rs K prog X ->
  partner_lifting o3_left_apply_O3 g M K rs rs' -> partners En o3_left_apply_O3 g prog prog' ->
  moved3 (o3_as_matrix g) X X' ->
  network En 3 o3_left_apply_O3 M weight rs K prog X = Ok (Y, HY, modules) ->
  exists Y' HY', network En 3 o3_left_apply_O3 M weight rs' K prog' X' = Ok (Y', HY', modules) /\
    same_up_to 3 (moved3 (o3_as_matrix g)) (o3_left_apply_O3 g) Y HY Y' HY' /\
    g_avg_global_pool Y' = g_avg_global_pool Y /\
    (forall v i, g_max_global_pool Y = Ok (PPair v i) -> exists i', g_max_global_pool Y' = Ok (PPair v i')).
Proof.
  intros g0 Hwf Hc1 Hsg g M weight K rs rs' prog prog' X X' Y HY modules HL HN HPl HPs HM E.
  destruct (symmetry3 (o3_as_matrix g0) Hsg) as (sp & Hok & _ & Hiff).
  refine (network_equi En 3 o3_left_apply_O3 g sp Hok _ (moved3 (o3_as_matrix g)) (fun X Z => Hiff _ X Z) ready_E3 M weight K rs rs' prog prog' X X' Y HY modules _ _ HN HPl HPs E).
  - lia.
  - intros b rs0 X0 H0 HR. exact (ready_equi_E3 g0 Hwf Hc1 Hsg sp b rs0 X0 H0 Hiff HR).
  - intros o o' f Y0 Ho E0 EL Hp HRg. exact (lifting_equi_E3 g0 Hwf Hc1 Hsg sp M weight X X' o o' f Y0 Hiff HL Ho HM E0 EL Hp HRg).
Qed.
Print Assumptions C52_E3.

(** ** Which draws correspond *)
(** A fresh rotation drawn for the lifting convolution: the draw u for the image corresponds to u + q/4 (mod 1) for the image
    turned by q quarter turns; the draws of the later convolutions are the same. *)
Theorem C52_random_SE2 : forall (q : Z) (u : R), let g := IZR q * (PI / 2) in let u' := Rmod (u + IZR q / 4) 1 in
  forall (M : gmodule R V2) (weight : tensor R) (K : option (list R)) (net : list (block R V2 * R)) (X X' Y : tensor R) HY modules,
  let prog := map (fun bu => (fst bu, drawn_SE2 (snd bu))) net in
  gm_permute M = true -> Forall (fun bu => default_grid (fst bu)) net ->
  ready_lifting_SE2 M weight X ->
  network_ok SEn 2 so2_left_apply_angle ready_SE2 M weight (drawn_SE2 u) K prog X ->
  moved2 (so2_angle_to_matrix g) X X' ->
  network SEn 2 so2_left_apply_angle M weight (drawn_SE2 u) K prog X = Ok (Y, HY, modules) ->
  0 <= u' < 1 /\
  exists Y' HY', network SEn 2 so2_left_apply_angle M weight (drawn_SE2 u') K prog X' = Ok (Y', HY', modules) /\
    same_up_to 2 (moved2 (so2_angle_to_matrix g)) (so2_left_apply_angle g) Y HY Y' HY' /\
    g_avg_global_pool Y' = g_avg_global_pool Y /\
    (forall v i, g_max_global_pool Y = Ok (PPair v i) -> exists i', g_max_global_pool Y' = Ok (PPair v i')).
Proof.
  intros q u g u' M weight K net X X' Y HY modules prog Hp Hd HL HN HM E. split; [apply Rmod_bounds; lra|].
  apply (C52_SE2 q M weight K (drawn_SE2 u) (drawn_SE2 u') prog prog X X' Y HY modules HL HN); try assumption.
  - unfold partner_lifting. rewrite Hp. exists (2 * PI * u), (2 * PI * u'). split; [reflexivity|]. split; [reflexivity|].
    intros x _. apply so2_turned_draw.
  - unfold prog. clear - Hd. induction Hd as [|[b v] net Hb Hd IH]; cbn [map fst snd]; constructor; [|assumption].
    split; [reflexivity|]. cbn [fst snd] in *. destruct b as [M w out|M wH w out| | | | |]; cbn [partner default_grid] in *; try exact I; subst out;
      unfold partner_draw; (destruct (gm_permute M); [|exact I]); exists (2 * PI * v), (2 * PI * v); (split; [reflexivity|]); (split; [reflexivity|]);
      intros x; rewrite !so2_assoc; f_equal; apply so2_comm.
Qed.
Print Assumptions C52_random_SE2.

(** 3d: with p the unit quaternion of g, the quaternion draw q0 of the lifting convolution corresponds to p q0, later draws q to p q p^-1. *)
Theorem C52_random_SE3 : forall (g : M3) (q0 : Q4), signed3 g -> det3 g = 1 -> 0 < qdot q0 q0 ->
  let p := so3_matrix_to_quat g in let later q := qmul (qmul p q) (so3_quat_inverse p) in
  forall (M : gmodule M3 V3) (weight : tensor R) (K : option (list M3)) (net : list (block M3 V3 * Q4)) (X X' Y : tensor R) HY modules,
  let prog := map (fun bq => (fst bq, drawn_SE3 (snd bq))) net in let prog' := map (fun bq => (fst bq, drawn_SE3 (later (snd bq)))) net in
  gm_permute M = true -> Forall (fun bq => default_grid (fst bq) /\ 0 < qdot (snd bq) (snd bq)) net ->
  ready_lifting_SE3 M weight X ->
  network_ok SEn 3 so3_left_apply_matrix ready_SE3 M weight (drawn_SE3 q0) K prog X ->
  moved3 g X X' ->
  network SEn 3 so3_left_apply_matrix M weight (drawn_SE3 q0) K prog X = Ok (Y, HY, modules) ->
  exists Y' HY', network SEn 3 so3_left_apply_matrix M weight (drawn_SE3 (qmul p q0)) K prog' X' = Ok (Y', HY', modules) /\
    same_up_to 3 (moved3 g) (so3_left_apply_matrix g) Y HY Y' HY' /\
    g_avg_global_pool Y' = g_avg_global_pool Y /\
    (forall v i, g_max_global_pool Y = Ok (PPair v i) -> exists i', g_max_global_pool Y' = Ok (PPair v i')).
Proof.
  intros g q0 Hsg Hdet Hq0 p later M weight K net X X' Y HY modules prog prog' Hp Hd HL HN HM E. assert (isSO3 g) as HG by (split; [apply Hsg|assumption]).
  apply (C52_SE3 g Hsg Hdet M weight K (drawn_SE3 q0) (drawn_SE3 (qmul p q0)) prog prog' X X' Y HY modules HL HN); try assumption.
  - unfold partner_lifting. rewrite Hp. exists (so3_random_matrix q0), (so3_random_matrix (qmul p q0)). split; [reflexivity|]. split; [reflexivity|].
    intros x _. unfold p. rewrite so3_turned_draw by assumption. symmetry. apply mul3_assoc.
  - unfold prog, prog'. clear - Hd HG p later. induction Hd as [|[b v] net [Hb Hv] Hd IH]; cbn [map fst snd]; constructor; [|assumption].
    split; [reflexivity|]. cbn [fst snd] in *. destruct b as [M w out|M wH w out| | | | |]; cbn [partner default_grid] in *; try exact I; subst out;
      unfold partner_draw; (destruct (gm_permute M); [|exact I]);
      exists (so3_random_matrix v), (so3_random_matrix (later v)); (split; [reflexivity|]); (split; [reflexivity|]);
      intros x; unfold later, p; apply so3_conjugate_draw; assumption.
Qed.
Print Assumptions C52_random_SE3.

(** E(n): all output grids are independent of the input, and every convolution draws afresh. *)
Theorem C52_random_E2 : forall (q : Z), let g := mkO2 1 (IZR q * (PI / 2)) in let turn u := Rmod (u + IZR q / 4) 1 in
  forall (M : gmodule O2 V2) (weight : tensor R) (K : option (list O2)) (u c : R) (net : list (block O2 V2 * (R * R))) (X X' Y : tensor R) HY modules,
  let prog := map (fun b => (fst b, drawn_E2 (fst (snd b)) (snd (snd b)))) net in
  let prog' := map (fun b => (fst b, drawn_E2 (turn (fst (snd b))) (snd (snd b)))) net in
  gm_permute M = true -> Forall (fun b => permuting (fst b)) net ->
  ready_lifting_E2 M weight X ->
  network_ok En 2 o2_left_apply_angle ready_E2 M weight (drawn_E2 u c) K prog X ->
  moved2 (o2_acting_matrix g) X X' ->
  network En 2 o2_left_apply_angle M weight (drawn_E2 u c) K prog X = Ok (Y, HY, modules) ->
  exists Y' HY', network En 2 o2_left_apply_angle M weight (drawn_E2 (turn u) c) K prog' X' = Ok (Y', HY', modules) /\
    same_up_to 2 (moved2 (o2_acting_matrix g)) (o2_left_apply_angle g) Y HY Y' HY' /\
    g_avg_global_pool Y' = g_avg_global_pool Y /\
    (forall v i, g_max_global_pool Y = Ok (PPair v i) -> exists i', g_max_global_pool Y' = Ok (PPair v i')).
Proof.
  intros q g turn M weight K u c net X X' Y HY modules prog prog' Hp Hd HL HN HM E.
  apply (C52_E2 q M weight K (drawn_E2 u c) (drawn_E2 (turn u) c) prog prog' X X' Y HY modules HL HN); try assumption.
  - unfold partner_lifting. rewrite Hp. exists (o2_drawn u c), (o2_drawn (turn u) c). split; [reflexivity|]. split; [reflexivity|].
    intros x _. apply o2_turned_draw.
  - unfold prog, prog'. clear - Hd. induction Hd as [|[b [v cv]] net Hb Hd IH]; cbn [map fst snd]; constructor; [|assumption].
    split; [reflexivity|]. cbn [fst snd] in *. destruct b as [M w out|M wH w out| | | | |]; cbn [partner permuting] in *; try exact I;
      unfold partner_draw; rewrite Hb; exists (o2_drawn v cv), (o2_drawn (turn v) cv); (split; [reflexivity|]); (split; [reflexivity|]);
      destruct out; intros x _; apply o2_turned_draw.
Qed.
Print Assumptions C52_random_E2.

Theorem C52_random_E3 : forall (g : O3), o3_wf g -> o3c g = 1 -> signed3 (o3_as_matrix g) ->
  let p := so3_matrix_to_quat (o3r g) in
  forall (M : gmodule O3 V3) (weight : tensor R) (K : option (list O3)) (c : R) (q : Q4) (net : list (block O3 V3 * (R * Q4))) (X X' Y : tensor R) HY modules,
  let prog := map (fun b => (fst b, drawn_E3 (fst (snd b)) (snd (snd b)))) net in
  let prog' := map (fun b => (fst b, drawn_E3 (fst (snd b)) (qmul p (snd (snd b))))) net in
  gm_permute M = true -> 0 < qdot q q -> Forall (fun b => permuting (fst b) /\ 0 < qdot (snd (snd b)) (snd (snd b))) net ->
  ready_lifting_E3 M weight X ->
  network_ok En 3 o3_left_apply_O3 ready_E3 M weight (drawn_E3 c q) K prog X ->
  moved3 (o3_as_matrix g) X X' ->
  network En 3 o3_left_apply_O3 M weight (drawn_E3 c q) K prog X = Ok (Y, HY, modules) ->
  exists Y' HY', network En 3 o3_left_apply_O3 M weight (drawn_E3 c (qmul p q)) K prog' X' = Ok (Y', HY', modules) /\
    same_up_to 3 (moved3 (o3_as_matrix g)) (o3_left_apply_O3 g) Y HY Y' HY' /\
    g_avg_global_pool Y' = g_avg_global_pool Y /\
    (forall v i, g_max_global_pool Y = Ok (PPair v i) -> exists i', g_max_global_pool Y' = Ok (PPair v i')).
Proof.
  intros g Hwf Hc1 Hsg p M weight K c q net X X' Y HY modules prog prog' Hp Hq Hd HL HN HM E.
  apply (C52_E3 g Hwf Hc1 Hsg M weight K (drawn_E3 c q) (drawn_E3 c (qmul p q)) prog prog' X X' Y HY modules HL HN); try assumption.
  - unfold partner_lifting. rewrite Hp. exists (o3_random c q), (o3_random c (qmul p q)). split; [reflexivity|]. split; [reflexivity|].
    intros x _. apply o3_turned_draw; assumption.
  - unfold prog, prog'. clear - Hd Hwf Hc1 p. induction Hd as [|[b [cv v]] net [Hb Hv] Hd IH]; cbn [map fst snd]; constructor; [|assumption].
    split; [reflexivity|]. cbn [fst snd] in *. destruct b as [M w out|M wH w out| | | | |]; cbn [partner permuting] in *; try exact I;
      unfold partner_draw; rewrite Hb; exists (o3_random cv v), (o3_random cv (qmul p v)); (split; [reflexivity|]); (split; [reflexivity|]);
      destruct out; intros x _; apply o3_turned_draw; assumption.
Qed.
Print Assumptions C52_random_E3.

(** ** Fixed grids *)
(** With permute_output_grid off, uniform grids of 4m rotations and the default output grids, the same network gives the same pooled features
    for the image and the turned image. *)
Theorem C52_uniform_SE2 : forall (q : Z) (m : nat), let g := IZR q * (PI / 2) in
  forall (M : gmodule R V2) (weight : tensor R) (K : option (list R)) rs (net : list (block R V2 * list R)) (X X' Y : tensor R) HY modules,
  gm_permute M = false -> or_else K (k_grid_H (l_kernel (gm_layer M))) = so2_uniform_grid (4 * m) ->
  Forall (fun b => not_permuting (fst b) /\ default_grid (fst b)) net ->
  ready_lifting_SE2 M weight X ->
  network_ok SEn 2 so2_left_apply_angle ready_SE2 M weight rs K net X ->
  moved2 (so2_angle_to_matrix g) X X' ->
  network SEn 2 so2_left_apply_angle M weight rs K net X = Ok (Y, HY, modules) ->
  exists Y' HY', network SEn 2 so2_left_apply_angle M weight rs K net X' = Ok (Y', HY', modules) /\
    same_up_to 2 (moved2 (so2_angle_to_matrix g)) (so2_left_apply_angle g) Y HY Y' HY' /\
    g_avg_global_pool Y' = g_avg_global_pool Y /\
    (forall v i, g_max_global_pool Y = Ok (PPair v i) -> exists i', g_max_global_pool Y' = Ok (PPair v i')).
Proof.
  intros q m g M weight K rs net X X' Y HY modules Hp HK Hd HL HN HM E.
  apply (C52_SE2 q M weight K rs rs net net X X' Y HY modules HL HN); try assumption.
  - unfold partner_lifting. rewrite Hp. unfold kernel_grid. rewrite HK. apply so2_uniform_turned.
  - clear - Hd. induction Hd as [|[b v] net [Hn Hb] Hd IH]; constructor; [|assumption].
    split; [reflexivity|]. cbn [fst snd] in *. destruct b as [M w out|M wH w out| | | | |]; cbn [partner default_grid not_permuting] in *; try exact I; subst out;
      unfold partner_draw; rewrite Hn; exact I.
Qed.
Print Assumptions C52_uniform_SE2.

(** E(2): the grids are the kernels' own, uniform with 4 n rotations and 4 m inversions each. *)
Theorem C52_uniform_E2 : forall (q : Z) (n m : nat), let g := mkO2 1 (IZR q * (PI / 2)) in
  forall (M : gmodule O2 V2) (weight : tensor R) rs (net : list (block O2 V2 * list O2)) (X X' Y : tensor R) HY modules,
  let own (M : gmodule O2 V2) := gm_permute M = false /\ k_grid_H (l_kernel (gm_layer M)) = o2_uniform_grid (4 * n) (4 * m) in
  own M ->
  Forall (fun b => default_grid (fst b) /\ match fst b with BConv M _ _ | BSeparable M _ _ _ => own M | _ => True end) net ->
  ready_lifting_E2 M weight X ->
  network_ok En 2 o2_left_apply_angle ready_E2 M weight rs None net X ->
  moved2 (o2_acting_matrix g) X X' ->
  network En 2 o2_left_apply_angle M weight rs None net X = Ok (Y, HY, modules) ->
  exists Y' HY', network En 2 o2_left_apply_angle M weight rs None net X' = Ok (Y', HY', modules) /\
    same_up_to 2 (moved2 (o2_acting_matrix g)) (o2_left_apply_angle g) Y HY Y' HY' /\
    g_avg_global_pool Y' = g_avg_global_pool Y /\
    (forall v i, g_max_global_pool Y = Ok (PPair v i) -> exists i', g_max_global_pool Y' = Ok (PPair v i')).
Proof.
  intros q n m g M weight rs net X X' Y HY modules own [Hp HK] Hd HL HN HM E.
  apply (C52_E2 q M weight None rs rs net net X X' Y HY modules HL HN); try assumption.
  - unfold partner_lifting. rewrite Hp. cbn [or_else]. unfold kernel_grid. rewrite HK. apply o2_uniform_turned.
  - clear - Hd. induction Hd as [|[b v] net [Hb Hn] Hd IH]; constructor; [|assumption].
    split; [reflexivity|]. cbn [fst snd] in *. destruct b as [M w out|M wH w out| | | | |]; cbn [partner default_grid] in *; try exact I; subst out;
      destruct Hn as [Hn1 Hn2]; unfold partner_draw; rewrite Hn1; unfold base_grid; cbn [or_else]; unfold kernel_grid; rewrite Hn2; apply o2_uniform_turned.
Qed.
Print Assumptions C52_uniform_E2.

(** 3d: a grid that g maps to itself (e.g. any finite group of rotations containing g). *)
Theorem C52_closed_SE3 : forall (g : M3), signed3 g -> det3 g = 1 ->
  forall (M : gmodule M3 V3) (weight : tensor R) (K : option (list M3)) rs (net : list (block M3 V3 * list M3)) (X X' Y : tensor R) HY modules,
  gm_permute M = false -> let H := or_else K (k_grid_H (l_kernel (gm_layer M))) in
  NoDup H -> (forall h, In h H -> In (mul3 g h) H) ->
  Forall (fun b => not_permuting (fst b) /\ default_grid (fst b)) net ->
  ready_lifting_SE3 M weight X ->
  network_ok SEn 3 so3_left_apply_matrix ready_SE3 M weight rs K net X ->
  moved3 g X X' ->
  network SEn 3 so3_left_apply_matrix M weight rs K net X = Ok (Y, HY, modules) ->
  exists Y' HY', network SEn 3 so3_left_apply_matrix M weight rs K net X' = Ok (Y', HY', modules) /\
    same_up_to 3 (moved3 g) (so3_left_apply_matrix g) Y HY Y' HY' /\
    g_avg_global_pool Y' = g_avg_global_pool Y /\
    (forall v i, g_max_global_pool Y = Ok (PPair v i) -> exists i', g_max_global_pool Y' = Ok (PPair v i')).
Proof.
  intros g Hsg Hdet M weight K rs net X X' Y HY modules Hp H Hnd Hcl Hd HL HN HM E.
  apply (C52_SE3 g Hsg Hdet M weight K rs rs net net X X' Y HY modules HL HN); try assumption.
  - unfold partner_lifting. rewrite Hp. apply (closed_permutation (mul3 g)); [|assumption|assumption].
    intros x y Exy. apply (f_equal (mul3 (tr3 g))) in Exy. rewrite <- !mul3_assoc in Exy || rewrite !mul3_assoc in Exy.
    destruct Hsg as ((O1 & _) & _). rewrite O1, !mul3_I_l in Exy. exact Exy.
  - clear - Hd. induction Hd as [|[b v] net [Hn Hb] Hd IH]; constructor; [|assumption].
    split; [reflexivity|]. cbn [fst snd] in *. destruct b as [M w out|M wH w out| | | | |]; cbn [partner default_grid not_permuting] in *; try exact I; subst out;
      unfold partner_draw; rewrite Hn; exact I.
Qed.
Print Assumptions C52_closed_SE3.

Lemma nearest_full_SE2 T (HT : torch_ok T) cin out s groups (given : R) mask grid k weight in_H out_H : (0 < s)%nat -> given <> 0 -> grid <> [] ->
  kernel_SE2 T cin out s groups "nearest" given "bilinear" "border" mask grid = Ok k ->
  has_shape weight [List.length grid; out; cin / groups; s; s]%nat ->
  exists W, full_kernel_forward k weight in_H out_H = Ok W /\ has_shape W (out :: List.length out_H :: (cin / groups)%nat :: List.length in_H :: [s; s]).
Proof.
  intros Hs Hgiv Hne Ek Hw.
  assert (k_size k = [s; s] /\ k_ops k = ops_SE2 T "nearest" given "bilinear" "border" /\ k_gdim k = List.length grid /\ k_out k = out /\ k_cin k = (cin / groups)%nat /\
          k_grid_H k = grid /\ has_shape (k_grid_Rn k) [s; s] /\ mask_ok (k_mask k) [s; s]) as (S1 & S2 & S3 & S4 & S5 & S6 & S7 & S8).
  { revert Ek. unfold kernel_SE2, width_SE2. rewrite default_width_given by lra. cbn [bind]. intros E. injection E as <-.
    split; [reflexivity|]. split; [reflexivity|]. split; [unfold k_gdim; cbn; lia|]. repeat (split; [reflexivity|]). split; [apply (grid_R2_shape s)|apply (mask_R2_shape s)]. }
  destruct (so2_nearest_total T HT given (prodn [out; (cin / groups); s; s]%nat) (relatives so2_inverse_angle so2_left_apply_angle in_H out_H)
    (param_rows (k_gdim k) [out; (cin / groups); s; s]%nat weight) (k_grid_H k)) as (rows & Hr).
  { rewrite S6. exact Hne. } { rewrite param_rows_count, S3, S6. reflexivity. }
  pose proof (sampled_SE2 k T "nearest" given "bilinear" "border" _ weight in_H out_H rows S2 Hr) as Hsam.
  pose proof (gops_ok_SE2 T "nearest" given "bilinear" "border") as Hops. rewrite <- S2 in Hops.
  assert (op_sample_Rn (k_ops k) = Ok (gs2 true GsBorder)) as Hsmp by (rewrite S2; reflexivity).
  rewrite <- S1 in S7, S8.
  assert (prodn (k_size k) <> 0)%nat as Hp by (rewrite S1; cbn; nia).
  assert (k_gdim k <> 0)%nat as Hg by (rewrite S3; destruct grid; [congruence|discriminate]).
  assert (has_shape weight (full_weight_shape k)) as Hw' by (unfold full_weight_shape; rewrite S1, S3, S4, S5; exact Hw).
  assert ([out; (cin / groups); s; s]%nat = k_out k :: k_cin k :: k_size k) as Erow by (rewrite S1, S4, S5; reflexivity). rewrite Erow in Hsam.
  destruct (full_formula k _ _ _ _ Hops S7 S8 Hp Hg (gs2 true GsBorder) weight in_H out_H _ Hsmp Hw' Hsam) as (W & EW & HW & _).
  rewrite S1, S4, S5 in HW. eauto.
Qed.


(** A lifting convolution 1 -> 2 on four rotations, batch normalization, ReLU, a group convolution 2 -> 3 (nearest neighbour on the group), on 6x6
    images: all conditions of C52_uniform_SE2 hold and the network runs. *)
Example C52_nonvacuous : forall T, torch_ok T -> exists M M1 (Y : tensor R) HY modules,
  let w := build [2; 1; 3; 3]%nat (fun idx => INR (nth 3 idx 0%nat)) in
  let w1 := build [4; 3; 2; 3; 3]%nat (fun idx => INR (nth 0 idx 0%nat)) in
  let X := build [2; 1; 6; 6]%nat (fun idx => INR (nth 2 idx 0%nat)) in
  let s := {| nm_features := 2; nm_eps := 1/100000; nm_momentum := Some (1/10); nm_weight := Some [1; 1]; nm_bias := Some [0; 0];
    nm_mean := Some [0; 0]; nm_var := Some [1; 1]; nm_count := 0; nm_training := true |} in
  let net := [(BBatchNorm s, []); (BReLU, []); (BConv M1 w1 None, [])] : list (block R V2 * list R) in
  lifting_SE2 T 1 2 3 1 1 (PInt 0) 1 "zeros" false None "bilinear" "border" true 4 None = Ok M /\
  group_SE2 T 2 3 3 1 1 (PInt 0) 1 "zeros" false None "bilinear" "border" true 4 "nearest" 1 None = Ok M1 /\
  gm_permute M = false /\ or_else None (k_grid_H (l_kernel (gm_layer M))) = so2_uniform_grid (4 * 1) /\
  Forall (fun b => not_permuting (fst b) /\ default_grid (fst b)) net /\
  ready_lifting_SE2 M w X /\
  network_ok SEn 2 so2_left_apply_angle ready_SE2 M w [] None net X /\
  network SEn 2 so2_left_apply_angle M w [] None net X = Ok (Y, HY, modules) /\ has_shape Y [2; 3; 4; 2; 2]%nat.
Proof.
  intros T HT.
  pose (w := build [2; 1; 3; 3]%nat (fun idx => INR (nth 3 idx 0%nat))).
  pose (w1 := build [4; 3; 2; 3; 3]%nat (fun idx => INR (nth 0 idx 0%nat))).
  pose (X := build [2; 1; 6; 6]%nat (fun idx => INR (nth 2 idx 0%nat))).
  pose (s := {| nm_features := 2; nm_eps := 1/100000; nm_momentum := Some (1/10); nm_weight := Some [1; 1]; nm_bias := Some [0; 0];
    nm_mean := Some [0; 0]; nm_var := Some [1; 1]; nm_count := 0; nm_training := true |}).
  assert (has_shape w [2; 1; 3; 3]%nat) as Hw by (split; [reflexivity|apply wft_build]).
  assert (has_shape w1 [4; 3; 2; 3; 3]%nat) as Hw1 by (split; [reflexivity|apply wft_build]).
  assert (has_shape X [2; 1; 6; 6]%nat) as HX by (split; [reflexivity|apply wft_build]).
  destruct (C69_lifting_SE2 T 1 2 3 1 1 (PInt 0) 1 "zeros" false None "bilinear" "border" true 4 None) as (A & _ & Eg & _).
  destruct A as (L & EM & EL & _).
  { split; [exact I|]. split; [lia|]. split; [exists 1%Z; reflexivity|]. split; [exists 2%Z; reflexivity|]. split; [discriminate|simpl; auto]. }
  set (M := mkModule L false) in *.
  destruct (C69_group_SE2 T 2 3 3 1 1 (PInt 0) 1 "zeros" false None "bilinear" "border" true 4 "nearest" 1 None) as (A1 & _).
  destruct A1 as (k & Ek & (L1 & EM1 & EL1 & HC1) & Egk & _).
  { left. lra. }
  { split; [exact I|]. split; [lia|]. split; [exists 2%Z; reflexivity|]. split; [exists 3%Z; reflexivity|]. split; [discriminate|simpl; auto]. }
  set (M1 := mkModule L1 false) in *.
  destruct HC1 as (m1 & Em1 & HC1). { repeat split; lia. } injection Em1 as <-.
  assert (kernel_grid M = so2_uniform_grid 4) as EK. { unfold kernel_grid, M. cbn [gm_layer]. rewrite EL. exact Eg. }
  assert (so2_uniform_grid 4 <> []) as Hne. { intros Q. apply (f_equal (@List.length R)) in Q. rewrite so2_uniform_grid_length in Q. discriminate. }
  destruct (C69_lifting_SE2_calls T 1 2 3 1 1 (PInt 0) 1 "zeros" false None "bilinear" "border" true 4 None M 0 w X 2 6 6 (gs2 true GsBorder) EM)
    with (H := @None (list R)) as (m & Hm & F & _); [repeat split; lia|reflexivity|exact Hw|exact HX|exact Hne|].
  injection Hm as <-. destruct F as (Y1 & H1 & EY1 & SY1).
  { intros j Hj. cbn in Hj. destruct j as [|[|j]]; [vm_compute; lia|vm_compute; lia|lia]. }
  assert (lifting_call M so2_left_apply_angle [] w X None = Ok (Y1, H1)) as EY by exact EY1.
  assert (H1 = so2_uniform_grid 4) as ->. { pose proof (lifting_forward_grid _ _ _ _ _ _ EY1) as Q. exact (eq_trans Q EK). }
  rewrite so2_uniform_grid_length in SY1. change (has_shape Y1 [2; 2; 4; 4; 4]%nat) in SY1.
  destruct (C56_batch_norm R 2 s Y1 (so2_uniform_grid 4) 2 2 4 [4; 4]%nat SY1 eq_refl ltac:(lia) eq_refl) as [_ B].
  destruct B as (Y2 & s' & EY2 & SY2 & _). { right. vm_compute. discriminate. }
  pose (Y3 := ewise relu Y2). assert (has_shape Y3 [2; 2; 4; 4; 4]%nat) as SY3. { destruct SY2 as [Q1 Q2]. split; [exact Q1|]. unfold wft in *. cbn [Y3 ewise shape data]. rewrite map_length. exact Q2. }
  destruct (nearest_full_SE2 T HT 2 3 3 1 1 true (so2_uniform_grid 4) k w1 (so2_uniform_grid 4) (so2_uniform_grid 4)) as (W & EW & HW);
    [lia|lra|exact Hne|exact Ek|rewrite so2_uniform_grid_length; exact Hw1|].
  rewrite so2_uniform_grid_length in HW.
  destruct (C46_group_convolution R V2 _ 2 L1 2 3 [3; 3]%nat k 1 [1; 1]%nat (PInt 0) [1; 1]%nat Zeros None w1 W (so2_uniform_grid 4) (so2_uniform_grid 4) Y3 2 [4; 4]%nat)
    as [C _]; [exact HC1|exact Hne|exact EW|rewrite so2_uniform_grid_length; exact HW|rewrite so2_uniform_grid_length; exact SY3|reflexivity|].
  destruct C as (Y4 & EY4 & SY4 & _).
  { intros j Hj. cbn in Hj. destruct j as [|[|j]]; [vm_compute; lia|vm_compute; lia|lia]. }
  rewrite so2_uniform_grid_length in SY4. change (has_shape Y4 [2; 3; 4; 2; 2]%nat) in SY4.
  exists M, M1, Y4, (so2_uniform_grid 4), [BBatchNorm s'; BReLU; BConv M1 w1 None]. cbv zeta. fold w w1 X s.
  split; [exact EM|]. split; [exact EM1|]. split; [reflexivity|]. split; [exact EK|].
  split. { repeat constructor. }
  split.
  { exists T, 1%nat, 2%nat, 3%nat, 1%Z, 1%nat, (PInt 0), 1%nat, "zeros"%string, false, None, "bilinear"%string, "border"%string, true, 4%nat, None, (so2_uniform_grid 4), 0%nat, 2%nat, 6%nat, 6%nat.
    split; [reflexivity|]. split; [exact EM|]. split; [repeat split; lia|]. split; [lia|]. split; [left; reflexivity|]. split; [exact Hw|]. split; [exact HX|left; reflexivity]. }
  split.
  { split; [cbn [or_else]; rewrite EK; exact Hne|]. intros Y0 H0 E0. rewrite EY in E0. injection E0 as <- <-. cbn [throughout ready_SE2]. split; [exact I|].
    intros Y0 H0 b0 E0. cbn [step] in E0. rewrite EY2 in E0. cbn [bind fst snd] in E0. injection E0 as <- <- <-. split; [exact I|].
    intros Y0 H0 b0 E0. cbn [step g_relu bind fst snd] in E0. injection E0 as <- <- <-. split; [|intros; exact I].
    split; [|exact Hne].
    exists T, 2%nat, 3%nat, 3%nat, 1%Z, 1%nat, (PInt 0), 1%nat, "zeros"%string, false, None, "bilinear"%string, "border"%string, true, 4%nat, "nearest"%string, 1, None, (so2_uniform_grid 4), 0%nat, 2%nat, 4%nat, 4%nat, 4%nat.
    split; [reflexivity|]. split; [exact EM1|]. split; [repeat split; lia|]. split; [lia|]. split; [left; reflexivity|].
    split; [rewrite so2_uniform_grid_length; exact Hw1|]. split; [exact SY3|left; reflexivity]. }
  split; [|exact SY4].
  unfold network. rewrite EY. cbn [bind fst snd run step]. rewrite EY2. cbn [bind fst snd run step g_relu]. fold Y3.
  unfold full_call_SEn. cbn [or_else permuted M1 gm_permute gm_layer]. unfold permuted. cbn [gm_permute]. rewrite EY4. cbn [bind fst snd]. reflexivity.
Qed.
