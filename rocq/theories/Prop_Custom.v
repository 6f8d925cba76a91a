(** Property theorems C73: custom group convolutions (README.md:36 "All that is required is implementing 5 (or less)
    group ops"; gconv_tutorial.ipynb). For any group operations meeting the contract of CustomSpec.v, any sampler treating
    its queries row by row, any reference grid and group kernel size, the lifting, full and separable layers built from them are
    equivariant to every group element that moves the spatial kernel grid onto itself. *)
From Coq Require Import String RelationClasses.
From Verif Require Import Prelude RMath Mat Interp Tensor TensorFacts SignedPerm Functional FunctionalFacts Kernel KernelFacts GroupKernelFacts KernelMore
  Conv ConvSpec ConvFacts ConvInit Prop_Kernel Prop_Kernel2 EquiSpec EquiSpecFacts EquiKernel EquiGroups EquiLayer Equi Prop_Equi CustomSpec CustomFacts.
Open Scope R_scope.

(** The kernel object: GLiftingKernel, GKernel or GSeparableKernel called with a cubic kernel size, the matching
    create_grid_R2 / create_grid_R3 grid and optionally the spherical mask. *)
Definition custom_kernel2 {G} (k : gkernel G V2) (ops : gops G V2) (cin out s groups : nat) : Prop :=
  k_in k = cin /\ k_out k = out /\ k_groups k = groups /\ k_size k = [s; s] /\ k_grid_Rn k = create_grid_R2 s /\
  (k_mask k = None \/ k_mask k = Some (create_spherical_mask_R2 s)) /\ k_ops k = ops.
Definition custom_kernel3 {G} (k : gkernel G V3) (ops : gops G V3) (cin out s groups : nat) : Prop :=
  k_in k = cin /\ k_out k = out /\ k_groups k = groups /\ k_size k = [s; s; s] /\ k_grid_Rn k = create_grid_R3 s /\
  (k_mask k = None \/ k_mask k = Some (create_spherical_mask_R3 s)) /\ k_ops k = ops.

(** Entries without the bias change sign. *)
Definition negated (d : nat) (bias : option (tensor R)) (pre : list nat) (v v' : R) : Prop :=
  v' - bias_value d bias (nth 1 pre 0%nat) = - (v - bias_value d bias (nth 1 pre 0%nat)).

Theorem C73_custom_lifting_2d : forall {G} (ops : gops G V2) member same one inv mul act det
    (L : gconv G V2) k cin out s groups st padding dl m bias lp weight (X X' Y : tensor R) N h w H g A,
  group_ops ops member same one inv mul act det -> custom_kernel2 k ops cin out s groups ->
  constructed 2 L cin out [s; s] k groups [st; st] padding [dl; dl] m bias ->
  (2 <= s)%nat -> padded_by 2 padding s dl lp ->
  has_shape weight (out :: cin / groups :: [s; s])%nat -> H <> [] -> (forall a, In a H -> member a) ->
  has_shape X (N :: cin :: [h; w]) -> covered 2 s st dl lp [h; w] ->
  member g -> (forall v, act g v = app2 A v) -> signed2 A -> detf det g = 1 \/ detf det g = -1 ->
  moved2 A X X' ->
  lifting_forward L weight X H = Ok (Y, H) ->
  exists Y', lifting_forward L weight X' (map (mul g) H) = Ok (Y', map (mul g) H) /\
    (detf det g = 1 -> moved2 A Y Y') /\ (detf det g = -1 -> carried2 (negated 2 bias) A Y Y').
Proof.
  intros G ops member same one inv mul act det L k cin out s groups st padding dl m bias lp weight X X' Y N h w H g A
    GO (Ki & Ko & Kg & Ks & Kr & Km & Kops) Hc Hs Hpad Hw HH HM HX Hex Hg HA HsA Hdet HMv E.
  destruct (symmetry2 _ HsA) as (sp & Hok & Et & Hiff). rewrite <- Kops in *.
  assert (Hcin : k_cin k = (cin / groups)%nat) by (unfold k_cin; congruence).
  assert (K : kernel_moves 2 k inv mul act det g sp (detf det g) H).
  { destruct Km as [Km|Km].
    - apply (moves_custom2 member same one inv mul det act k s false g A sp (detf det g) H GO); auto.
    - apply (moves_custom2 member same one inv mul det act k s true g A sp (detf det g) H GO); auto. }
  assert (exists smp, op_sample_Rn (k_ops k) = Ok smp) as [smp Hsmp].
  { destruct (constructed_spec _ _ _ _ _ _ _ _ _ _ _ _ Hc) as (_ & _ & Ek & _).
    unfold lifting_forward in E. rewrite (proj1 HX), Ek in E. unfold lifting_kernel_forward in E.
    destruct (op_sample_Rn (k_ops k)); [eauto|discriminate]. }
  assert (Hw' : has_shape weight (lifting_weight_shape k)) by (unfold lifting_weight_shape; rewrite Ko, Hcin, Ks; exact Hw).
  destruct (lifting_layer 2 L cin out s k groups st padding dl m bias lp Hc Hpad Ko Hcin Ks _ _ _ _ g sp _ 1
    smp weight H X X' N [h; w] Y K Hsmp Hw' HH HX eq_refl Hex) as (Y' & E' & V); [|exact E|].
  - apply Hiff in HMv. revert HMv. apply carried_sp_impl. intros pre v v' ->. unfold factor_rel. ring.
  - exists Y'. split; [exact E'|]. split; intros Hd; apply Hiff; revert V; apply carried_sp_impl; unfold sign_rel, negated; rewrite Hd; intros pre v v' Hv; lra.
Qed.
Print Assumptions C73_custom_lifting_2d.

Theorem C73_custom_lifting_3d : forall {G} (ops : gops G V3) member same one inv mul act det
    (L : gconv G V3) k cin out s groups st padding dl m bias lp weight (X X' Y : tensor R) N d h w H g A,
  group_ops ops member same one inv mul act det -> custom_kernel3 k ops cin out s groups ->
  constructed 3 L cin out [s; s; s] k groups [st; st; st] padding [dl; dl; dl] m bias ->
  (2 <= s)%nat -> padded_by 3 padding s dl lp ->
  has_shape weight (out :: cin / groups :: [s; s; s])%nat -> H <> [] -> (forall a, In a H -> member a) ->
  has_shape X (N :: cin :: [d; h; w]) -> covered 3 s st dl lp [d; h; w] ->
  member g -> (forall v, act g v = app3 A v) -> signed3 A -> detf det g = 1 \/ detf det g = -1 ->
  moved3 A X X' ->
  lifting_forward L weight X H = Ok (Y, H) ->
  exists Y', lifting_forward L weight X' (map (mul g) H) = Ok (Y', map (mul g) H) /\
    (detf det g = 1 -> moved3 A Y Y') /\ (detf det g = -1 -> carried3 (negated 3 bias) A Y Y').
Proof.
  intros G ops member same one inv mul act det L k cin out s groups st padding dl m bias lp weight X X' Y N d h w H g A
    GO (Ki & Ko & Kg & Ks & Kr & Km & Kops) Hc Hs Hpad Hw HH HM HX Hex Hg HA HsA Hdet HMv E.
  destruct (symmetry3 _ HsA) as (sp & Hok & Et & Hiff). rewrite <- Kops in *.
  assert (Hcin : k_cin k = (cin / groups)%nat) by (unfold k_cin; congruence).
  assert (K : kernel_moves 3 k inv mul act det g sp (detf det g) H).
  { destruct Km as [Km|Km].
    - apply (moves_custom3 member same one inv mul det act k s false g A sp (detf det g) H GO); auto.
    - apply (moves_custom3 member same one inv mul det act k s true g A sp (detf det g) H GO); auto. }
  assert (exists smp, op_sample_Rn (k_ops k) = Ok smp) as [smp Hsmp].
  { destruct (constructed_spec _ _ _ _ _ _ _ _ _ _ _ _ Hc) as (_ & _ & Ek & _).
    unfold lifting_forward in E. rewrite (proj1 HX), Ek in E. unfold lifting_kernel_forward in E.
    destruct (op_sample_Rn (k_ops k)); [eauto|discriminate]. }
  assert (Hw' : has_shape weight (lifting_weight_shape k)) by (unfold lifting_weight_shape; rewrite Ko, Hcin, Ks; exact Hw).
  destruct (lifting_layer 3 L cin out s k groups st padding dl m bias lp Hc Hpad Ko Hcin Ks _ _ _ _ g sp _ 1
    smp weight H X X' N [d; h; w] Y K Hsmp Hw' HH HX eq_refl Hex) as (Y' & E' & V); [|exact E|].
  - apply Hiff in HMv. revert HMv. apply carried_sp_impl. intros pre v v' ->. unfold factor_rel. ring.
  - exists Y'. split; [exact E'|]. split; intros Hd; apply Hiff; revert V; apply carried_sp_impl; unfold sign_rel, negated; rewrite Hd; intros pre v v' Hv; lra.
Qed.
Print Assumptions C73_custom_lifting_3d.

Theorem C73_custom_full_2d : forall {G} (ops : gops G V2) member same one inv mul act det
    (L : gconv G V2) k cin out s groups st padding dl m bias lp weight (X X' Y : tensor R) N h w in_H out_H g A,
  group_ops ops member same one inv mul act det -> row_by_row ops -> custom_kernel2 k ops cin out s groups ->
  constructed 2 L cin out [s; s] k groups [st; st] padding [dl; dl] m bias ->
  (2 <= s)%nat -> padded_by 2 padding s dl lp ->
  has_shape weight (k_gdim k :: out :: cin / groups :: [s; s])%nat -> out_H <> [] -> (forall a, In a in_H -> member a) -> (forall a, In a out_H -> member a) ->
  has_shape X (N :: cin :: List.length in_H :: [h; w]) -> covered 2 s st dl lp [h; w] ->
  member g -> (forall v, act g v = app2 A v) -> signed2 A -> detf det g = 1 \/ detf det g = -1 ->
  moved2 A X X' ->
  full_forward L weight X in_H out_H = Ok (Y, out_H) ->
  exists Y', full_forward L weight X' (map (mul g) in_H) (map (mul g) out_H) = Ok (Y', map (mul g) out_H) /\
    (detf det g = 1 -> moved2 A Y Y') /\ (detf det g = -1 -> carried2 (negated 2 bias) A Y Y').
Proof.
  intros G ops member same one inv mul act det L k cin out s groups st padding dl m bias lp weight X X' Y N h w in_H out_H g A
    GO HR (Ki & Ko & Kg & Ks & Kr & Km & Kops) Hc Hs Hpad Hw HH HMi HM HX Hex Hg HA HsA Hdet HMv E.
  destruct (symmetry2 _ HsA) as (sp & Hok & Et & Hiff). rewrite <- Kops in *.
  assert (Hcin : k_cin k = (cin / groups)%nat) by (unfold k_cin; congruence).
  assert (K : kernel_moves 2 k inv mul act det g sp (detf det g) out_H).
  { destruct Km as [Km|Km].
    - apply (moves_custom2 member same one inv mul det act k s false g A sp (detf det g) out_H GO); auto.
    - apply (moves_custom2 member same one inv mul det act k s true g A sp (detf det g) out_H GO); auto. }
  assert (Hw' : has_shape weight (full_weight_shape k)) by (unfold full_weight_shape; rewrite Ko, Hcin, Ks; exact Hw).
  destruct (group_layer 2 L cin out s k groups st padding dl m bias lp Hc Hpad Ko Hcin Ks _ _ _ _ g sp _ 1
    weight in_H out_H X X' N [h; w] Y K) as (Y' & E' & V); try assumption.
  { intros wt rows Hr. eapply rowwise_sampled; eassumption. }
  { intros a b Ha Hb. apply (left_invariant _ _ _ _ _ _ _ _ GO); auto. }
  { reflexivity. }
  - apply Hiff in HMv. revert HMv. apply carried_sp_impl. intros pre v v' ->. unfold factor_rel. ring.
  - exists Y'. split; [exact E'|]. split; intros Hd; apply Hiff; revert V; apply carried_sp_impl; unfold sign_rel, negated; rewrite Hd; intros pre v v' Hv; lra.
Qed.
Print Assumptions C73_custom_full_2d.

Theorem C73_custom_full_3d : forall {G} (ops : gops G V3) member same one inv mul act det
    (L : gconv G V3) k cin out s groups st padding dl m bias lp weight (X X' Y : tensor R) N d h w in_H out_H g A,
  group_ops ops member same one inv mul act det -> row_by_row ops -> custom_kernel3 k ops cin out s groups ->
  constructed 3 L cin out [s; s; s] k groups [st; st; st] padding [dl; dl; dl] m bias ->
  (2 <= s)%nat -> padded_by 3 padding s dl lp ->
  has_shape weight (k_gdim k :: out :: cin / groups :: [s; s; s])%nat -> out_H <> [] -> (forall a, In a in_H -> member a) -> (forall a, In a out_H -> member a) ->
  has_shape X (N :: cin :: List.length in_H :: [d; h; w]) -> covered 3 s st dl lp [d; h; w] ->
  member g -> (forall v, act g v = app3 A v) -> signed3 A -> detf det g = 1 \/ detf det g = -1 ->
  moved3 A X X' ->
  full_forward L weight X in_H out_H = Ok (Y, out_H) ->
  exists Y', full_forward L weight X' (map (mul g) in_H) (map (mul g) out_H) = Ok (Y', map (mul g) out_H) /\
    (detf det g = 1 -> moved3 A Y Y') /\ (detf det g = -1 -> carried3 (negated 3 bias) A Y Y').
Proof.
  intros G ops member same one inv mul act det L k cin out s groups st padding dl m bias lp weight X X' Y N d h w in_H out_H g A
    GO HR (Ki & Ko & Kg & Ks & Kr & Km & Kops) Hc Hs Hpad Hw HH HMi HM HX Hex Hg HA HsA Hdet HMv E.
  destruct (symmetry3 _ HsA) as (sp & Hok & Et & Hiff). rewrite <- Kops in *.
  assert (Hcin : k_cin k = (cin / groups)%nat) by (unfold k_cin; congruence).
  assert (K : kernel_moves 3 k inv mul act det g sp (detf det g) out_H).
  { destruct Km as [Km|Km].
    - apply (moves_custom3 member same one inv mul det act k s false g A sp (detf det g) out_H GO); auto.
    - apply (moves_custom3 member same one inv mul det act k s true g A sp (detf det g) out_H GO); auto. }
  assert (Hw' : has_shape weight (full_weight_shape k)) by (unfold full_weight_shape; rewrite Ko, Hcin, Ks; exact Hw).
  destruct (group_layer 3 L cin out s k groups st padding dl m bias lp Hc Hpad Ko Hcin Ks _ _ _ _ g sp _ 1
    weight in_H out_H X X' N [d; h; w] Y K) as (Y' & E' & V); try assumption.
  { intros wt rows Hr. eapply rowwise_sampled; eassumption. }
  { intros a b Ha Hb. apply (left_invariant _ _ _ _ _ _ _ _ GO); auto. }
  { reflexivity. }
  - apply Hiff in HMv. revert HMv. apply carried_sp_impl. intros pre v v' ->. unfold factor_rel. ring.
  - exists Y'. split; [exact E'|]. split; intros Hd; apply Hiff; revert V; apply carried_sp_impl; unfold sign_rel, negated; rewrite Hd; intros pre v v' Hv; lra.
Qed.
Print Assumptions C73_custom_full_3d.

Theorem C73_custom_separable_2d : forall {G} (ops : gops G V2) member same one inv mul act det
    (L : gconv G V2) k cin out s groups st padding dl m bias lp weight_H weight (X X' Y : tensor R) N h w in_H out_H g A,
  group_ops ops member same one inv mul act det -> row_by_row ops -> custom_kernel2 k ops cin out s groups ->
  constructed 2 L cin out [s; s] k groups [st; st] padding [dl; dl] m bias ->
  (2 <= s)%nat -> padded_by 2 padding s dl lp ->
  has_shape weight_H [k_gdim k; out; cin / groups]%nat -> has_shape weight (out :: 1 :: [s; s])%nat -> out_H <> [] -> (forall a, In a in_H -> member a) -> (forall a, In a out_H -> member a) ->
  has_shape X (N :: cin :: List.length in_H :: [h; w]) -> covered 2 1 st dl (first_pad m padding lp) [h; w] ->
  covered 2 s st dl lp (usize 2 1 st dl (first_pad m padding lp) [h; w]) ->
  member g -> (forall v, act g v = app2 A v) -> signed2 A -> detf det g = 1 \/ detf det g = -1 ->
  moved2 A X X' ->
  separable_forward L weight_H weight X in_H out_H = Ok (Y, out_H) ->
  exists Y', separable_forward L weight_H weight X' (map (mul g) in_H) (map (mul g) out_H) = Ok (Y', map (mul g) out_H) /\
    (detf det g = 1 -> moved2 A Y Y') /\ (detf det g = -1 -> carried2 (negated 2 bias) A Y Y').
Proof.
  intros G ops member same one inv mul act det L k cin out s groups st padding dl m bias lp weight_H weight X X' Y N h w in_H out_H g A
    GO HR (Ki & Ko & Kg & Ks & Kr & Km & Kops) Hc Hs Hpad HwH Hw HH HMi HM HX Hex1 Hex2 Hg HA HsA Hdet HMv E.
  destruct (symmetry2 _ HsA) as (sp & Hok & Et & Hiff). rewrite <- Kops in *.
  assert (Hcin : k_cin k = (cin / groups)%nat) by (unfold k_cin; congruence).
  assert (K : kernel_moves 2 k inv mul act det g sp (detf det g) out_H).
  { destruct Km as [Km|Km].
    - apply (moves_custom2 member same one inv mul det act k s false g A sp (detf det g) out_H GO); auto.
    - apply (moves_custom2 member same one inv mul det act k s true g A sp (detf det g) out_H GO); auto. }
  assert (HwH' : has_shape weight_H (group_weight_shape k)) by (unfold group_weight_shape; rewrite Ko, Hcin; exact HwH).
  assert (Hw' : has_shape weight (separable_weight_shape k)) by (unfold separable_weight_shape; rewrite Ko, Ks; exact Hw).
  destruct (separable_layer 2 L cin out s k groups st padding dl m bias lp Hc Hpad Ko Hcin Ks _ _ _ _ g sp _ 1
    weight_H weight in_H out_H X X' N [h; w] Y K) as (Y' & E' & V); try assumption.
  { intros wt rows Hr. eapply rowwise_sampled; eassumption. }
  { intros a b Ha Hb. apply (left_invariant _ _ _ _ _ _ _ _ GO); auto. }
  { reflexivity. }
  - apply Hiff in HMv. revert HMv. apply carried_sp_impl. intros pre v v' ->. unfold factor_rel. ring.
  - exists Y'. split; [exact E'|]. split; intros Hd; apply Hiff; revert V; apply carried_sp_impl; unfold sign_rel, negated; rewrite Hd; intros pre v v' Hv; lra.
Qed.
Print Assumptions C73_custom_separable_2d.

Theorem C73_custom_separable_3d : forall {G} (ops : gops G V3) member same one inv mul act det
    (L : gconv G V3) k cin out s groups st padding dl m bias lp weight_H weight (X X' Y : tensor R) N d h w in_H out_H g A,
  group_ops ops member same one inv mul act det -> row_by_row ops -> custom_kernel3 k ops cin out s groups ->
  constructed 3 L cin out [s; s; s] k groups [st; st; st] padding [dl; dl; dl] m bias ->
  (2 <= s)%nat -> padded_by 3 padding s dl lp ->
  has_shape weight_H [k_gdim k; out; cin / groups]%nat -> has_shape weight (out :: 1 :: [s; s; s])%nat -> out_H <> [] -> (forall a, In a in_H -> member a) -> (forall a, In a out_H -> member a) ->
  has_shape X (N :: cin :: List.length in_H :: [d; h; w]) -> covered 3 1 st dl (first_pad m padding lp) [d; h; w] ->
  covered 3 s st dl lp (usize 3 1 st dl (first_pad m padding lp) [d; h; w]) ->
  member g -> (forall v, act g v = app3 A v) -> signed3 A -> detf det g = 1 \/ detf det g = -1 ->
  moved3 A X X' ->
  separable_forward L weight_H weight X in_H out_H = Ok (Y, out_H) ->
  exists Y', separable_forward L weight_H weight X' (map (mul g) in_H) (map (mul g) out_H) = Ok (Y', map (mul g) out_H) /\
    (detf det g = 1 -> moved3 A Y Y') /\ (detf det g = -1 -> carried3 (negated 3 bias) A Y Y').
Proof.
  intros G ops member same one inv mul act det L k cin out s groups st padding dl m bias lp weight_H weight X X' Y N d h w in_H out_H g A
    GO HR (Ki & Ko & Kg & Ks & Kr & Km & Kops) Hc Hs Hpad HwH Hw HH HMi HM HX Hex1 Hex2 Hg HA HsA Hdet HMv E.
  destruct (symmetry3 _ HsA) as (sp & Hok & Et & Hiff). rewrite <- Kops in *.
  assert (Hcin : k_cin k = (cin / groups)%nat) by (unfold k_cin; congruence).
  assert (K : kernel_moves 3 k inv mul act det g sp (detf det g) out_H).
  { destruct Km as [Km|Km].
    - apply (moves_custom3 member same one inv mul det act k s false g A sp (detf det g) out_H GO); auto.
    - apply (moves_custom3 member same one inv mul det act k s true g A sp (detf det g) out_H GO); auto. }
  assert (HwH' : has_shape weight_H (group_weight_shape k)) by (unfold group_weight_shape; rewrite Ko, Hcin; exact HwH).
  assert (Hw' : has_shape weight (separable_weight_shape k)) by (unfold separable_weight_shape; rewrite Ko, Ks; exact Hw).
  destruct (separable_layer 3 L cin out s k groups st padding dl m bias lp Hc Hpad Ko Hcin Ks _ _ _ _ g sp _ 1
    weight_H weight in_H out_H X X' N [d; h; w] Y K) as (Y' & E' & V); try assumption.
  { intros wt rows Hr. eapply rowwise_sampled; eassumption. }
  { intros a b Ha Hb. apply (left_invariant _ _ _ _ _ _ _ _ GO); auto. }
  { reflexivity. }
  - apply Hiff in HMv. revert HMv. apply carried_sp_impl. intros pre v v' ->. unfold factor_rel. ring.
  - exists Y'. split; [exact E'|]. split; intros Hd; apply Hiff; revert V; apply carried_sp_impl; unfold sign_rel, negated; rewrite Hd; intros pre v v' Hv; lra.
Qed.
Print Assumptions C73_custom_separable_3d.

(** Non-vacuity: a user's own group, the four mirrorings of the plane (which the package does not provide), with a
    sampler looking the query up in the grid. *)
Definition flip (b : bool) (x : R) : R := if b then - x else x.
Definition mirror_mul (a b : bool * bool) : bool * bool := (xorb (fst a) (fst b), xorb (snd a) (snd b)).
Definition mirror_act (a : bool * bool) (v : V2) : V2 := mkV2 (flip (fst a) (v2x v)) (flip (snd a) (v2y v)).
Definition mirror_det (a : bool * bool) : R := if xorb (fst a) (snd a) then -1 else 1.
Definition mirror_mat (a : bool * bool) : M2 := mkM2 (if fst a then -1 else 1) 0 0 (if snd a then -1 else 1).
Definition mirror_eqb (a b : bool * bool) : bool := Bool.eqb (fst a) (fst b) && Bool.eqb (snd a) (snd b).
Definition mirror_row (S : nat) (signal : mat) (grid : list (bool * bool)) (q : bool * bool) : list R :=
  match find (fun p => mirror_eqb (fst p) q) (combine grid signal) with
  | Some p => if Nat.eqb (List.length (snd p)) S then snd p else repeat 0 S
  | None => repeat 0 S
  end.
Definition mirror_ops : gops (bool * bool) V2 := {|
  op_inverse := map (fun a => a);
  op_left_apply_to_H := fun A B => map (fun a => map (mirror_mul a) B) A;
  op_left_apply_to_Rn := fun A v => map (fun a => map (mirror_act a) v) A;
  op_det := Some (map mirror_det);
  op_sample_H := fun S q signal grid => Ok (map (mirror_row S signal grid) q);
  op_sample_Rn := sample_R2 "bilinear" "border" |}.
Example mirrors_are_custom :
  group_ops mirror_ops (fun _ => True) eq (false, false) (fun a => a) mirror_mul mirror_act (Some mirror_det) /\
  row_by_row mirror_ops /\
  (forall a, signed2 (mirror_mat a) /\ (forall v, mirror_act a v = app2 (mirror_mat a) v) /\ (mirror_det a = 1 \/ mirror_det a = -1)).
Proof.
  split; [|split].
  - constructor; try (intros; exact I); try (intros; congruence); try exact _.
    + constructor; try (intros; reflexivity). intros H. reflexivity.
    + intros [[] []] [[] []] [[] []] _ _ _; reflexivity.
    + intros [[] []] _; reflexivity.
    + intros [[] []] _; reflexivity.
    + intros [x y]; reflexivity.
    + intros [[] []] [[] []] [x y] _ _; unfold mirror_act, flip; cbn; f_equal; ring.
    + intros [[] []] [[] []] _ _; cbn; unfold mirror_det; cbn; ring.
  - intros S q signal grid rows Hl E. cbn in E. injection E as <-. exists (mirror_row S signal grid). split; [reflexivity|].
    intros a _. unfold mirror_row. destruct (find _ _) as [p|]; [|apply repeat_length].
    destruct (Nat.eqb_spec (List.length (snd p)) S); [assumption|apply repeat_length].
  - intros a. split; [|split].
    + destruct a as [[] []]; unfold signed2, mirror_mat, unit_entry, mul2, tr2, I2; cbn [b00 b01 b10 b11 fst snd]; (split; [f_equal; ring|]); repeat split; auto.
    + intros [x y]. destruct a as [[] []]; unfold mirror_act, flip, mirror_mat, app2; cbn; f_equal; ring.
    + destruct a as [[] []]; unfold mirror_det; cbn; auto.
Qed.
