(** Property theorems C72: saving and loading layers, and which tensors layers share.

    [run ops] is the state of a program that executed the operations [ops] (Checkpoint.v: making layers, loading
    checkpoints, training, making and overwriting tensors, asking for grids). [saved s y] is torch.save(y.state_dict()),
    [load_state_dict s y ck] is y.load_state_dict(ck), [call s y q X in_H H] is y(X, in_H, H). The loading program and the
    saving program are different programs: they have nothing in common but the checkpoint. *)
From Coq Require Import String ZArith.
From Verif Require Import Prelude RMath Mat Interp InterpExample SO3 Repulse GridTables GridCache GridCacheFacts Tensor Functional Kernel Conv Public Checkpoint CheckpointFacts CheckpointExample.
Open Scope R_scope.

(** The layer is alive in the program. *)
Definition alive (ops : list op) (y : layer) : Prop := exists i, nth_error (w_layers (run ops)) i = Some y.
Definition memory (ops : list op) : gstate := w_mem (run ops).
(** The grid a layer was constructed with (its length is the group kernel size). *)
Definition built_with (y : layer) : list M3 := kernel_grid (y_attr y).

(** A checkpoint of a layer can be loaded into every layer made with the same arguments and a grid of the same length, in
    any program; the load never raises, every entry then holds the saved value, and, unless the group interpolation uses
    a bandwidth derived from the grid, the layer computes the same outputs and raises the same errors as the saved one, for
    every input. *)
Theorem C72_checkpoint_restores_a_layer : forall ops0 y0 ops y,
  alive ops0 y0 -> alive ops y -> y_kind y = y_kind y0 -> y_args y = y_args y0 ->
  List.length (built_with y) = List.length (built_with y0) ->
  exists s', load_state_dict (memory ops) y (saved (memory ops0) y0) = (s', Ok tt) /\
    saved s' y = saved (memory ops0) y0 /\
    (y_kind y = KLifting \/ a_gmode (y_args y) = "nearest"%string \/ a_width (y_args y) <> 0 \/
     width_SE3 0 (built_with y) = width_SE3 0 (built_with y0) ->
     forall q X in_H H, call s' y q X in_H H = call (memory ops0) y0 q X in_H H).
Proof.
  intros ops0 y0 ops y [i0 H0] [i H] Ek EA El. unfold built_with, memory in *.
  pose proof (i_layers _ (run_inv ops0) i0 y0 H0) as L0. pose proof (i_layers _ (run_inv ops) i y H) as L.
  destruct (load_saved _ _ y y0 L L0 Ek EA El) as (s' & E & Es). exists s'. split; [exact E|]. split; [exact Es|].
  intros Hb q X in_H G. rewrite (call_saved s' _ y y0 Ek Es). apply call_with_attr. eapply same_modules; eauto.
Qed.
Print Assumptions C72_checkpoint_restores_a_layer.

(** A second program that loads what it saved itself, later in the same program. *)
Theorem C72_save_then_restore : forall ops more y, alive ops y ->
  exists s', load_state_dict (memory (ops ++ more)) y (saved (memory ops) y) = (s', Ok tt) /\
    saved s' y = saved (memory ops) y /\
    forall q X in_H H, call s' y q X in_H H = call (memory ops) y q X in_H H.
Proof.
  intros ops more y [i Hy].
  assert (Hy' : alive (ops ++ more) y).
  { exists i. unfold run. rewrite fold_left_app. fold (run ops). revert Hy. generalize (run ops).
    induction more as [|a r IH]; intros w Hy; [exact Hy|]. cbn [fold_left]. apply IH. apply nth_layers_do. exact Hy. }
  destruct (C72_checkpoint_restores_a_layer ops y (ops ++ more) y (ex_intro _ i Hy) Hy' eq_refl eq_refl eq_refl) as (s' & A & B & C).
  exists s'. split; [exact A|]. split; [exact B|]. apply C. right; right; right; reflexivity.
Qed.
Print Assumptions C72_save_then_restore.

(** Characterisation for every layer, rbf with a derived bandwidth included: after the load the layer behaves as the saved
    layer would with the attributes of the loading one. The bandwidth is one of those attributes and no entry of the
    checkpoint: it keeps the value derived from the grid the loading layer was constructed with. *)
Theorem C72_bandwidth_is_not_restored : forall ops0 y0 ops y ck s' r,
  alive ops0 y0 -> alive ops y -> y_kind y = y_kind y0 -> y_kind y <> KLifting -> y_args y = y_args y0 ->
  List.length (built_with y) = List.length (built_with y0) ->
  ck = saved (memory ops0) y0 -> load_state_dict (memory ops) y ck = (s', r) ->
  exists w w0, width_SE3 (a_width (y_args y)) (built_with y) = Ok w /\ width_SE3 (a_width (y_args y)) (built_with y0) = Ok w0 /\
    exists M M0, module_at s' y = Ok M /\ module_at (memory ops0) y0 = Ok M0 /\
      kernel_grid M = kernel_grid M0 /\
      k_ops (l_kernel (gm_layer M)) = ops_SE3 (a_env (y_args y)) (a_gmode (y_args y)) w (a_mode (y_args y)) (a_pm (y_args y)) /\
      k_ops (l_kernel (gm_layer M0)) = ops_SE3 (a_env (y_args y)) (a_gmode (y_args y)) w0 (a_mode (y_args y)) (a_pm (y_args y)).
Proof.
  intros ops0 y0 ops y ck s' r [i0 H0] [i H] Ek Hk EA El -> E. unfold built_with, memory in *.
  pose proof (i_layers _ (run_inv ops0) i0 y0 H0) as L0. pose proof (i_layers _ (run_inv ops) i y H) as L.
  destruct (load_saved _ _ y y0 L L0 Ek EA El) as (s1 & E1 & Es). rewrite E in E1. injection E1 as -> _.
  assert (L1 : CheckpointFacts.layer_ok s1 y).
  { eapply layer_ok_evolves; [exact L|]. pose proof (load_frame (w_mem (run ops)) y (saved (w_mem (run ops0)) y0)) as F. rewrite E in F. apply F. }
  destruct L as (_ & _ & g & fb & Ha). destruct (attributes_inv _ _ _ _ _ Ha) as (w & EM & Hw).
  pose proof L0 as (T0 & _ & g0 & fb0 & Ha0). destruct (attributes_inv _ _ _ _ _ Ha0) as (w0 & EM0 & Hw0).
  pose proof (attributes_grid _ _ _ _ _ Ha) as Hg. pose proof (attributes_grid _ _ _ _ _ Ha0) as Hg0. unfold kernel_grid. rewrite Hg, Hg0.
  rewrite <- Ek, <- EA in Hw0, EM0.
  exists w, w0. split; [destruct (y_kind y); [contradiction|exact Hw|exact Hw]|]. split; [destruct (y_kind y); [contradiction|exact Hw0|exact Hw0]|].
  destruct (module_ok _ _ L0) as (gr0 & sp0 & mk0 & b0 & Eg0 & EM1). destruct (module_ok _ _ L1) as (gr & sp & mk & b & Eg & EM2).
  exists (with_tensors (y_attr y) gr sp mk b), (with_tensors (y_attr y0) gr0 sp0 mk0 b0).
  split; [exact EM2|]. split; [exact EM1|]. split.
  - cbn. destruct (saved_parts _ _ _ _ Es) as (P & _). rewrite Eg, Eg0 in P. congruence.
  - rewrite EM, EM0. cbn. split; destruct (y_kind y); try contradiction; reflexivity.
Qed.
Print Assumptions C72_bandwidth_is_not_restored.

(** Defect: for rbf with a derived bandwidth the restored layer is a different function. Two GConvSE3 layers with equal
    arguments and grids of two rotations each; loading succeeds and every entry of the state_dict then agrees, yet the
    outputs on one and the same input differ. *)
Theorem C72_defect_restored_rbf_layer_differs : exists ops0 y0 ops y s' q X in_H H,
  alive ops0 y0 /\ alive ops y /\ y_kind y = y_kind y0 /\ y_args y = y_args y0 /\
  a_gmode (y_args y) = "rbf"%string /\ a_width (y_args y) = 0 /\
  List.length (built_with y) = List.length (built_with y0) /\
  load_state_dict (memory ops) y (saved (memory ops0) y0) = (s', Ok tt) /\
  saved s' y = saved (memory ops0) y0 /\
  exists out out0 G, call s' y q X in_H H = Ok (out, G) /\ call (memory ops0) y0 q X in_H H = Ok (out0, G) /\
    exists i, at_ out i <> at_ out0 i.
Proof.
  pose proof (run_ex I3 mB wB width_B) as R0. pose proof (run_ex I3 mX wX width_X) as R1.
  set (ops0 := exops [I3; mB]) in *. set (ops := exops [I3; mX]) in *.
  assert (A0 : alive ops0 (exy [I3; mB] wB)) by (exists 0%nat; rewrite R0; reflexivity).
  assert (A1 : alive ops (exy [I3; mX] wX)) by (exists 0%nat; rewrite R1; reflexivity).
  destruct (C72_checkpoint_restores_a_layer ops0 (exy [I3; mB] wB) ops (exy [I3; mX] wX) A0 A1 eq_refl eq_refl eq_refl) as (s' & E & Es & _).
  assert (S0 : saved (memory ops0) (exy [I3; mB] wB) =
    [("kernel.weight"%string, TReal exW); ("kernel.grid_H"%string, TMat [I3; mB]); ("kernel.grid_Rn"%string, TSpace (create_grid_R3 1))]).
  { unfold memory. rewrite R0. unfold saved, exy, state_dict, get, exheap. cbn [y_bias y_weight_H y_weight y_grid_H y_grid_Rn y_mask entry app map fst snd w_mem gs_heap].
    rewrite !app_nth2 by (rewrite heap_length; lia). rewrite heap_length. reflexivity. }
  exists ops0, (exy [I3; mB] wB), ops, (exy [I3; mX] wX), s', exq, exX, [mQ], (Some [I3]).
  do 7 (split; [first [exact A0|exact A1|reflexivity]|]). split; [exact E|]. split; [exact Es|].
  pose proof widths_differ as Hd.
  destruct (call_ex s' (exy [I3; mX] wX) I3 mX wX eq_refl eq_refl ltac:(lra)) as (out & Eo & Ho); [congruence|].
  destruct (call_ex (memory ops0) (exy [I3; mB] wB) I3 mB wB eq_refl eq_refl ltac:(lra) S0) as (out0 & Eo0 & Ho0).
  exists out, out0, [I3]. split; [exact Eo|]. split; [exact Eo0|]. exists [0; 0; 0; 0; 0; 0]%nat. rewrite Ho, Ho0.
  pose proof (val_increasing wB wX Hd). lra.
Qed.
Print Assumptions C72_defect_restored_rbf_layer_differs.

(** ** Which layers an operation can affect *)

(** [spares w a i y]: the operation is not aimed at layer i and not at a tensor it uses. For a load this includes not being
    aimed at a layer with the same grid_H tensor; training (any in-place update of another layer's parameters) never needs
    that. Making layers and tensors and asking for grids is always harmless. *)
Definition spares (w : world) (a : op) (i : nat) (y : layer) : Prop :=
  match a with
  | OLoad j _ => j <> i /\ forall y', nth_error (w_layers w) j = Some y' -> y_grid_H y' <> y_grid_H y
  | OTrain j _ => j <> i
  | OWrite l _ => ~ In l (map snd (state_dict y))
  | _ => True
  end.
Theorem C72_layers_are_isolated : forall ops a i y, nth_error (w_layers (run ops)) i = Some y -> spares (run ops) a i y ->
  nth_error (w_layers (run (ops ++ [a]))) i = Some y /\
  saved (memory (ops ++ [a])) y = saved (memory ops) y /\
  forall q X in_H H, call (memory (ops ++ [a])) y q X in_H H = call (memory ops) y q X in_H H.
Proof.
  intros ops a i y Hy Hs. unfold memory, run. rewrite fold_left_app. cbn [fold_left]. fold (run ops).
  split; [apply nth_layers_do; exact Hy|]. apply call_frame. apply (do_isolated _ _ i y (run_inv ops) Hy). exact Hs.
Qed.
Print Assumptions C72_layers_are_isolated.

(** Two layers with the same grid_H tensor: loading into one changes nothing of the other but, possibly, that grid. *)
Theorem C72_shared_grid_only : forall ops i j y y' ck, nth_error (w_layers (run ops)) i = Some y -> nth_error (w_layers (run ops)) j = Some y' ->
  i <> j -> y_grid_H y = y_grid_H y' ->
  forall k l, In (k, l) (state_dict y) -> k <> "kernel.grid_H"%string ->
  get (memory (ops ++ [OLoad j ck])) l = get (memory ops) l.
Proof.
  intros ops i j y y' ck Hy Hy' Hij Eg k l Hin Hk. unfold memory, run. rewrite fold_left_app. cbn [fold_left]. fold (run ops).
  apply (do_shared _ _ _ i y l (run_inv ops) Hy); [congruence|apply in_map_iff; exists (k, l); auto|].
  intros ->. destruct (i_layers _ (run_inv ops) i y Hy) as (_ & N & _). unfold slots in N. apply Hk.
  pose proof (grid_entry y) as Hg. clear -N Hin Hg. induction (state_dict y) as [|[k1 l1] r IH]; [destruct Hin|].
  cbn [map snd] in N. inversion N as [|? ? Hni N']; subst. destruct Hin as [Hin|Hin], Hg as [Hg|Hg].
  - congruence.
  - exfalso. apply Hni. apply in_map_iff. eexists; split; [|exact Hg]. cbn [snd]. congruence.
  - exfalso. apply Hni. apply in_map_iff. eexists; split; [|exact Hin]. cbn [snd]. congruence.
  - apply IH; assumption.
Qed.
Print Assumptions C72_shared_grid_only.

(** Which layers share: a layer that was given a grid tensor uses that tensor itself. *)
Theorem C72_given_grid_is_aliased : forall ops kd A l o fH f fb s' y,
  new_layer (memory ops) kd A (Some l) o fH f fb = (s', Ok y) -> y_grid_H y = l.
Proof.
  intros ops kd A l o fH f fb s' y E. destruct (new_layer_made _ _ _ _ _ _ _ _ _ _ E) as (l' & g & Hl & Hm).
  rewrite (m_loc _ _ _ _ _ _ _ _ _ Hm). cbn in Hl. congruence.
Qed.
Print Assumptions C72_given_grid_is_aliased.

(** Defect: a default layer whose size is tabulated (2 to 24) uses the tensor of the module-level cache itself, in every
    program. So all default layers of one size share their grid_H buffer, and so3.uniform_grid(size, "matrix") returns that
    buffer. *)
Theorem C72_defect_default_grids_alias_the_cache : forall ops kd A o fH f fb s' y,
  (2 <= a_gsize A <= 24)%nat -> new_layer (memory ops) kd A None o fH f fb = (s', Ok y) ->
  (forall c o', so3_uniform_grid s' (a_gsize A) "matrix" c o' = (s', Ok (y_grid_H y))) /\
  forall more kd' A' o' fH' f' fb' s'' y', a_gsize A' = a_gsize A ->
    new_layer (memory (ops ++ ONew kd A None o fH f fb :: more)) kd' A' None o' fH' f' fb' = (s'', Ok y') ->
    y_grid_H y' = y_grid_H y.
Proof.
  intros ops kd A o fH f fb s' y Hn E. destruct (new_layer_made _ _ _ _ _ _ _ _ _ _ E) as (l & g & Hl & Hm).
  unfold memory in Hl. rewrite (default_stage ops A o Hn) in Hl. cbn [snd] in Hl.
  pose proof (m_loc _ _ _ _ _ _ _ _ _ Hm) as El. rewrite El. split.
  - intros c o'. apply hit_matrix; [lia|reflexivity|]. rewrite (proj2 (m_dicts _ _ _ _ _ _ _ _ _ Hm)).
    unfold memory. rewrite (default_stage ops A o Hn). cbn [fst]. rewrite (i_table _ (run_inv ops)) by lia. congruence.
  - intros more kd' A' o' fH' f' fb' s'' y' EA E'. destruct (new_layer_made _ _ _ _ _ _ _ _ _ _ E') as (l' & g' & Hl' & Hm').
    unfold memory in Hl'. rewrite default_stage in Hl' by lia. rewrite (m_loc _ _ _ _ _ _ _ _ _ Hm'). cbn [snd] in Hl'. congruence.
Qed.
Print Assumptions C72_defect_default_grids_alias_the_cache.

(** Consequence: loading a checkpoint into such a layer overwrites the cache. Every later so3.uniform_grid(size, "matrix")
    of the program returns the grid of the checkpoint, and so does every default layer of that size, made before or after. *)
Theorem C72_defect_load_overwrites_the_cache : forall ops kd A o fH f fb s' y ck s'' g,
  (2 <= a_gsize A <= 24)%nat -> new_layer (memory ops) kd A None o fH f fb = (s', Ok y) ->
  load_state_dict s' y ck = (s'', Ok tt) -> lookup "kernel.grid_H" ck = Some (TMat g) ->
  (forall c o', exists l, so3_uniform_grid s'' (a_gsize A) "matrix" c o' = (s'', Ok l) /\ get s'' l = TMat g) /\
  (forall y', y_grid_H y' = y_grid_H y -> In ("kernel.grid_H"%string, TMat g) (saved s'' y')).
Proof.
  intros ops kd A o fH f fb s' y ck s'' g Hn E EL Hg.
  destruct (C72_defect_default_grids_alias_the_cache ops kd A o fH f fb s' y Hn E) as [Hc _].
  destruct (new_layer_made _ _ _ _ _ _ _ _ _ _ E) as (l & g0 & Hl & Hm).
  pose proof (load_ok s' y ck s'' (m_typed _ _ _ _ _ _ _ _ _ Hm) (m_nodup _ _ _ _ _ _ _ _ _ Hm) EL _ _ (grid_entry y)) as Hv.
  assert (Hget : get s'' (y_grid_H y) = TMat g) by congruence. split.
  - intros c o'. exists (y_grid_H y). split; [|exact Hget]. pose proof (load_dicts s' y ck) as Ed. rewrite EL in Ed. cbn [fst] in Ed.
    apply hit_matrix; [lia|reflexivity|]. rewrite Ed, (proj2 (m_dicts _ _ _ _ _ _ _ _ _ Hm)). unfold memory in *.
    rewrite (default_stage ops A o Hn) in *. cbn [fst snd] in *. rewrite (m_loc _ _ _ _ _ _ _ _ _ Hm). rewrite (i_table _ (run_inv ops)) by lia. congruence.
  - intros y' Ey. rewrite <- Hget, <- Ey. apply in_map_iff. exists ("kernel.grid_H"%string, y_grid_H y'). split; [reflexivity|apply grid_entry].
Qed.
Print Assumptions C72_defect_load_overwrites_the_cache.

(** Larger default grids are the layer's own: the tensor is new. *)
Theorem C72_large_default_grids_are_private : forall ops kd A o fH f fb s' y,
  (24 < a_gsize A)%nat -> new_layer (memory ops) kd A None o fH f fb = (s', Ok y) ->
  (List.length (gs_heap (memory ops)) <= y_grid_H y)%nat /\
  forall y', alive ops y' -> y_grid_H y' <> y_grid_H y.
Proof.
  intros ops kd A o fH f fb s' y Hn E. destruct (new_layer_made _ _ _ _ _ _ _ _ _ _ E) as (l & g & Hl & Hm).
  assert (Hle : (List.length (gs_heap (memory ops)) <= y_grid_H y)%nat).
  { rewrite (m_loc _ _ _ _ _ _ _ _ _ Hm). pose proof (m_grid _ _ _ _ _ _ _ _ _ Hm) as Hg.
    destruct (grid_stage (memory ops) A None o) as [s0 r] eqn:Es. cbn [snd fst] in *. subst r. exact (large_stage ops A o s0 l g Hn Es Hg). }
  split; [exact Hle|]. intros y' [i Hy'] Eg. pose proof (i_layers _ (run_inv ops) i y' Hy') as (T & _).
  pose proof (typed_in _ _ _ T (grid_in_slots y')) as K. unfold size, memory in *. lia.
Qed.
Print Assumptions C72_large_default_grids_are_private.

(** Non-vacuity: a program with two default GConvSE3 layers of size 4 (nearest interpolation, so nothing is excluded): both
    are alive, they share the grid tensor of the cache, and a third one of size 3 does not share with them. *)
Definition nvA (n : nat) : args :=
  mkArgs ex_env 2 4 3 n 2%Z 1 (PStr "same") 1 "zeros" true true "nearest" 1 "bilinear" "border" true.
Definition nv_program : list op :=
  [ONew KFull (nvA 4) None exO noR exf noR; ONew KSeparable (nvA 4) None exO noR exf noR; ONew KLifting (nvA 3) None exO noR exf noR].
Lemma nv_new ops kd n : (2 <= n <= 24)%nat -> (exists g, get (memory ops) (24 + (n - 1)) = TMat g) ->
  exists y, w_layers (run (ops ++ [ONew kd (nvA n) None exO noR exf noR])) = w_layers (run ops) ++ [y] /\
    y_grid_H y = (24 + (n - 1))%nat /\ y_kind y = kd /\ y_args y = nvA n /\ grows (memory ops) (memory (ops ++ [ONew kd (nvA n) None exO noR exf noR])).
Proof.
  intros Hn [g Hg]. unfold memory, run. rewrite fold_left_app. cbn [fold_left]. fold (run ops). cbn [do].
  destruct (new_layer (w_mem (run ops)) kd (nvA n) None exO noR exf noR) as [s' r] eqn:E.
  assert (Ha : exists M, attributes kd (nvA n) g noR = Ok M).
  { unfold attributes, lifting_SE3, group_SE3, pick_grid, kernel_SE3, width_SE3, default_width. cbn [bind nvA a_width].
    destruct (Req_EM_T 1 0); [lra|]. destruct kd; eexists; reflexivity. }
  destruct Ha as [M Ha]. assert (Hr : exists y, r = Ok y).
  { revert E. unfold new_layer. fold (grid_stage (w_mem (run ops)) (nvA n) None exO). rewrite (default_stage ops (nvA n) exO Hn).
    cbn [bind]. change (a_gsize (nvA n)) with n. unfold memory in Hg. rewrite Hg. cbn [as_grid bind]. rewrite Ha. cbn [bind].
    repeat (match goal with |- context [let '(_, _) := ?x in _] => destruct x end). intros H; injection H as _ <-. eexists; reflexivity. }
  destruct Hr as [y ->]. exists y. destruct (new_layer_made _ _ _ _ _ _ _ _ _ _ E) as (l & g' & Hl & Hm).
  rewrite (default_stage ops (nvA n) exO Hn) in Hl, Hm. cbn [fst snd] in Hl, Hm. injection Hl as <-.
  split; [reflexivity|]. split; [exact (m_loc _ _ _ _ _ _ _ _ _ Hm)|]. split; [exact (m_kind _ _ _ _ _ _ _ _ _ Hm)|].
  split; [exact (m_args _ _ _ _ _ _ _ _ _ Hm)|]. exact (m_grows _ _ _ _ _ _ _ _ _ Hm).
Qed.
Example checkpoint_nonvacuous : exists y1 y2 y3,
  w_layers (run nv_program) = [y1; y2; y3] /\ y_grid_H y1 = y_grid_H y2 /\ y_grid_H y1 <> y_grid_H y3 /\
  alive nv_program y1 /\ a_gmode (y_args y1) = "nearest"%string /\
  spares (run nv_program) (OLoad 2 (saved (memory nv_program) y3)) 0 y1 /\ ~ spares (run nv_program) (OLoad 1 (saved (memory nv_program) y2)) 0 y1.
Proof.
  destruct (nv_new [] KFull 4) as (y1 & L1 & G1 & K1 & A1 & R1); [lia|eexists; reflexivity|].
  set (p1 := [] ++ _) in *.
  destruct (nv_new p1 KSeparable 4) as (y2 & L2 & G2 & K2 & A2 & R2); [lia| |].
  { destruct R1 as [_ R1]. rewrite R1; [eexists; reflexivity|]. change (28 <= 48)%nat. lia. }
  set (p2 := p1 ++ _) in *.
  destruct (nv_new p2 KLifting 3) as (y3 & L3 & G3 & K3 & A3 & R3); [lia| |].
  { destruct (grows_trans _ _ _ R1 R2) as [_ R]. rewrite R; [eexists; reflexivity|]. change (27 <= 48)%nat. lia. }
  change (p2 ++ _) with nv_program in *. rewrite L2, L1 in L3. cbn [app run fold_left start w_layers] in L3.
  exists y1, y2, y3. split; [exact L3|]. split; [congruence|]. split; [rewrite G1, G3; discriminate|].
  split; [exists 0%nat; rewrite L3; reflexivity|]. split; [rewrite A1; reflexivity|]. unfold spares. rewrite L3. cbn [nth_error]. split.
  - split; [discriminate|]. intros y' E. injection E as <-. rewrite G1, G3. discriminate.
  - intros [_ N]. apply (N y2 eq_refl). congruence.
Qed.
