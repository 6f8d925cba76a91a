(** Property theorems C101: E(n) layers on rotations are SE(n) layers.
    Reading guide.  [as_o2 a], [as_o3 r] (RotOnlySpec.v): the rotation as an element of O(2), O(3), with coefficient 1.
    [first_slices n rest W W']: W' has shape n :: rest and consists of the first n slices W[0], ..., W[n-1].
    [renamed f r]: the answer r with the elements of its grid renamed.  [kernel_grid M]: M.kernel.grid_H.
    The calls of both layers draw their random element from the same numbers (u, or the quaternion q); c is the draw of the sign of the E(n) layer,
    which is positive exactly if 1/2 < c. *)
From Coq Require Import String ZArith Lra.
From Verif Require Import Prelude RMath Mat Interp InterpFacts InterpExample SO2 SO2Facts O2 O2Facts SO3 SO3Facts O3 O3Facts Repulse Tensor TensorFacts Functional Kernel KernelFacts
  Conv ConvSpec ConvInit Public KernelMore PublicFacts Prop_Public SolveSpec RbfSpec AnswerSpec Prop_Answer RotOnlySpec RotOnlyLayers.
Open Scope R_scope.

(** ** Lifting layers: every call, errors included *)
Theorem C101_lifting_2d : forall T cin cout s groups st padding dl pmode permute bias mode pm mask gks n gridE gridS M M' u c w X H,
  (0 < s)%nat -> (permute = true -> 1 / 2 < c) -> has_shape w [cout; (cin / Z.to_nat groups)%nat; s; s] ->
  lifting_E2 T cin cout s groups st padding dl pmode permute bias mode pm true gks gridE = Ok M ->
  lifting_SE2 T cin cout s groups st padding dl pmode permute bias mode pm mask n gridS = Ok M' ->
  lifting_E2_call M u c w X (Some (map as_o2 H)) = renamed as_o2 (lifting_SE2_call M' u w X (Some H)).
Proof. exact lifting_rot_2. Qed.
Print Assumptions C101_lifting_2d.

Theorem C101_lifting_3d : forall T cin cout s groups st padding dl pmode permute bias mode pm mask gks n gridE dE gridS dS M M' q c w X H,
  (0 < s)%nat -> (permute = true -> 1 / 2 < c) -> has_shape w [cout; (cin / Z.to_nat groups)%nat; s; s; s] ->
  lifting_E3 T cin cout s groups st padding dl pmode permute bias mode pm mask gks gridE dE = Ok M ->
  lifting_SE3 T cin cout s groups st padding dl pmode permute bias mode pm mask n gridS dS = Ok M' ->
  lifting_E3_call M c q w X (Some (map as_o3 H)) = renamed as_o3 (lifting_SE3_call M' q w X (Some H)).
Proof. exact lifting_rot_3. Qed.
Print Assumptions C101_lifting_3d.

(** ** Group layers: whatever the reflections and their weights are, if the E(n) layer answers, the SE(n) layer with the rotation half of the weights
    and of the grid gives the same features *)
Theorem C101_group_2d : forall T cin cout s groups st padding dl pmode permute bias mode pm mask gks gmode width ref n gridE gridS M M' u c X in_H out_H Y HH,
  (0 < s)%nat -> pair_rot gks <> 0%nat -> (permute = true -> 1 / 2 < c) ->
  group_E2 T cin cout s groups st padding dl pmode permute bias mode pm true gks gmode width ref gridE = Ok M ->
  group_SE2 T cin cout s groups st padding dl pmode permute bias mode pm mask n gmode width gridS = Ok M' ->
  firstn (pair_rot gks) (kernel_grid M) = map as_o2 (kernel_grid M') -> List.length (kernel_grid M') = pair_rot gks ->
  (forall W W', has_shape W [(pair_rot gks + pair_ref gks)%nat; cout; (cin / Z.to_nat groups)%nat; s; s] ->
     first_slices (pair_rot gks) [cout; (cin / Z.to_nat groups)%nat; s; s] W W' ->
     full_E2_call M u c W X (map as_o2 in_H) (Some (map as_o2 out_H)) = Ok (Y, HH) ->
     exists HS, full_SE2_call M' u W' X in_H (Some out_H) = Ok (Y, HS) /\ HH = map as_o2 HS) /\
  (forall WH WH' w, has_shape WH [(pair_rot gks + pair_ref gks)%nat; cout; (cin / Z.to_nat groups)%nat] ->
     first_slices (pair_rot gks) [cout; (cin / Z.to_nat groups)%nat] WH WH' -> has_shape w [cout; 1%nat; s; s] ->
     separable_E2_call M u c WH w X (map as_o2 in_H) (Some (map as_o2 out_H)) = Ok (Y, HH) ->
     exists HS, separable_SE2_call M' u WH' w X in_H (Some out_H) = Ok (Y, HS) /\ HH = map as_o2 HS).
Proof.
  intros T cin cout s groups st padding dl pmode permute bias mode pm mask gks gmode width ref n gridE gridS M M' u c X in_H out_H Y HH Hs Hr Hc HM HM' Hg Hl. split.
  - intros W W' HW HW' H. exact (full_rot_2 _ _ _ _ _ _ _ _ _ _ _ _ _ _ _ _ _ _ _ _ _ _ _ Hs Hr HM HM' Hg Hl W W' u c X in_H out_H Y HH Hc HW HW' H).
  - intros WH WH' w HW HW' Hw H. exact (separable_rot_2 _ _ _ _ _ _ _ _ _ _ _ _ _ _ _ _ _ _ _ _ _ _ _ Hs Hr HM HM' Hg Hl WH WH' w u c X in_H out_H Y HH Hc HW HW' Hw H).
Qed.
Print Assumptions C101_group_2d.

(** in 3d the two classes compute different default widths, so the width is given or not used *)
Theorem C101_group_3d : forall T cin cout s groups st padding dl pmode permute bias mode pm mask gks gmode width ref n gridE dE gridS dS M M' q c X in_H out_H Y HH,
  (0 < s)%nat -> pair_rot gks <> 0%nat -> (gmode = "nearest"%string \/ width <> 0) -> (permute = true -> 1 / 2 < c) ->
  group_E3 T cin cout s groups st padding dl pmode permute bias mode pm mask gks gmode width ref gridE dE = Ok M ->
  group_SE3 T cin cout s groups st padding dl pmode permute bias mode pm mask n gmode width gridS dS = Ok M' ->
  firstn (pair_rot gks) (kernel_grid M) = map as_o3 (kernel_grid M') -> List.length (kernel_grid M') = pair_rot gks ->
  (forall W W', has_shape W [(pair_rot gks + pair_ref gks)%nat; cout; (cin / Z.to_nat groups)%nat; s; s; s] ->
     first_slices (pair_rot gks) [cout; (cin / Z.to_nat groups)%nat; s; s; s] W W' ->
     full_E3_call M c q W X (map as_o3 in_H) (Some (map as_o3 out_H)) = Ok (Y, HH) ->
     exists HS, full_SE3_call M' q W' X in_H (Some out_H) = Ok (Y, HS) /\ HH = map as_o3 HS) /\
  (forall WH WH' w, has_shape WH [(pair_rot gks + pair_ref gks)%nat; cout; (cin / Z.to_nat groups)%nat] ->
     first_slices (pair_rot gks) [cout; (cin / Z.to_nat groups)%nat] WH WH' -> has_shape w [cout; 1%nat; s; s; s] ->
     separable_E3_call M c q WH w X (map as_o3 in_H) (Some (map as_o3 out_H)) = Ok (Y, HH) ->
     exists HS, separable_SE3_call M' q WH' w X in_H (Some out_H) = Ok (Y, HS) /\ HH = map as_o3 HS).
Proof.
  intros T cin cout s groups st padding dl pmode permute bias mode pm mask gks gmode width ref n gridE dE gridS dS M M' q c X in_H out_H Y HH Hs Hr Hw Hc HM HM' Hg Hl. split.
  - intros W W' HW HW' H. exact (full_rot_3 _ _ _ _ _ _ _ _ _ _ _ _ _ _ _ _ _ _ _ _ _ _ _ _ _ Hs Hr Hw HM HM' Hg Hl W W' q c X in_H out_H Y HH Hc HW HW' H).
  - intros WH WH' w HW HW' Hsw H. exact (separable_rot_3 _ _ _ _ _ _ _ _ _ _ _ _ _ _ _ _ _ _ _ _ _ _ _ _ _ Hs Hr Hw HM HM' Hg Hl WH WH' w q c X in_H out_H Y HH Hc HW HW' Hsw H).
Qed.
Print Assumptions C101_group_3d.

(** ** The default grids of the 2d classes meet the hypothesis on the grids, for every number of rotations and reflections *)
Theorem C101_default_grids : forall n m, firstn n (o2_uniform_grid n m) = map as_o2 (so2_uniform_grid n) /\ List.length (so2_uniform_grid n) = n.
Proof. exact default_grid_2. Qed.
Print Assumptions C101_default_grids.

(** Non-vacuity: a full E(2) layer with two rotations and one reflection, a random output grid, weights that depend on all their indices; it
    answers, and the SE(2) layer has the rotation half of its weights. *)
Definition exW : tensor R := build [3; 1; 1; 3; 3]%nat (fun i => INR (nth 0 i 0%nat + nth 3 i 0%nat)).
Definition exW' : tensor R := build [2; 1; 1; 3; 3]%nat (fun i => INR (nth 0 i 0%nat + nth 3 i 0%nat)).
Example C101_nonvacuous : first_slices 2 [1; 1; 3; 3]%nat exW exW' /\ let X := build [1; 1; 1; 5; 5]%nat (fun i => INR (nth 3 i 0%nat)) in exists M M' Y HS,
  group_E2 ex_env 1 1 3 1 1 (PInt 0) 1 "zeros" true None "bilinear" "zeros" true (PairTuple 2 1) "nearest" 1 1 None = Ok M /\
  group_SE2 ex_env 1 1 3 1 1 (PInt 0) 1 "zeros" true None "bilinear" "zeros" true 2 "nearest" 1 None = Ok M' /\
  full_E2_call M (1 / 4) 1 exW X (map as_o2 [0]) (Some (map as_o2 [0; 1])) = Ok (Y, map as_o2 HS) /\
  full_SE2_call M' (1 / 4) exW' X [0] (Some [0; 1]) = Ok (Y, HS).
Proof.
  assert (forall sh (f : list nat -> R), has_shape (build sh f) sh) as HB by (intros sh f; split; [reflexivity|apply wft_build]).
  assert (first_slices 2 [1; 1; 3; 3]%nat exW exW') as HF.
  { split; [apply HB|]. intros j x Hj V. unfold exW, exW'. rewrite !at_build by (constructor; [lia|exact V]). reflexivity. }
  split; [exact HF|]. intros X.
  destruct (C69_group_SE2 ex_env 1 1 3 1 1 (PInt 0) 1 "zeros" true None "bilinear" "zeros" true 2 "nearest" 1 None) as (A & _).
  destruct A as (k' & Ek' & (L' & EM' & EL' & _) & Eg' & _).
  { left. lra. }
  { split; [exact I|]. split; [lia|]. split; [exists 1%Z; reflexivity|]. split; [exists 1%Z; reflexivity|]. split; [discriminate|simpl; auto]. }
  destruct (C69_group_E2 ex_env 1 1 3 1 1 (PInt 0) 1 "zeros" true None "bilinear" "zeros" true (PairTuple 2 1) "nearest" 1 1 None) as (A & _).
  destruct A as (k & Ek & (L & EM & EL & _) & Eg & _).
  { split; left; lra. }
  { split; [cbn; split; [intros i [<-|[<-|[]]]; lia|lia]|]. split; [lia|]. split; [exists 1%Z; reflexivity|]. split; [exists 1%Z; reflexivity|]. split; [discriminate|simpl; auto]. }
  cbn [pair_rot pair_ref] in Eg, Eg', Ek, Ek'.
  exists (mkModule L true), (mkModule L' true).
  assert (kernel_grid (mkModule L true) = o2_uniform_grid 2 1) as G1 by (unfold kernel_grid; cbn [gm_layer]; rewrite EL; exact Eg).
  assert (kernel_grid (mkModule L' true) = so2_uniform_grid 2) as G2 by (unfold kernel_grid; cbn [gm_layer]; rewrite EL'; exact Eg').
  destruct (C101_default_grids 2 1) as [D1 D2].
  assert (List.length (o2_uniform_grid 2 1) = 3%nat) as L3 by (unfold o2_uniform_grid; rewrite map_length, combine_length, !app_length, !repeat_length, !so2_uniform_grid_length; reflexivity).
  destruct (C91_E2_calls ex_env 1 1 3 1 1 (PInt 0) 1 "zeros" true None "bilinear" "zeros" true (PairTuple 2 1) None (1 / 4) 1 (gs2 true GsZeros) ex_env_ok) as [_ Q].
  { intros n s m b. apply ex_solve_succeeds. }
  { repeat split; lia. }
  { reflexivity. }
  specialize (Q "nearest"%string 1 1 1 1 (mkModule L true) EM). cbv zeta in Q. cbn [pair_rot pair_ref] in Q. rewrite G1 in Q.
  destruct Q as (m & Em & Q & _).
  { discriminate. } { discriminate. } { exact L3. }
  { unfold width_E2_rot. apply default_width_given. lra. } { unfold width_E2_ref. apply default_width_given. lra. }
  { left. split; [reflexivity|]. rewrite D1. intros E. apply (f_equal (@List.length R)) in E. rewrite !map_length, D2 in E. discriminate. }
  { left. split; [reflexivity|]. intros E. apply (f_equal (@List.length R)) in E. rewrite map_length, skipn_length, L3 in E. discriminate. }
  injection Em as <-.
  destruct (Q exW X 1%nat [5; 5]%nat (map as_o2 [0]) (Some (map as_o2 [0; 1]))) as [Q1 _].
  { apply HB. } { apply HB. } { reflexivity. } { discriminate. }
  { repeat constructor. } { repeat constructor. }
  destruct Q1 as (Y & HH & E & _ & _).
  { intros j Hj. split; [|exact I]. destruct j as [|[|j]]; [| |cbn in Hj; lia]; cbn; lia. }
  destruct (C101_group_2d ex_env 1 1 3 1 1 (PInt 0) 1 "zeros" true None "bilinear" "zeros" true (PairTuple 2 1) "nearest" 1 1 2 None None _ _ (1 / 4) 1 X [0] [0; 1] Y HH
    ltac:(lia) ltac:(discriminate) ltac:(intros; lra) EM EM') as [F _].
  { rewrite G1, G2. exact D1. } { rewrite G2. exact D2. }
  destruct (F exW exW' (HB _ _) HF E) as (HS & E2 & ->). exists Y, HS. auto 10.
Qed.
