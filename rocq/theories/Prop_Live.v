(** C99: with the spherical mask only the entries of a kernel window that a point of the ball of radius 1.1 can read matter. *)
From Coq Require Import String ZArith Lra.
From Verif Require Import Prelude RMath Mat Interp InterpFacts SO2 SO2Facts O2 O2Facts SO3 O3 O3Facts Tensor TensorFacts Functional FunctionalFacts Repulse Kernel KernelFacts GroupKernelFacts KernelMore
  EquiGroups Conv ConvSpec ConvFacts LiveSpec LiveFacts Prop_Kernel.
Open Scope R_scope.

Lemma rot2_norm a v : norm2 (app2 (so2_angle_to_matrix a) v) = norm2 v.
Proof. unfold norm2. rewrite so2_action_isometry. reflexivity. Qed.
Lemma iso3_norm A v : isO3 A -> norm3 (app3 A v) = norm3 v.
Proof. intros H. unfold norm3. rewrite (isO3_isometry A v v H). reflexivity. Qed.
Lemma tr_isO3 A : isO3 A -> isO3 (tr3 A).
Proof. intros [H1 H2]. split; rewrite ?tr3_tr3; assumption. Qed.
Lemma flip2_norm c v : c = 1 \/ c = -1 -> norm2 (scalv2 c v) = norm2 v.
Proof. intros H. unfold norm2. f_equal. unfold dot2, scalv2. cbn [v2x v2y]. destruct H as [-> | ->]; ring. Qed.
Lemma flip3_norm c v : c = 1 \/ c = -1 -> norm3 (scalv3 c v) = norm3 v.
Proof. intros H. unfold norm3. f_equal. unfold dot3, scalv3. cbn [vx vy vz]. destruct H as [-> | ->]; ring. Qed.
Lemma pick2 a b x y : unit_entry a -> unit_entry b -> unit_entry x -> unit_entry y -> x = 0 \/ y = 0 -> unit_entry (a * x + b * y).
Proof. intros Ha Hb Hx Hy [-> | ->]; [replace (a * 0 + b * y) with (b * y) by ring|replace (a * x + b * 0) with (a * x) by ring]; apply unit_mul; assumption. Qed.
Lemma pick3 a b c x y z : unit_entry a -> unit_entry b -> unit_entry c -> unit_entry x -> unit_entry y -> unit_entry z -> x = 0 /\ y = 0 \/ x = 0 /\ z = 0 \/ y = 0 /\ z = 0 -> unit_entry (a * x + b * y + c * z).
Proof.
  intros Ha Hb Hc Hx Hy Hz [[-> ->]|[[-> ->]|[-> ->]]];
    [replace (a * 0 + b * 0 + c * z) with (c * z) by ring|replace (a * 0 + b * y + c * 0) with (b * y) by ring|replace (a * x + b * 0 + c * 0) with (a * x) by ring]; apply unit_mul; assumption.
Qed.
Lemma quarter_moves (q : Z) v : unit_entry (v2x v) -> unit_entry (v2y v) -> v2x v = 0 \/ v2y v = 0 ->
  unit_entry (v2x (app2 (so2_angle_to_matrix (IZR q * (PI / 2))) v)) /\ unit_entry (v2y (app2 (so2_angle_to_matrix (IZR q * (PI / 2))) v)).
Proof.
  intros H1 H2 Z. destruct (quarter_unit q) as [Uc Us]. unfold app2, so2_angle_to_matrix. cbn [b00 b01 b10 b11 v2x v2y].
  split; apply pick2; try assumption. apply unit_opp. exact Us.
Qed.
Lemma signed_moves A v : signed3 A -> unit_entry (vx v) -> unit_entry (vy v) -> unit_entry (vz v) -> vx v = 0 /\ vy v = 0 \/ vx v = 0 /\ vz v = 0 \/ vy v = 0 /\ vz v = 0 ->
  unit_entry (vx (app3 (tr3 A) v)) /\ unit_entry (vy (app3 (tr3 A) v)) /\ unit_entry (vz (app3 (tr3 A) v)).
Proof.
  intros (_ & Q) H1 H2 H3 Z. destruct Q as (? & ? & ? & ? & ? & ? & ? & ? & ?). unfold app3, tr3. cbn [a00 a01 a02 a10 a11 a12 a20 a21 a22 vx vy vz].
  split; [|split]; apply pick3; assumption.
Qed.
Lemma flip_unit c x : c = 1 \/ c = -1 -> unit_entry x -> unit_entry (c * x).
Proof. intros H. apply unit_mul. unfold unit_entry. destruct H; auto. Qed.

(** SE(2): for any elements, the cells in reach of the ball; for windows of three cells and quarter turns, the cells on the two axes through the middle.  Modes "bilinear" and "nearest". *)
Theorem C99_SE2 : forall T cin out s groups gmode given mode pm mask grid cells ok, torch_ok T -> (0 < s)%nat -> mode <> "bicubic"%string ->
  (cells = seen s /\ ok = (fun _ : R => True)) \/ (s = 3%nat /\ cells = on_an_axis /\ ok = (fun g => exists q, g = IZR q * (PI / 2))) ->
  (forall w w', agree_on cells [out; cin / groups]%nat [s; s] w w' -> same_lifting (lifting_kernel_SE2 T cin out s groups mode pm mask grid) ok w w') /\
  (forall k w w', kernel_SE2 T cin out s groups gmode given mode pm mask grid = Ok k ->
     agree_on cells [List.length grid; out; cin / groups]%nat [s; s] w w' -> same_full k ok w w') /\
  (forall k w w', kernel_SE2 T cin out s groups gmode given mode pm mask grid = Ok k -> agree_on cells [out; 1]%nat [s; s] w w' -> same_separable k ok w w').
Proof.
  intros T cin out s groups gmode given mode pm mask grid cells ok HT Hs Hm Hcase.
  assert (forall g, ok g -> local2 mode pm s cells (app2 (so2_angle_to_matrix (- g)))) as Hl.
  { destruct Hcase as [[-> ->]|(-> & -> & ->)]; intros g Hg; [apply seen_local2; try assumption; intros v; apply rot2_norm|].
    destruct Hg as [q ->]. apply axis_local2; [exact Hm|intros v; apply rot2_norm|]. replace (- (IZR q * (PI / 2))) with (IZR (- q) * (PI / 2)) by (rewrite opp_IZR; ring). apply quarter_moves. }
  split; [|split].
  - intros w w'. apply live_SE2_lifting; assumption.
  - intros k w w'. apply live_SE2_full; assumption.
  - intros k w w'. apply live_SE2_separable; assumption.
Qed.
Print Assumptions C99_SE2.

(** SE(3) with the mask: for any orthogonal elements; for windows of three cells and the symmetries of the cube. *)
Theorem C99_SE3 : forall T cin out s groups gmode given mode pm grid cells ok, torch_ok T -> (0 < s)%nat ->
  (cells = seen s /\ ok = isO3) \/ (s = 3%nat /\ cells = on_an_axis /\ ok = signed3) ->
  (forall w w', agree_on cells [out; cin / groups]%nat [s; s; s] w w' -> same_lifting (lifting_kernel_SE3 T cin out s groups mode pm true grid) ok w w') /\
  (forall k w w', kernel_SE3 T cin out s groups gmode given mode pm true grid = Ok k ->
     agree_on cells [List.length grid; out; cin / groups]%nat [s; s; s] w w' -> same_full k ok w w') /\
  (forall k w w', kernel_SE3 T cin out s groups gmode given mode pm true grid = Ok k -> agree_on cells [out; 1]%nat [s; s; s] w w' -> same_separable k ok w w').
Proof.
  intros T cin out s groups gmode given mode pm grid cells ok HT Hs Hcase.
  assert (forall g, ok g -> local3 mode pm s cells (app3 (tr3 g))) as Hl.
  { destruct Hcase as [[-> ->]|(-> & -> & ->)]; intros g Hg; [apply seen_local3; [assumption|]; intros v; apply iso3_norm, tr_isO3, Hg|].
    apply axis_local3; [intros v; apply iso3_norm, tr_isO3, (proj1 Hg)|]. intros v. apply signed_moves. exact Hg. }
  split; [|split].
  - intros w w'. apply live_SE3_lifting; assumption.
  - intros k w w'. apply live_SE3_full; assumption.
  - intros k w w'. apply live_SE3_separable; assumption.
Qed.
Print Assumptions C99_SE3.

(** E(2) with the mask: for any elements with coefficient 1 or -1 (o2_wf). *)
Theorem C99_E2 : forall T cin out s groups n m gmode given given' mode pm grid cells ok, torch_ok T -> (0 < s)%nat -> mode <> "bicubic"%string ->
  (cells = seen s /\ ok = o2_wf) \/ (s = 3%nat /\ cells = on_an_axis /\ ok = (fun h => o2_wf h /\ exists q, o2a h = IZR q * (PI / 2))) ->
  (forall w w', agree_on cells [out; cin / groups]%nat [s; s] w w' -> same_lifting (lifting_kernel_E2 T cin out s groups n m mode pm true grid) ok w w') /\
  (forall k w w', kernel_E2 T cin out s groups n m gmode given given' mode pm true grid = Ok k -> List.length grid = (n + m)%nat ->
     agree_on cells [n + m; out; cin / groups]%nat [s; s] w w' -> same_full k ok w w') /\
  (forall k w w', kernel_E2 T cin out s groups n m gmode given given' mode pm true grid = Ok k -> agree_on cells [out; 1]%nat [s; s] w w' -> same_separable k ok w w').
Proof.
  intros T cin out s groups n m gmode given given' mode pm grid cells ok HT Hs Hm Hcase.
  assert (forall g, ok g -> o2_wf g) as Hok. { destruct Hcase as [[-> ->]|(-> & -> & ->)]; [auto|intros g [H _]; exact H]. }
  assert (forall g, ok g -> local2 mode pm s cells (fun v => scalv2 (o2c g) (app2 (so2_angle_to_matrix (o2a g * -1)) v))) as Hl.
  { assert (forall g v, o2_wf g -> norm2 (scalv2 (o2c g) (app2 (so2_angle_to_matrix (o2a g * -1)) v)) = norm2 v) as Hn by (intros g v Hg; rewrite flip2_norm by exact Hg; apply rot2_norm).
    destruct Hcase as [[-> ->]|(-> & -> & ->)]; intros g Hg; [apply seen_local2; try assumption; intros v; apply Hn, Hg|].
    destruct Hg as [Hw [q E]]. apply axis_local2; [exact Hm|intros v; apply Hn, Hw|]. intros v U1 U2 Z. rewrite E. replace (IZR q * (PI / 2) * -1) with (IZR (- q) * (PI / 2)) by (rewrite opp_IZR; ring).
    destruct (quarter_moves (- q) v U1 U2 Z). unfold scalv2. cbn [v2x v2y]. split; apply flip_unit; assumption. }
  split; [|split].
  - intros w w'. apply live_E2_lifting; assumption.
  - intros k w w'. apply live_E2_full; assumption.
  - intros k w w'. apply live_E2_separable; assumption.
Qed.
Print Assumptions C99_E2.

(** E(3) with the mask: for any elements with coefficient 1 or -1 and a rotation matrix (o3_wf). *)
Theorem C99_E3 : forall T cin out s groups n m gmode given given' mode pm grid cells ok, torch_ok T -> (0 < s)%nat ->
  (cells = seen s /\ ok = o3_wf) \/ (s = 3%nat /\ cells = on_an_axis /\ ok = (fun h => o3_wf h /\ signed3 (o3r h))) ->
  (forall w w', agree_on cells [out; cin / groups]%nat [s; s; s] w w' -> same_lifting (lifting_kernel_E3 T cin out s groups n m mode pm true grid) ok w w') /\
  (forall k w w', kernel_E3 T cin out s groups n m gmode given given' mode pm true grid = Ok k -> List.length grid = (n + m)%nat ->
     agree_on cells [n + m; out; cin / groups]%nat [s; s; s] w w' -> same_full k ok w w') /\
  (forall k w w', kernel_E3 T cin out s groups n m gmode given given' mode pm true grid = Ok k -> agree_on cells [out; 1]%nat [s; s; s] w w' -> same_separable k ok w w').
Proof.
  intros T cin out s groups n m gmode given given' mode pm grid cells ok HT Hs Hcase.
  assert (forall g, ok g -> o3_wf g) as Hok. { destruct Hcase as [[-> ->]|(-> & -> & ->)]; [auto|intros g [H _]; exact H]. }
  assert (forall g, ok g -> local3 mode pm s cells (fun v => scalv3 (o3c g) (app3 (tr3 (o3r g)) v))) as Hl.
  { assert (forall g v, o3_wf g -> norm3 (scalv3 (o3c g) (app3 (tr3 (o3r g)) v)) = norm3 v) as Hn.
    { intros g v [Hc [HO _]]. rewrite flip3_norm by exact Hc. apply iso3_norm, tr_isO3, HO. }
    destruct Hcase as [[-> ->]|(-> & -> & ->)]; intros g Hg; [apply seen_local3; [assumption|]; intros v; apply Hn, Hg|].
    destruct Hg as [Hw HS]. apply axis_local3; [intros v; apply Hn, Hw|]. intros v U1 U2 U3 Z. destruct (signed_moves _ v HS U1 U2 U3 Z) as (? & ? & ?).
    unfold scalv3. cbn [vx vy vz]. destruct Hw as [Hc _]. split; [|split]; apply flip_unit; assumption. }
  split; [|split].
  - intros w w'. apply live_E3_lifting; assumption.
  - intros k w w'. apply live_E3_full; assumption.
  - intros k w w'. apply live_E3_separable; assumption.
Qed.
Print Assumptions C99_E3.

(** The corner entries of a window cannot be read when the windows are large: from 14 cells per axis in the plane and from 9 in space; below, a corner is in reach. *)
Lemma corner_excess s i : (0 < s)%nat -> i = 0%nat \/ i = (s - 1)%nat -> excess s i = Rmax 0 (1 - 3 / INR s).
Proof.
  intros Hs Hi. assert (1 <= INR s) as H1 by (change 1 with (INR 1); apply le_INR; lia).
  assert (0 < / INR s <= 1) as Hv. { split; [apply Rinv_0_lt_compat; lra|]. rewrite <- Rinv_1. apply Rinv_le_contravar; lra. }
  assert (Rabs (centre s i) = 1 - / INR s) as E.
  { destruct Hi as [-> | ->].
    - unfold centre. simpl INR. replace ((2 * 0 + 1) / INR s - 1) with (- (1 - / INR s)) by (field; lra). rewrite Rabs_Ropp, Rabs_right; lra.
    - unfold centre. rewrite minus_INR by lia. change (INR 1) with 1. replace ((2 * (INR s - 1) + 1) / INR s - 1) with (1 - / INR s) by (field; lra). rewrite Rabs_right; lra. }
  unfold excess. rewrite E. f_equal. field. lra.
Qed.
Theorem C99_corners : forall s i j l, (0 < s)%nat -> i = 0%nat \/ i = (s - 1)%nat -> j = 0%nat \/ j = (s - 1)%nat -> l = 0%nat \/ l = (s - 1)%nat ->
  (seen s [i; j] <-> (s <= 13)%nat) /\ (seen s [i; j; l] <-> (s <= 8)%nat).
Proof.
  intros s i j l Hs Hi Hj Hl. unfold seen. cbn [map]. unfold sumR. cbn [fold_right]. rewrite !corner_excess by assumption.
  assert (1 <= INR s) as H1 by (change 1 with (INR 1); apply le_INR; lia).
  assert (0 < / INR s) as Hv by (apply Rinv_0_lt_compat; lra). assert (/ INR s * INR s = 1) as Hi1 by (apply Rinv_l; lra).
  unfold Rdiv. set (t := / INR s) in *.
  assert (forall k, (s <= k)%nat -> INR s <= INR k) as Le by (intros k Hk; apply le_INR; exact Hk).
  assert (forall k, (k <= s)%nat -> INR k <= INR s) as Ge by (intros k Hk; apply le_INR; exact Hk).
  split; split.
  - intros H. destruct (Nat.le_gt_cases s 13) as [|Hc]; [assumption|]. exfalso. specialize (Ge 14%nat Hc). replace (INR 14) with 14 in Ge by (simpl; ring).
    assert (t <= / 14) by nra. rewrite Rmax_right in H by lra. nra.
  - intros H. specialize (Le 13%nat H). replace (INR 13) with 13 in Le by (simpl; ring). assert (/ 13 <= t) by nra. unfold Rmax. destruct (Rle_dec 0 (1 - 3 * t)); nra.
  - intros H. destruct (Nat.le_gt_cases s 8) as [|Hc]; [assumption|]. exfalso. specialize (Ge 9%nat Hc). replace (INR 9) with 9 in Ge by (simpl; ring).
    assert (t <= / 9) by nra. rewrite Rmax_right in H by lra. nra.
  - intros H. specialize (Le 8%nat H). replace (INR 8) with 8 in Le by (simpl; ring). assert (/ 8 <= t) by nra. unfold Rmax. destruct (Rle_dec 0 (1 - 3 * t)); nra.
Qed.
Print Assumptions C99_corners.

(** Under an eighth of a turn the corners of a window of three cells do matter. *)
Theorem C99_corners_read : forall T cin out groups mask grid w w' o c i j W W', (o < out)%nat -> (c < cin / groups)%nat -> i = 0%nat \/ i = 2%nat -> j = 0%nat \/ j = 2%nat ->
  has_shape w [out; cin / groups; 3; 3]%nat -> has_shape w' [out; cin / groups; 3; 3]%nat ->
  at_ w [o; c; i; j] <> at_ w' [o; c; i; j] ->
  lifting_kernel_forward (lifting_kernel_SE2 T cin out 3 groups "bilinear" "border" mask grid) w [PI / 4] = Ok W ->
  lifting_kernel_forward (lifting_kernel_SE2 T cin out 3 groups "bilinear" "border" mask grid) w' [PI / 4] = Ok W' -> W <> W'.
Proof.
  intros T cin out groups mask grid w w' o c i j W W' Ho Hc Hi Hj S1 S2 Hne E E' EW. subst W'. apply Hne.
  assert (0 < 3)%nat as H3 by lia.
  destruct (C36_SE2 T cin out 3 groups "bilinear" "border" mask grid _ w [PI / 4] H3 eq_refl S1) as (V & E1 & _ & A).
  destruct (C36_SE2 T cin out 3 groups "bilinear" "border" mask grid _ w' [PI / 4] H3 eq_refl S2) as (V' & E2 & _ & A').
  assert (V = W /\ V' = W) as [-> ->] by (split; congruence). clear E1 E2 E E' Hne.
  assert (cos (PI / 4) = sin (PI / 4)) as Ecs by (rewrite cos_PI4, sin_PI4; reflexivity).
  assert (0 < sin (PI / 4)) as P by (apply sin_gt_0; pose proof PI_RGT_0; lra). pose proof (sin2_cos2 (PI / 4)) as Q. unfold Rsqr in Q. rewrite Ecs in Q. set (d := sin (PI / 4)) in *.
  assert (2 / 3 < d < 1) as Hd by nra.
  assert (forall (e : bool), gs_coord GsBorder 3 (if e then d else - d) = INR (if e then 2 else 0)) as Cd.
  { intros e. unfold gs_coord, gs_place, gs_unnormalize. destruct e; [rewrite clamp_hi|rewrite clamp_lo]; simpl; lra. }
  assert (forall im (e f : bool) v, v2y v = (if e then d else - d) -> v2x v = (if f then d else - d) ->
    gs2 true GsBorder [3; 3]%nat im v = at_ (mkT [3; 3]%nat im) [if e then 2 else 0; if f then 2 else 0]%nat) as Rd.
  { intros im e f v Ey Ex. unfold gs2. apply linear_int.
    - repeat apply valid_cons; [destruct e; lia|destruct f; lia|apply valid_nil].
    - unfold axis2. cbn [map2 map]. rewrite Ey, Ex, !Cd. destruct e, f; reflexivity. }
  assert (forall x y v, (x < 3)%nat -> (y < 3)%nat -> at_ (create_grid_R2 3) [x; y] = v -> norm2 v < 11 / 10 -> forall e f : bool,
    v2y (app2 (so2_angle_to_matrix (- (PI / 4))) v) = (if e then d else - d) -> v2x (app2 (so2_angle_to_matrix (- (PI / 4))) v) = (if f then d else - d) ->
    at_ w [o; c; if e then 2 else 0; if f then 2 else 0]%nat = at_ w' [o; c; if e then 2 else 0; if f then 2 else 0]%nat) as K.
  { intros x y v Hx Hy Ev Hn e f Ey Ex.
    pose proof (A o 0%nat (PI / 4) c x y Ho eq_refl Hc Hx Hy) as B. pose proof (A' o 0%nat (PI / 4) c x y Ho eq_refl Hc Hx Hy) as B'. rewrite Ev in B, B'. rewrite B in B'.
    rewrite mask_R2_at, Ev in B' by (repeat apply valid_cons; [exact Hx|exact Hy|apply valid_nil]). unfold lt_float in B'. destruct (Rlt_dec _ _); [|contradiction].
    rewrite !Rmult_1_l in B'. cbn [gs_mode gs_pad] in B'. rewrite !(Rd _ e f) in B' by assumption.
    rewrite !slice_at in B' by (repeat apply valid_cons; [destruct e; lia|destruct f; lia|apply valid_nil]). exact B'. }
  assert (forall x y, (x < 3)%nat -> (y < 3)%nat -> at_ (create_grid_R2 3) [x; y] = mkV2 (INR x - 1) (INR y - 1)) as G.
  { intros x y Hx Hy. rewrite grid_R2_at by assumption. unfold FunctionalFacts.lin. f_equal; simpl; field. }
  assert (forall a b, a * a + b * b = 1 -> norm2 (mkV2 a b) < 11 / 10) as N1.
  { intros a b Hab. unfold norm2, dot2. cbn [v2x v2y]. rewrite Hab, sqrt_1. lra. }
  destruct Hi as [-> | ->], Hj as [-> | ->].
  - apply (K 1%nat 0%nat _ ltac:(lia) ltac:(lia) (G 1%nat 0%nat ltac:(lia) ltac:(lia)) (N1 (INR 1 - 1) (INR 0 - 1) ltac:(simpl; ring)) false false); unfold app2, so2_angle_to_matrix; cbn [b00 b01 b10 b11 v2x v2y]; rewrite cos_neg, sin_neg, ?Ecs; fold d; simpl; ring.
  - apply (K 2%nat 1%nat _ ltac:(lia) ltac:(lia) (G 2%nat 1%nat ltac:(lia) ltac:(lia)) (N1 (INR 2 - 1) (INR 1 - 1) ltac:(simpl; ring)) false true); unfold app2, so2_angle_to_matrix; cbn [b00 b01 b10 b11 v2x v2y]; rewrite cos_neg, sin_neg, ?Ecs; fold d; simpl; ring.
  - apply (K 0%nat 1%nat _ ltac:(lia) ltac:(lia) (G 0%nat 1%nat ltac:(lia) ltac:(lia)) (N1 (INR 0 - 1) (INR 1 - 1) ltac:(simpl; ring)) true false); unfold app2, so2_angle_to_matrix; cbn [b00 b01 b10 b11 v2x v2y]; rewrite cos_neg, sin_neg, ?Ecs; fold d; simpl; ring.
  - apply (K 1%nat 2%nat _ ltac:(lia) ltac:(lia) (G 1%nat 2%nat ltac:(lia) ltac:(lia)) (N1 (INR 1 - 1) (INR 2 - 1) ltac:(simpl; ring)) true true); unfold app2, so2_angle_to_matrix; cbn [b00 b01 b10 b11 v2x v2y]; rewrite cos_neg, sin_neg, ?Ecs; fold d; simpl; ring.
Qed.
Print Assumptions C99_corners_read.

(** Two different weights that agree on the axes of a window of three cells (their corners differ), a kernel that answers, and a group of elements that qualifies. *)
Example C99_nonvacuous : forall T, torch_ok T -> exists k W,
  let w := build [2; 3; 2; 3; 3]%nat (fun idx => INR (nth 0 idx 0%nat)) in
  let w' := build [2; 3; 2; 3; 3]%nat (fun idx => INR (nth 0 idx 0%nat) + if ((nth 3 idx 0 =? 0) && (nth 4 idx 0 =? 0))%nat%bool then 1 else 0) in
  let turns := [IZR 0 * (PI / 2); IZR 1 * (PI / 2); IZR 3 * (PI / 2)] in
  kernel_SE2 T 2 3 3 1 "nearest" 1 "bilinear" "border" true [0; PI] = Ok k /\
  agree_on on_an_axis [2; 3; 2]%nat [3; 3]%nat w w' /\ w <> w' /\ Forall (fun g => exists q, g = IZR q * (PI / 2)) turns /\
  full_kernel_forward k w turns turns = Ok W.
Proof.
  intros T HT. unfold kernel_SE2, width_SE2. rewrite default_width_given by lra. cbn [bind].
  eexists. set (k := Build_gkernel _ _ _ _ _ _ _ _ _ _ _).
  set (weight := build [2; 3; 2; 3; 3]%nat (fun idx => INR (nth 0 idx 0%nat))). set (turns := [IZR 0 * (PI / 2); IZR 1 * (PI / 2); IZR 3 * (PI / 2)]).
  assert (has_shape weight (full_weight_shape k)) as Hw by (split; [reflexivity|apply wft_build]).
  destruct (so2_nearest_total T HT 1 (prodn [3; 2; 3; 3]%nat)
    (relatives so2_inverse_angle so2_left_apply_angle turns turns)
    (param_rows (k_gdim k) [3; 2; 3; 3]%nat weight) (k_grid_H k)) as (rows & Hr).
  { discriminate. } { rewrite param_rows_count. reflexivity. }
  pose proof (sampled_SE2 k T "nearest" 1 "bilinear" "border" _ weight turns turns rows eq_refl Hr) as Hsam.
  destruct (full_formula k _ _ _ _ (gops_ok_SE2 T "nearest" 1 "bilinear" "border") (grid_R2_shape 3) (mask_R2_shape 3)
    (square_nonzero 3 ltac:(lia)) ltac:(discriminate) (gs2 true GsBorder) weight turns turns _ eq_refl Hw Hsam)
    as (W & E & _).
  exists W. cbv zeta. match goal with |- context [agree_on _ _ _ ?x ?y] => set (w := x); set (w' := y) end. split; [reflexivity|]. split; [|split; [|split]].
  - split; [split; [reflexivity|apply wft_build]|]. split; [split; [reflexivity|apply wft_build]|]. intros i cell Vi Vc Hc. unfold w, w', weight.
    apply valid_inv_cons in Vi as (a & i1 & -> & Ha & Vi). apply valid_inv_cons in Vi as (b & i2 & -> & Hb & Vi). apply valid_inv_cons in Vi as (c & i3 & -> & Hcc & Vi). apply valid_inv_nil in Vi as ->.
    apply valid_inv_cons in Vc as (x & c1 & -> & Hx & Vc). apply valid_inv_cons in Vc as (y & c2 & -> & Hy & Vc). apply valid_inv_nil in Vc as ->. cbn [app].
    rewrite !at_build by (repeat apply valid_cons; try assumption; apply valid_nil). cbn [nth].
    unfold on_an_axis in Hc. destruct (Nat.eqb_spec x 0) as [Ex|Ex]; [destruct (Nat.eqb_spec y 0) as [Ey|Ey]|]; cbn [andb]; try (symmetry; apply Rplus_0_r). exfalso. rewrite Ex, Ey in Hc. cbn in Hc. lia.
  - intros Ew. assert (at_ w [0; 0; 0; 0; 0]%nat = at_ w' [0; 0; 0; 0; 0]%nat) as K by (rewrite Ew; reflexivity). unfold w, w', weight in K.
    rewrite !at_build in K by (repeat apply valid_cons; try lia; apply valid_nil). cbn in K. lra.
  - repeat constructor; eexists; reflexivity.
  - exact E.
Qed.
