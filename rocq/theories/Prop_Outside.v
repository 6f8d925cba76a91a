(** Property theorems C76 (continued): what resampling reads outside the window, for every padding mode.
    Reading guide as in Prop_SampleRn.v.  The window covers [-1, 1] along every axis; a pixel of an axis with n pixels is 2/n wide, so
    points at distance 1/n or more outside [-1, 1] are at least half a pixel from the window. *)
From Coq Require Import String ZArith.
From Verif Require Import Prelude RMath Mat Interp SO2 SO3 Tensor TensorFacts Functional FunctionalFacts Kernel KernelFacts SampleRn ReflectFacts Prop_SampleRn.
Open Scope R_scope.

(** x and x' are mirror images of each other in the lower border -1 or in the upper border 1 of the window. *)
Definition mirrored (x x' : R) : Prop := x' = -2 - x \/ x' = 2 - x.
(** The point of [-1, 1] closest to x. *)
Definition nearest_inside (x : R) : R := Rmax (-1) (Rmin 1 x).

Lemma mirrored_coord n x x' : (0 < n)%nat -> mirrored x x' -> gs_coord GsReflect n x' = gs_coord GsReflect n x.
Proof. intros Hn [->| ->]; [exact (proj1 (coord_mirror n Hn x))|exact (proj2 (coord_mirror n Hn x))]. Qed.
Lemma mirrored_cubic n x x' F : (0 < n)%nat -> mirrored x x' -> cubic_axis n GsReflect (gs_unnormalize n x') F = cubic_axis n GsReflect (gs_unnormalize n x) F.
Proof.
  intros Hn [->| ->].
  - apply (cubic_axis_mirror n Hn _ _ (-1)%Z). left. split; [apply unnorm_low|reflexivity].
  - apply (cubic_axis_mirror n Hn _ _ (2 * Z.of_nat n - 1)%Z). right. split; [apply unnorm_high|reflexivity].
Qed.

Lemma cubic_axis_ext n pm c F F' : (forall z, F z = F' z) -> cubic_axis n pm c F = cubic_axis n pm c F'.
Proof. intros E. unfold cubic_axis. cbv zeta. cbn [cubic_coeffs map2 fold_right]. rewrite !E. reflexivity. Qed.

(** Reflection padding: mirroring a coordinate of the point in a border of the window does not change the value (so the image continues
    outside the window as its mirror images, and theirs, for ever).  In every mode, bicubic included. *)
Theorem C76_reflection_2d : forall mode smp a b im x x' y y', sample_R2 mode "reflection" = Ok smp -> (0 < a)%nat -> (0 < b)%nat ->
  mirrored x x' -> mirrored y y' ->
  smp [a; b] im (mkV2 x' y) = smp [a; b] im (mkV2 x y) /\ smp [a; b] im (mkV2 x y') = smp [a; b] im (mkV2 x y).
Proof.
  intros mode smp a b im x x' y y' E Ha Hb Hx Hy. unfold sample_R2 in E. destruct (String.eqb mode "bicubic").
  - injection E as <-. unfold gs2_cubic, axis2. cbn [v2x v2y]. rewrite !gs_cubic_axes. split.
    + apply cubic_axis_ext. intros z. exact (mirrored_cubic b x x' _ Hb Hx).
    + exact (mirrored_cubic a y y' _ Ha Hy).
  - destruct (gs_mode mode) as [l|]; [|discriminate]. injection E as <-. unfold gs2, axis2. cbn [v2x v2y].
    destruct l; split; (apply gs_linear_ext || apply gs_nearest_ext); try reflexivity; cbn [map2]; first [rewrite (mirrored_coord b x x' Hb Hx); reflexivity|rewrite (mirrored_coord a y y' Ha Hy); reflexivity].
Qed.
Print Assumptions C76_reflection_2d.
Theorem C76_reflection_3d : forall mode smp a b c im x x' y y' z z', sample_R3 mode "reflection" = Ok smp -> (0 < a)%nat -> (0 < b)%nat -> (0 < c)%nat ->
  mirrored x x' -> mirrored y y' -> mirrored z z' ->
  smp [a; b; c] im (mkV3 x' y z) = smp [a; b; c] im (mkV3 x y z) /\ smp [a; b; c] im (mkV3 x y' z) = smp [a; b; c] im (mkV3 x y z) /\
  smp [a; b; c] im (mkV3 x y z') = smp [a; b; c] im (mkV3 x y z).
Proof.
  intros mode smp a b c im x x' y y' z z' E Ha Hb Hc Hx Hy Hz. unfold sample_R3 in E. destruct (String.eqb mode "bicubic"); [discriminate|].
  destruct (gs_mode mode) as [l|]; [|discriminate]. injection E as <-. unfold gs3, axis3. cbn [vx vy vz].
  destruct l; (split; [|split]); (apply gs_linear_ext || apply gs_nearest_ext); try reflexivity; cbn [map2]; first [rewrite (mirrored_coord c x x' Hc Hx); reflexivity|rewrite (mirrored_coord b y y' Hb Hy); reflexivity|rewrite (mirrored_coord a z z' Ha Hz); reflexivity].
Qed.
Print Assumptions C76_reflection_3d.

(** Inside the window the two padding modes "border" and "reflection" are the same ("bilinear" and "nearest"). *)
Theorem C76_reflection_inside : forall mode, mode <> "bicubic"%string ->
  (forall smp smp' a b im x y, sample_R2 mode "reflection" = Ok smp -> sample_R2 mode "border" = Ok smp' -> (0 < a)%nat -> (0 < b)%nat ->
    -1 <= x <= 1 -> -1 <= y <= 1 -> smp [a; b] im (mkV2 x y) = smp' [a; b] im (mkV2 x y)) /\
  (forall smp smp' a b c im x y z, sample_R3 mode "reflection" = Ok smp -> sample_R3 mode "border" = Ok smp' -> (0 < a)%nat -> (0 < b)%nat -> (0 < c)%nat ->
    -1 <= x <= 1 -> -1 <= y <= 1 -> -1 <= z <= 1 -> smp [a; b; c] im (mkV3 x y z) = smp' [a; b; c] im (mkV3 x y z)).
Proof.
  intros mode Hm. unfold sample_R2, sample_R3. destruct (String.eqb_spec mode "bicubic") as [|_]; [contradiction|]. destruct (gs_mode mode) as [l|]; [|split; intros; discriminate].
  split.
  - intros smp smp' a b im x y [= <-] [= <-] Ha Hb Hx Hy. unfold gs2, axis2. cbn [v2x v2y].
    destruct l; (apply gs_linear_ext || apply gs_nearest_ext); try reflexivity; cbn [map2]; rewrite !coord_inside by assumption; reflexivity.
  - intros smp smp' a b c im x y z [= <-] [= <-] Ha Hb Hc Hx Hy Hz. unfold gs3, axis3. cbn [vx vy vz].
    destruct l; (apply gs_linear_ext || apply gs_nearest_ext); try reflexivity; cbn [map2]; rewrite !coord_inside by assumption; reflexivity.
Qed.
Print Assumptions C76_reflection_inside.

(** Border padding: a point outside is read at the nearest point of the window ("bilinear" and "nearest"). *)
Theorem C76_border : forall mode, mode <> "bicubic"%string ->
  (forall smp a b im x y, sample_R2 mode "border" = Ok smp -> (0 < a)%nat -> (0 < b)%nat ->
    smp [a; b] im (mkV2 x y) = smp [a; b] im (mkV2 (nearest_inside x) (nearest_inside y))) /\
  (forall smp a b c im x y z, sample_R3 mode "border" = Ok smp -> (0 < a)%nat -> (0 < b)%nat -> (0 < c)%nat ->
    smp [a; b; c] im (mkV3 x y z) = smp [a; b; c] im (mkV3 (nearest_inside x) (nearest_inside y) (nearest_inside z))).
Proof.
  intros mode Hm. unfold sample_R2, sample_R3. destruct (String.eqb_spec mode "bicubic") as [|_]; [contradiction|]. destruct (gs_mode mode) as [l|]; [|split; intros; discriminate].
  split.
  - intros smp a b im x y [= <-] Ha Hb. unfold gs2, axis2. cbn [v2x v2y].
    destruct l; (apply gs_linear_ext || apply gs_nearest_ext); try reflexivity; cbn [map2]; rewrite (coord_border a Ha y), (coord_border b Hb x); reflexivity.
  - intros smp a b c im x y z [= <-] Ha Hb Hc. unfold gs3, axis3. cbn [vx vy vz].
    destruct l; (apply gs_linear_ext || apply gs_nearest_ext); try reflexivity; cbn [map2]; rewrite (coord_border a Ha z), (coord_border b Hb y), (coord_border c Hc x); reflexivity.
Qed.
Print Assumptions C76_border.

(** Zeros padding: half a pixel or more outside the window the value is 0 ("bilinear" and "nearest"). *)
Lemma outside_cell n x : (0 < n)%nat -> 1 + / INR n <= Rabs x -> gs_unnormalize n x <= -1 \/ INR n <= gs_unnormalize n x.
Proof.
  intros Hn Hx. assert (0 < INR n) as Np by (apply lt_0_INR; exact Hn). unfold gs_unnormalize.
  assert ((1 + / INR n) * INR n = INR n + 1) as E by (field; lra).
  unfold Rabs in Hx. destruct (Rcase_abs x); [left|right].
  - assert ((1 + / INR n) * INR n <= - x * INR n) by (apply Rmult_le_compat_r; lra). lra.
  - assert ((1 + / INR n) * INR n <= x * INR n) by (apply Rmult_le_compat_r; lra). lra.
Qed.
Theorem C76_zeros_outside : forall mode, mode <> "bicubic"%string ->
  (forall smp a b im x y, sample_R2 mode "zeros" = Ok smp -> (0 < a)%nat -> (0 < b)%nat ->
    (1 + / INR b <= Rabs x \/ 1 + / INR a <= Rabs y) -> smp [a; b] im (mkV2 x y) = 0) /\
  (forall smp a b c im x y z, sample_R3 mode "zeros" = Ok smp -> (0 < a)%nat -> (0 < b)%nat -> (0 < c)%nat ->
    (1 + / INR c <= Rabs x \/ 1 + / INR b <= Rabs y \/ 1 + / INR a <= Rabs z) -> smp [a; b; c] im (mkV3 x y z) = 0).
Proof.
  intros mode Hm. unfold sample_R2, sample_R3. destruct (String.eqb_spec mode "bicubic") as [|_]; [contradiction|]. destruct (gs_mode mode) as [l|]; [|split; intros; discriminate].
  split.
  - intros smp a b im x y [= <-] Ha Hb H. unfold gs2, axis2. cbn [v2x v2y].
    destruct H as [H|H]; [apply (outside_cell b x Hb) in H|apply (outside_cell a y Ha) in H].
    + destruct l; [apply (linear_outside _ _ _ 1)|apply (nearest_outside _ _ _ 1)]; cbn [List.length nth]; auto.
    + destruct l; [apply (linear_outside _ _ _ 0)|apply (nearest_outside _ _ _ 0)]; cbn [List.length nth]; auto; lia.
  - intros smp a b c im x y z [= <-] Ha Hb Hc H. unfold gs3, axis3. cbn [vx vy vz].
    destruct H as [H|[H|H]]; [apply (outside_cell c x Hc) in H|apply (outside_cell b y Hb) in H|apply (outside_cell a z Ha) in H].
    + destruct l; [apply (linear_outside _ _ _ 2)|apply (nearest_outside _ _ _ 2)]; cbn [List.length nth]; auto; lia.
    + destruct l; [apply (linear_outside _ _ _ 1)|apply (nearest_outside _ _ _ 1)]; cbn [List.length nth]; auto; lia.
    + destruct l; [apply (linear_outside _ _ _ 0)|apply (nearest_outside _ _ _ 0)]; cbn [List.length nth]; auto; lia.
Qed.
Print Assumptions C76_zeros_outside.

(** The corners of a window: turned by an eighth of a turn, the corner pixels of a 5x5 window are read outside it, and with zeros padding
    this is what the kernel loses.  The hypotheses above are met by such a point. *)
Example C76_outside_nonvacuous : exists smp, sample_R2 "bilinear" "zeros" = Ok smp /\
  let v := mkV2 (5 / 4) 0 in 1 + / INR 5 <= Rabs (v2x v) /\ forall im, smp [5; 5]%nat im v = 0.
Proof.
  exists (gs2 true GsZeros). split; [reflexivity|]. cbn [v2x]. assert (1 + / INR 5 <= Rabs (5 / 4)) as B by (rewrite Rabs_pos_eq by lra; simpl; lra).
  split; [exact B|]. intros im. apply (proj1 (C76_zeros_outside "bilinear" ltac:(discriminate))); [reflexivity|lia|lia|left; exact B].
Qed.
