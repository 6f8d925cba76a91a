(** Property theorems C76: what resampling a kernel window can do to the weights, for every sampling mode and padding mode.
    Reading guide.  [sample_R2 mode pm = Ok smp]: grid_sample with these mode strings is the function smp; [smp s im v] is the value it
    gives for the image of size s with row-major data im at the point v.  [at_ (mkT s im) i] is the pixel i of that image, [indices s] the
    list of all pixels.  [total] is the sum of a list. *)
From Coq Require Import String ZArith.
From Verif Require Import Prelude RMath Mat Interp SO2 SO2Facts O2 O2Facts SO3 SO3Facts O3 O3Facts Tensor TensorFacts Repulse RepulseFacts Functional FunctionalFacts
  Kernel KernelFacts KernelMore LayersSpec SampleRn Prop_Kernel Prop_Kernel2.
Open Scope R_scope.

(** The accepted mode strings. *)
Theorem C76_accepted_modes : forall mode pm,
  let known_pad := (pm = "zeros" \/ pm = "border" \/ pm = "reflection")%string in
  ((exists smp, sample_R2 mode pm = Ok smp) <-> (mode = "bilinear" \/ mode = "nearest" \/ mode = "bicubic")%string /\ known_pad) /\
  ((exists smp, sample_R3 mode pm = Ok smp) <-> (mode = "bilinear" \/ mode = "nearest")%string /\ known_pad).
Proof.
  intros mode pm known_pad. subst known_pad. unfold sample_R2, sample_R3, gs_mode, gs_pad.
  destruct (String.eqb_spec mode "bicubic"); destruct (String.eqb_spec mode "bilinear"); destruct (String.eqb_spec mode "nearest");
    destruct (String.eqb_spec pm "zeros"); destruct (String.eqb_spec pm "border"); destruct (String.eqb_spec pm "reflection"); subst; try discriminate;
    cbn [bind]; split; (split; [intros [smp E]; try discriminate E; clear E; tauto|intros [M Q]; first [eexists; reflexivity | exfalso;
      repeat match goal with H : _ \/ _ |- _ => destruct H end; congruence]]).
Qed.
Print Assumptions C76_accepted_modes.

(** Every sampled value is a fixed linear combination of the pixels: the coefficients depend on the point only. *)
Theorem C76_linear_2d : forall mode pm smp a b v, sample_R2 mode pm = Ok smp ->
  exists coef : list nat -> R, forall im, smp [a; b] im v = total (map (fun i => coef i * at_ (mkT [a; b] im) i) (indices [a; b])).
Proof. intros mode pm smp a b v E. destruct (sample2_good _ _ _ E a b v) as (ts & z & q & HT & HG & _). exact (good_linear _ _ _ _ _ _ HT HG). Qed.
Print Assumptions C76_linear_2d.
Theorem C76_linear_3d : forall mode pm smp a b c v, sample_R3 mode pm = Ok smp ->
  exists coef : list nat -> R, forall im, smp [a; b; c] im v = total (map (fun i => coef i * at_ (mkT [a; b; c] im) i) (indices [a; b; c])).
Proof. intros mode pm smp a b c v E. destruct (sample3_good _ _ _ E a b c v) as (ts & z & HT & HG & _). exact (good_linear _ _ _ _ _ _ HT HG). Qed.
Print Assumptions C76_linear_3d.

(** A constant image is reproduced at every point, unless the padding mode is "zeros". *)
Theorem C76_constant_2d : forall mode pm smp a b v im k, sample_R2 mode pm = Ok smp -> pm <> "zeros"%string -> (0 < a)%nat -> (0 < b)%nat ->
  (forall i j, (i < a)%nat -> (j < b)%nat -> at_ (mkT [a; b] im) [i; j] = k) -> smp [a; b] im v = k.
Proof.
  intros mode pm smp a b v im k E Hp Ha Hb Hk. destruct (sample2_good _ _ _ E a b v) as (ts & z & q & HT & HG & Hz & _).
  apply (good_const _ _ _ _ _ _ HT HG).
  - destruct z; [|reflexivity]. exfalso. apply Hp, Hz. reflexivity.
  - intros n [<-|[<-|[]]]; assumption.
  - intros i V. inversion V as [|x d t ds Hx V1]; subst. inversion V1 as [|y d' t' ds' Hy V2]; subst. inversion V2; subst. apply Hk; assumption.
Qed.
Print Assumptions C76_constant_2d.
Theorem C76_constant_3d : forall mode pm smp a b c v im k, sample_R3 mode pm = Ok smp -> pm <> "zeros"%string -> (0 < a)%nat -> (0 < b)%nat -> (0 < c)%nat ->
  (forall i j l, (i < a)%nat -> (j < b)%nat -> (l < c)%nat -> at_ (mkT [a; b; c] im) [i; j; l] = k) -> smp [a; b; c] im v = k.
Proof.
  intros mode pm smp a b c v im k E Hp Ha Hb Hc Hk. destruct (sample3_good _ _ _ E a b c v) as (ts & z & HT & HG & Hz).
  apply (good_const _ _ _ _ _ _ HT HG).
  - destruct z; [|reflexivity]. exfalso. apply Hp, Hz. reflexivity.
  - intros n [<-|[<-|[<-|[]]]]; assumption.
  - intros i V. inversion V as [|x d t ds Hx V1]; subst. inversion V1 as [|y d' t' ds' Hy V2]; subst. inversion V2 as [|y' d'' t'' ds'' Hy' V3]; subst. inversion V3; subst. apply Hk; assumption.
Qed.
Print Assumptions C76_constant_3d.

(** With "bilinear" or "nearest", the value lies between any bounds of the pixels (bounds that include 0, if the padding mode is
    "zeros"). *)
Theorem C76_range_2d : forall mode pm smp a b v im lo hi, sample_R2 mode pm = Ok smp -> mode <> "bicubic"%string -> (0 < a)%nat -> (0 < b)%nat ->
  (pm = "zeros"%string -> lo <= 0 <= hi) ->
  (forall i j, (i < a)%nat -> (j < b)%nat -> lo <= at_ (mkT [a; b] im) [i; j] <= hi) -> lo <= smp [a; b] im v <= hi.
Proof.
  intros mode pm smp a b v im lo hi E Hm Ha Hb Hp Hk. destruct (sample2_good _ _ _ E a b v) as (ts & z & q & HT & HG & Hz & Hq).
  apply (good_bounds _ _ _ _ _ _ HT HG).
  - destruct q; [|reflexivity]. exfalso. apply Hm, Hq. reflexivity.
  - intros Ez. apply Hp, Hz. exact Ez.
  - intros n [<-|[<-|[]]]; assumption.
  - intros i V. inversion V as [|x d t ds Hx V1]; subst. inversion V1 as [|y d' t' ds' Hy V2]; subst. inversion V2; subst. apply Hk; assumption.
Qed.
Print Assumptions C76_range_2d.
Theorem C76_range_3d : forall mode pm smp a b c v im lo hi, sample_R3 mode pm = Ok smp -> (0 < a)%nat -> (0 < b)%nat -> (0 < c)%nat ->
  (pm = "zeros"%string -> lo <= 0 <= hi) ->
  (forall i j l, (i < a)%nat -> (j < b)%nat -> (l < c)%nat -> lo <= at_ (mkT [a; b; c] im) [i; j; l] <= hi) -> lo <= smp [a; b; c] im v <= hi.
Proof.
  intros mode pm smp a b c v im lo hi E Ha Hb Hc Hp Hk. destruct (sample3_good _ _ _ E a b c v) as (ts & z & HT & HG & Hz).
  apply (good_bounds _ _ _ _ _ _ HT HG).
  - reflexivity.
  - intros Ez. apply Hp, Hz. exact Ez.
  - intros n [<-|[<-|[<-|[]]]]; assumption.
  - intros i V. inversion V as [|x d t ds Hx V1]; subst. inversion V1 as [|y d' t' ds' Hy V2]; subst. inversion V2 as [|y' d'' t'' ds'' Hy' V3]; subst. inversion V3; subst. apply Hk; assumption.
Qed.
Print Assumptions C76_range_3d.

(** "bicubic" leaves the range of the pixels: an image of zeros and ones is sampled to a negative value. *)
Theorem C76_bicubic_leaves_the_range : exists smp im v, sample_R2 "bicubic" "border" = Ok smp /\
  (forall i j, (i < 1)%nat -> (j < 4)%nat -> 0 <= at_ (mkT [1; 4]%nat im) [i; j] <= 1) /\ smp [1; 4]%nat im v = - (3 / 32).
Proof.
  exists (gs2_cubic GsBorder), [1; 0; 0; 0], (mkV2 0 0). split; [reflexivity|]. split.
  { intros i j Hi Hj. assert (i = 0)%nat by lia. subst. unfold at_. destruct j as [|[|[|[|j]]]]; [| | | |lia]; simpl; lra. }
  unfold gs2_cubic, gs_cubic, axis2. cbv zeta. cbn [nth v2x v2y].
  replace (gs_unnormalize 1 0) with (IZR 0) by (unfold gs_unnormalize; simpl; field).
  replace (gs_unnormalize 4 0) with (3 / 2) by (unfold gs_unnormalize; simpl; field).
  assert (forall z, Int_part (IZR z) = z) as I by (intros; apply Int_part_unique; lra).
  assert (Int_part (3 / 2) = 1%Z) as I32.
  { apply Int_part_unique. simpl. lra. }
  rewrite I, I32. cbn [map2 cubic_coeffs fold_right].
  assert (forall z, gs_cell GsBorder 1 z = 0%Z) as C1.
  { intros z. unfold gs_cell, gs_place. replace (INR 1 - 1) with 0 by (simpl; ring). replace (clamp (IZR z) 0 0) with (IZR 0) by (pose proof (clamp_bounds (IZR z) 0 0 (Rle_refl 0)); lra). apply I. }
  assert (forall z, (0 <= z <= 3)%Z -> gs_cell GsBorder 4 z = z) as C4.
  { intros z Hz. unfold gs_cell, gs_place. replace (INR 4 - 1) with (IZR 3) by (simpl; ring). rewrite clamp_mid; [apply I|]. split; apply IZR_le; lia. }
  rewrite !C1, !C4 by lia. unfold gs_read. cbn. change (Pos.to_nat 1) with 1%nat. change (Pos.to_nat 2) with 2%nat. change (Pos.to_nat 3) with 3%nat. cbn. unfold cubic1, cubic2. field.
Qed.
Print Assumptions C76_bicubic_leaves_the_range.

(** ** The kernels *)
(** A weight that is constant over the window gives the same kernel for all group elements (up to the division by the determinant in the
    two groups with reflections), with every mode; the padding mode must not be "zeros". *)
Theorem C76_constant_windows : forall T cin out s groups n m mode pm (mask : bool) (kappa : R), (0 < s)%nat -> pm <> "zeros"%string ->
  (forall grid smp weight H W o i t c x y, sample_R2 mode pm = Ok smp -> has_shape weight [out; cin / groups; s; s]%nat ->
    (forall x y, (x < s)%nat -> (y < s)%nat -> at_ weight [o; c; x; y] = kappa) ->
    lifting_kernel_forward (lifting_kernel_SE2 T cin out s groups mode pm mask grid) weight H = Ok W ->
    (o < out)%nat -> nth_error H i = Some t -> (c < cin / groups)%nat -> (x < s)%nat -> (y < s)%nat ->
    at_ W [o; i; c; x; y] = at_ (create_spherical_mask_R2 s) [x; y] * kappa) /\
  (forall grid smp weight H W o i r c x y z, sample_R3 mode pm = Ok smp -> has_shape weight [out; cin / groups; s; s; s]%nat ->
    (forall x y z, (x < s)%nat -> (y < s)%nat -> (z < s)%nat -> at_ weight [o; c; x; y; z] = kappa) ->
    lifting_kernel_forward (lifting_kernel_SE3 T cin out s groups mode pm mask grid) weight H = Ok W ->
    (o < out)%nat -> nth_error H i = Some r -> (c < cin / groups)%nat -> (x < s)%nat -> (y < s)%nat -> (z < s)%nat ->
    at_ W [o; i; c; x; y; z] = (if mask then at_ (create_spherical_mask_R3 s) [x; y; z] else 1) * kappa) /\
  (forall grid smp weight H W o i h c x y, sample_R2 mode pm = Ok smp -> has_shape weight [out; cin / groups; s; s]%nat ->
    (forall x y, (x < s)%nat -> (y < s)%nat -> at_ weight [o; c; x; y] = kappa) ->
    lifting_kernel_forward (lifting_kernel_E2 T cin out s groups n m mode pm mask grid) weight H = Ok W ->
    (o < out)%nat -> nth_error H i = Some h -> (c < cin / groups)%nat -> (x < s)%nat -> (y < s)%nat ->
    at_ W [o; i; c; x; y] = (if mask then at_ (create_spherical_mask_R2 s) [x; y] else 1) * kappa / o2c h) /\
  (forall grid smp weight H W o i h c x y z, sample_R3 mode pm = Ok smp -> has_shape weight [out; cin / groups; s; s; s]%nat ->
    (forall x y z, (x < s)%nat -> (y < s)%nat -> (z < s)%nat -> at_ weight [o; c; x; y; z] = kappa) ->
    lifting_kernel_forward (lifting_kernel_E3 T cin out s groups n m mode pm mask grid) weight H = Ok W ->
    (o < out)%nat -> nth_error H i = Some h -> (c < cin / groups)%nat -> (x < s)%nat -> (y < s)%nat -> (z < s)%nat ->
    at_ W [o; i; c; x; y; z] = (if mask then at_ (create_spherical_mask_R3 s) [x; y; z] else 1) * kappa / o3c h).
Proof.
  intros T cin out s groups n m mode pm mask kappa Hs Hp.
  assert (forall smp weight o c v, sample_R2 mode pm = Ok smp -> (forall x y, (x < s)%nat -> (y < s)%nat -> at_ weight [o; c; x; y] = kappa) ->
    smp [s; s] (slice weight [s; s] [o; c]) v = kappa) as K2.
  { intros smp weight o c v E Hk. apply (C76_constant_2d mode pm); try assumption. intros a b Ha Hb.
    rewrite slice_at by (repeat apply valid_cons; try assumption; apply valid_nil). apply Hk; assumption. }
  assert (forall smp weight o c v, sample_R3 mode pm = Ok smp -> (forall x y z, (x < s)%nat -> (y < s)%nat -> (z < s)%nat -> at_ weight [o; c; x; y; z] = kappa) ->
    smp [s; s; s] (slice weight [s; s; s] [o; c]) v = kappa) as K3.
  { intros smp weight o c v E Hk. apply (C76_constant_3d mode pm); try assumption. intros a b d Ha Hb Hd.
    rewrite slice_at by (repeat apply valid_cons; try assumption; apply valid_nil). apply Hk; assumption. }
  split; [|split; [|split]].
  - intros grid smp weight H W o i t c x y E Hw Hk EW Ho Hi Hc Hx Hy.
    destruct (C36_SE2 T cin out s groups mode pm mask grid smp weight H Hs E Hw) as (W' & E' & _ & A). rewrite EW in E'. injection E' as <-.
    rewrite (A o i t c x y Ho Hi Hc Hx Hy), (K2 smp weight o c _ E Hk). reflexivity.
  - intros grid smp weight H W o i r c x y z E Hw Hk EW Ho Hi Hc Hx Hy Hz.
    destruct (C36_SE3 T cin out s groups mode pm mask grid smp weight H Hs E Hw) as (W' & E' & _ & A). rewrite EW in E'. injection E' as <-.
    rewrite (A o i r c x y z Ho Hi Hc Hx Hy Hz), (K3 smp weight o c _ E Hk). reflexivity.
  - intros grid smp weight H W o i h c x y E Hw Hk EW Ho Hi Hc Hx Hy.
    destruct (C36_E2 T cin out s groups n m mode pm mask grid smp weight H Hs E Hw) as (W' & E' & _ & A). rewrite EW in E'. injection E' as <-.
    rewrite (A o i h c x y Ho Hi Hc Hx Hy), (K2 smp weight o c _ E Hk). reflexivity.
  - intros grid smp weight H W o i h c x y z E Hw Hk EW Ho Hi Hc Hx Hy Hz.
    destruct (C36_E3 T cin out s groups n m mode pm mask grid smp weight H Hs E Hw) as (W' & E' & _ & A). rewrite EW in E'. injection E' as <-.
    rewrite (A o i h c x y z Ho Hi Hc Hx Hy Hz), (K3 smp weight o c _ E Hk). reflexivity.
Qed.
Print Assumptions C76_constant_windows.

(** With "bilinear" or "nearest" and any padding mode, turning a window never makes a weight larger than the largest one in the window. *)
Theorem C76_never_amplifies : forall T cin out s groups n m mode pm (mask : bool) (B : R), (0 < s)%nat -> mode <> "bicubic"%string ->
  (forall grid smp weight H W o i t c x y, sample_R2 mode pm = Ok smp -> has_shape weight [out; cin / groups; s; s]%nat ->
    (forall x y, (x < s)%nat -> (y < s)%nat -> Rabs (at_ weight [o; c; x; y]) <= B) ->
    lifting_kernel_forward (lifting_kernel_SE2 T cin out s groups mode pm mask grid) weight H = Ok W ->
    (o < out)%nat -> nth_error H i = Some t -> (c < cin / groups)%nat -> (x < s)%nat -> (y < s)%nat ->
    Rabs (at_ W [o; i; c; x; y]) <= B) /\
  (forall grid smp weight H W o i r c x y z, sample_R3 mode pm = Ok smp -> has_shape weight [out; cin / groups; s; s; s]%nat ->
    (forall x y z, (x < s)%nat -> (y < s)%nat -> (z < s)%nat -> Rabs (at_ weight [o; c; x; y; z]) <= B) ->
    lifting_kernel_forward (lifting_kernel_SE3 T cin out s groups mode pm mask grid) weight H = Ok W ->
    (o < out)%nat -> nth_error H i = Some r -> (c < cin / groups)%nat -> (x < s)%nat -> (y < s)%nat -> (z < s)%nat ->
    Rabs (at_ W [o; i; c; x; y; z]) <= B) /\
  (forall grid smp weight H W o i h c x y, sample_R2 mode pm = Ok smp -> has_shape weight [out; cin / groups; s; s]%nat ->
    (forall x y, (x < s)%nat -> (y < s)%nat -> Rabs (at_ weight [o; c; x; y]) <= B) ->
    lifting_kernel_forward (lifting_kernel_E2 T cin out s groups n m mode pm mask grid) weight H = Ok W ->
    (o < out)%nat -> nth_error H i = Some h -> (o2c h = 1 \/ o2c h = -1) -> (c < cin / groups)%nat -> (x < s)%nat -> (y < s)%nat ->
    Rabs (at_ W [o; i; c; x; y]) <= B) /\
  (forall grid smp weight H W o i h c x y z, sample_R3 mode pm = Ok smp -> has_shape weight [out; cin / groups; s; s; s]%nat ->
    (forall x y z, (x < s)%nat -> (y < s)%nat -> (z < s)%nat -> Rabs (at_ weight [o; c; x; y; z]) <= B) ->
    lifting_kernel_forward (lifting_kernel_E3 T cin out s groups n m mode pm mask grid) weight H = Ok W ->
    (o < out)%nat -> nth_error H i = Some h -> (o3c h = 1 \/ o3c h = -1) -> (c < cin / groups)%nat -> (x < s)%nat -> (y < s)%nat -> (z < s)%nat ->
    Rabs (at_ W [o; i; c; x; y; z]) <= B).
Proof.
  intros T cin out s groups n m mode pm mask B Hs Hm.
  assert (forall v b, Rabs v <= b -> - b <= v <= b) as Rabs_def2_le.
  { intros v b Hv. pose proof (Rle_abs v). pose proof (Rle_abs (- v)). rewrite Rabs_Ropp in *. lra. }
  assert (forall b v x y, Rabs v <= b -> Rabs (lt_float x y * v) <= b) as M.
  { intros b v x y Hv. pose proof (Rabs_pos v). unfold lt_float. destruct (Rlt_dec x y); [rewrite Rmult_1_l; exact Hv|rewrite Rmult_0_l, Rabs_R0; lra]. }
  assert (forall b v k, k = 1 \/ k = -1 -> Rabs v <= b -> Rabs (v / k) <= b) as Dv.
  { intros b v k [->| ->] Hv; [unfold Rdiv; rewrite Rinv_1, Rmult_1_r; exact Hv|]. replace (v / -1) with (- v) by field. rewrite Rabs_Ropp. exact Hv. }
  assert (forall smp weight o c v, sample_R2 mode pm = Ok smp -> (forall x y, (x < s)%nat -> (y < s)%nat -> Rabs (at_ weight [o; c; x; y]) <= B) ->
    Rabs (smp [s; s] (slice weight [s; s] [o; c]) v) <= B) as K2.
  { intros smp weight o c v E Hk. apply Rabs_le. apply (C76_range_2d mode pm); try assumption.
    - intros _. pose proof (Hk 0%nat 0%nat Hs Hs). pose proof (Rabs_pos (at_ weight [o; c; 0; 0]%nat)). lra.
    - intros a b Ha Hb. rewrite slice_at by (repeat apply valid_cons; try assumption; apply valid_nil). pose proof (Hk _ _ Ha Hb) as Q. exact (Rabs_def2_le _ _ Q). }
  assert (forall smp weight o c v, sample_R3 mode pm = Ok smp -> (forall x y z, (x < s)%nat -> (y < s)%nat -> (z < s)%nat -> Rabs (at_ weight [o; c; x; y; z]) <= B) ->
    Rabs (smp [s; s; s] (slice weight [s; s; s] [o; c]) v) <= B) as K3.
  { intros smp weight o c v E Hk. apply Rabs_le. apply (C76_range_3d mode pm); try assumption.
    - intros _. pose proof (Hk 0%nat 0%nat 0%nat Hs Hs Hs). pose proof (Rabs_pos (at_ weight [o; c; 0; 0; 0]%nat)). lra.
    - intros a b d Ha Hb Hd. rewrite slice_at by (repeat apply valid_cons; try assumption; apply valid_nil). pose proof (Hk _ _ _ Ha Hb Hd) as Q. exact (Rabs_def2_le _ _ Q). }
  assert (forall x y, (x < s)%nat -> (y < s)%nat -> at_ (create_spherical_mask_R2 s) [x; y] = lt_float (norm2 (at_ (create_grid_R2 s) [x; y])) (11 / 10)) as M2.
  { intros x y Hx Hy. apply mask_R2_at; repeat apply valid_cons; try assumption; apply valid_nil. }
  assert (forall x y z, (x < s)%nat -> (y < s)%nat -> (z < s)%nat -> at_ (create_spherical_mask_R3 s) [x; y; z] = lt_float (norm3 (at_ (create_grid_R3 s) [x; y; z])) (11 / 10)) as M3.
  { intros x y z Hx Hy Hz. apply mask_R3_at; repeat apply valid_cons; try assumption; apply valid_nil. }
  split; [|split; [|split]].
  - intros grid smp weight H W o i t c x y E Hw Hk EW Ho Hi Hc Hx Hy.
    destruct (C36_SE2 T cin out s groups mode pm mask grid smp weight H Hs E Hw) as (W' & E' & _ & A). rewrite EW in E'. injection E' as <-.
    rewrite (A o i t c x y Ho Hi Hc Hx Hy), M2 by assumption. apply M, K2; assumption.
  - intros grid smp weight H W o i r c x y z E Hw Hk EW Ho Hi Hc Hx Hy Hz.
    destruct (C36_SE3 T cin out s groups mode pm mask grid smp weight H Hs E Hw) as (W' & E' & _ & A). rewrite EW in E'. injection E' as <-.
    rewrite (A o i r c x y z Ho Hi Hc Hx Hy Hz). destruct mask; [rewrite M3 by assumption; apply M, K3; assumption|rewrite Rmult_1_l; apply K3; assumption].
  - intros grid smp weight H W o i h c x y E Hw Hk EW Ho Hi Hh Hc Hx Hy.
    destruct (C36_E2 T cin out s groups n m mode pm mask grid smp weight H Hs E Hw) as (W' & E' & _ & A). rewrite EW in E'. injection E' as <-.
    rewrite (A o i h c x y Ho Hi Hc Hx Hy). apply Dv; [exact Hh|]. destruct mask; [rewrite M2 by assumption; apply M, K2; assumption|rewrite Rmult_1_l; apply K2; assumption].
  - intros grid smp weight H W o i h c x y z E Hw Hk EW Ho Hi Hh Hc Hx Hy Hz.
    destruct (C36_E3 T cin out s groups n m mode pm mask grid smp weight H Hs E Hw) as (W' & E' & _ & A). rewrite EW in E'. injection E' as <-.
    rewrite (A o i h c x y z Ho Hi Hc Hx Hy Hz). apply Dv; [exact Hh|]. destruct mask; [rewrite M3 by assumption; apply M, K3; assumption|rewrite Rmult_1_l; apply K3; assumption].
Qed.
Print Assumptions C76_never_amplifies.

(** the hypotheses are met: a 3x3 window with varying weights, reflection padding *)
Example C76_nonvacuous T : exists W, lifting_kernel_forward (lifting_kernel_E2 T 1 2 3 1 4 2 "bilinear" "reflection" true [])
  (build [2; 1; 3; 3]%nat (fun idx => INR (nth 3 idx 0%nat))) [mkO2 1 (PI / 7); mkO2 (-1) 1] = Ok W /\
  forall o i c x y, (o < 2)%nat -> (i < 2)%nat -> (c < 1)%nat -> (x < 3)%nat -> (y < 3)%nat -> Rabs (at_ W [o; i; c; x; y]) <= 2.
Proof.
  set (weight := build [2; 1; 3; 3]%nat (fun idx => INR (nth 3 idx 0%nat))).
  assert (has_shape weight [2; 1; 3; 3]%nat) as Hw by (split; [reflexivity|apply wft_build]).
  destruct (C36_E2 T 1 2 3 1 4 2 "bilinear" "reflection" true [] (gs2 true GsReflect) weight [mkO2 1 (PI / 7); mkO2 (-1) 1]) as (W & E & _ & _); [lia|reflexivity|exact Hw|].
  exists W. split; [exact E|]. intros o i c x y Ho Hi Hc Hx Hy.
  destruct (C76_never_amplifies T 1 2 3 1 4 2 "bilinear" "reflection" true 2) as (_ & _ & K & _); [lia|discriminate|].
  assert (forall x y, (x < 3)%nat -> (y < 3)%nat -> Rabs (at_ weight [o; c; x; y]) <= 2) as HB.
  { intros x' y' Hx' Hy'. unfold weight. rewrite at_build by (repeat apply valid_cons; try assumption; apply valid_nil). cbn [nth]. rewrite Rabs_pos_eq by apply pos_INR.
    replace 2 with (INR 2) by reflexivity. apply le_INR. lia. }
  destruct i as [|[|i]]; [| |lia].
  - exact (K [] (gs2 true GsReflect) weight _ W o 0%nat (mkO2 1 (PI / 7)) c x y eq_refl Hw HB E Ho eq_refl (or_introl eq_refl) Hc Hx Hy).
  - exact (K [] (gs2 true GsReflect) weight _ W o 1%nat (mkO2 (-1) 1) c x y eq_refl Hw HB E Ho eq_refl (or_intror eq_refl) Hc Hx Hy).
Qed.
