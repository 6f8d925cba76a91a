(** Property theorems C36-C42, C59: the kernels.
    Reading guide.  [has_shape t s]: t is a tensor of shape s.  [at_ t idx] is t[idx].
    [nth_error H i = Some g]: the i-th element of the group grid H is g.
    [slice weight ks [o; c]] is the image weight[o, c] (flattened, with its shape ks given separately).
    [smp ks image p] is the value the spatial sampler gives for the image at the point p.
    [detf det g], [maskf m x]: the determinant / mask factor, 1 when the kernel has none.
    [gops_ok ops inv mul act det] says what the callables handed to the kernel do on one element. *)
From Coq Require Import String.
From Verif Require Import Prelude RMath Mat Interp InterpFacts SO2 SO2Facts O2 O2Facts SO3 SO3Facts SO3More O3 O3Facts Repulse RepulseFacts
  Tensor TensorFacts SignedPerm Functional FunctionalFacts Kernel KernelFacts GroupKernelFacts KernelMore InterpExample.
Open Scope R_scope.

(** ** C36 *)
Theorem C36_lifting_kernel_formula : forall G P (D : Dflt P) (k : gkernel G P) inv mul act det smp weight (H : list G),
  gops_ok (k_ops k) inv mul act det ->
  has_shape (k_grid_Rn k) (k_size k) -> mask_ok (k_mask k) (k_size k) -> prodn (k_size k) <> 0%nat ->
  op_sample_Rn (k_ops k) = Ok smp ->
  has_shape weight (k_out k :: (k_in k / k_groups k)%nat :: k_size k) ->
  exists W, lifting_kernel_forward k weight H = Ok W /\
    has_shape W (k_out k :: List.length H :: (k_in k / k_groups k)%nat :: k_size k) /\
    forall o i g c x, (o < k_out k)%nat -> nth_error H i = Some g -> (c < k_in k / k_groups k)%nat -> valid (k_size k) x ->
      at_ W (o :: i :: c :: x) =
      maskf (k_mask k) x * smp (k_size k) (slice weight (k_size k) [o; c]) (act (inv g) (at_ (k_grid_Rn k) x)) / detf det g.
Proof. intros. eapply lifting_formula; eassumption. Qed.
Print Assumptions C36_lifting_kernel_formula.

Theorem C36_SE2 : forall T cin out s groups mode pm mask grid smp weight H, (0 < s)%nat ->
  sample_R2 mode pm = Ok smp -> has_shape weight [out; cin / groups; s; s]%nat ->
  exists W, lifting_kernel_forward (lifting_kernel_SE2 T cin out s groups mode pm mask grid) weight H = Ok W /\
    has_shape W [out; List.length H; cin / groups; s; s]%nat /\
    forall o i t c x y, (o < out)%nat -> nth_error H i = Some t -> (c < cin / groups)%nat -> (x < s)%nat -> (y < s)%nat ->
      at_ W [o; i; c; x; y] =
      at_ (create_spherical_mask_R2 s) [x; y] *
      smp [s; s] (slice weight [s; s] [o; c]) (app2 (so2_angle_to_matrix (- t)) (at_ (create_grid_R2 s) [x; y])).
Proof.
  intros T cin out s groups mode pm mask grid smp weight H Hs Hsmp Hw.
  destruct (lifting_formula (lifting_kernel_SE2 T cin out s groups mode pm mask grid) _ _ _ _
    (gops_ok_SE2 T "" 0 mode pm) (grid_R2_shape s) (mask_R2_shape s) (square_nonzero s Hs) smp weight H Hsmp Hw)
    as (W & E & Hsh & A).
  exists W. split; [assumption|]. split; [assumption|]. intros o i t c x y Ho Hi Hc Hx Hy.
  rewrite (A o i t c [x; y]) by (try assumption; repeat apply valid_cons; try assumption; apply valid_nil).
  simpl detf. unfold Rdiv. rewrite Rinv_1, Rmult_1_r. reflexivity.
Qed.
Print Assumptions C36_SE2.

Theorem C36_SE3 : forall T cin out s groups mode pm (mask : bool) grid smp weight H, (0 < s)%nat ->
  sample_R3 mode pm = Ok smp -> has_shape weight [out; cin / groups; s; s; s]%nat ->
  exists W, lifting_kernel_forward (lifting_kernel_SE3 T cin out s groups mode pm mask grid) weight H = Ok W /\
    has_shape W [out; List.length H; cin / groups; s; s; s]%nat /\
    forall o i r c x y z, (o < out)%nat -> nth_error H i = Some r -> (c < cin / groups)%nat ->
      (x < s)%nat -> (y < s)%nat -> (z < s)%nat ->
      at_ W [o; i; c; x; y; z] =
      (if mask then at_ (create_spherical_mask_R3 s) [x; y; z] else 1) *
      smp [s; s; s] (slice weight [s; s; s] [o; c]) (app3 (tr3 r) (at_ (create_grid_R3 s) [x; y; z])).
Proof.
  intros T cin out s groups mode pm mask grid smp weight H Hs Hsmp Hw.
  destruct (lifting_formula (lifting_kernel_SE3 T cin out s groups mode pm mask grid) _ _ _ _
    (gops_ok_SE3 T "" 0 mode pm) (grid_R3_shape s) (opt_mask_R3 mask s) (cube_nonzero s Hs) smp weight H Hsmp Hw)
    as (W & E & Hsh & A).
  exists W. split; [assumption|]. split; [assumption|]. intros o i r c x y z Ho Hi Hc Hx Hy Hz.
  rewrite (A o i r c [x; y; z]) by (try assumption; repeat apply valid_cons; try assumption; apply valid_nil).
  simpl detf. unfold Rdiv. rewrite Rinv_1, Rmult_1_r. destruct mask; reflexivity.
Qed.
Print Assumptions C36_SE3.

Theorem C36_E2 : forall T cin out s groups n m mode pm (mask : bool) grid smp weight H, (0 < s)%nat ->
  sample_R2 mode pm = Ok smp -> has_shape weight [out; cin / groups; s; s]%nat ->
  exists W, lifting_kernel_forward (lifting_kernel_E2 T cin out s groups n m mode pm mask grid) weight H = Ok W /\
    has_shape W [out; List.length H; cin / groups; s; s]%nat /\
    forall o i h c x y, (o < out)%nat -> nth_error H i = Some h -> (c < cin / groups)%nat -> (x < s)%nat -> (y < s)%nat ->
      at_ W [o; i; c; x; y] =
      (if mask then at_ (create_spherical_mask_R2 s) [x; y] else 1) *
      smp [s; s] (slice weight [s; s] [o; c])
        (scalv2 (o2c h) (app2 (so2_angle_to_matrix (o2a h * -1)) (at_ (create_grid_R2 s) [x; y])))
      / o2c h.
Proof.
  intros T cin out s groups n m mode pm mask grid smp weight H Hs Hsmp Hw.
  destruct (lifting_formula (lifting_kernel_E2 T cin out s groups n m mode pm mask grid) _ _ _ _
    (gops_ok_E2 T "" 0 0 n m mode pm) (grid_R2_shape s) (opt_mask_R2 mask s) (square_nonzero s Hs) smp weight H Hsmp Hw)
    as (W & E & Hsh & A).
  exists W. split; [assumption|]. split; [assumption|]. intros o i h c x y Ho Hi Hc Hx Hy.
  rewrite (A o i h c [x; y]) by (try assumption; repeat apply valid_cons; try assumption; apply valid_nil).
  destruct mask; reflexivity.
Qed.
Print Assumptions C36_E2.

Theorem C36_E3 : forall T cin out s groups n m mode pm (mask : bool) grid smp weight H, (0 < s)%nat ->
  sample_R3 mode pm = Ok smp -> has_shape weight [out; cin / groups; s; s; s]%nat ->
  exists W, lifting_kernel_forward (lifting_kernel_E3 T cin out s groups n m mode pm mask grid) weight H = Ok W /\
    has_shape W [out; List.length H; cin / groups; s; s; s]%nat /\
    forall o i h c x y z, (o < out)%nat -> nth_error H i = Some h -> (c < cin / groups)%nat ->
      (x < s)%nat -> (y < s)%nat -> (z < s)%nat ->
      at_ W [o; i; c; x; y; z] =
      (if mask then at_ (create_spherical_mask_R3 s) [x; y; z] else 1) *
      smp [s; s; s] (slice weight [s; s; s] [o; c])
        (scalv3 (o3c h) (app3 (tr3 (o3r h)) (at_ (create_grid_R3 s) [x; y; z])))
      / o3c h.
Proof.
  intros T cin out s groups n m mode pm mask grid smp weight H Hs Hsmp Hw.
  destruct (lifting_formula (lifting_kernel_E3 T cin out s groups n m mode pm mask grid) _ _ _ _
    (gops_ok_E3 T "" 0 0 n m mode pm) (grid_R3_shape s) (opt_mask_R3 mask s) (cube_nonzero s Hs) smp weight H Hsmp Hw)
    as (W & E & Hsh & A).
  exists W. split; [assumption|]. split; [assumption|]. intros o i h c x y z Ho Hi Hc Hx Hy Hz.
  rewrite (A o i h c [x; y; z]) by (try assumption; repeat apply valid_cons; try assumption; apply valid_nil).
  destruct mask; reflexivity.
Qed.
Print Assumptions C36_E3.

(** the hypotheses are met: a 3x3 kernel with two output channels *)
Example C36_nonvacuous T : exists W, lifting_kernel_forward (lifting_kernel_SE2 T 1 2 3 1 "bilinear" "border" true [0]) 
  (build [2; 1; 3; 3]%nat (fun idx => INR (nth 3 idx 0%nat))) [0; PI / 2] = Ok W /\ shape W = [2; 2; 1; 3; 3]%nat.
Proof.
  destruct (C36_SE2 T 1 2 3 1 "bilinear" "border" true [0] (gs2 true GsBorder)
    (build [2; 1; 3; 3]%nat (fun idx => INR (nth 3 idx 0%nat))) [0; PI / 2]) as (W & E & [Hs _] & _).
  - lia. - reflexivity. - split; [reflexivity|apply wft_build]. - exists W. auto.
Qed.

(** ** C37.  The stored parameter has shape (|group kernel|, out, in/groups, *ks); V q is the row
    (out, in/groups, *ks) interpolated at the group element q, [image_of .. V o' c'] its (o', c') image. *)
Theorem C37_full_kernel_formula : forall G P (D : Dflt P) (k : gkernel G P) inv mul act det smp weight in_H out_H V,
  gops_ok (k_ops k) inv mul act det ->
  has_shape (k_grid_Rn k) (k_size k) -> mask_ok (k_mask k) (k_size k) -> prodn (k_size k) <> 0%nat -> k_gdim k <> 0%nat ->
  op_sample_Rn (k_ops k) = Ok smp ->
  has_shape weight (k_gdim k :: k_out k :: (k_in k / k_groups k)%nat :: k_size k) ->
  sampled k inv mul (k_out k :: (k_in k / k_groups k)%nat :: k_size k) weight in_H out_H V ->
  exists W, full_kernel_forward k weight in_H out_H = Ok W /\
    has_shape W (k_out k :: List.length out_H :: (k_in k / k_groups k)%nat :: List.length in_H :: k_size k) /\
    forall o i g c j h x o' c', (o < k_out k)%nat -> nth_error out_H i = Some g ->
      (c < k_in k / k_groups k)%nat -> nth_error in_H j = Some h -> valid (k_size k) x ->
      (o' < k_out k)%nat -> (c' < k_in k / k_groups k)%nat ->
      (o' * (k_in k / k_groups k) + c' = c * k_out k + o)%nat ->
      at_ W (o :: i :: c :: j :: x) =
      maskf (k_mask k) x *
      smp (k_size k) (image_of (k_out k) (k_in k / k_groups k) (k_size k) (V (mul (inv g) h)) o' c')
          (act (inv g) (at_ (k_grid_Rn k) x))
      / detf det g.
Proof. intros. eapply full_formula; eassumption. Qed.
Print Assumptions C37_full_kernel_formula.

(** SE(2): whenever the layer's kernel returns, its entries are these. *)
Theorem C37_SE2 : forall T cin out s groups gmode given mode pm mask grid k weight in_H out_H W, (0 < s)%nat ->
  kernel_SE2 T cin out s groups gmode given mode pm mask grid = Ok k ->
  has_shape weight [List.length grid; out; cin / groups; s; s]%nat ->
  full_kernel_forward k weight in_H out_H = Ok W ->
  exists smp w, sample_R2 mode pm = Ok smp /\ width_SE2 given grid = Ok w /\
    has_shape W [out; List.length out_H; cin / groups; List.length in_H; s; s]%nat /\
    let V := value_SE2 T gmode w (prodn [out; cin / groups; s; s]%nat)
               (param_rows (List.length grid) [out; cin / groups; s; s]%nat weight) grid in
    forall o i g c j h x y o' c', (o < out)%nat -> nth_error out_H i = Some g -> (c < cin / groups)%nat ->
      nth_error in_H j = Some h -> (x < s)%nat -> (y < s)%nat ->
      (o' < out)%nat -> (c' < cin / groups)%nat -> (o' * (cin / groups) + c' = c * out + o)%nat ->
      at_ W [o; i; c; j; x; y] =
      at_ (create_spherical_mask_R2 s) [x; y] *
      smp [s; s] (image_of out (cin / groups) [s; s] (V (so2_left_apply_angle (- g) h)) o' c')
          (app2 (so2_angle_to_matrix (- g)) (at_ (create_grid_R2 s) [x; y])).
Proof.
  intros T cin out s groups gmode given mode pm mask grid k weight in_H out_H W Hs Hk Hw HW.
  unfold kernel_SE2 in Hk. destruct (width_SE2 given grid) as [w|] eqn:Ew; [|discriminate]. cbn [bind] in Hk.
  injection Hk as <-. set (k := Build_gkernel _ _ _ _ _ _ _ _ _ _ _) in *.
  assert (k_gdim k = List.length grid) as Hd by (unfold k_gdim, k; simpl; lia).
  assert (gops_ok (k_ops k) so2_inverse_angle so2_left_apply_angle act1_SE2 None) as Hops by apply gops_ok_SE2.
  assert (has_shape weight (full_weight_shape k)) as Hw' by (unfold full_weight_shape; rewrite Hd; exact Hw).
  destruct (full_inv k _ _ _ _ Hops weight in_H out_H W Hw' HW) as (Hd0 & smp & rows & Hsmp & Hrows).
  exists smp, w. split; [exact Hsmp|]. split; [reflexivity|].
  pose proof (sampled_SE2 k T gmode w mode pm _ weight in_H out_H rows eq_refl Hrows) as Hsam.
  destruct (full_formula k _ _ _ _ Hops (grid_R2_shape s) (mask_R2_shape s) (square_nonzero s Hs) Hd0
    smp weight in_H out_H _ Hsmp Hw' Hsam) as (W' & E & Hsh & A).
  assert (W' = W) by congruence. subst W'. split; [exact Hsh|].
  intros V o i g c j h x y o' c' Ho Hi Hc Hj Hx Hy Ho' Hc' Hoc.
  rewrite (A o i g c j h [x; y] o' c') by (try assumption; repeat apply valid_cons; try assumption; apply valid_nil).
  simpl detf. unfold Rdiv. rewrite Rinv_1, Rmult_1_r, Hd. reflexivity.
Qed.
Print Assumptions C37_SE2.

Theorem C37_SE3 : forall T cin out s groups gmode given mode pm (mask : bool) grid k weight in_H out_H W, (0 < s)%nat ->
  kernel_SE3 T cin out s groups gmode given mode pm mask grid = Ok k ->
  has_shape weight [List.length grid; out; cin / groups; s; s; s]%nat ->
  full_kernel_forward k weight in_H out_H = Ok W ->
  exists smp w, sample_R3 mode pm = Ok smp /\ width_SE3 given grid = Ok w /\
    has_shape W [out; List.length out_H; cin / groups; List.length in_H; s; s; s]%nat /\
    let V := value_SE3 T gmode w (prodn [out; cin / groups; s; s; s]%nat)
               (param_rows (List.length grid) [out; cin / groups; s; s; s]%nat weight) grid in
    forall o i g c j h x y z o' c', (o < out)%nat -> nth_error out_H i = Some g -> (c < cin / groups)%nat ->
      nth_error in_H j = Some h -> (x < s)%nat -> (y < s)%nat -> (z < s)%nat ->
      (o' < out)%nat -> (c' < cin / groups)%nat -> (o' * (cin / groups) + c' = c * out + o)%nat ->
      at_ W [o; i; c; j; x; y; z] =
      (if mask then at_ (create_spherical_mask_R3 s) [x; y; z] else 1) *
      smp [s; s; s] (image_of out (cin / groups) [s; s; s] (V (mul3 (tr3 g) h)) o' c')
          (app3 (tr3 g) (at_ (create_grid_R3 s) [x; y; z])).
Proof.
  intros T cin out s groups gmode given mode pm mask grid k weight in_H out_H W Hs Hk Hw HW.
  unfold kernel_SE3 in Hk. destruct (width_SE3 given grid) as [w|] eqn:Ew; [|discriminate]. cbn [bind] in Hk.
  injection Hk as <-. set (k := Build_gkernel _ _ _ _ _ _ _ _ _ _ _) in *.
  assert (k_gdim k = List.length grid) as Hd by (unfold k_gdim, k; simpl; lia).
  assert (gops_ok (k_ops k) so3_matrix_inverse mul3 act1_SE3 None) as Hops by apply gops_ok_SE3.
  assert (has_shape weight (full_weight_shape k)) as Hw' by (unfold full_weight_shape; rewrite Hd; exact Hw).
  destruct (full_inv k _ _ _ _ Hops weight in_H out_H W Hw' HW) as (Hd0 & smp & rows & Hsmp & Hrows).
  exists smp, w. split; [exact Hsmp|]. split; [reflexivity|].
  pose proof (sampled_SE3 k T gmode w mode pm _ weight in_H out_H rows eq_refl Hrows) as Hsam.
  destruct (full_formula k _ _ _ _ Hops (grid_R3_shape s) (opt_mask_R3 mask s) (cube_nonzero s Hs) Hd0
    smp weight in_H out_H _ Hsmp Hw' Hsam) as (W' & E & Hsh & A).
  assert (W' = W) by congruence. subst W'. split; [exact Hsh|].
  intros V o i g c j h x y z o' c' Ho Hi Hc Hj Hx Hy Hz Ho' Hc' Hoc.
  rewrite (A o i g c j h [x; y; z] o' c') by (try assumption; repeat apply valid_cons; try assumption; apply valid_nil).
  simpl detf. unfold Rdiv. rewrite Rinv_1, Rmult_1_r, Hd. destruct mask; reflexivity.
Qed.
Print Assumptions C37_SE3.

Theorem C37_E2 : forall T cin out s groups n m gmode rot ref mode pm (mask : bool) grid k weight in_H out_H W, (0 < s)%nat ->
  kernel_E2 T cin out s groups n m gmode rot ref mode pm mask grid = Ok k ->
  Forall o2_wf in_H -> Forall o2_wf out_H ->
  has_shape weight [n + m; out; cin / groups; s; s]%nat ->
  full_kernel_forward k weight in_H out_H = Ok W ->
  exists smp rw fw, sample_R2 mode pm = Ok smp /\ width_E2_rot rot n grid = Ok rw /\ width_E2_ref ref n grid = Ok fw /\
    has_shape W [out; List.length out_H; cin / groups; List.length in_H; s; s]%nat /\
    let V := value_E2 T gmode rw fw n (prodn [out; cin / groups; s; s]%nat)
               (param_rows (n + m) [out; cin / groups; s; s]%nat weight) grid in
    forall o i g c j h x y o' c', (o < out)%nat -> nth_error out_H i = Some g -> (c < cin / groups)%nat ->
      nth_error in_H j = Some h -> (x < s)%nat -> (y < s)%nat ->
      (o' < out)%nat -> (c' < cin / groups)%nat -> (o' * (cin / groups) + c' = c * out + o)%nat ->
      at_ W [o; i; c; j; x; y] =
      (if mask then at_ (create_spherical_mask_R2 s) [x; y] else 1) *
      smp [s; s] (image_of out (cin / groups) [s; s] (V (o2_left_apply_angle (o2_inverse g) h)) o' c')
          (scalv2 (o2c g) (app2 (so2_angle_to_matrix (o2a g * -1)) (at_ (create_grid_R2 s) [x; y])))
      / o2c g.
Proof.
  intros T cin out s groups n m gmode rot ref mode pm mask grid k weight in_H out_H W Hs Hk Hin Hout Hw HW.
  unfold kernel_E2 in Hk. destruct (width_E2_rot rot n grid) as [rw|] eqn:Erw; [|discriminate]. cbn [bind] in Hk.
  destruct (width_E2_ref ref n grid) as [fw|] eqn:Efw; [|discriminate]. cbn [bind] in Hk.
  injection Hk as <-. set (k := Build_gkernel _ _ _ _ _ _ _ _ _ _ _) in *.
  assert (k_gdim k = n + m)%nat as Hd by (unfold k_gdim, k; simpl; lia).
  assert (gops_ok (k_ops k) o2_inverse o2_left_apply_angle act1_E2 (Some o2_det)) as Hops by apply gops_ok_E2.
  assert (has_shape weight (full_weight_shape k)) as Hw' by (unfold full_weight_shape; rewrite Hd; exact Hw).
  destruct (full_inv k _ _ _ _ Hops weight in_H out_H W Hw' HW) as (Hd0 & smp & rows & Hsmp & Hrows).
  exists smp, rw, fw. split; [exact Hsmp|]. split; [reflexivity|]. split; [reflexivity|].
  pose proof (sampled_E2 k T gmode rw fw n m mode pm _ weight in_H out_H rows eq_refl Hd Hin Hout Hrows) as Hsam.
  destruct (full_formula k _ _ _ _ Hops (grid_R2_shape s) (opt_mask_R2 mask s) (square_nonzero s Hs) Hd0
    smp weight in_H out_H _ Hsmp Hw' Hsam) as (W' & E & Hsh & A).
  assert (W' = W) by congruence. subst W'. split; [exact Hsh|].
  intros V o i g c j h x y o' c' Ho Hi Hc Hj Hx Hy Ho' Hc' Hoc.
  rewrite (A o i g c j h [x; y] o' c') by (try assumption; repeat apply valid_cons; try assumption; apply valid_nil).
  rewrite Hd. destruct mask; reflexivity.
Qed.
Print Assumptions C37_E2.

Theorem C37_E3 : forall T cin out s groups n m gmode rot ref mode pm (mask : bool) grid k weight in_H out_H W, (0 < s)%nat ->
  kernel_E3 T cin out s groups n m gmode rot ref mode pm mask grid = Ok k ->
  Forall o3_wf in_H -> Forall o3_wf out_H ->
  has_shape weight [n + m; out; cin / groups; s; s; s]%nat ->
  full_kernel_forward k weight in_H out_H = Ok W ->
  exists smp rw fw, sample_R3 mode pm = Ok smp /\ width_E3_rot rot n grid = Ok rw /\ width_E3_ref ref n grid = Ok fw /\
    has_shape W [out; List.length out_H; cin / groups; List.length in_H; s; s; s]%nat /\
    let V := value_E3 T gmode rw fw n (prodn [out; cin / groups; s; s; s]%nat)
               (param_rows (n + m) [out; cin / groups; s; s; s]%nat weight) grid in
    forall o i g c j h x y z o' c', (o < out)%nat -> nth_error out_H i = Some g -> (c < cin / groups)%nat ->
      nth_error in_H j = Some h -> (x < s)%nat -> (y < s)%nat -> (z < s)%nat ->
      (o' < out)%nat -> (c' < cin / groups)%nat -> (o' * (cin / groups) + c' = c * out + o)%nat ->
      at_ W [o; i; c; j; x; y; z] =
      (if mask then at_ (create_spherical_mask_R3 s) [x; y; z] else 1) *
      smp [s; s; s] (image_of out (cin / groups) [s; s; s] (V (o3_left_apply_O3 (o3_inverse g) h)) o' c')
          (scalv3 (o3c g) (app3 (tr3 (o3r g)) (at_ (create_grid_R3 s) [x; y; z])))
      / o3c g.
Proof.
  intros T cin out s groups n m gmode rot ref mode pm mask grid k weight in_H out_H W Hs Hk Hin Hout Hw HW.
  unfold kernel_E3 in Hk. destruct (width_E3_rot rot n grid) as [rw|] eqn:Erw; [|discriminate]. cbn [bind] in Hk.
  destruct (width_E3_ref ref n grid) as [fw|] eqn:Efw; [|discriminate]. cbn [bind] in Hk.
  injection Hk as <-. set (k := Build_gkernel _ _ _ _ _ _ _ _ _ _ _) in *.
  assert (k_gdim k = n + m)%nat as Hd by (unfold k_gdim, k; simpl; lia).
  assert (gops_ok (k_ops k) o3_inverse o3_left_apply_O3 act1_E3 (Some o3_det)) as Hops by apply gops_ok_E3.
  assert (has_shape weight (full_weight_shape k)) as Hw' by (unfold full_weight_shape; rewrite Hd; exact Hw).
  destruct (full_inv k _ _ _ _ Hops weight in_H out_H W Hw' HW) as (Hd0 & smp & rows & Hsmp & Hrows).
  exists smp, rw, fw. split; [exact Hsmp|]. split; [reflexivity|]. split; [reflexivity|].
  pose proof (sampled_E3 k T gmode rw fw n m mode pm _ weight in_H out_H rows eq_refl Hd Hin Hout Hrows) as Hsam.
  destruct (full_formula k _ _ _ _ Hops (grid_R3_shape s) (opt_mask_R3 mask s) (cube_nonzero s Hs) Hd0
    smp weight in_H out_H _ Hsmp Hw' Hsam) as (W' & E & Hsh & A).
  assert (W' = W) by congruence. subst W'. split; [exact Hsh|].
  intros V o i g c j h x y z o' c' Ho Hi Hc Hj Hx Hy Hz Ho' Hc' Hoc.
  rewrite (A o i g c j h [x; y; z] o' c') by (try assumption; repeat apply valid_cons; try assumption; apply valid_nil).
  rewrite Hd. destruct mask; reflexivity.
Qed.
Print Assumptions C37_E3.

(** C37: the stored channel pair (o', c') read for (o, c) always exists and is unique; it is (o, c)
    itself for all pairs only if one of the two channel counts is 1; square layers are transposed. *)
Theorem C37_channel_relabelling : forall out cin, (0 < out)%nat -> (0 < cin)%nat ->
  (forall o c, (o < out)%nat -> (c < cin)%nat ->
     exists! oc : nat * nat, (fst oc < out)%nat /\ (snd oc < cin)%nat /\ (fst oc * cin + snd oc = c * out + o)%nat) /\
  ((forall o c, (o < out)%nat -> (c < cin)%nat -> (o * cin + c = c * out + o)%nat) <-> (out = 1 \/ cin = 1)%nat) /\
  (out = cin -> forall o c, (c * cin + o = c * out + o)%nat).
Proof.
  intros out cin Ho Hc. split; [|split].
  - intros o c H1 H2. destruct (relabel_exists out cin o c H1 H2) as (o' & c' & A & B & C).
    exists (o', c'). split; [simpl; auto|]. intros [o2 c2] (A2 & B2 & C2). simpl in *.
    assert (o' = o2 /\ c' = c2)%nat as [-> ->]; [|reflexivity].
    rewrite <- C in C2. assert (o' = o2)%nat as ->; [|split; lia].
    rewrite <- (div_pair o' cin c' B), <- (div_pair o2 cin c2 B2), C2. reflexivity.
  - apply relabel_identity; assumption.
  - intros ->. reflexivity.
Qed.
Print Assumptions C37_channel_relabelling.

(** The layer returns: nearest group sampling on a two-element grid, |in_H| <> |out_H|. *)
Example C37_nonvacuous : forall T, torch_ok T -> exists k W,
  kernel_SE2 T 2 3 3 1 "nearest" 1 "bilinear" "border" true [0; PI] = Ok k /\
  full_kernel_forward k (build [2; 3; 2; 3; 3]%nat (fun idx => INR (nth 0 idx 0%nat))) [0; 1; 2] [0; PI / 2] = Ok W /\
  shape W = [3; 2; 2; 3; 3; 3]%nat.
Proof.
  intros T HT. unfold kernel_SE2, width_SE2. rewrite default_width_given by lra. cbn [bind].
  eexists. set (k := Build_gkernel _ _ _ _ _ _ _ _ _ _ _).
  set (weight := build [2; 3; 2; 3; 3]%nat _).
  assert (has_shape weight (full_weight_shape k)) as Hw by (split; [reflexivity|apply wft_build]).
  destruct (so2_nearest_total T HT 1 (prodn [3; 2; 3; 3]%nat)
    (relatives so2_inverse_angle so2_left_apply_angle [0; 1; 2] [0; PI / 2])
    (param_rows (k_gdim k) [3; 2; 3; 3]%nat weight) (k_grid_H k)) as (rows & Hr).
  { discriminate. } { rewrite param_rows_count. reflexivity. }
  pose proof (sampled_SE2 k T "nearest" 1 "bilinear" "border" _ weight [0; 1; 2] [0; PI / 2] rows eq_refl Hr) as Hsam.
  destruct (full_formula k _ _ _ _ (gops_ok_SE2 T "nearest" 1 "bilinear" "border") (grid_R2_shape 3) (mask_R2_shape 3)
    (square_nonzero 3 ltac:(lia)) ltac:(discriminate) (gs2 true GsBorder) weight [0; 1; 2] [0; PI / 2] _ eq_refl Hw Hsam)
    as (W & E & [Hsh _] & _).
  exists W. split; [reflexivity|]. split; [exact E|exact Hsh].
Qed.

(** ** C38 *)
(** General formula: position (a, b) of the returned group weight holds the value of the pair (g, h)
    with a * |out_H| + b = i * |in_H| + j. *)
Theorem C38_separable_kernel_formula : forall G P (D : Dflt P) (k : gkernel G P) inv mul act det smp weight_H weight in_H out_H V,
  gops_ok (k_ops k) inv mul act det ->
  has_shape (k_grid_Rn k) (k_size k) -> mask_ok (k_mask k) (k_size k) -> prodn (k_size k) <> 0%nat -> k_gdim k <> 0%nat ->
  op_sample_Rn (k_ops k) = Ok smp ->
  has_shape weight_H [k_gdim k; k_out k; k_in k / k_groups k]%nat ->
  has_shape weight (k_out k :: 1%nat :: k_size k) ->
  sampled k inv mul [k_out k; k_in k / k_groups k]%nat weight_H in_H out_H V ->
  let zeros := repeat 0%nat (List.length (k_size k)) in
  exists WH W, separable_kernel_forward k weight_H weight in_H out_H = Ok (WH, W) /\
    has_shape WH (k_out k :: List.length in_H :: (k_in k / k_groups k)%nat :: List.length out_H ::
                  repeat 1%nat (List.length (k_size k))) /\
    has_shape W (k_out k :: List.length out_H :: 1%nat :: k_size k) /\
    (List.length in_H = List.length out_H ->
     forall o i g c j h, (o < k_out k)%nat -> nth_error out_H i = Some g -> (c < k_in k / k_groups k)%nat ->
       nth_error in_H j = Some h ->
       at_ WH (o :: i :: c :: j :: zeros) = nth (c * k_out k + o) (V (mul (inv g) h)) 0) /\
    (forall o a c b i j g h, (o < k_out k)%nat -> (c < k_in k / k_groups k)%nat ->
       (a < List.length in_H)%nat -> (b < List.length out_H)%nat ->
       nth_error out_H i = Some g -> nth_error in_H j = Some h ->
       (a * List.length out_H + b = i * List.length in_H + j)%nat ->
       at_ WH (o :: a :: c :: b :: zeros) = nth (c * k_out k + o) (V (mul (inv g) h)) 0) /\
    (forall o i g x, (o < k_out k)%nat -> nth_error out_H i = Some g -> valid (k_size k) x ->
       at_ W (o :: i :: 0%nat :: x) =
       maskf (k_mask k) x * smp (k_size k) (slice weight (k_size k) [o; 0%nat]) (act (inv g) (at_ (k_grid_Rn k) x))
       / detf det g).
Proof.
  intros G P D k inv mul act det smp weight_H weight in_H out_H V Hops Hg Hm Hks Hgd Hsmp HwH Hw Hs zeros.
  destruct (separable_formula k inv mul act det Hops Hg Hm Hks Hgd smp weight_H weight in_H out_H V Hsmp HwH Hw Hs)
    as (WH & W & E & H1 & H2 & A1 & A2).
  exists WH, W. split; [assumption|]. split; [assumption|]. split; [assumption|]. split; [|split; assumption].
  intros Heq o i g c j h Ho Hi Hc Hj.
  pose proof (nth_error_Some_lt _ _ _ Hi). pose proof (nth_error_Some_lt _ _ _ Hj).
  apply (A1 o i c j i j g h); try assumption; lia.
Qed.
Print Assumptions C38_separable_kernel_formula.

(** C38: |in_H| <> |out_H|.  The layer reads the group weight as (out, |out_H|, in/groups, |in_H|).
    With one input channel per group the pairs are still right; with more, the cell read for
    (channel 1, first output element, first input element) holds the value of another
    (channel, output element, input element). *)
Theorem C38_sizes_differ : forall G P (D : Dflt P) (k : gkernel G P) inv mul act det smp weight_H weight in_H out_H V,
  gops_ok (k_ops k) inv mul act det ->
  has_shape (k_grid_Rn k) (k_size k) -> mask_ok (k_mask k) (k_size k) -> prodn (k_size k) <> 0%nat -> k_gdim k <> 0%nat ->
  op_sample_Rn (k_ops k) = Ok smp ->
  has_shape weight_H [k_gdim k; k_out k; k_in k / k_groups k]%nat ->
  has_shape weight (k_out k :: 1%nat :: k_size k) ->
  sampled k inv mul [k_out k; k_in k / k_groups k]%nat weight_H in_H out_H V ->
  let n_in := List.length in_H in let n_out := List.length out_H in let cin := (k_in k / k_groups k)%nat in
  let zeros := repeat 0%nat (List.length (k_size k)) in
  exists WH W, separable_kernel_forward k weight_H weight in_H out_H = Ok (WH, W) /\
    let read := mkT (k_out k :: n_out :: cin :: n_in :: repeat 1%nat (List.length (k_size k))) (data WH) in
    (cin = 1%nat -> forall o i g j h, (o < k_out k)%nat -> nth_error out_H i = Some g -> nth_error in_H j = Some h ->
       at_ read (o :: i :: 0%nat :: j :: zeros) = nth (0 * k_out k + o) (V (mul (inv g) h)) 0) /\
    ((2 <= cin)%nat -> n_in <> n_out -> (0 < k_out k)%nat -> in_H <> [] -> out_H <> [] ->
       exists c i j g h, nth_error out_H i = Some g /\ nth_error in_H j = Some h /\ (c < cin)%nat /\
         (c <> 1 \/ i <> 0 \/ j <> 0)%nat /\
         at_ read (0 :: 0 :: 1 :: 0 :: zeros)%nat = nth (c * k_out k + 0) (V (mul (inv g) h)) 0).
Proof.
  intros G P D k inv mul act det smp weight_H weight in_H out_H V Hops Hg Hm Hks Hgd Hsmp HwH Hw Hs n_in n_out cin zeros.
  destruct (separable_formula k inv mul act det Hops Hg Hm Hks Hgd smp weight_H weight in_H out_H V Hsmp HwH Hw Hs)
    as (WH & W & E & H1 & H2 & A1 & A2).
  exists WH, W. split; [assumption|]. intros read. fold n_in n_out cin in H1, A1. change (k_cin k) with cin in *.
  assert (forall n, prodn (repeat 1%nat n) = 1%nat) as Hones.
  { induction n; simpl; [reflexivity|]. fold (prodn (repeat 1%nat n)). lia. }
  assert (forall n, ravel (repeat 1%nat n) (repeat 0%nat n) = 0%nat) as Hr0
    by (induction n; simpl; [reflexivity|]; rewrite IHn; reflexivity).
  assert (forall o i c j a c' b, ((i * cin + c) * n_in + j = (a * cin + c') * n_out + b)%nat ->
    at_ read (o :: i :: c :: j :: zeros) = at_ WH (o :: a :: c' :: b :: zeros)) as Hread.
  { intros o i c j a c' b Hflat. unfold read. apply (at_view WH _ _ _ _ H1).
    cbn [ravel]. rewrite !prodn_cons, Hones. unfold zeros. rewrite Hr0. nia. }
  split.
  - intros Hc1 o i g j h Ho Hi Hj. pose proof (nth_error_Some_lt _ _ _ Hi) as Li. pose proof (nth_error_Some_lt _ _ _ Hj) as Lj.
    fold n_in in Lj. fold n_out in Li.
    assert (n_out <> 0)%nat by lia.
    pose proof (Nat.div_mod (i * n_in + j) n_out ltac:(lia)) as Hdm.
    pose proof (Nat.mod_upper_bound (i * n_in + j) n_out ltac:(lia)) as Hmod.
    assert ((i * n_in + j) / n_out < n_in)%nat as Hdiv by (apply Nat.div_lt_upper_bound; [lia|nia]).
    rewrite (Hread o i 0%nat j ((i * n_in + j) / n_out)%nat 0%nat ((i * n_in + j) mod n_out)%nat) by (rewrite Hc1; lia).
    apply (A1 o _ 0%nat _ i j g h); try assumption; try lia.
  - intros Hc2 Hne Ho Hni Hno.
    assert (0 < n_in)%nat as Pi by (unfold n_in; destruct in_H; [congruence|simpl; lia]).
    assert (0 < n_out)%nat as Po by (unfold n_out; destruct out_H; [congruence|simpl; lia]).
    (* flat position n_in = ((a * cin + c) * n_out + b) *)
    set (b := (n_in mod n_out)%nat). set (q := (n_in / n_out)%nat). set (c := (q mod cin)%nat). set (a := (q / cin)%nat).
    pose proof (Nat.div_mod n_in n_out ltac:(lia)) as D1. fold q b in D1.
    pose proof (Nat.mod_upper_bound n_in n_out ltac:(lia)) as B1. fold b in B1.
    pose proof (Nat.div_mod q cin ltac:(lia)) as D2. fold a c in D2.
    pose proof (Nat.mod_upper_bound q cin ltac:(lia)) as B2. fold c in B2.
    assert (a < n_in)%nat as La by nia.
    set (p := (a * n_out + b)%nat). set (i := (p / n_in)%nat). set (j := (p mod n_in)%nat).
    pose proof (Nat.div_mod p n_in ltac:(lia)) as D3. fold i j in D3.
    pose proof (Nat.mod_upper_bound p n_in ltac:(lia)) as B3. fold j in B3.
    assert (i < n_out)%nat as Li by (apply Nat.div_lt_upper_bound; [lia|unfold p; nia]).
    destruct (nth_error out_H i) as [g|] eqn:Eg; [|apply nth_error_None in Eg; unfold n_out in Li; lia].
    destruct (nth_error in_H j) as [h|] eqn:Eh; [|apply nth_error_None in Eh; unfold n_in in B3; lia].
    exists c, i, j, g, h. split; [assumption|]. split; [assumption|]. split; [assumption|]. split.
    + destruct (Nat.eq_dec c 1) as [Ec|]; [|auto]. destruct (Nat.eq_dec i 0) as [Ei|]; [|auto].
      destruct (Nat.eq_dec j 0) as [Ej|]; [|auto]. exfalso.
      assert (p = 0)%nat by nia. assert (a = 0 /\ b = 0)%nat as [Ea Eb] by (unfold p in *; nia).
      rewrite Ea, Ec in D2. nia.
    + rewrite (Hread 0%nat 0%nat 1%nat 0%nat a c b) by nia.
      apply (A1 0%nat a c b i j g h); try assumption. fold p. lia.
Qed.
Print Assumptions C38_sizes_differ.

(** Concrete kernels for the separable layer. *)
Theorem C38_SE2 : forall T cin out s groups gmode given mode pm mask grid k weight_H weight in_H out_H WH W, (0 < s)%nat ->
  kernel_SE2 T cin out s groups gmode given mode pm mask grid = Ok k ->
  has_shape weight_H [List.length grid; out; cin / groups]%nat -> has_shape weight [out; 1; s; s]%nat ->
  List.length in_H = List.length out_H ->
  separable_kernel_forward k weight_H weight in_H out_H = Ok (WH, W) ->
  exists smp w, sample_R2 mode pm = Ok smp /\ width_SE2 given grid = Ok w /\
    has_shape WH [out; List.length out_H; cin / groups; List.length in_H; 1; 1]%nat /\
    has_shape W [out; List.length out_H; 1; s; s]%nat /\
    let V := value_SE2 T gmode w (prodn [out; cin / groups]%nat) (param_rows (List.length grid) [out; cin / groups]%nat weight_H) grid in
    (forall o i g c j h, (o < out)%nat -> nth_error out_H i = Some g -> (c < cin / groups)%nat -> nth_error in_H j = Some h ->
      at_ WH [o; i; c; j; 0; 0]%nat = nth (c * out + o) (V (so2_left_apply_angle (- g) h)) 0) /\
    (forall o i g x y, (o < out)%nat -> nth_error out_H i = Some g -> (x < s)%nat -> (y < s)%nat ->
      at_ W [o; i; 0; x; y]%nat =
      at_ (create_spherical_mask_R2 s) [x; y] *
      smp [s; s] (slice weight [s; s] [o; 0%nat]) (app2 (so2_angle_to_matrix (- g)) (at_ (create_grid_R2 s) [x; y]))).
Proof.
  intros T cin out s groups gmode given mode pm mask grid k weight_H weight in_H out_H WH W Hs Hk HwH Hw Heq HW.
  unfold kernel_SE2 in Hk. destruct (width_SE2 given grid) as [w|] eqn:Ew; [|discriminate]. cbn [bind] in Hk.
  injection Hk as <-. set (k := Build_gkernel _ _ _ _ _ _ _ _ _ _ _) in *.
  assert (k_gdim k = List.length grid) as Hd by (unfold k_gdim, k; simpl; lia).
  assert (gops_ok (k_ops k) so2_inverse_angle so2_left_apply_angle act1_SE2 None) as Hops by apply gops_ok_SE2.
  assert (has_shape weight_H (group_weight_shape k)) as HwH' by (unfold group_weight_shape; rewrite Hd; exact HwH).
  destruct (separable_inv k _ _ _ _ Hops weight_H weight in_H out_H (WH, W) HwH' HW) as (Hd0 & smp & rows & Hsmp & Hrows).
  exists smp, w. split; [exact Hsmp|]. split; [reflexivity|].
  pose proof (sampled_SE2 k T gmode w mode pm _ weight_H in_H out_H rows eq_refl Hrows) as Hsam.
  destruct (C38_separable_kernel_formula _ _ _ k _ _ _ _ smp weight_H weight in_H out_H _ Hops (grid_R2_shape s) (mask_R2_shape s)
    (square_nonzero s Hs) Hd0 Hsmp HwH' Hw Hsam) as (WH' & W' & E & H1 & H2 & A1 & _ & A2).
  assert (WH' = WH /\ W' = W) as [-> ->] by (split; congruence).
  cbn [k_out k_in k_groups k_size k List.length repeat] in H1, H2.
  split; [rewrite Heq; rewrite Heq in H1; exact H1|]. split; [exact H2|]. split.
  - intros o i g c j h Ho Hi Hc Hj. rewrite <- Hd. apply (A1 Heq o i g c j h); assumption.
  - intros o i g x y Ho Hi Hx Hy.
    rewrite (A2 o i g [x; y]) by (try assumption; repeat apply valid_cons; try assumption; apply valid_nil).
    simpl detf. unfold Rdiv. rewrite Rinv_1, Rmult_1_r. reflexivity.
Qed.
Print Assumptions C38_SE2.

Theorem C38_SE3 : forall T cin out s groups gmode given mode pm (mask : bool) grid k weight_H weight in_H out_H WH W, (0 < s)%nat ->
  kernel_SE3 T cin out s groups gmode given mode pm mask grid = Ok k ->
  has_shape weight_H [List.length grid; out; cin / groups]%nat -> has_shape weight [out; 1; s; s; s]%nat ->
  List.length in_H = List.length out_H ->
  separable_kernel_forward k weight_H weight in_H out_H = Ok (WH, W) ->
  exists smp w, sample_R3 mode pm = Ok smp /\ width_SE3 given grid = Ok w /\
    has_shape WH [out; List.length out_H; cin / groups; List.length in_H; 1; 1; 1]%nat /\
    has_shape W [out; List.length out_H; 1; s; s; s]%nat /\
    let V := value_SE3 T gmode w (prodn [out; cin / groups]%nat) (param_rows (List.length grid) [out; cin / groups]%nat weight_H) grid in
    (forall o i g c j h, (o < out)%nat -> nth_error out_H i = Some g -> (c < cin / groups)%nat -> nth_error in_H j = Some h ->
      at_ WH [o; i; c; j; 0; 0; 0]%nat = nth (c * out + o) (V (mul3 (tr3 g) h)) 0) /\
    (forall o i g x y z, (o < out)%nat -> nth_error out_H i = Some g -> (x < s)%nat -> (y < s)%nat -> (z < s)%nat ->
      at_ W [o; i; 0; x; y; z]%nat =
      (if mask then at_ (create_spherical_mask_R3 s) [x; y; z] else 1) *
      smp [s; s; s] (slice weight [s; s; s] [o; 0%nat]) (app3 (tr3 g) (at_ (create_grid_R3 s) [x; y; z]))).
Proof.
  intros T cin out s groups gmode given mode pm mask grid k weight_H weight in_H out_H WH W Hs Hk HwH Hw Heq HW.
  unfold kernel_SE3 in Hk. destruct (width_SE3 given grid) as [w|] eqn:Ew; [|discriminate]. cbn [bind] in Hk.
  injection Hk as <-. set (k := Build_gkernel _ _ _ _ _ _ _ _ _ _ _) in *.
  assert (k_gdim k = List.length grid) as Hd by (unfold k_gdim, k; simpl; lia).
  assert (gops_ok (k_ops k) so3_matrix_inverse mul3 act1_SE3 None) as Hops by apply gops_ok_SE3.
  assert (has_shape weight_H (group_weight_shape k)) as HwH' by (unfold group_weight_shape; rewrite Hd; exact HwH).
  destruct (separable_inv k _ _ _ _ Hops weight_H weight in_H out_H (WH, W) HwH' HW) as (Hd0 & smp & rows & Hsmp & Hrows).
  exists smp, w. split; [exact Hsmp|]. split; [reflexivity|].
  pose proof (sampled_SE3 k T gmode w mode pm _ weight_H in_H out_H rows eq_refl Hrows) as Hsam.
  destruct (C38_separable_kernel_formula _ _ _ k _ _ _ _ smp weight_H weight in_H out_H _ Hops (grid_R3_shape s) (opt_mask_R3 mask s)
    (cube_nonzero s Hs) Hd0 Hsmp HwH' Hw Hsam) as (WH' & W' & E & H1 & H2 & A1 & _ & A2).
  assert (WH' = WH /\ W' = W) as [-> ->] by (split; congruence).
  cbn [k_out k_in k_groups k_size k List.length repeat] in H1, H2.
  split; [rewrite Heq; rewrite Heq in H1; exact H1|]. split; [exact H2|]. split.
  - intros o i g c j h Ho Hi Hc Hj. rewrite <- Hd. apply (A1 Heq o i g c j h); assumption.
  - intros o i g x y z Ho Hi Hx Hy Hz.
    rewrite (A2 o i g [x; y; z]) by (try assumption; repeat apply valid_cons; try assumption; apply valid_nil).
    simpl detf. unfold Rdiv. rewrite Rinv_1, Rmult_1_r. destruct mask; reflexivity.
Qed.
Print Assumptions C38_SE3.

Theorem C38_E2 : forall T cin out s groups n m gmode rot ref mode pm (mask : bool) grid k weight_H weight in_H out_H WH W, (0 < s)%nat ->
  kernel_E2 T cin out s groups n m gmode rot ref mode pm mask grid = Ok k ->
  Forall o2_wf in_H -> Forall o2_wf out_H ->
  has_shape weight_H [n + m; out; cin / groups]%nat -> has_shape weight [out; 1; s; s]%nat ->
  List.length in_H = List.length out_H ->
  separable_kernel_forward k weight_H weight in_H out_H = Ok (WH, W) ->
  exists smp rw fw, sample_R2 mode pm = Ok smp /\ width_E2_rot rot n grid = Ok rw /\ width_E2_ref ref n grid = Ok fw /\
    has_shape WH [out; List.length out_H; cin / groups; List.length in_H; 1; 1]%nat /\
    has_shape W [out; List.length out_H; 1; s; s]%nat /\
    let V := value_E2 T gmode rw fw n (prodn [out; cin / groups]%nat) (param_rows (n + m) [out; cin / groups]%nat weight_H) grid in
    (forall o i g c j h, (o < out)%nat -> nth_error out_H i = Some g -> (c < cin / groups)%nat -> nth_error in_H j = Some h ->
      at_ WH [o; i; c; j; 0; 0]%nat = nth (c * out + o) (V (o2_left_apply_angle (o2_inverse g) h)) 0) /\
    (forall o i g x y, (o < out)%nat -> nth_error out_H i = Some g -> (x < s)%nat -> (y < s)%nat ->
      at_ W [o; i; 0; x; y]%nat =
      (if mask then at_ (create_spherical_mask_R2 s) [x; y] else 1) *
      smp [s; s] (slice weight [s; s] [o; 0%nat])
        (scalv2 (o2c g) (app2 (so2_angle_to_matrix (o2a g * -1)) (at_ (create_grid_R2 s) [x; y]))) / o2c g).
Proof.
  intros T cin out s groups n m gmode rot ref mode pm mask grid k weight_H weight in_H out_H WH W Hs Hk Hin Hout HwH Hw Heq HW.
  unfold kernel_E2 in Hk. destruct (width_E2_rot rot n grid) as [rw|] eqn:Erw; [|discriminate]. cbn [bind] in Hk.
  destruct (width_E2_ref ref n grid) as [fw|] eqn:Efw; [|discriminate]. cbn [bind] in Hk.
  injection Hk as <-. set (k := Build_gkernel _ _ _ _ _ _ _ _ _ _ _) in *.
  assert (k_gdim k = n + m)%nat as Hd by (unfold k_gdim, k; simpl; lia).
  assert (gops_ok (k_ops k) o2_inverse o2_left_apply_angle act1_E2 (Some o2_det)) as Hops by apply gops_ok_E2.
  assert (has_shape weight_H (group_weight_shape k)) as HwH' by (unfold group_weight_shape; rewrite Hd; exact HwH).
  destruct (separable_inv k _ _ _ _ Hops weight_H weight in_H out_H (WH, W) HwH' HW) as (Hd0 & smp & rows & Hsmp & Hrows).
  exists smp, rw, fw. split; [exact Hsmp|]. split; [reflexivity|]. split; [reflexivity|].
  pose proof (sampled_E2 k T gmode rw fw n m mode pm _ weight_H in_H out_H rows eq_refl Hd Hin Hout Hrows) as Hsam.
  destruct (C38_separable_kernel_formula _ _ _ k _ _ _ _ smp weight_H weight in_H out_H _ Hops (grid_R2_shape s) (opt_mask_R2 mask s)
    (square_nonzero s Hs) Hd0 Hsmp HwH' Hw Hsam) as (WH' & W' & E & H1 & H2 & A1 & _ & A2).
  assert (WH' = WH /\ W' = W) as [-> ->] by (split; congruence).
  cbn [k_out k_in k_groups k_size k List.length repeat] in H1, H2.
  split; [rewrite Heq; rewrite Heq in H1; exact H1|]. split; [exact H2|]. split.
  - intros o i g c j h Ho Hi Hc Hj. rewrite <- Hd. apply (A1 Heq o i g c j h); assumption.
  - intros o i g x y Ho Hi Hx Hy.
    rewrite (A2 o i g [x; y]) by (try assumption; repeat apply valid_cons; try assumption; apply valid_nil).
    destruct mask; reflexivity.
Qed.
Print Assumptions C38_E2.

Theorem C38_E3 : forall T cin out s groups n m gmode rot ref mode pm (mask : bool) grid k weight_H weight in_H out_H WH W, (0 < s)%nat ->
  kernel_E3 T cin out s groups n m gmode rot ref mode pm mask grid = Ok k ->
  Forall o3_wf in_H -> Forall o3_wf out_H ->
  has_shape weight_H [n + m; out; cin / groups]%nat -> has_shape weight [out; 1; s; s; s]%nat ->
  List.length in_H = List.length out_H ->
  separable_kernel_forward k weight_H weight in_H out_H = Ok (WH, W) ->
  exists smp rw fw, sample_R3 mode pm = Ok smp /\ width_E3_rot rot n grid = Ok rw /\ width_E3_ref ref n grid = Ok fw /\
    has_shape WH [out; List.length out_H; cin / groups; List.length in_H; 1; 1; 1]%nat /\
    has_shape W [out; List.length out_H; 1; s; s; s]%nat /\
    let V := value_E3 T gmode rw fw n (prodn [out; cin / groups]%nat) (param_rows (n + m) [out; cin / groups]%nat weight_H) grid in
    (forall o i g c j h, (o < out)%nat -> nth_error out_H i = Some g -> (c < cin / groups)%nat -> nth_error in_H j = Some h ->
      at_ WH [o; i; c; j; 0; 0; 0]%nat = nth (c * out + o) (V (o3_left_apply_O3 (o3_inverse g) h)) 0) /\
    (forall o i g x y z, (o < out)%nat -> nth_error out_H i = Some g -> (x < s)%nat -> (y < s)%nat -> (z < s)%nat ->
      at_ W [o; i; 0; x; y; z]%nat =
      (if mask then at_ (create_spherical_mask_R3 s) [x; y; z] else 1) *
      smp [s; s; s] (slice weight [s; s; s] [o; 0%nat])
        (scalv3 (o3c g) (app3 (tr3 (o3r g)) (at_ (create_grid_R3 s) [x; y; z]))) / o3c g).
Proof.
  intros T cin out s groups n m gmode rot ref mode pm mask grid k weight_H weight in_H out_H WH W Hs Hk Hin Hout HwH Hw Heq HW.
  unfold kernel_E3 in Hk. destruct (width_E3_rot rot n grid) as [rw|] eqn:Erw; [|discriminate]. cbn [bind] in Hk.
  destruct (width_E3_ref ref n grid) as [fw|] eqn:Efw; [|discriminate]. cbn [bind] in Hk.
  injection Hk as <-. set (k := Build_gkernel _ _ _ _ _ _ _ _ _ _ _) in *.
  assert (k_gdim k = n + m)%nat as Hd by (unfold k_gdim, k; simpl; lia).
  assert (gops_ok (k_ops k) o3_inverse o3_left_apply_O3 act1_E3 (Some o3_det)) as Hops by apply gops_ok_E3.
  assert (has_shape weight_H (group_weight_shape k)) as HwH' by (unfold group_weight_shape; rewrite Hd; exact HwH).
  destruct (separable_inv k _ _ _ _ Hops weight_H weight in_H out_H (WH, W) HwH' HW) as (Hd0 & smp & rows & Hsmp & Hrows).
  exists smp, rw, fw. split; [exact Hsmp|]. split; [reflexivity|]. split; [reflexivity|].
  pose proof (sampled_E3 k T gmode rw fw n m mode pm _ weight_H in_H out_H rows eq_refl Hd Hin Hout Hrows) as Hsam.
  destruct (C38_separable_kernel_formula _ _ _ k _ _ _ _ smp weight_H weight in_H out_H _ Hops (grid_R3_shape s) (opt_mask_R3 mask s)
    (cube_nonzero s Hs) Hd0 Hsmp HwH' Hw Hsam) as (WH' & W' & E & H1 & H2 & A1 & _ & A2).
  assert (WH' = WH /\ W' = W) as [-> ->] by (split; congruence).
  cbn [k_out k_in k_groups k_size k List.length repeat] in H1, H2.
  split; [rewrite Heq; rewrite Heq in H1; exact H1|]. split; [exact H2|]. split.
  - intros o i g c j h Ho Hi Hc Hj. rewrite <- Hd. apply (A1 Heq o i g c j h); assumption.
  - intros o i g x y z Ho Hi Hx Hy Hz.
    rewrite (A2 o i g [x; y; z]) by (try assumption; repeat apply valid_cons; try assumption; apply valid_nil).
    destruct mask; reflexivity.
Qed.
Print Assumptions C38_E3.
