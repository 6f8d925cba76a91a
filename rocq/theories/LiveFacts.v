(** Which cells of a kernel window are read. *)
From Coq Require Import String ZArith Lra.
From Verif Require Import Prelude RMath Mat Tensor TensorFacts Functional FunctionalFacts SampleRn LipFacts ReflectFacts ResampleFacts KernelFacts Repulse SepProduct Interp InterpFacts SO2 O2 O2Facts SO3 O3 O3Facts OSplit Kernel KernelMore GroupKernelFacts WeightFacts Conv LiveSpec.
Open Scope R_scope.

Lemma lin1_local f g u : (forall n, Rabs (IZR n - u) < 1 -> f n = g n) -> lin1 f u = lin1 g u.
Proof.
  intros H. unfold lin1. pose proof (floor_bounds u) as [A B]. set (z := Int_part u) in *.
  rewrite (H z) by (apply Rabs_def1; lra).
  destruct (Req_dec u (IZR z)) as [E|E]; [rewrite E; ring|].
  rewrite (H (z + 1)%Z); [reflexivity|]. rewrite plus_IZR. apply Rabs_def1; lra.
Qed.
Definition close (z : list Z) (cs : list R) : Prop := Forall2 (fun z c => Rabs (IZR z - c) < 1) z cs.
Lemma multi_local g g' cs : forall acc, (forall z, close z cs -> g (rev acc ++ z) = g' (rev acc ++ z)) -> multi g cs acc = multi g' cs acc.
Proof.
  induction cs as [|c cs IH]; intros acc H; cbn [multi].
  - specialize (H [] ltac:(constructor)). rewrite app_nil_r in H. exact H.
  - apply lin1_local. intros n Hn. apply IH. intros z Hz. cbn [rev]. rewrite <- app_assoc. apply H. constructor; assumption.
Qed.
Lemma rne_close u : Rabs (IZR (rne u) - u) < 1.
Proof.
  unfold rne. pose proof (floor_bounds u) as [A B]. set (z := Int_part u) in *.
  destruct (Rlt_dec _ _); [apply Rabs_def1; lra|]. destruct (Rlt_dec _ _); [|destruct (Z.even z)]; rewrite ?plus_IZR; apply Rabs_def1; lra.
Qed.
Lemma gs_read_local s im im' z : (List.length z = List.length s) ->
  (forall cell, valid s cell -> z = map Z.of_nat cell -> at_ (mkT s im) cell = at_ (mkT s im') cell) -> gs_read s im z = gs_read s im' z.
Proof.
  intros L H. unfold gs_read. destruct (forallb _ _) eqn:E; [|reflexivity].
  apply H.
  - clear H. revert z L E. induction s as [|n s IH]; intros [|x z] L E; try discriminate; [apply valid_nil|]. cbn [combine forallb fst snd] in E. apply andb_true_iff in E as [E1 E2].
    unfold in_range in E1. apply andb_true_iff in E1 as [E0 E1]. apply Z.leb_le in E0. apply Z.ltb_lt in E1. cbn [map]. apply valid_cons; [lia|]. apply IH; [cbn in L; lia|exact E2].
  - clear H. revert z L E. induction s as [|n s IH]; intros [|x z] L E; try discriminate; [reflexivity|]. cbn [combine forallb fst snd] in E. apply andb_true_iff in E as [E1 E2].
    unfold in_range in E1. apply andb_true_iff in E1 as [E0 E1]. apply Z.leb_le in E0. cbn [map]. rewrite Z2Nat.id by exact E0. f_equal. apply IH; [cbn in L; lia|exact E2].
Qed.
Lemma close_length z cs : close z cs -> List.length z = List.length cs.
Proof. intros H. induction H; cbn; congruence. Qed.
(** Both modes read only cells within distance 1 of the point, in pixels. *)
Lemma sampled_local (linear : bool) pm s im im' u : List.length u = List.length s ->
  (forall cell, valid s cell -> close (map Z.of_nat cell) (map2 (fun n x => gs_coord pm n x) s u) -> at_ (mkT s im) cell = at_ (mkT s im') cell) ->
  (if linear then gs_linear pm s im u else gs_nearest pm s im u) = (if linear then gs_linear pm s im' u else gs_nearest pm s im' u).
Proof.
  intros L H. assert (List.length (map2 (fun n x => gs_coord pm n x) s u) = List.length s) as Lc.
  { clear H. revert u L. induction s as [|n s IH]; intros [|x u] L; try discriminate; [reflexivity|]. cbn. f_equal. apply IH. cbn in L. lia. }
  destruct linear.
  - unfold gs_linear. rewrite !corners_multi. f_equal. apply multi_local. intros z Hz. cbn [rev app]. apply gs_read_local; [rewrite (close_length _ _ Hz); exact Lc|].
    intros cell Hc ->. apply H; assumption.
  - unfold gs_nearest. set (z := map2 (fun n x => rne (gs_coord pm n x)) s u).
    assert (close z (map2 (fun n x => gs_coord pm n x) s u)) as Hz.
    { unfold z. clear H Lc z. revert u L. induction s as [|n s IH]; intros [|x u] L; try discriminate; cbn [map2]; constructor; [apply rne_close|]. apply IH. cbn in L. lia. }
    apply gs_read_local; [rewrite (close_length _ _ Hz); exact Lc|]. intros cell Hc E. apply H; [exact Hc|]. rewrite <- E. exact Hz.
Qed.

Lemma fold_wave_bounds n : (0 < n)%nat -> forall x, 0 <= fold_wave n x <= INR n.
Proof.
  intros Hn x. assert (0 < INR n) as HN by (apply lt_0_INR; exact Hn). unfold fold_wave. pose proof (floor_bounds (x / INR n)) as [A B]. set (q := Int_part _) in *.
  apply (Rmult_le_compat_r (INR n)) in A; [|lra]. apply (Rmult_lt_compat_r (INR n)) in B; [|lra]. rewrite (div_n n Hn) in A, B. cbv zeta. destruct (Z.even q); lra.
Qed.
(** The padding modes only move a coordinate towards the middle. *)
Lemma coord_inward pm n x : (0 < n)%nat -> exists x', gs_coord pm n x = gs_unnormalize n x' /\ Rabs x' <= Rabs x.
Proof.
  intros Hn. assert (1 <= INR n) as H1 by (change 1 with (INR 1); apply le_INR; lia).
  assert (forall u, exists x', clamp u 0 (INR n - 1) = gs_unnormalize n x' /\ (forall x, u = gs_unnormalize n x -> Rabs x' <= Rabs x)) as Hclamp.
  { intros u. exists ((2 * clamp u 0 (INR n - 1) + 1) / INR n - 1). unfold gs_unnormalize. split; [field; lra|]. intros y ->.
    assert (0 < / INR n <= 1) as Hi. { split; [apply Rinv_0_lt_compat; lra|]. rewrite <- Rinv_1. apply Rinv_le_contravar; lra. }
    destruct (Rle_dec (((y + 1) * INR n - 1) / 2) 0) as [Q|Q]; [|destruct (Rle_dec (INR n - 1) (((y + 1) * INR n - 1) / 2)) as [Q'|Q']].
    - rewrite clamp_lo by lra. replace ((2 * 0 + 1) / INR n - 1) with (/ INR n - 1) by (field; lra).
      assert (y + 1 <= / INR n). { apply (Rmult_le_reg_r (INR n)); [lra|]. rewrite Rinv_l by lra. lra. }
      rewrite !Rabs_left1; lra.
    - rewrite clamp_hi by lra. replace ((2 * (INR n - 1) + 1) / INR n - 1) with (1 - / INR n) by (field; lra).
      assert (1 - / INR n <= y). { apply (Rmult_le_reg_r (INR n)); [lra|]. rewrite Rmult_minus_distr_r, Rinv_l by lra. lra. }
      rewrite !Rabs_right; lra.
    - rewrite clamp_id by lra. replace ((2 * (((y + 1) * INR n - 1) / 2) + 1) / INR n - 1) with y by (field; lra). lra. }
  unfold gs_coord, gs_place. destruct pm.
  - exists x. split; [reflexivity|lra].
  - destruct (Hclamp (gs_unnormalize n x)) as (x' & E & H). exists x'. split; [exact E|]. apply H. reflexivity.
  - destruct (Hclamp (gs_reflect n (gs_unnormalize n x))) as (x' & E & H). exists x'. split; [exact E|].
    apply (Rle_trans _ (Rabs ((2 * gs_reflect n (gs_unnormalize n x) + 1) / INR n - 1))); [apply H; generalize (gs_reflect n (gs_unnormalize n x)); intros g; unfold gs_unnormalize; field; lra|].
    destruct (Rle_dec (Rabs x) 1) as [Hx|Hx].
    + apply Rabs_le_between in Hx. rewrite reflect_inside; [|lia|unfold gs_unnormalize; nra]. unfold gs_unnormalize. right. f_equal. field. lra.
    + apply (Rle_trans _ 1); [|lra]. rewrite (reflect_wave n Hn). pose proof (fold_wave_bounds n Hn (gs_unnormalize n x + 1 / 2)) as [Q1 Q2]. set (f := fold_wave _ _) in *.
      replace ((2 * (f - 1 / 2) + 1) / INR n - 1) with (2 * (f / INR n) - 1) by (field; lra).
      assert (0 <= f / INR n <= 1). { split; [apply Rmult_le_pos; [exact Q1|left; apply Rinv_0_lt_compat; lra]|]. apply (Rmult_le_reg_r (INR n)); [lra|]. unfold Rdiv. rewrite Rmult_assoc, Rinv_l by lra. lra. }
      apply Rabs_le. lra.
Qed.

(** ** Points inside the ball *)
Lemma close_excess pm s i x : (0 < s)%nat -> Rabs (IZR (Z.of_nat i) - gs_coord pm s x) < 1 -> excess s i ^ 2 <= x ^ 2.
Proof.
  intros Hs H. destruct (coord_inward pm s x Hs) as (x' & E & Hx). rewrite E in H. rewrite <- INR_IZR_INZ in H.
  assert (1 <= INR s) as H1 by (change 1 with (INR 1); apply le_INR; lia).
  assert (Rabs (centre s i - x') < 2 / INR s) as Hc.
  { replace (centre s i - x') with ((INR i - gs_unnormalize s x') * (2 / INR s)) by (unfold centre, gs_unnormalize; field; lra).
    rewrite Rabs_mult. assert (0 < 2 / INR s) as Hp by (apply Rdiv_lt_0_compat; lra). rewrite (Rabs_right (2 / INR s)) by lra. rewrite <- (Rmult_1_l (2 / INR s)) at 2. apply Rmult_lt_compat_r; assumption. }
  assert (Rabs (centre s i) - 2 / INR s <= Rabs x). { pose proof (Rabs_triang_inv (centre s i) x'). lra. }
  rewrite <- (pow2_abs x). unfold excess. apply pow_incr. split; [apply Rmax_l|]. apply Rmax_lub; [apply Rabs_pos|assumption].
Qed.
Lemma close_seen pm s n cell : forall u, (0 < s)%nat -> List.length u = n -> close (map Z.of_nat cell) (map2 (fun n x => gs_coord pm n x) (repeat s n) u) ->
  sumR (map (fun i => excess s i ^ 2) cell) <= sumR (map (fun x => x ^ 2) u).
Proof.
  intros u Hs. revert n cell. induction u as [|x u IH]; intros [|n] cell L H; try discriminate.
  - inversion H as [E1 E2|]. destruct cell; [|discriminate]. cbn. lra.
  - cbn [repeat map2] in H. destruct cell as [|i cell]; cbn [map] in H; inversion H as [|? ? ? ? H1 H2]; subst. cbn [map].
    change (sumR (?a :: ?l)) with (a + sumR l). pose proof (close_excess pm s i x Hs H1) as K1. pose proof (IH n cell ltac:(cbn in L; lia) H2) as K2.
    apply Rplus_le_compat; assumption.
Qed.
(** Two images that agree on the seen cells are sampled alike inside the ball. *)
Lemma ball_local (linear : bool) pm s n im im' u : (0 < s)%nat -> List.length u = n -> sumR (map (fun x => x ^ 2) u) < (11 / 10) ^ 2 ->
  (forall cell, valid (repeat s n) cell -> seen s cell -> at_ (mkT (repeat s n) im) cell = at_ (mkT (repeat s n) im') cell) ->
  (if linear then gs_linear pm (repeat s n) im u else gs_nearest pm (repeat s n) im u) = (if linear then gs_linear pm (repeat s n) im' u else gs_nearest pm (repeat s n) im' u).
Proof.
  intros Hs L Hu H. apply sampled_local; [rewrite repeat_length; exact L|]. intros cell Hc Hz. apply H; [exact Hc|]. unfold seen. eapply Rle_lt_trans; [eapply close_seen; eassumption|exact Hu].
Qed.
Lemma not_cubic2 mode pm smp : mode <> "bicubic"%string -> sample_R2 mode pm = Ok smp -> exists b p, smp = gs2 b p.
Proof.
  intros Hm. unfold sample_R2. destruct (String.eqb_spec mode "bicubic"); [congruence|]. destruct (gs_mode mode) as [b|]; [|discriminate]. destruct (gs_pad pm) as [p|]; [|discriminate].
  intros [= <-]. eauto.
Qed.
Lemma not_cubic3 mode pm smp : sample_R3 mode pm = Ok smp -> exists b p, smp = gs3 b p.
Proof.
  unfold sample_R3. destruct (String.eqb_spec mode "bicubic"). { destruct (gs_pad pm); discriminate. } destruct (gs_mode mode) as [b|]; [|discriminate]. destruct (gs_pad pm) as [p|]; [|discriminate].
  intros [= <-]. eauto.
Qed.
Lemma norm_ball (q : R) : 0 <= q -> sqrt q < 11 / 10 -> q < (11 / 10) ^ 2.
Proof. intros Hq H. rewrite <- (pow2_sqrt q Hq). pose proof (sqrt_pos q). nra. Qed.
Lemma masked2 mode pm smp s (x : list nat) im im' v : mode <> "bicubic"%string -> sample_R2 mode pm = Ok smp -> (0 < s)%nat -> valid [s; s] x ->
  norm2 v = norm2 (at_ (create_grid_R2 s) x) ->
  (forall cell, valid [s; s] cell -> seen s cell -> at_ (mkT [s; s] im) cell = at_ (mkT [s; s] im') cell) ->
  at_ (create_spherical_mask_R2 s) x * smp [s; s] im v = at_ (create_spherical_mask_R2 s) x * smp [s; s] im' v.
Proof.
  intros Hm Hsmp Hs Hx Hv H. destruct (not_cubic2 _ _ _ Hm Hsmp) as (b & p & ->). rewrite (mask_R2_at s x Hx), <- Hv. unfold lt_float. destruct (Rlt_dec _ _) as [Hn|_]; [|ring].
  f_equal. unfold gs2. apply (ball_local b p s 2 im im' (axis2 v) Hs eq_refl); [|exact H]. unfold axis2. cbn [map]. unfold sumR. cbn [fold_right].
  unfold norm2, dot2 in Hn. apply norm_ball in Hn; nra.
Qed.
Lemma masked3 mode pm smp s (x : list nat) im im' v : sample_R3 mode pm = Ok smp -> (0 < s)%nat -> valid [s; s; s] x ->
  norm3 v = norm3 (at_ (create_grid_R3 s) x) ->
  (forall cell, valid [s; s; s] cell -> seen s cell -> at_ (mkT [s; s; s] im) cell = at_ (mkT [s; s; s] im') cell) ->
  at_ (create_spherical_mask_R3 s) x * smp [s; s; s] im v = at_ (create_spherical_mask_R3 s) x * smp [s; s; s] im' v.
Proof.
  intros Hsmp Hs Hx Hv H. destruct (not_cubic3 _ _ _ Hsmp) as (b & p & ->). rewrite (mask_R3_at s x Hx), <- Hv. unfold lt_float. destruct (Rlt_dec _ _) as [Hn|_]; [|ring].
  f_equal. unfold gs3. apply (ball_local b p s 3 im im' (axis3 v) Hs eq_refl); [|exact H]. unfold axis3. cbn [map]. unfold sumR. cbn [fold_right].
  unfold norm3, dot3 in Hn. apply norm_ball in Hn; nra.
Qed.

(** ** Kernels *)
Lemma slice_at (w : tensor R) ks pre cell : valid ks cell -> at_ (mkT ks (slice w ks pre)) cell = at_ w (pre ++ cell).
Proof. intros V. change (mkT ks (slice w ks pre)) with (build ks (fun y => at_ w (pre ++ y))). rewrite at_build by exact V. reflexivity. Qed.
Lemma image_of_at out cin ks V o c cell : valid ks cell -> at_ (mkT ks (image_of out cin ks V o c)) cell = nth (ravel (out :: cin :: ks) (o :: c :: cell)) V 0.
Proof. intros Vc. change (mkT ks (image_of out cin ks V o c)) with (build ks (fun y => nth (ravel (out :: cin :: ks) (o :: c :: y)) V 0)). rewrite at_build by exact Vc. reflexivity. Qed.
Lemma has_shape_ext (X Y : tensor R) s : has_shape X s -> has_shape Y s -> (forall i, valid s i -> at_ X i = at_ Y i) -> X = Y.
Proof. intros [S1 W1] [S2 W2] H. apply tensor_ext; [exact W1|exact W2|congruence|]. intros i V. apply H. congruence. Qed.

Section Generic.
  Context {G P : Type} {D : Dflt P} (k : gkernel G P).
  Context (inv : G -> G) (mul : G -> G -> G) (act : G -> P -> P) (det : option (G -> R)).
  Hypothesis Hops : gops_ok (k_ops k) inv mul act det.
  Hypothesis Hgrid : has_shape (k_grid_Rn k) (k_size k).
  Hypothesis Hmask : mask_ok (k_mask k) (k_size k).
  Hypothesis Hks : prodn (k_size k) <> 0%nat.
  Context (Pc : list nat -> Prop) (ok : G -> Prop).
  (** Images that agree on Pc are sampled alike wherever the mask is not zero. *)
  Hypothesis Hlocal : forall smp g x im im', op_sample_Rn (k_ops k) = Ok smp -> ok g -> valid (k_size k) x ->
    (forall cell, valid (k_size k) cell -> Pc cell -> at_ (mkT (k_size k) im) cell = at_ (mkT (k_size k) im') cell) ->
    maskf (k_mask k) x * smp (k_size k) im (act (inv g) (at_ (k_grid_Rn k) x)) = maskf (k_mask k) x * smp (k_size k) im' (act (inv g) (at_ (k_grid_Rn k) x)).

  Lemma lifting_same w w' H : agree_on Pc [k_out k; (k_in k / k_groups k)%nat] (k_size k) w w' -> Forall ok H -> lifting_kernel_forward k w H = lifting_kernel_forward k w' H.
  Proof using Hops Hgrid Hmask Hks Hlocal.
    intros (S1 & S2 & A) HF. destruct (op_sample_Rn (k_ops k)) as [smp|e] eqn:Es; [|unfold lifting_kernel_forward; rewrite Es; reflexivity].
    destruct (lifting_formula k inv mul act det Hops Hgrid Hmask Hks smp w H Es S1) as (W & -> & Hs & F).
    destruct (lifting_formula k inv mul act det Hops Hgrid Hmask Hks smp w' H Es S2) as (W' & -> & Hs' & F'). f_equal.
    eapply has_shape_ext; [exact Hs|exact Hs'|]. intros [|o [|h [|c x]]] V; try (apply valid_length in V; discriminate).
    apply valid_cons_inv in V as [V1 V]. apply valid_cons_inv in V as [V2 V]. apply valid_cons_inv in V as [V3 V].
    destruct (nth_error H h) as [g|] eqn:Eh; [|apply nth_error_None in Eh; lia]. rewrite (F o h g c x), (F' o h g c x) by assumption. f_equal.
    rewrite Forall_forall in HF. apply Hlocal; [reflexivity|apply HF; eapply nth_error_In; exact Eh|exact V|]. intros cell Vc Hc. rewrite !slice_at by exact Vc.
    apply A; [repeat apply valid_cons; try assumption; apply valid_nil|exact Vc|exact Hc].
  Qed.
  Lemma full_same smp w w' in_H out_H V V' : op_sample_Rn (k_ops k) = Ok smp -> k_gdim k <> 0%nat -> has_shape w (full_weight_shape k) -> has_shape w' (full_weight_shape k) -> Forall ok out_H ->
    sampled k inv mul (k_out k :: k_cin k :: k_size k) w in_H out_H V -> sampled k inv mul (k_out k :: k_cin k :: k_size k) w' in_H out_H V' ->
    (forall q o c cell, (o < k_out k)%nat -> (c < k_cin k)%nat -> valid (k_size k) cell -> Pc cell ->
       nth (ravel (k_out k :: k_cin k :: k_size k) (o :: c :: cell)) (V q) 0 = nth (ravel (k_out k :: k_cin k :: k_size k) (o :: c :: cell)) (V' q) 0) ->
    full_kernel_forward k w in_H out_H = full_kernel_forward k w' in_H out_H.
  Proof using Hops Hgrid Hmask Hks Hlocal.
    intros Es Hgd S1 S2 HF Q1 Q2 A.
    destruct (full_formula k inv mul act det Hops Hgrid Hmask Hks Hgd smp w in_H out_H V Es S1 Q1) as (W & -> & Hs & F).
    destruct (full_formula k inv mul act det Hops Hgrid Hmask Hks Hgd smp w' in_H out_H V' Es S2 Q2) as (W' & -> & Hs' & F'). f_equal.
    eapply has_shape_ext; [exact Hs|exact Hs'|]. intros [|o [|i [|c [|j x]]]] Vx; try (apply valid_length in Vx; discriminate).
    apply valid_cons_inv in Vx as [V1 Vx]. apply valid_cons_inv in Vx as [V2 Vx]. apply valid_cons_inv in Vx as [V3 Vx]. apply valid_cons_inv in Vx as [V4 Vx].
    destruct (nth_error out_H i) as [g|] eqn:Eg; [|apply nth_error_None in Eg; lia]. destruct (nth_error in_H j) as [h|] eqn:Eh; [|apply nth_error_None in Eh; lia].
    destruct (relabel_exists (k_out k) (k_cin k) o c V1 V3) as (o' & c' & B1 & B2 & B3).
    rewrite (F o i g c j h x o' c'), (F' o i g c j h x o' c') by assumption. f_equal.
    rewrite Forall_forall in HF. apply Hlocal; [exact Es|apply HF; eapply nth_error_In; exact Eg|exact Vx|]. intros cell Vc Hc. rewrite !image_of_at by exact Vc.
    apply A; assumption.
  Qed.
End Generic.

(** ** Group interpolation works column by column *)
Definition pick (J : nat) (r : list R) : list R := [nth J r 0].
Definition columnwise {G} (smp : nat -> list G -> mat -> list G -> result mat) : Prop := forall S q s g r J, wfm (List.length g) S s -> (J < S)%nat ->
  smp S q s g = Ok r -> smp 1%nat q (map (pick J) s) g = Ok (map (pick J) r).
Lemma NN_columnwise {G} T (dist : G -> G -> R) nodes grid (f : list R -> list R) s : forall r, interpolate_NN T dist nodes grid s = Ok r -> interpolate_NN T dist nodes grid (map f s) = Ok (map f r).
Proof.
  unfold interpolate_NN. destruct grid as [|g0 grid]; [discriminate|]. induction nodes as [|n nodes IH]; intros r; cbn [mapM].
  - intros [= <-]. reflexivity.
  - intros E. apply bind_ok in E. destruct E as (y & E1 & E). apply bind_ok in E. destruct E as (ys & E2 & E). injection E as <-.
    rewrite (IH ys E2). rewrite nth_error_map. destruct (nth_error s _) as [v|]; [|discriminate]. injection E1 as <-. reflexivity.
Qed.
Lemma rowmul_pick row (x : mat) S J : (J < S)%nat -> rowmul 1 row (map (pick J) x) = pick J (rowmul S row x).
Proof.
  intros HJ. unfold pick, rowmul. cbn [seq map]. rewrite (nth_indep _ 0 (dotl row (col 0 x))) by (rewrite map_length, seq_length; exact HJ).
  rewrite (map_nth (fun j => dotl row (col j x)) (seq 0 S) 0%nat J), seq_nth by exact HJ. unfold col. rewrite map_map. reflexivity.
Qed.
Lemma matmul_pick p (x : mat) S J : (J < S)%nat -> matmul 1 p (map (pick J) x) = map (pick J) (matmul S p x).
Proof. intros HJ. unfold matmul. rewrite map_map. apply map_ext. intros row. apply rowmul_pick. exact HJ. Qed.
Lemma wfm_pick J n S s : wfm n S s -> wfm n 1 (map (pick J) s).
Proof. intros [L _]. split; [rewrite map_length; exact L|]. intros r Hr. apply in_map_iff in Hr. destruct Hr as (? & <- & _). reflexivity. Qed.
Lemma RBF_columnwise {G} T (HT : torch_ok T) (dist : G -> G -> R) rbf w S nodes grid s r J : wfm (List.length grid) S s -> (J < S)%nat ->
  interpolate_RBF T dist rbf w S nodes grid s = Ok r -> interpolate_RBF T dist rbf w 1 nodes grid (map (pick J) s) = Ok (map (pick J) r).
Proof.
  intros Hs HJ E. unfold interpolate_RBF in E |- *. apply bind_ok in E. destruct E as (x & Ex & E). injection E as <-.
  pose proof (wfm_gram (fun a b => rbf (dist a b) w) grid grid) as Hm. 
  destruct (ok_solve T HT _ _ _ _ _ Hm Hs Ex) as (Wx & Hx & _).
  destruct (ok_solve_any T HT _ _ _ _ _ _ _ Hm Hs (wfm_pick J _ _ _ Hs) Ex) as (x' & Ex').
  destruct (ok_solve T HT _ _ _ _ _ Hm (wfm_pick J _ _ _ Hs) Ex') as (_ & _ & U).
  rewrite Ex'. cbn [bind]. f_equal. rewrite <- (U (map (pick J) x)).
  - apply matmul_pick. exact HJ.
  - eapply wfm_pick. exact Wx.
  - rewrite (matmul_pick _ x S J HJ), Hx. reflexivity.
Qed.
Lemma so2_columnwise T (HT : torch_ok T) mode w : columnwise (fun S q s g => so2_grid_sample T mode w S q s g).
Proof.
  intros S q s g r J H HJ. unfold so2_grid_sample. destruct (String.eqb mode "rbf"); [apply RBF_columnwise; assumption|].
  destruct (String.eqb mode "nearest"); [apply NN_columnwise|discriminate].
Qed.
Lemma so3_columnwise T (HT : torch_ok T) mode w : columnwise (fun S q s g => so3_grid_sample_matrix T mode w S q s g).
Proof.
  intros S q s g r J H HJ. unfold so3_grid_sample_matrix, so3_grid_sample. rewrite <- (map_length so3_matrix_to_quat g) in H.
  destruct (String.eqb mode "nearest"); [apply NN_columnwise|]. destruct (String.eqb mode "rbf"); [apply RBF_columnwise; assumption|discriminate].
Qed.
(** The value at one element: two signals that agree in column J are read alike there. *)
Lemma one_row_local {G} (smp : nat -> list G -> mat -> list G -> result mat) S q s s' g J : columnwise smp -> linear_group_sampler 1 1 smp ->
  wfm (List.length g) S s -> wfm (List.length g) S s' -> (J < S)%nat -> map (pick J) s = map (pick J) s' ->
  nth J (one_row (smp S [q] s g)) 0 = nth J (one_row (smp S [q] s' g)) 0.
Proof.
  intros HC HL W1 W2 HJ E.
  assert (forall t t', wfm (List.length g) S t -> wfm (List.length g) S t' -> forall r, smp S [q] t g = Ok r -> exists r', smp S [q] t' g = Ok r') as K.
  { intros t t' V1 V2 r Er. destruct (HL S [q] t t' g V1 V2 r Er) as (y & z & Ey & _). eauto. }
  destruct (smp S [q] s g) as [r|] eqn:E1; destruct (smp S [q] s' g) as [r'|] eqn:E2.
  - pose proof (HC S [q] s g r J W1 HJ E1) as P1. pose proof (HC S [q] s' g r' J W2 HJ E2) as P2. rewrite E, P2 in P1. injection P1 as P1.
    destruct r as [|v [|? ?]]; destruct r' as [|v' [|? ?]]; try discriminate; try reflexivity. cbn [map] in P1. injection P1 as P1. cbn [one_row]. congruence.
  - destruct (K s s' W1 W2 _ E1). congruence.
  - destruct (K s' s W2 W1 _ E2). congruence.
  - reflexivity.
Qed.
Section Values.
  Context (T : torch_env) (HT : torch_ok T) (gmode : string).
  Lemma value_SE2_local w S rows rows' grid q J : wfm (List.length grid) S rows -> wfm (List.length grid) S rows' -> (J < S)%nat -> map (pick J) rows = map (pick J) rows' ->
    nth J (value_SE2 T gmode w S rows grid q) 0 = nth J (value_SE2 T gmode w S rows' grid q) 0.
  Proof using HT. intros. apply (one_row_local (fun S q s g => so2_grid_sample T gmode w S q s g)); try assumption; [apply so2_columnwise|apply so2_sample_linear]; exact HT. Qed.
  Lemma value_SE3_local w S rows rows' grid q J : wfm (List.length grid) S rows -> wfm (List.length grid) S rows' -> (J < S)%nat -> map (pick J) rows = map (pick J) rows' ->
    nth J (value_SE3 T gmode w S rows grid q) 0 = nth J (value_SE3 T gmode w S rows' grid q) 0.
  Proof using HT. intros. apply (one_row_local (fun S q s g => so3_grid_sample_matrix T gmode w S q s g)); try assumption; [apply so3_columnwise|apply so3_sample_linear]; exact HT. Qed.
  Lemma wfm_halves {E G} (f : E -> G) n S (rows : mat) (grid : list E) : wfm (List.length grid) S rows ->
    wfm (List.length (map f (firstn n grid))) S (firstn n rows) /\ wfm (List.length (map f (skipn n grid))) S (skipn n rows).
  Proof.
    intros [L R0]. split; (split; [rewrite map_length, ?firstn_length, ?skipn_length; lia|]); intros r Hr; apply R0; rewrite <- (firstn_skipn n rows); apply in_or_app; auto.
  Qed.
  Lemma value_E2_local rw fw n S rows rows' grid q J : wfm (List.length grid) S rows -> wfm (List.length grid) S rows' -> (J < S)%nat -> map (pick J) rows = map (pick J) rows' ->
    nth J (value_E2 T gmode rw fw n S rows grid q) 0 = nth J (value_E2 T gmode rw fw n S rows' grid q) 0.
  Proof using HT.
    intros W1 W2 HJ E. destruct (wfm_halves o2a n S rows grid W1). destruct (wfm_halves o2a n S rows' grid W2).
    unfold value_E2. destruct (Req_EM_T _ _); apply value_SE2_local; try assumption; rewrite <- ?firstn_map, <- ?skipn_map; f_equal; exact E.
  Qed.
  Lemma value_E3_local rw fw n S rows rows' grid q J : wfm (List.length grid) S rows -> wfm (List.length grid) S rows' -> (J < S)%nat -> map (pick J) rows = map (pick J) rows' ->
    nth J (value_E3 T gmode rw fw n S rows grid q) 0 = nth J (value_E3 T gmode rw fw n S rows' grid q) 0.
  Proof using HT.
    intros W1 W2 HJ E. destruct (wfm_halves o3r n S rows grid W1). destruct (wfm_halves o3r n S rows' grid W2).
    unfold value_E3. destruct (Req_EM_T _ _); apply value_SE3_local; try assumption; rewrite <- ?firstn_map, <- ?skipn_map; f_equal; exact E.
  Qed.
End Values.
Lemma param_rows_wfm n rest w : wfm n (prodn rest) (param_rows n rest w).
Proof. unfold param_rows. split; [rewrite map_length, seq_length; reflexivity|]. intros r Hr. apply in_map_iff in Hr. destruct Hr as (i & <- & _). rewrite map_length. apply indices_length. Qed.
Lemma param_rows_pick n rest w w' idx : valid rest idx -> (forall i, (i < n)%nat -> at_ w (i :: idx) = at_ w' (i :: idx)) ->
  map (pick (ravel rest idx)) (param_rows n rest w) = map (pick (ravel rest idx)) (param_rows n rest w').
Proof.
  intros V H. unfold param_rows. rewrite !map_map. apply map_ext_in. intros i Hi. apply in_seq in Hi. unfold pick. f_equal.
  assert (forall u : tensor R, nth (ravel rest idx) (map (fun idx => at_ u (i :: idx)) (indices rest)) 0 = at_ u (i :: idx)) as K.
  { intros u. rewrite (nth_indep _ 0 (at_ u (i :: idx))) by (rewrite map_length, indices_length; apply ravel_lt; exact V).
    rewrite (map_nth (fun idx => at_ u (i :: idx)) (indices rest) idx), nth_indices by exact V. reflexivity. }
  rewrite !K. apply H. lia.
Qed.

(** ** Layers *)
Section Layers.
  Context {G P : Type} {D : Dflt P}.
  (** The depthwise part of a separable kernel is the lifting kernel with one input channel per group. *)
  Definition with_cin1 (k : gkernel G P) : gkernel G P :=
    {| k_in := 1; k_out := k_out k; k_groups := 1; k_size := k_size k; k_gsize := k_gsize k; k_grid_H := k_grid_H k; k_grid_Rn := k_grid_Rn k; k_mask := k_mask k; k_ops := k_ops k |}.
  Lemma separable_lifting (k : gkernel G P) wH w in_H out_H : List.length (shape w) = (2 + List.length (k_size k))%nat ->
    separable_kernel_forward k wH w in_H out_H =
    (wh <- sample_group k wH in_H out_H ;; wh <- view (List.length in_H :: List.length out_H :: (k_in k / k_groups k)%nat :: k_out k :: repeat 1%nat (List.length (k_size k))) wh ;;
     W <- lifting_kernel_forward (with_cin1 k) w out_H ;; Ok (transpose 1 3 (transpose 0 3 wh), W)).
  Proof.
    intros Hr. unfold separable_kernel_forward, lifting_kernel_forward. rewrite Hr. replace (2 + List.length (k_size k) - 2)%nat with (List.length (k_size k)) by lia.
    change (k_in k / k_groups k)%nat with (k_cin k).
    destruct (sample_group k wH in_H out_H) as [wh|]; [|reflexivity]. cbn [bind]. destruct (view _ wh) as [wh'|]; [|reflexivity]. cbn [bind].
    change (k_ops (with_cin1 k)) with (k_ops k). destruct (op_sample_Rn (k_ops k)) as [smp|]; [|reflexivity]. cbn [bind].
    change (product_Rn (with_cin1 k) out_H) with (product_Rn k out_H). change (k_out (with_cin1 k)) with (k_out k). destruct (grid_sample _ _ _) as [y|]; [|reflexivity]. cbn [bind].
    change (k_cin (with_cin1 k)) with 1%nat. change (k_size (with_cin1 k)) with (k_size k). destruct (view _ y) as [y1|]; [|reflexivity]. cbn [bind].
    change (k_mask (with_cin1 k)) with (k_mask k). destruct (apply_mask _ y1) as [y2|]; [|reflexivity]. cbn [bind]. destruct (apply_det _ _ _ y2); reflexivity.
  Qed.
  Lemma lifting_layer (k : gkernel G P) (ok : G -> Prop) w w' : (forall H, Forall ok H -> lifting_kernel_forward k w H = lifting_kernel_forward k w' H) -> same_lifting k ok w w'.
  Proof. intros K L X H <- HF. unfold lifting_forward. rewrite (K H HF). reflexivity. Qed.
  Lemma full_layer (k : gkernel G P) (ok : G -> Prop) w w' : (forall in_H out_H W, Forall ok in_H -> Forall ok out_H -> full_kernel_forward k w in_H out_H = Ok W -> full_kernel_forward k w' in_H out_H = Ok W) ->
    same_full k ok w w'.
  Proof.
    intros K L X in_H out_H Y <- H1 H2. unfold full_forward, group_forward_with. destruct (shape X) as [|? [|? [|? ?]]]; try discriminate. intros E.
    apply bind_ok in E. destruct E as (W & EW & E). rewrite (K _ _ _ H1 H2 EW). exact E.
  Qed.
  Lemma separable_layer (k : gkernel G P) (ok : G -> Prop) w w' : List.length (shape w) = (2 + List.length (k_size k))%nat -> List.length (shape w') = (2 + List.length (k_size k))%nat ->
    (forall H, Forall ok H -> lifting_kernel_forward (with_cin1 k) w H = lifting_kernel_forward (with_cin1 k) w' H) -> same_separable k ok w w'.
  Proof. intros R1 R2 K L wH X in_H out_H <- H1 H2. unfold separable_forward. rewrite !separable_lifting, (K out_H H2) by assumption. reflexivity. Qed.
End Layers.
Lemma agree_rank P pre ks w w' : agree_on P pre ks w w' -> List.length (shape w) = (List.length pre + List.length ks)%nat /\ List.length (shape w') = (List.length pre + List.length ks)%nat.
Proof. intros ([-> _] & [-> _] & _). rewrite app_length. auto. Qed.

(** The action f brings no masked-in grid point where two images that agree on Pc differ. *)
Definition local2 mode pm s (Pc : list nat -> Prop) (f : V2 -> V2) : Prop := forall smp x im im', sample_R2 mode pm = Ok smp -> valid [s; s] x ->
  (forall cell, valid [s; s] cell -> Pc cell -> at_ (mkT [s; s] im) cell = at_ (mkT [s; s] im') cell) ->
  at_ (create_spherical_mask_R2 s) x * smp [s; s] im (f (at_ (create_grid_R2 s) x)) = at_ (create_spherical_mask_R2 s) x * smp [s; s] im' (f (at_ (create_grid_R2 s) x)).
Definition local3 mode pm s (Pc : list nat -> Prop) (f : V3 -> V3) : Prop := forall smp x im im', sample_R3 mode pm = Ok smp -> valid [s; s; s] x ->
  (forall cell, valid [s; s; s] cell -> Pc cell -> at_ (mkT [s; s; s] im) cell = at_ (mkT [s; s; s] im') cell) ->
  at_ (create_spherical_mask_R3 s) x * smp [s; s; s] im (f (at_ (create_grid_R3 s) x)) = at_ (create_spherical_mask_R3 s) x * smp [s; s; s] im' (f (at_ (create_grid_R3 s) x)).

Lemma comb_trivial s (X Y : tensor R) : has_shape X s -> has_shape Y s -> tc 1 1 X Y (build s (fun i => 1 * at_ X i + 1 * at_ Y i)).
Proof. intros H1 H2. apply (tc_combines 1 1 s). split; [exact H1|]. split; [exact H2|]. split; [split; [reflexivity|apply wft_build]|]. intros i V. rewrite at_build by exact V. reflexivity. Qed.
Section Groups.
  Context (T : torch_env) (HT : torch_ok T) (cin out s groups n m : nat) (gmode : string) (given given' : R) (mode pm : string) (mask : bool) (Pc : list nat -> Prop).
  Hypothesis Hs : (0 < s)%nat.
  Lemma live_SE2_lifting (ok : R -> Prop) grid w w' : (forall g, ok g -> local2 mode pm s Pc (app2 (so2_angle_to_matrix (- g)))) ->
    agree_on Pc [out; cin / groups]%nat [s; s] w w' -> same_lifting (lifting_kernel_SE2 T cin out s groups mode pm mask grid) ok w w'.
  Proof using Hs.
    intros Hl Ha. apply lifting_layer. intros H HF. eapply (lifting_same (lifting_kernel_SE2 T cin out s groups mode pm mask grid)); [apply gops_ok_SE2|apply grid_R2_shape|apply mask_R2_shape|apply square_nonzero; exact Hs| |exact Ha|exact HF].
    intros smp g x im im' Es Hg V HA. exact (Hl g Hg smp x im im' Es V HA).
  Qed.
  Lemma live_SE2_full (ok : R -> Prop) grid k w w' : (forall g, ok g -> local2 mode pm s Pc (app2 (so2_angle_to_matrix (- g)))) -> kernel_SE2 T cin out s groups gmode given mode pm mask grid = Ok k ->
    agree_on Pc [List.length grid; out; cin / groups]%nat [s; s] w w' -> same_full k ok w w'.
  Proof using Hs HT.
    intros Hl Hk (S1 & S2 & A). apply full_layer. intros in_H out_H W HF1 HF2 E.
    unfold kernel_SE2 in Hk. destruct (width_SE2 given grid) as [wd|] eqn:Ew; [|discriminate]. cbn [bind] in Hk. injection Hk as <-. set (k := Build_gkernel _ _ _ _ _ _ _ _ _ _ _) in *.
    assert (k_gdim k = List.length grid) as Hd by (unfold k_gdim, k; simpl; lia).
    assert (gops_ok (k_ops k) so2_inverse_angle so2_left_apply_angle act1_SE2 None) as Hops by apply gops_ok_SE2.
    assert (has_shape w (full_weight_shape k)) as S1' by (unfold full_weight_shape; rewrite Hd; exact S1). assert (has_shape w' (full_weight_shape k)) as S2' by (unfold full_weight_shape; rewrite Hd; exact S2).
    destruct (full_inv k _ _ _ _ Hops w in_H out_H W S1' E) as (Hd0 & smp & rows & Hsmp & Hrows).
    assert (forall smp s0, op_sample_Rn (k_ops k) = Ok smp -> List.length s0 = List.length (k_size k) -> linear_sampler 1 1 smp s0) as HSn.
    { intros sp l Q El. destruct l as [|p [|q [|? ?]]]; try discriminate. exact (linear2 1 1 mode pm sp p q Q). }
    assert (forall S q s1 s2, wfm (k_gdim k) S s1 -> wfm (k_gdim k) S s2 -> lin (rc 1 1 S) (op_sample_H (k_ops k) S q s1 (k_grid_H k)) (op_sample_H (k_ops k) S q s2 (k_grid_H k)) (op_sample_H (k_ops k) S q (mlin 1 1 s1 s2) (k_grid_H k))) as HSH.
    { intros S q s1 s2 W1 W2. rewrite Hd in W1, W2. exact (so2_sample_linear 1 1 T HT gmode wd S q s1 s2 grid W1 W2). }
    destruct (full_kernel_linear 1 1 k HSn HSH w w' _ in_H out_H (comb_trivial _ _ _ S1' S2') W E) as (W' & _ & E' & _).
    destruct (full_inv k _ _ _ _ Hops w' in_H out_H W' S2' E') as (_ & _ & rows' & _ & Hrows').
    rewrite <- E. symmetry. eapply (full_same k so2_inverse_angle so2_left_apply_angle act1_SE2 None Hops (grid_R2_shape s) (mask_R2_shape s) (square_nonzero s Hs) Pc ok); try eassumption.
    - intros sp g x im im' Es Hg V HA. exact (Hl g Hg sp x im im' Es V HA).
    - exact (sampled_SE2 k T gmode wd mode pm _ w in_H out_H rows eq_refl Hrows).
    - exact (sampled_SE2 k T gmode wd mode pm _ w' in_H out_H rows' eq_refl Hrows').
    - intros q o c cell Ho Hc Vc Hcell. assert (valid (k_out k :: k_cin k :: k_size k) (o :: c :: cell)) as Vi by (repeat apply valid_cons; assumption).
      apply value_SE2_local; [exact HT|rewrite Hd; apply param_rows_wfm|rewrite Hd; apply param_rows_wfm|apply ravel_lt; exact Vi|].
      apply param_rows_pick; [exact Vi|]. intros i Hi. apply (A [i; o; c] cell); [|exact Vc|exact Hcell]. repeat apply valid_cons; [lia|exact Ho|exact Hc|apply valid_nil].
  Qed.
  Lemma live_SE2_separable (ok : R -> Prop) grid k w w' : (forall g, ok g -> local2 mode pm s Pc (app2 (so2_angle_to_matrix (- g)))) -> kernel_SE2 T cin out s groups gmode given mode pm mask grid = Ok k ->
    agree_on Pc [out; 1]%nat [s; s] w w' -> same_separable k ok w w'.
  Proof using Hs.
    intros Hl Hk Ha. unfold kernel_SE2 in Hk. destruct (width_SE2 given grid) as [wd|] eqn:Ew; [|discriminate]. cbn [bind] in Hk. injection Hk as <-. set (k := Build_gkernel _ _ _ _ _ _ _ _ _ _ _) in *.
    destruct (agree_rank _ _ _ _ _ Ha) as [R1 R2]. apply separable_layer; [exact R1|exact R2|]. intros H HF.
    eapply (lifting_same (with_cin1 k)); [apply gops_ok_SE2|apply grid_R2_shape|apply mask_R2_shape|apply square_nonzero; exact Hs| |exact Ha|exact HF].
    intros smp g x im im' Es Hg V HA. exact (Hl g Hg smp x im im' Es V HA).
  Qed.
  Lemma live_SE3_lifting (ok : M3 -> Prop) grid w w' : (forall g, ok g -> local3 mode pm s Pc (app3 (tr3 g))) ->
    agree_on Pc [out; cin / groups]%nat [s; s; s] w w' -> same_lifting (lifting_kernel_SE3 T cin out s groups mode pm true grid) ok w w'.
  Proof using Hs.
    intros Hl Ha. apply lifting_layer. intros H HF. eapply (lifting_same (lifting_kernel_SE3 T cin out s groups mode pm true grid)); [apply gops_ok_SE3|apply grid_R3_shape|apply (opt_mask_R3 true)|apply cube_nonzero; exact Hs| |exact Ha|exact HF].
    intros smp g x im im' Es Hg V HA. exact (Hl g Hg smp x im im' Es V HA).
  Qed.
  Lemma live_SE3_full (ok : M3 -> Prop) grid k w w' : (forall g, ok g -> local3 mode pm s Pc (app3 (tr3 g))) -> kernel_SE3 T cin out s groups gmode given mode pm true grid = Ok k ->
    agree_on Pc [List.length grid; out; cin / groups]%nat [s; s; s] w w' -> same_full k ok w w'.
  Proof using Hs HT.
    intros Hl Hk (S1 & S2 & A). apply full_layer. intros in_H out_H W HF1 HF2 E.
    unfold kernel_SE3 in Hk. destruct (width_SE3 given grid) as [wd|] eqn:Ew; [|discriminate]. cbn [bind] in Hk. injection Hk as <-. set (k := Build_gkernel _ _ _ _ _ _ _ _ _ _ _) in *.
    assert (k_gdim k = List.length grid) as Hd by (unfold k_gdim, k; simpl; lia).
    assert (gops_ok (k_ops k) so3_matrix_inverse mul3 act1_SE3 None) as Hops by apply gops_ok_SE3.
    assert (has_shape w (full_weight_shape k)) as S1' by (unfold full_weight_shape; rewrite Hd; exact S1). assert (has_shape w' (full_weight_shape k)) as S2' by (unfold full_weight_shape; rewrite Hd; exact S2).
    destruct (full_inv k _ _ _ _ Hops w in_H out_H W S1' E) as (Hd0 & smp & rows & Hsmp & Hrows).
    assert (forall smp s0, op_sample_Rn (k_ops k) = Ok smp -> List.length s0 = List.length (k_size k) -> linear_sampler 1 1 smp s0) as HSn.
    { intros sp l Q El. destruct l as [|p [|q [|r [|? ?]]]]; try discriminate. exact (linear3 1 1 mode pm sp p q r Q). }
    assert (forall S q s1 s2, wfm (k_gdim k) S s1 -> wfm (k_gdim k) S s2 -> lin (rc 1 1 S) (op_sample_H (k_ops k) S q s1 (k_grid_H k)) (op_sample_H (k_ops k) S q s2 (k_grid_H k)) (op_sample_H (k_ops k) S q (mlin 1 1 s1 s2) (k_grid_H k))) as HSH.
    { intros S q s1 s2 W1 W2. rewrite Hd in W1, W2. exact (so3_sample_linear 1 1 T HT gmode wd S q s1 s2 grid W1 W2). }
    destruct (full_kernel_linear 1 1 k HSn HSH w w' _ in_H out_H (comb_trivial _ _ _ S1' S2') W E) as (W' & _ & E' & _).
    destruct (full_inv k _ _ _ _ Hops w' in_H out_H W' S2' E') as (_ & _ & rows' & _ & Hrows').
    rewrite <- E. symmetry. eapply (full_same k so3_matrix_inverse mul3 act1_SE3 None Hops (grid_R3_shape s) (opt_mask_R3 true s) (cube_nonzero s Hs) Pc ok); try eassumption.
    - intros sp g x im im' Es Hg V HA. exact (Hl g Hg sp x im im' Es V HA).
    - exact (sampled_SE3 k T gmode wd mode pm _ w in_H out_H rows eq_refl Hrows).
    - exact (sampled_SE3 k T gmode wd mode pm _ w' in_H out_H rows' eq_refl Hrows').
    - intros q o c cell Ho Hc Vc Hcell. assert (valid (k_out k :: k_cin k :: k_size k) (o :: c :: cell)) as Vi by (repeat apply valid_cons; assumption).
      apply value_SE3_local; [exact HT|rewrite Hd; apply param_rows_wfm|rewrite Hd; apply param_rows_wfm|apply ravel_lt; exact Vi|].
      apply param_rows_pick; [exact Vi|]. intros i Hi. apply (A [i; o; c] cell); [|exact Vc|exact Hcell]. repeat apply valid_cons; [lia|exact Ho|exact Hc|apply valid_nil].
  Qed.
  Lemma live_SE3_separable (ok : M3 -> Prop) grid k w w' : (forall g, ok g -> local3 mode pm s Pc (app3 (tr3 g))) -> kernel_SE3 T cin out s groups gmode given mode pm true grid = Ok k ->
    agree_on Pc [out; 1]%nat [s; s; s] w w' -> same_separable k ok w w'.
  Proof using Hs.
    intros Hl Hk Ha. unfold kernel_SE3 in Hk. destruct (width_SE3 given grid) as [wd|] eqn:Ew; [|discriminate]. cbn [bind] in Hk. injection Hk as <-. set (k := Build_gkernel _ _ _ _ _ _ _ _ _ _ _) in *.
    destruct (agree_rank _ _ _ _ _ Ha) as [R1 R2]. apply separable_layer; [exact R1|exact R2|]. intros H HF.
    eapply (lifting_same (with_cin1 k)); [apply gops_ok_SE3|apply grid_R3_shape|apply (opt_mask_R3 true)|apply cube_nonzero; exact Hs| |exact Ha|exact HF].
    intros smp g x im im' Es Hg V HA. exact (Hl g Hg smp x im im' Es V HA).
  Qed.
  Lemma live_E2_lifting (ok : O2 -> Prop) grid w w' : (forall g, ok g -> o2_wf g) -> (forall g, ok g -> local2 mode pm s Pc (fun v => scalv2 (o2c g) (app2 (so2_angle_to_matrix (o2a g * -1)) v))) ->
    agree_on Pc [out; cin / groups]%nat [s; s] w w' -> same_lifting (lifting_kernel_E2 T cin out s groups n m mode pm true grid) ok w w'.
  Proof using Hs.
    intros Hok Hl Ha. apply lifting_layer. intros H HF. eapply (lifting_same (lifting_kernel_E2 T cin out s groups n m mode pm true grid)); [apply gops_ok_E2|apply grid_R2_shape|apply (opt_mask_R2 true)|apply square_nonzero; exact Hs| |exact Ha|exact HF].
    intros smp g x im im' Es Hg V HA. exact (Hl g Hg smp x im im' Es V HA).
  Qed.
  Lemma live_E2_full (ok : O2 -> Prop) grid k w w' : (forall g, ok g -> o2_wf g) -> (forall g, ok g -> local2 mode pm s Pc (fun v => scalv2 (o2c g) (app2 (so2_angle_to_matrix (o2a g * -1)) v))) -> kernel_E2 T cin out s groups n m gmode given given' mode pm true grid = Ok k -> List.length grid = (n + m)%nat ->
    agree_on Pc [n + m; out; cin / groups]%nat [s; s] w w' -> same_full k ok w w'.
  Proof using Hs HT.
    intros Hok Hl Hk Hlen (S1 & S2 & A). apply full_layer. intros in_H out_H W HF1 HF2 E.
    unfold kernel_E2 in Hk. destruct (width_E2_rot given n grid) as [rw|] eqn:Erw; [|discriminate]. cbn [bind] in Hk. destruct (width_E2_ref given' n grid) as [fw|] eqn:Efw; [|discriminate]. cbn [bind] in Hk. injection Hk as <-. set (k := Build_gkernel _ _ _ _ _ _ _ _ _ _ _) in *.
    assert (k_gdim k = n + m)%nat as Hd by (unfold k_gdim, k; simpl; lia).
    assert (gops_ok (k_ops k) o2_inverse o2_left_apply_angle act1_E2 (Some o2_det)) as Hops by apply gops_ok_E2.
    assert (has_shape w (full_weight_shape k)) as S1' by (unfold full_weight_shape; rewrite Hd; exact S1). assert (has_shape w' (full_weight_shape k)) as S2' by (unfold full_weight_shape; rewrite Hd; exact S2).
    destruct (full_inv k _ _ _ _ Hops w in_H out_H W S1' E) as (Hd0 & smp & rows & Hsmp & Hrows).
    assert (forall smp s0, op_sample_Rn (k_ops k) = Ok smp -> List.length s0 = List.length (k_size k) -> linear_sampler 1 1 smp s0) as HSn.
    { intros sp l Q El. destruct l as [|p [|q [|? ?]]]; try discriminate. exact (linear2 1 1 mode pm sp p q Q). }
    assert (forall S q s1 s2, wfm (k_gdim k) S s1 -> wfm (k_gdim k) S s2 -> lin (rc 1 1 S) (op_sample_H (k_ops k) S q s1 (k_grid_H k)) (op_sample_H (k_ops k) S q s2 (k_grid_H k)) (op_sample_H (k_ops k) S q (mlin 1 1 s1 s2) (k_grid_H k))) as HSH.
    { intros S q s1 s2 W1 W2. rewrite Hd, <- Hlen in W1, W2.
      exact (split_linear 1 1 o2c o2a (fun S q s g => so2_grid_sample T gmode rw S q s g) (fun S q s g => so2_grid_sample T gmode fw S q s g) n m (so2_sample_linear 1 1 T HT gmode rw) (so2_sample_linear 1 1 T HT gmode fw) S q s1 s2 grid W1 W2). }
    destruct (full_kernel_linear 1 1 k HSn HSH w w' _ in_H out_H (comb_trivial _ _ _ S1' S2') W E) as (W' & _ & E' & _).
    destruct (full_inv k _ _ _ _ Hops w' in_H out_H W' S2' E') as (_ & _ & rows' & _ & Hrows').
    rewrite <- E. symmetry. eapply (full_same k o2_inverse o2_left_apply_angle act1_E2 (Some o2_det) Hops (grid_R2_shape s) (opt_mask_R2 true s) (square_nonzero s Hs) Pc ok); try eassumption.
    - intros sp g x im im' Es Hg V HA. exact (Hl g Hg sp x im im' Es V HA).
    - exact (sampled_E2 k T gmode rw fw n m mode pm _ w in_H out_H rows eq_refl Hd (Forall_impl _ Hok HF1) (Forall_impl _ Hok HF2) Hrows).
    - exact (sampled_E2 k T gmode rw fw n m mode pm _ w' in_H out_H rows' eq_refl Hd (Forall_impl _ Hok HF1) (Forall_impl _ Hok HF2) Hrows').
    - intros q o c cell Ho Hc Vc Hcell. assert (valid (k_out k :: k_cin k :: k_size k) (o :: c :: cell)) as Vi by (repeat apply valid_cons; assumption).
      apply value_E2_local; [exact HT|rewrite Hd, <- Hlen; apply param_rows_wfm|rewrite Hd, <- Hlen; apply param_rows_wfm|apply ravel_lt; exact Vi|].
      apply param_rows_pick; [exact Vi|]. intros i Hi. apply (A [i; o; c] cell); [|exact Vc|exact Hcell]. repeat apply valid_cons; [lia|exact Ho|exact Hc|apply valid_nil].
  Qed.
  Lemma live_E2_separable (ok : O2 -> Prop) grid k w w' : (forall g, ok g -> o2_wf g) -> (forall g, ok g -> local2 mode pm s Pc (fun v => scalv2 (o2c g) (app2 (so2_angle_to_matrix (o2a g * -1)) v))) -> kernel_E2 T cin out s groups n m gmode given given' mode pm true grid = Ok k ->
    agree_on Pc [out; 1]%nat [s; s] w w' -> same_separable k ok w w'.
  Proof using Hs.
    intros Hok Hl Hk Ha. unfold kernel_E2 in Hk. destruct (width_E2_rot given n grid) as [rw|] eqn:Erw; [|discriminate]. cbn [bind] in Hk. destruct (width_E2_ref given' n grid) as [fw|] eqn:Efw; [|discriminate]. cbn [bind] in Hk. injection Hk as <-. set (k := Build_gkernel _ _ _ _ _ _ _ _ _ _ _) in *.
    destruct (agree_rank _ _ _ _ _ Ha) as [R1 R2]. apply separable_layer; [exact R1|exact R2|]. intros H HF.
    eapply (lifting_same (with_cin1 k)); [apply gops_ok_E2|apply grid_R2_shape|apply (opt_mask_R2 true)|apply square_nonzero; exact Hs| |exact Ha|exact HF].
    intros smp g x im im' Es Hg V HA. exact (Hl g Hg smp x im im' Es V HA).
  Qed.
  Lemma live_E3_lifting (ok : O3 -> Prop) grid w w' : (forall g, ok g -> o3_wf g) -> (forall g, ok g -> local3 mode pm s Pc (fun v => scalv3 (o3c g) (app3 (tr3 (o3r g)) v))) ->
    agree_on Pc [out; cin / groups]%nat [s; s; s] w w' -> same_lifting (lifting_kernel_E3 T cin out s groups n m mode pm true grid) ok w w'.
  Proof using Hs.
    intros Hok Hl Ha. apply lifting_layer. intros H HF. eapply (lifting_same (lifting_kernel_E3 T cin out s groups n m mode pm true grid)); [apply gops_ok_E3|apply grid_R3_shape|apply (opt_mask_R3 true)|apply cube_nonzero; exact Hs| |exact Ha|exact HF].
    intros smp g x im im' Es Hg V HA. exact (Hl g Hg smp x im im' Es V HA).
  Qed.
  Lemma live_E3_full (ok : O3 -> Prop) grid k w w' : (forall g, ok g -> o3_wf g) -> (forall g, ok g -> local3 mode pm s Pc (fun v => scalv3 (o3c g) (app3 (tr3 (o3r g)) v))) -> kernel_E3 T cin out s groups n m gmode given given' mode pm true grid = Ok k -> List.length grid = (n + m)%nat ->
    agree_on Pc [n + m; out; cin / groups]%nat [s; s; s] w w' -> same_full k ok w w'.
  Proof using Hs HT.
    intros Hok Hl Hk Hlen (S1 & S2 & A). apply full_layer. intros in_H out_H W HF1 HF2 E.
    unfold kernel_E3 in Hk. destruct (width_E3_rot given n grid) as [rw|] eqn:Erw; [|discriminate]. cbn [bind] in Hk. destruct (width_E3_ref given' n grid) as [fw|] eqn:Efw; [|discriminate]. cbn [bind] in Hk. injection Hk as <-. set (k := Build_gkernel _ _ _ _ _ _ _ _ _ _ _) in *.
    assert (k_gdim k = n + m)%nat as Hd by (unfold k_gdim, k; simpl; lia).
    assert (gops_ok (k_ops k) o3_inverse o3_left_apply_O3 act1_E3 (Some o3_det)) as Hops by apply gops_ok_E3.
    assert (has_shape w (full_weight_shape k)) as S1' by (unfold full_weight_shape; rewrite Hd; exact S1). assert (has_shape w' (full_weight_shape k)) as S2' by (unfold full_weight_shape; rewrite Hd; exact S2).
    destruct (full_inv k _ _ _ _ Hops w in_H out_H W S1' E) as (Hd0 & smp & rows & Hsmp & Hrows).
    assert (forall smp s0, op_sample_Rn (k_ops k) = Ok smp -> List.length s0 = List.length (k_size k) -> linear_sampler 1 1 smp s0) as HSn.
    { intros sp l Q El. destruct l as [|p [|q [|r [|? ?]]]]; try discriminate. exact (linear3 1 1 mode pm sp p q r Q). }
    assert (forall S q s1 s2, wfm (k_gdim k) S s1 -> wfm (k_gdim k) S s2 -> lin (rc 1 1 S) (op_sample_H (k_ops k) S q s1 (k_grid_H k)) (op_sample_H (k_ops k) S q s2 (k_grid_H k)) (op_sample_H (k_ops k) S q (mlin 1 1 s1 s2) (k_grid_H k))) as HSH.
    { intros S q s1 s2 W1 W2. rewrite Hd, <- Hlen in W1, W2.
      exact (split_linear 1 1 o3c o3r (fun S q s g => so3_grid_sample_matrix T gmode rw S q s g) (fun S q s g => so3_grid_sample_matrix T gmode fw S q s g) n m (so3_sample_linear 1 1 T HT gmode rw) (so3_sample_linear 1 1 T HT gmode fw) S q s1 s2 grid W1 W2). }
    destruct (full_kernel_linear 1 1 k HSn HSH w w' _ in_H out_H (comb_trivial _ _ _ S1' S2') W E) as (W' & _ & E' & _).
    destruct (full_inv k _ _ _ _ Hops w' in_H out_H W' S2' E') as (_ & _ & rows' & _ & Hrows').
    rewrite <- E. symmetry. eapply (full_same k o3_inverse o3_left_apply_O3 act1_E3 (Some o3_det) Hops (grid_R3_shape s) (opt_mask_R3 true s) (cube_nonzero s Hs) Pc ok); try eassumption.
    - intros sp g x im im' Es Hg V HA. exact (Hl g Hg sp x im im' Es V HA).
    - exact (sampled_E3 k T gmode rw fw n m mode pm _ w in_H out_H rows eq_refl Hd (Forall_impl _ Hok HF1) (Forall_impl _ Hok HF2) Hrows).
    - exact (sampled_E3 k T gmode rw fw n m mode pm _ w' in_H out_H rows' eq_refl Hd (Forall_impl _ Hok HF1) (Forall_impl _ Hok HF2) Hrows').
    - intros q o c cell Ho Hc Vc Hcell. assert (valid (k_out k :: k_cin k :: k_size k) (o :: c :: cell)) as Vi by (repeat apply valid_cons; assumption).
      apply value_E3_local; [exact HT|rewrite Hd, <- Hlen; apply param_rows_wfm|rewrite Hd, <- Hlen; apply param_rows_wfm|apply ravel_lt; exact Vi|].
      apply param_rows_pick; [exact Vi|]. intros i Hi. apply (A [i; o; c] cell); [|exact Vc|exact Hcell]. repeat apply valid_cons; [lia|exact Ho|exact Hc|apply valid_nil].
  Qed.
  Lemma live_E3_separable (ok : O3 -> Prop) grid k w w' : (forall g, ok g -> o3_wf g) -> (forall g, ok g -> local3 mode pm s Pc (fun v => scalv3 (o3c g) (app3 (tr3 (o3r g)) v))) -> kernel_E3 T cin out s groups n m gmode given given' mode pm true grid = Ok k ->
    agree_on Pc [out; 1]%nat [s; s; s] w w' -> same_separable k ok w w'.
  Proof using Hs.
    intros Hok Hl Hk Ha. unfold kernel_E3 in Hk. destruct (width_E3_rot given n grid) as [rw|] eqn:Erw; [|discriminate]. cbn [bind] in Hk. destruct (width_E3_ref given' n grid) as [fw|] eqn:Efw; [|discriminate]. cbn [bind] in Hk. injection Hk as <-. set (k := Build_gkernel _ _ _ _ _ _ _ _ _ _ _) in *.
    destruct (agree_rank _ _ _ _ _ Ha) as [R1 R2]. apply separable_layer; [exact R1|exact R2|]. intros H HF.
    eapply (lifting_same (with_cin1 k)); [apply gops_ok_E3|apply grid_R3_shape|apply (opt_mask_R3 true)|apply cube_nonzero; exact Hs| |exact Ha|exact HF].
    intros smp g x im im' Es Hg V HA. exact (Hl g Hg smp x im im' Es V HA).
  Qed.
End Groups.

(** ** Which cells: rotations; quarter turns and cube symmetries with a window of 3 cells per axis *)
Lemma seen_local2 mode pm s (f : V2 -> V2) : mode <> "bicubic"%string -> (0 < s)%nat -> (forall v, norm2 (f v) = norm2 v) -> local2 mode pm s (seen s) f.
Proof. intros Hm Hs Hf smp x im im' Es V H. eapply masked2; try eassumption. apply Hf. Qed.
Lemma seen_local3 mode pm s (f : V3 -> V3) : (0 < s)%nat -> (forall v, norm3 (f v) = norm3 v) -> local3 mode pm s (seen s) f.
Proof. intros Hs Hf smp x im im' Es V H. eapply masked3; try eassumption. apply Hf. Qed.
Definition nz (x : R) : nat := if Req_EM_T x 0 then 0%nat else 1%nat.
Lemma middle pm i : close [Z.of_nat i] [gs_coord pm 3 0] -> i = 1%nat.
Proof.
  assert (gs_coord pm 3 0 = 1) as ->.
  { assert (gs_unnormalize 3 0 = 1) as E by (unfold gs_unnormalize; simpl; field). unfold gs_coord, gs_place. rewrite E. destruct pm; [reflexivity| |].
    - apply clamp_id. simpl; lra.
    - rewrite reflect_inside; [apply clamp_id; simpl; lra|lia|simpl; lra]. }
  intros H. inversion H as [|? ? ? ? K _]; subst. apply Rabs_def2 in K. destruct K as [K1 K2].
  assert (IZR (Z.of_nat i) < 2) as K1' by lra. assert (0 < IZR (Z.of_nat i)) as K2' by lra. apply lt_IZR in K1'. apply lt_IZR in K2'. lia.
Qed.
Lemma close_axis pm cell : forall u n, List.length u = n -> close (map Z.of_nat cell) (map2 (fun n x => gs_coord pm n x) (repeat 3%nat n) u) ->
  (List.length (filter (fun i => negb (i =? 1)) cell) <= fold_right Nat.add 0 (map nz u))%nat.
Proof.
  induction cell as [|i cell IH]; intros u n L H; [cbn; lia|]. destruct u as [|x u]; destruct n as [|n]; try discriminate; [inversion H|].
  cbn [repeat map2 map] in H. inversion H as [|? ? ? ? H1 H2]; subst. specialize (IH u n ltac:(cbn in L; lia) H2). cbn [filter map fold_right].
  assert (x = 0 -> i = 1%nat) as K by (intros ->; apply (middle pm); constructor; [exact H1|constructor]).
  unfold nz at 1. destruct (Req_EM_T x 0) as [E|E]; destruct (Nat.eqb_spec i 1) as [Q|Q]; cbn [negb List.length]; try lia. exfalso. apply Q, K, E.
Qed.
Lemma axis_local linear pm n im im' u : List.length u = n -> (fold_right Nat.add 0 (map nz u) <= 1)%nat ->
  (forall cell, valid (repeat 3%nat n) cell -> on_an_axis cell -> at_ (mkT (repeat 3%nat n) im) cell = at_ (mkT (repeat 3%nat n) im') cell) ->
  (if linear : bool then gs_linear pm (repeat 3%nat n) im u else gs_nearest pm (repeat 3%nat n) im u) = (if linear then gs_linear pm (repeat 3%nat n) im' u else gs_nearest pm (repeat 3%nat n) im' u).
Proof.
  intros L Hu H. apply sampled_local; [rewrite repeat_length; exact L|]. intros cell Hc Hz. apply H; [exact Hc|]. unfold on_an_axis. eapply Nat.le_trans; [eapply close_axis; eassumption|exact Hu].
Qed.
Lemma nz_unit x : unit_entry x -> (x = 0 /\ nz x = 0%nat) \/ (x * x = 1 /\ nz x = 1%nat).
Proof. intros [ -> | [ -> | -> ]]; unfold nz; destruct (Req_EM_T _ 0); [lra|right; split; [ring|reflexivity]|left; auto|lra|lra|right; split; [ring|reflexivity]]. Qed.
Lemma lin3_unit i : (i < 3)%nat -> unit_entry (FunctionalFacts.lin 3 i).
Proof. intros H. unfold FunctionalFacts.lin, unit_entry. destruct i as [|[|[|]]]; [| | |lia]; simpl; [left|right; left|right; right]; field. Qed.
Lemma unit_mul x y : unit_entry x -> unit_entry y -> unit_entry (x * y).
Proof. unfold unit_entry. intros [ -> | [ -> | -> ]] [ -> | [ -> | -> ]]; lra. Qed.
Lemma unit_opp x : unit_entry x -> unit_entry (- x).
Proof. unfold unit_entry. intros [ -> | [ -> | -> ]]; lra. Qed.
(** Coordinates -1, 0, 1 in the ball: at most one is not 0. *)
Lemma one_nonzero2 v : unit_entry (v2x v) -> unit_entry (v2y v) -> norm2 v < 11 / 10 -> (v2x v = 0 \/ v2y v = 0) /\ (fold_right Nat.add 0 (map nz (axis2 v)) <= 1)%nat.
Proof.
  intros H1 H2 Hn. unfold norm2, dot2 in Hn. apply norm_ball in Hn; [|nra]. unfold axis2. cbn [map fold_right].
  destruct (nz_unit _ H1) as [[E1 ->]|[E1 ->]], (nz_unit _ H2) as [[E2 ->]|[E2 ->]]; try (split; [auto|lia]). exfalso. lra.
Qed.
Lemma one_nonzero3 v : unit_entry (vx v) -> unit_entry (vy v) -> unit_entry (vz v) -> norm3 v < 11 / 10 ->
  (vx v = 0 /\ vy v = 0 \/ vx v = 0 /\ vz v = 0 \/ vy v = 0 /\ vz v = 0) /\ (fold_right Nat.add 0 (map nz (axis3 v)) <= 1)%nat.
Proof.
  intros H1 H2 H3 Hn. unfold norm3, dot3 in Hn. apply norm_ball in Hn; [|nra]. unfold axis3. cbn [map fold_right].
  destruct (nz_unit _ H1) as [[E1 ->]|[E1 ->]], (nz_unit _ H2) as [[E2 ->]|[E2 ->]], (nz_unit _ H3) as [[E3 ->]|[E3 ->]]; try (split; [auto|lia]); exfalso; nra.
Qed.
Lemma axis_local2 mode pm (f : V2 -> V2) : mode <> "bicubic"%string -> (forall v, norm2 (f v) = norm2 v) ->
  (forall v, unit_entry (v2x v) -> unit_entry (v2y v) -> v2x v = 0 \/ v2y v = 0 -> unit_entry (v2x (f v)) /\ unit_entry (v2y (f v))) -> local2 mode pm 3 on_an_axis f.
Proof.
  intros Hm Hf Hu smp x im im' Hsmp V H. destruct (not_cubic2 _ _ _ Hm Hsmp) as (b & p & ->). rewrite (mask_R2_at 3 x V). unfold lt_float. destruct (Rlt_dec _ _) as [Hn|_]; [|ring].
  f_equal. apply valid_inv_cons in V as (i & x1 & -> & Hi & V). apply valid_inv_cons in V as (j & x2 & -> & Hj & V). apply valid_inv_nil in V as ->. rewrite grid_R2_at in * by assumption.
  set (v := mkV2 _ _) in *. assert (unit_entry (v2x v)) as U1 by (apply lin3_unit; exact Hi). assert (unit_entry (v2y v)) as U2 by (apply lin3_unit; exact Hj).
  destruct (one_nonzero2 v U1 U2 Hn) as [Z _]. destruct (Hu v U1 U2 Z) as [U3 U4]. rewrite <- Hf in Hn. destruct (one_nonzero2 (f v) U3 U4 Hn) as [_ K].
  unfold gs2. apply (axis_local b p 2 im im' (axis2 (f v)) eq_refl K). exact H.
Qed.
Lemma axis_local3 mode pm (f : V3 -> V3) : (forall v, norm3 (f v) = norm3 v) ->
  (forall v, unit_entry (vx v) -> unit_entry (vy v) -> unit_entry (vz v) -> vx v = 0 /\ vy v = 0 \/ vx v = 0 /\ vz v = 0 \/ vy v = 0 /\ vz v = 0 ->
     unit_entry (vx (f v)) /\ unit_entry (vy (f v)) /\ unit_entry (vz (f v))) -> local3 mode pm 3 on_an_axis f.
Proof.
  intros Hf Hu smp x im im' Hsmp V H. destruct (not_cubic3 _ _ _ Hsmp) as (b & p & ->). rewrite (mask_R3_at 3 x V). unfold lt_float. destruct (Rlt_dec _ _) as [Hn|_]; [|ring].
  f_equal. apply valid_inv_cons in V as (i & x1 & -> & Hi & V). apply valid_inv_cons in V as (j & x2 & -> & Hj & V). apply valid_inv_cons in V as (l & x3 & -> & Hl & V). apply valid_inv_nil in V as ->.
  rewrite grid_R3_at in * by assumption.
  set (v := mkV3 _ _ _) in *. assert (unit_entry (vx v)) as U1 by (apply lin3_unit; exact Hl). assert (unit_entry (vy v)) as U2 by (apply lin3_unit; exact Hj). assert (unit_entry (vz v)) as U3 by (apply lin3_unit; exact Hi).
  destruct (one_nonzero3 v U1 U2 U3 Hn) as [Z _]. destruct (Hu v U1 U2 U3 Z) as (U4 & U5 & U6). rewrite <- Hf in Hn. destruct (one_nonzero3 (f v) U4 U5 U6 Hn) as [_ K].
  unfold gs3. apply (axis_local b p 3 im im' (axis3 (f v)) eq_refl K). exact H.
Qed.
