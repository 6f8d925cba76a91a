(** Facts about the public layers. *)
From Coq Require Import String ZArith Permutation.
From Verif Require Import Prelude RMath Mat Interp SO2 SO2Facts O2 O2Facts SO3 SO3Facts SO3More O3 O3Facts Repulse RepulseFacts GridTables GridCache
  GridCacheFacts Tensor TensorFacts SignedPerm Kernel KernelFacts KernelMore WidthFacts Conv ConvSpec ConvFacts GConvFacts ConvInit Public.
Open Scope R_scope.

(** ** Specification *)

(** Positive sizes, one padding entry per axis, a bias of the documented shape. *)
Definition usable (d s st dl cin cout : nat) (padding : padarg) (bias : option (tensor R)) : Prop :=
  (0 < s)%nat /\ (0 < st)%nat /\ (0 < dl)%nat /\ (0 < cin)%nat /\ (0 < cout)%nat /\
  match padding with PTuple l => List.length l = d | _ => True end /\ bias_shape_ok d cout bias.

(** The exception of a rejected configuration. *)
Definition rejection (cin : nat) (groups : Z) (e : exn) : Prop :=
  (groups = 0%Z -> e = ZeroDivisionError) /\
  ((groups < 0)%Z -> (0 < cin)%nat -> e = RuntimeError) /\
  ((0 < groups)%Z \/ ((groups < 0)%Z /\ cin = 0%nat) -> e = ValueError).

(** The result of a constructor: a layer with kernel k. *)
Definition built {G P} (d : nat) (r : result (gmodule G P)) (k : gkernel G P) (cin cout s : nat) (groups : Z) (st : nat)
    (padding : padarg) (dl : nat) (pmode : string) (permute : bool) (bias : option (tensor R)) : Prop :=
  exists L, r = Ok (mkModule L permute) /\ l_kernel L = k /\
    (usable d s st dl cin cout padding bias -> exists m, padmode_of pmode = Some m /\
       constructed d L cin cout (repeat s d) k (Z.to_nat groups) (repeat st d) padding (repeat dl d) m bias).

(** H' is H, or one element r applied to it from the left; same length, same relative elements. *)
Definition rigidly_moved {G} (mul : G -> G -> G) (inv : G -> G) (element : G -> Prop) (permute : bool) (H H' : list G) : Prop :=
  (permute = false -> H' = H) /\
  (permute = true -> exists r, element r /\ H' = map (mul r) H) /\
  List.length H' = List.length H /\
  forall i j a b a' b', nth_error H i = Some a -> nth_error H j = Some b -> nth_error H' i = Some a' -> nth_error H' j = Some b' ->
    mul (inv a') b' = mul (inv a) b.

(** ** Proofs *)
Lemma weight_groups_pos cin groups : (0 < groups)%Z -> kernel_weight_groups cin groups = Ok (Z.to_nat groups).
Proof.
  intros H. unfold kernel_weight_groups. destruct (Z.eqb_spec groups 0); [lia|].
  destruct (Z.ltb_spec (Z.of_nat cin / groups) 0) as [A|A]; [|reflexivity].
  assert (0 <= Z.of_nat cin / groups)%Z by (apply Z.div_pos; lia). lia.
Qed.
Lemma weight_groups_neg cin groups : (groups < 0)%Z -> (0 < cin)%nat -> kernel_weight_groups cin groups = Err RuntimeError.
Proof.
  intros H Hc. unfold kernel_weight_groups. destruct (Z.eqb_spec groups 0); [lia|].
  destruct (Z.ltb_spec (Z.of_nat cin / groups) 0) as [A|A]; [reflexivity|].
  exfalso. pose proof (Z.mul_div_ge (Z.of_nat cin) (-groups)). 
  assert (Z.of_nat cin / groups < 0)%Z; [|lia].
  destruct (Z.lt_ge_cases (Z.of_nat cin / groups) 0) as [B|B]; [assumption|].
  pose proof (Z.div_mod (Z.of_nat cin) groups ltac:(lia)) as E. pose proof (Z.mod_neg_bound (Z.of_nat cin) groups H). nia.
Qed.
Lemma weight_groups_zero cin : kernel_weight_groups cin 0 = Err ZeroDivisionError.
Proof. reflexivity. Qed.
Lemma weight_groups_empty groups : (groups < 0)%Z -> kernel_weight_groups 0 groups = Ok (Z.to_nat groups).
Proof.
  intros H. unfold kernel_weight_groups. destruct (Z.eqb_spec groups 0); [lia|]. reflexivity.
Qed.

Section Make.
  Context {G P : Type} (d : nat) (conv_mode : string)
    (Hd : conv_mode = "2d"%string /\ d = 2%nat \/ conv_mode = "3d"%string /\ d = 3%nat)
    (cin cout s : nat) (groups : Z) (st : nat) (padding : padarg) (dl : nat) (pmode : string) (permute : bool) (bias : option (tensor R)).
  Definition make (gks : gk_arg) (k : gkernel G P) : result (gmodule G P) :=
    L <- gconv_init conv_mode cin cout (repeat s d) gks k groups (repeat st d) padding (repeat dl d) pmode bias ;;
    Ok (mkModule L permute).

  Lemma make_ok gks k : k_size k = repeat s d -> valid_config gks cin cout groups padding (repeat st d) pmode ->
    built d (make gks k) k cin cout s groups st padding dl pmode permute bias.
  Proof.
    intros Hk Hv. destruct (check_config_spec gks cin cout groups padding (repeat st d) pmode) as [A _].
    pose proof (proj2 A Hv) as E.
    assert (exists L, gconv_init conv_mode cin cout (repeat s d) gks k groups (repeat st d) padding (repeat dl d) pmode bias = Ok L) as [L EL].
    { unfold gconv_init. rewrite E. destruct Hd as [[-> ->]|[-> ->]]; cbn; eauto. }
    exists L. unfold make. rewrite EL. split; [reflexivity|].
    destruct (gconv_init_fields _ _ _ _ _ _ _ _ _ _ _ _ _ _ Hd EL) as (_ & Ek & _). split; [assumption|].
    intros (U1 & U2 & U3 & U4 & U5 & U6 & U7). pose proof Hv as (_ & V1 & _ & _ & _ & V5).
    apply padmode_of_some in V5. destruct V5 as [m Hm]. exists m. split; [assumption|].
    exists conv_mode, gks, pmode. split; [assumption|].
    split; [rewrite Z2Nat.id by lia; exact EL|]. split; [assumption|].
    split; [|split; [assumption|split; assumption]].
    split; [apply repeat_length|]. split; [apply repeat_length|]. split; [apply repeat_length|].
    split; [assumption|]. split; [assumption|].
    split; [intros x Hx; apply repeat_spec in Hx; lia|].
    split; intros x Hx; apply repeat_spec in Hx; lia.
  Qed.
  Lemma make_err gks k : ~ valid_config gks cin cout groups padding (repeat st d) pmode -> make gks k = Err ValueError.
  Proof.
    intros Hv. unfold make, gconv_init.
    rewrite (proj2 (check_config_spec gks cin cout groups padding (repeat st d) pmode) Hv). reflexivity.
  Qed.

  (** kernel parameter first, then validation. *)
  Lemma lifting_ctor gks (mk : nat -> gkernel G P) : (forall g, k_size (mk g) = repeat s d) ->
    let r := (g <- kernel_weight_groups cin groups ;; make gks (mk g)) in
    (valid_config gks cin cout groups padding (repeat st d) pmode ->
       built d r (mk (Z.to_nat groups)) cin cout s groups st padding dl pmode permute bias) /\
    (~ valid_config gks cin cout groups padding (repeat st d) pmode -> exists e, r = Err e /\ rejection cin groups e).
  Proof.
    intros Hk r. split.
    - intros Hv. unfold r. rewrite weight_groups_pos by apply Hv. cbn [bind]. apply make_ok; auto.
    - intros Hv. unfold r. destruct (Z.lt_total groups 0) as [Hg|[Hg|Hg]].
      + destruct (Nat.eq_dec cin 0) as [Ec|Ec].
        * replace (kernel_weight_groups cin groups) with (Ok (Z.to_nat groups)) by (rewrite Ec, weight_groups_empty by assumption; reflexivity).
          cbn [bind]. exists ValueError. split; [apply make_err; assumption|]. unfold rejection. repeat split; intros; try lia; reflexivity.
        * rewrite weight_groups_neg by lia. exists RuntimeError. split; [reflexivity|].
          unfold rejection. repeat split; intros; try lia.
      + replace (kernel_weight_groups cin groups) with (@Err nat ZeroDivisionError) by (rewrite Hg; reflexivity). exists ZeroDivisionError. split; [reflexivity|]. unfold rejection. repeat split; intros; lia.
      + rewrite weight_groups_pos by assumption. cbn [bind]. exists ValueError. split; [apply make_err; assumption|].
        unfold rejection. repeat split; intros; try lia; reflexivity.
  Qed.
End Make.

Lemma make2_make {G} cin cout s groups st padding dl pmode permute bias gks (k : gkernel G V2) :
  make2 cin cout s groups st padding dl pmode permute bias gks k
  = make 2 "2d" cin cout s groups st padding dl pmode permute bias gks k.
Proof. reflexivity. Qed.
Lemma make3_make {G} cin cout s groups st padding dl pmode permute bias gks (k : gkernel G V3) :
  make3 cin cout s groups st padding dl pmode permute bias gks k
  = make 3 "3d" cin cout s groups st padding dl pmode permute bias gks k.
Proof. reflexivity. Qed.

(** A kernel built from given groups; widths first. *)
Lemma bind_assoc_groups {G P} (r : result (gkernel G P)) k cin groups f : r = Ok k ->
  (k <- r ;; _ <- kernel_weight_groups cin groups ;; f k : result (gmodule G P)) = (_ <- kernel_weight_groups cin groups ;; f k).
Proof. intros ->. reflexivity. Qed.

Lemma width_SE2_ok w grid : (w <> 0 \/ grid <> []) <-> exists x, width_SE2 w grid = Ok x.
Proof.
  unfold width_SE2. destruct (Req_dec w 0) as [->|Hw].
  - split.
    + intros [H|H]; [congruence|]. rewrite so2_width_const by assumption. eauto.
    + intros [x H]. right. intros ->. rewrite so2_width_empty in H. discriminate.
  - rewrite default_width_given by assumption. split; eauto.
Qed.
Lemma width_SE2_err w grid e : width_SE2 w grid = Err e -> e = IndexError.
Proof.
  unfold width_SE2. destruct (Req_dec w 0) as [->|Hw].
  - destruct grid; [rewrite so2_width_empty|rewrite so2_width_const by discriminate]; congruence.
  - rewrite default_width_given by assumption. discriminate.
Qed.

Lemma mapM_second_ok {A B} (f : A -> B -> R) (l : list A) (q : list B) : (2 <= List.length q)%nat ->
  exists d, mapM (fun a => of_option IndexError (nth_error (sortR (map (f a) q)) 1)) l = Ok d.
Proof.
  intros Hq. induction l as [|a l [d IH]]; [exists []; reflexivity|]. cbn [mapM].
  destruct (nth_error (sortR (map (f a) q)) 1) as [x|] eqn:E.
  - cbn [of_option bind]. rewrite IH. cbn. eauto.
  - apply nth_error_None in E. assert (List.length (sortR (map (f a) q)) = List.length q) as Hl; [|lia].
    rewrite <- (map_length (f a) q). apply Permutation_length, Permutation_sym, sortR_perm.
Qed.
Lemma width_SE3_ok w grid : (w <> 0 \/ (2 <= List.length grid)%nat) <-> exists x, width_SE3 w grid = Ok x.
Proof.
  unfold width_SE3. destruct (Req_dec w 0) as [->|Hw].
  - rewrite default_width_zero. unfold so3_nearest_neighbour_distance_matrix, so3_nearest_neighbour_distance.
    rewrite map_length. destruct (Nat.ltb_spec (List.length grid) 2) as [A|A].
    + split; [intros [H|H]; [congruence|lia]|intros [x H]; discriminate].
    + split; [intros _|auto].
      destruct (mapM_second_ok (fun a b => so3_geodesic_distance a b so3_eps) (map so3_matrix_to_quat grid) (map so3_matrix_to_quat grid)) as [d E].
      { rewrite map_length. assumption. }
      rewrite E. cbn. eauto.
  - rewrite default_width_given by assumption. split; eauto.
Qed.

Lemma width_E2_rot_ok w n grid : (w <> 0 \/ firstn n grid <> []) <-> exists x, width_E2_rot w n grid = Ok x.
Proof.
  change (width_E2_rot w n grid) with (width_SE2 w (map o2a (firstn n grid))). rewrite <- width_SE2_ok.
  destruct (firstn n grid); split; intros [H|H]; auto; try (right; discriminate); congruence.
Qed.
Lemma width_E2_ref_ok w n grid : (w <> 0 \/ skipn n grid <> []) <-> exists x, width_E2_ref w n grid = Ok x.
Proof.
  change (width_E2_ref w n grid) with (width_SE2 w (map o2a (skipn n grid))). rewrite <- width_SE2_ok.
  destruct (skipn n grid); split; intros [H|H]; auto; try (right; discriminate); congruence.
Qed.
Lemma width_flat_ok w (half : list O3) : (w <> 0 \/ (2 <= List.length half)%nat) <->
  exists x, default_width w (so3_nearest_neighbour_distance_flat (map o3_flat half)) = Ok x.
Proof.
  destruct (Req_dec w 0) as [->|Hw].
  - rewrite default_width_zero. unfold so3_nearest_neighbour_distance_flat.
    rewrite map_length. destruct (Nat.ltb_spec (List.length half) 2) as [A|A].
    + split; [intros [H|H]; [congruence|lia]|intros [x H]; discriminate].
    + split; [intros _|auto].
      destruct (mapM_second_ok (fun a b => flat_geodesic a b so3_eps) (map o3_flat half) (map o3_flat half)) as [d E].
      { rewrite map_length. assumption. }
      rewrite E. cbn. eauto.
  - rewrite default_width_given by assumption. split; eauto.
Qed.
Lemma width_E3_rot_ok w n grid : (w <> 0 \/ (2 <= List.length (firstn n grid))%nat) <-> exists x, width_E3_rot w n grid = Ok x.
Proof. apply width_flat_ok. Qed.
Lemma width_E3_ref_ok w n grid : (w <> 0 \/ (2 <= List.length (skipn n grid))%nat) <-> exists x, width_E3_ref w n grid = Ok x.
Proof. apply width_flat_ok. Qed.

(** Whatever is missing, the error is IndexError. *)
Lemma default_width_err w r e : (forall e, r = Err e -> e = IndexError) -> default_width w r = Err e -> e = IndexError.
Proof.
  intros H E. unfold default_width in E. destruct (Req_EM_T w 0); [|discriminate].
  destruct r; [discriminate|]. cbn in E. injection E as <-. auto.
Qed.
Lemma mapM_err_index {A B} (f : A -> result B) l e : (forall a e, f a = Err e -> e = IndexError) -> mapM f l = Err e -> e = IndexError.
Proof.
  intros H. induction l as [|a l IH]; [discriminate|]. cbn [mapM]. destruct (f a) eqn:Ea; cbn [bind].
  - destruct (mapM f l); [discriminate|]. cbn. intros E. injection E as <-. auto.
  - intros E. injection E as <-. eauto.
Qed.
Lemma width_SE3_err w grid e : width_SE3 w grid = Err e -> e = IndexError.
Proof.
  apply default_width_err. intros e' H. unfold so3_nearest_neighbour_distance_matrix, so3_nearest_neighbour_distance in H.
  destruct (Nat.ltb _ _); [congruence|]. revert H. apply mapM_err_index. intros a e1. destruct (nth_error _ 1); simpl; congruence.
Qed.
Lemma width_flat_err w q e : default_width w (so3_nearest_neighbour_distance_flat q) = Err e -> e = IndexError.
Proof.
  apply default_width_err. intros e' H. unfold so3_nearest_neighbour_distance_flat in H.
  destruct (Nat.ltb _ _); [congruence|]. revert H. apply mapM_err_index. intros a e1. destruct (nth_error _ 1); simpl; congruence.
Qed.
Lemma width_E2_rot_err w n grid e : width_E2_rot w n grid = Err e -> e = IndexError.
Proof. exact (width_SE2_err w (map o2a (firstn n grid)) e). Qed.
Lemma width_E2_ref_err w n grid e : width_E2_ref w n grid = Err e -> e = IndexError.
Proof. exact (width_SE2_err w (map o2a (skipn n grid)) e). Qed.

(** The returned grid is the one the kernel was sampled on. *)
Lemma lifting_forward_grid {G P} {D : Dflt P} (L : gconv G P) weight X H Y H' :
  lifting_forward L weight X H = Ok (Y, H') -> H' = H.
Proof.
  unfold lifting_forward. intros E.
  repeat match type of E with bind ?r _ = _ => destruct r; cbn [bind] in E; [|discriminate] end. congruence.
Qed.
Lemma full_forward_grid {G P} {D : Dflt P} (L : gconv G P) weight X in_H H Y H' :
  full_forward L weight X in_H H = Ok (Y, H') -> H' = H.
Proof.
  unfold full_forward, group_forward_with. intros E. destruct (shape X) as [|N [|C [|h dims]]]; try discriminate.
  cbv zeta in E.
  repeat match type of E with bind ?r _ = _ => destruct r; cbn [bind] in E; [|discriminate] end. congruence.
Qed.
Lemma separable_forward_grid {G P} {D : Dflt P} (L : gconv G P) wH weight X in_H H Y H' :
  separable_forward L wH weight X in_H H = Ok (Y, H') -> H' = H.
Proof.
  unfold separable_forward. intros E. destruct (shape X) as [|N [|C [|h dims]]]; try discriminate.
  cbv zeta in E.
  repeat match type of E with bind ?r _ = _ => destruct r; cbn [bind] in E; [|discriminate] end. congruence.
Qed.

Lemma bcast_left_one {G} (mul : G -> G -> G) r H : bcast_left mul [r] H = map (mul r) H.
Proof. unfold bcast_left. cbn. apply app_nil_r. Qed.
Lemma permuted_rigid {G P} (M : gmodule G P) mul inv (element : G -> Prop) r rs H : rs = [r] -> element r ->
  (forall a b, mul (inv (mul r a)) (mul r b) = mul (inv a) b) ->
  rigidly_moved mul inv element (gm_permute M) H (permuted M mul rs H).
Proof.
  intros -> He Hrel. unfold rigidly_moved, permuted. destruct (gm_permute M); rewrite ?bcast_left_one.
  - split; [discriminate|]. split; [eauto|]. split; [apply map_length|].
    intros i j a b a' b' Hi Hj Hi' Hj'. rewrite nth_error_map, Hi in Hi'. rewrite nth_error_map, Hj in Hj'. cbn in Hi', Hj'.
    injection Hi' as <-. injection Hj' as <-. apply Hrel.
  - split; [reflexivity|]. split; [discriminate|]. split; [reflexivity|]. intros; congruence.
Qed.
