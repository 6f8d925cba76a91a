(** Property theorems C07-C10 (gconv/geometry/groups/o2.py). *)
From Coq Require Import String.
From Verif Require Import Prelude RMath Mat Interp InterpFacts InterpExample SO2 SO2Facts OSplit OSplitFacts O2 O2Facts.
Open Scope R_scope.

(** C07 ([o2_wf]: the coefficient is 1 or -1) *)
Theorem C07_o2_group_laws : forall a b c : O2, o2_wf a -> o2_wf b ->
  o2_left_apply_angle a (o2_left_apply_angle b c)
    = o2_left_apply_angle (o2_left_apply_angle a b) c /\
  o2_left_apply_angle (mkO2 1 0) a = mkO2 (o2c a) (Rmod (o2a a) (2 * PI)) /\
  o2_left_apply_angle (o2_inverse a) a = mkO2 1 0 /\
  o2_left_apply_angle a (o2_inverse a) = mkO2 1 0 /\
  o2_det (o2_left_apply_angle a b) = o2_det a * o2_det b /\
  o2_wf (o2_left_apply_angle a b) /\ o2_wf (o2_inverse a).
Proof.
  exact (fun a b c Ha Hb => conj (o2_assoc a b c) (conj (o2_neutral a) (conj (o2_inv_l a Ha)
    (conj (o2_inv_r a Ha) (conj (o2_det_mul a b) (conj (o2_wf_mul a b Ha Hb) (o2_wf_inv a Ha))))))).
Qed.
Print Assumptions C07_o2_group_laws.
Example C07_nonvacuous : o2_wf (mkO2 (-1) 5). Proof. exact (or_intror eq_refl). Qed.

Theorem C07_o2_pairwise : forall A B : list O2,
  List.length (o2_left_apply_to_angle A B) = List.length A /\
  forall n m a b, nth_error A n = Some a -> nth_error B m = Some b ->
    exists row, nth_error (o2_left_apply_to_angle A B) n = Some row /\
                List.length row = List.length B /\
                nth_error row m = Some (o2_left_apply_angle a b).
Proof. exact o2_pairwise. Qed.
Print Assumptions C07_o2_pairwise.

(** C08: [o2_acting_matrix r] is the matrix c * Rot(theta); the first theorem says it is the one
    by which left_apply_to_R2 acts. *)
Theorem C08_o2_action_pointwise : forall Rs grid,
  List.length (o2_left_apply_to_R2 Rs grid) = List.length Rs /\
  forall n w h r row v,
  nth_error Rs n = Some r -> nth_error grid w = Some row -> nth_error row h = Some v ->
  exists G row', nth_error (o2_left_apply_to_R2 Rs grid) n = Some G /\
    nth_error G w = Some row' /\
    nth_error row' h = Some (app2 (o2_acting_matrix r) v).
Proof. exact o2_action_spec. Qed.
Print Assumptions C08_o2_action_pointwise.

Theorem C08_o2_action_laws : forall a b u v, o2_wf a ->
  app2 (o2_acting_matrix a) (app2 (o2_acting_matrix b) v)
    = app2 (o2_acting_matrix (o2_left_apply_angle a b)) v /\
  app2 (o2_acting_matrix (mkO2 1 0)) v = v /\
  dot2 (app2 (o2_acting_matrix a) u) (app2 (o2_acting_matrix a) v) = dot2 u v.
Proof.
  exact (fun a b u v Ha => conj (o2_action_compose a b v)
    (conj (o2_action_id v) (o2_action_isometry a u v Ha))).
Qed.
Print Assumptions C08_o2_action_laws.

Theorem C08_o2_reflections_act_as_rotations : forall t : R,
  o2_acting_matrix (mkO2 (-1) t) = o2_acting_matrix (mkO2 1 (t + PI)).
Proof. exact o2_reflection_is_rotation. Qed.
Print Assumptions C08_o2_reflections_act_as_rotations.

(** Documented: coefficient -1 is a reflection. Refuted for every element. *)
Theorem C08_o2_det_is_determinant_of_action_refuted : forall a : O2, o2_wf a ->
  det2 (o2_acting_matrix a) = 1 /\
  ~ isReflection2 (o2_acting_matrix a) /\
  (o2c a = -1 -> o2_det a <> det2 (o2_acting_matrix a)).
Proof. exact (fun a Ha => conj (o2_acting_det a Ha) (conj (o2_no_mirror a Ha) (o2_det_mismatch a))). Qed.
Print Assumptions C08_o2_det_is_determinant_of_action_refuted.

Theorem C08_o2_product_commutative_but_O2_is_not :
  (forall a b, o2_left_apply_angle a b = o2_left_apply_angle b a) /\
  exists A B : M2, isSO2 A /\ isReflection2 B /\ mul2 A B <> mul2 B A.
Proof. exact (conj o2_comm O2_not_commutative). Qed.
Print Assumptions C08_o2_product_commutative_but_O2_is_not.

(** C09 *)
Theorem C09_o2_uniform_grid_layout : forall n m : nat,
  List.length (o2_uniform_grid n m) = (n + m)%nat /\
  (forall i, (i < n)%nat ->
     nth_error (o2_uniform_grid n m) i = Some (mkO2 1 (2 * PI * INR i / INR n))) /\
  (forall j, (j < m)%nat ->
     nth_error (o2_uniform_grid n m) (n + j) = Some (mkO2 (-1) (2 * PI * INR j / INR m))).
Proof. exact o2_uniform_layout. Qed.
Print Assumptions C09_o2_uniform_grid_layout.

Theorem C09_o2_uniform_grid_closed : forall n a b,
  In a (o2_uniform_grid n n) -> In b (o2_uniform_grid n n) ->
  In (o2_left_apply_angle a b) (o2_uniform_grid n n) /\
  In (mkO2 (o2c (o2_inverse a)) (Rmod (o2a (o2_inverse a)) (2 * PI))) (o2_uniform_grid n n).
Proof. exact o2_uniform_closed. Qed.
Print Assumptions C09_o2_uniform_grid_closed.

(** C10 *)
Theorem C10_o2_grid_sample_restores_order :
  forall T mode rw fw S grid signal signal_grid n_rot n_ref out,
  (forall e, In e grid -> o2_wf e) -> (n_rot + n_ref)%nat = List.length signal ->
  o2_grid_sample T mode rw fw S grid signal signal_grid n_rot n_ref = Ok out ->
  List.length out = List.length grid /\
  forall i e, nth_error grid i = Some e ->
    exists row, nth_error out i = Some row /\
      ((o2c e = 1 /\ n_rot <> 0%nat /\
        so2_grid_sample T mode rw S [o2a e] (firstn n_rot signal) (map o2a (firstn n_rot signal_grid))
        = Ok [row]) \/
       (o2c e = -1 /\ n_ref <> 0%nat /\
        so2_grid_sample T mode fw S [o2a e] (skipn n_rot signal) (map o2a (skipn n_rot signal_grid))
        = Ok [row])).
Proof. exact o2_grid_sample_rows. Qed.
Print Assumptions C10_o2_grid_sample_restores_order.

(** [o2_angles_with c grid] are the angles of the queries with coefficient c. *)
Theorem C10_o2_grid_sample_succeeds :
  forall T mode rw fw S grid signal signal_grid n_rot n_ref ro re,
  (forall e, In e grid -> o2_wf e) -> (n_rot + n_ref)%nat = List.length signal ->
  (n_rot = 0%nat -> forall e, In e grid -> o2c e <> 1) ->
  (n_ref = 0%nat -> forall e, In e grid -> o2c e <> -1) ->
  (n_rot <> 0%nat -> so2_grid_sample T mode rw S (o2_angles_with 1 grid) (firstn n_rot signal)
                       (map o2a (firstn n_rot signal_grid)) = Ok ro) ->
  (n_ref <> 0%nat -> so2_grid_sample T mode fw S (o2_angles_with (-1) grid) (skipn n_rot signal)
                       (map o2a (skipn n_rot signal_grid)) = Ok re) ->
  exists out, o2_grid_sample T mode rw fw S grid signal signal_grid n_rot n_ref = Ok out.
Proof. exact o2_grid_sample_total. Qed.
Print Assumptions C10_o2_grid_sample_succeeds.

Theorem C10_o2_grid_sample_missing_half_raises :
  forall T mode rw fw S grid signal signal_grid n_rot n_ref e other,
  (forall e, In e grid -> o2_wf e) -> (n_rot + n_ref)%nat = List.length signal ->
  In e grid ->
  (o2c e = 1 /\ n_rot = 0%nat /\
   (n_ref <> 0%nat -> so2_grid_sample T mode fw S (o2_angles_with (-1) grid) signal (map o2a signal_grid) = Ok other))
  \/ (o2c e = -1 /\ n_ref = 0%nat /\
   (n_rot <> 0%nat -> so2_grid_sample T mode rw S (o2_angles_with 1 grid) signal (map o2a (firstn n_rot signal_grid)) = Ok other)) ->
  o2_grid_sample T mode rw fw S grid signal signal_grid n_rot n_ref = Err IndexError.
Proof. exact o2_grid_sample_missing. Qed.
Print Assumptions C10_o2_grid_sample_missing_half_raises.

(** An interleaved query list, sampled in "nearest" mode. *)
Example C10_nonvacuous :
  o2_grid_sample ex_env "nearest" (1/2) (1/2) 1 [mkO2 (-1) 3; mkO2 1 4] [[10]; [20]]
    (o2_uniform_grid 1 1) 1 1 = Ok [[20]; [10]].
Proof. exact (o2_sample_example ex_env ex_env_ok). Qed.
