(** Property theorems C11-C13 (gconv/geometry/groups/o3.py, so3 actions). *)
From Coq Require Import String.
From Verif Require Import Prelude RMath Mat Interp InterpFacts InterpExample SO3 SO3Facts O3 O3Facts.
Open Scope R_scope.

(** C11 *)
Theorem C11_o3_grid_sample_restores_order :
  forall T mode rw fw S grid signal signal_grid n_rot n_ref out,
  (forall e, In e grid -> o3c e = 1 \/ o3c e = -1) -> (n_rot + n_ref)%nat = List.length signal ->
  o3_grid_sample T mode rw fw S grid signal signal_grid n_rot n_ref = Ok out ->
  List.length out = List.length grid /\
  forall i e, nth_error grid i = Some e ->
    exists row, nth_error out i = Some row /\
      ((o3c e = 1 /\ n_rot <> 0%nat /\
        so3_grid_sample_matrix T mode rw S [o3r e] (firstn n_rot signal) (map o3r (firstn n_rot signal_grid))
        = Ok [row]) \/
       (o3c e = -1 /\ n_ref <> 0%nat /\
        so3_grid_sample_matrix T mode fw S [o3r e] (skipn n_rot signal) (map o3r (skipn n_rot signal_grid))
        = Ok [row])).
Proof. exact o3_grid_sample_rows. Qed.
Print Assumptions C11_o3_grid_sample_restores_order.

Theorem C11_o3_grid_sample_succeeds :
  forall T mode rw fw S grid signal signal_grid n_rot n_ref ro re,
  (forall e, In e grid -> o3c e = 1 \/ o3c e = -1) -> (n_rot + n_ref)%nat = List.length signal ->
  (n_rot = 0%nat -> forall e, In e grid -> o3c e <> 1) ->
  (n_ref = 0%nat -> forall e, In e grid -> o3c e <> -1) ->
  (n_rot <> 0%nat -> so3_grid_sample_matrix T mode rw S (o3_matrices_with 1 grid) (firstn n_rot signal)
                       (map o3r (firstn n_rot signal_grid)) = Ok ro) ->
  (n_ref <> 0%nat -> so3_grid_sample_matrix T mode fw S (o3_matrices_with (-1) grid) (skipn n_rot signal)
                       (map o3r (skipn n_rot signal_grid)) = Ok re) ->
  exists out, o3_grid_sample T mode rw fw S grid signal signal_grid n_rot n_ref = Ok out.
Proof. exact o3_grid_sample_total. Qed.
Print Assumptions C11_o3_grid_sample_succeeds.

Theorem C11_o3_grid_sample_missing_half_raises :
  forall T mode rw fw S grid signal signal_grid n_rot n_ref e other,
  (forall e, In e grid -> o3c e = 1 \/ o3c e = -1) -> (n_rot + n_ref)%nat = List.length signal ->
  In e grid ->
  (o3c e = 1 /\ n_rot = 0%nat /\
   (n_ref <> 0%nat -> so3_grid_sample_matrix T mode fw S (o3_matrices_with (-1) grid) signal (map o3r signal_grid) = Ok other))
  \/ (o3c e = -1 /\ n_ref = 0%nat /\
   (n_rot <> 0%nat -> so3_grid_sample_matrix T mode rw S (o3_matrices_with 1 grid) signal (map o3r (firstn n_rot signal_grid)) = Ok other)) ->
  o3_grid_sample T mode rw fw S grid signal signal_grid n_rot n_ref = Err IndexError.
Proof. exact o3_grid_sample_missing. Qed.
Print Assumptions C11_o3_grid_sample_missing_half_raises.

Example C11_nonvacuous :
  o3_grid_sample ex_env "nearest" (1/2) (1/2) 1 [mkO3 (-1) (so3_matrix_x 1); mkO3 1 (so3_matrix_z 2)]
    [[10]; [20]] [mkO3 1 I3; mkO3 (-1) I3] 1 1 = Ok [[20]; [10]].
Proof. exact (o3_sample_example ex_env ex_env_ok _ _). Qed.

(** C12. [o3_as_matrix h] is c*R. *)
Theorem C12_o3_product_inverse_det : forall h1 h2 : O3, o3_wf h1 -> o3_wf h2 ->
  o3_wf (o3_left_apply_O3 h1 h2) /\
  o3_as_matrix (o3_left_apply_O3 h1 h2) = mul3 (o3_as_matrix h1) (o3_as_matrix h2) /\
  o3_wf (o3_inverse h1) /\
  mul3 (o3_as_matrix (o3_inverse h1)) (o3_as_matrix h1) = I3 /\
  mul3 (o3_as_matrix h1) (o3_as_matrix (o3_inverse h1)) = I3 /\
  o3_det h1 = det3 (o3_as_matrix h1).
Proof.
  exact (fun h1 h2 H1 H2 => conj (o3_product_wf h1 h2 H1 H2) (conj (o3_product h1 h2)
    (conj (o3_inverse_wf h1 H1) (conj (proj1 (o3_inverse_spec h1 H1)) (conj (proj2 (o3_inverse_spec h1 H1))
    (eq_sym (o3_det_spec h1 H1))))))).
Qed.
Print Assumptions C12_o3_product_inverse_det.

Theorem C12_o3_elements_are_exactly_O3 :
  (forall h, o3_wf h -> isO3 (o3_as_matrix h)) /\
  (forall A, isO3 A -> exists h, o3_wf h /\ o3_as_matrix h = A) /\
  (forall h1 h2, o3_wf h1 -> o3_wf h2 -> o3_as_matrix h1 = o3_as_matrix h2 -> h1 = h2).
Proof. exact (conj o3_as_matrix_O3 (conj o3_as_matrix_onto o3_as_matrix_inj)). Qed.
Print Assumptions C12_o3_elements_are_exactly_O3.

Theorem C12_o3_pairwise : forall A B : list O3,
  List.length (o3_left_apply_to_O3 A B) = List.length A /\
  forall n m a b, nth_error A n = Some a -> nth_error B m = Some b ->
    exists row, nth_error (o3_left_apply_to_O3 A B) n = Some row /\
                List.length row = List.length B /\
                nth_error row m = Some (o3_left_apply_O3 a b).
Proof. exact o3_pairwise. Qed.
Print Assumptions C12_o3_pairwise.

Example C12_nonvacuous : o3_wf (mkO3 (-1) (so3_matrix_x 1)) /\ o3_det (mkO3 (-1) (so3_matrix_x 1)) = -1.
Proof. exact (conj (conj (or_intror eq_refl) (so3_matrix_x_SO3 1)) eq_refl). Qed.

(** C13 *)
Theorem C13_so3_acts_by_matrix : forall Rs g n r, nth_error Rs n = Some r ->
  exists out, nth_error (so3_left_apply_to_R3 Rs g) n = Some out /\
    forall i j k, grid3_at out i j k = option_map (app3 r) (grid3_at g i j k).
Proof. exact so3_action_entry. Qed.
Print Assumptions C13_so3_acts_by_matrix.

Theorem C13_so3_action_laws : forall a b g u v,
  so3_left_apply_to_R3 [so3_left_apply_matrix a b] g =
    match so3_left_apply_to_R3 [b] g with [gb] => so3_left_apply_to_R3 [a] gb | _ => [] end /\
  so3_left_apply_to_R3 [I3] g = [g] /\
  (isSO3 a -> dot3 (app3 a u) (app3 a v) = dot3 u v).
Proof.
  exact (fun a b g u v => conj (so3_action_compose a b g) (conj (so3_action_id g)
    (fun H => isO3_isometry a u v (proj1 H)))).
Qed.
Print Assumptions C13_so3_action_laws.

Theorem C13_so3_pairwise : forall A B : list M3,
  List.length (so3_left_apply_to_matrix A B) = List.length A /\
  forall n m a b, nth_error A n = Some a -> nth_error B m = Some b ->
    exists row, nth_error (so3_left_apply_to_matrix A B) n = Some row /\
                List.length row = List.length B /\
                nth_error row m = Some (mul3 a b).
Proof. exact so3_pairwise. Qed.
Print Assumptions C13_so3_pairwise.

Theorem C13_o3_acts_by_matrix : forall H g n h, nth_error H n = Some h ->
  exists out, nth_error (o3_left_apply_to_R3 H g) n = Some out /\
    forall i j k, grid3_at out i j k = option_map (app3 (o3_as_matrix h)) (grid3_at g i j k).
Proof. exact o3_action_entry. Qed.
Print Assumptions C13_o3_acts_by_matrix.

Theorem C13_o3_action_laws : forall a b g u v,
  o3_left_apply_to_R3 [o3_left_apply_O3 a b] g =
    match o3_left_apply_to_R3 [b] g with [gb] => o3_left_apply_to_R3 [a] gb | _ => [] end /\
  o3_left_apply_to_R3 [mkO3 1 I3] g = [g] /\
  (o3_wf a -> dot3 (app3 (o3_as_matrix a) u) (app3 (o3_as_matrix a) v) = dot3 u v /\
              det3 (o3_as_matrix a) = o3_det a).
Proof.
  exact (fun a b g u v => conj (o3_action_compose a b g) (conj (o3_action_id g)
    (fun W => conj (o3_action_isometry a u v W) (o3_det_spec a W)))).
Qed.
Print Assumptions C13_o3_action_laws.
