(** Property theorems C01-C06 (gconv/geometry/groups/so2.py). *)
From Verif Require Import Prelude RMath Mat SO2 SO2Facts.
Open Scope R_scope.

(** C01 *)
Theorem C01_so2_product_is_composition : forall a b : R,
  so2_angle_to_matrix (so2_left_apply_angle a b)
    = mul2 (so2_angle_to_matrix a) (so2_angle_to_matrix b)
  /\ isSO2 (so2_angle_to_matrix a)
  /\ 0 <= so2_left_apply_angle a b < 2 * PI.
Proof. exact (fun a b => conj (so2_matrix_mul a b) (conj (so2_matrix_SO2 a) (so2_range a b))). Qed.
Print Assumptions C01_so2_product_is_composition.

(** C01: [angle_to_matrix] is the counter-clockwise rotation and is faithful modulo 2 pi. *)
Theorem C01_so2_matrix_entries_and_faithful : forall a b : R,
  so2_angle_to_matrix a = mkM2 (cos a) (- sin a) (sin a) (cos a)
  /\ (so2_angle_to_matrix a = so2_angle_to_matrix b -> exists k : Z, a = b + 2 * PI * IZR k).
Proof. exact (fun a b => conj eq_refl (so2_matrix_inj a b)). Qed.
Print Assumptions C01_so2_matrix_entries_and_faithful.

Theorem C01_so2_pairwise : forall A B : list R,
  length (so2_left_apply_to_angle A B) = length A /\
  forall n m a b, nth_error A n = Some a -> nth_error B m = Some b ->
    exists row, nth_error (so2_left_apply_to_angle A B) n = Some row /\
                length row = length B /\
                nth_error row m = Some (so2_left_apply_angle a b).
Proof. exact so2_pairwise_spec. Qed.
Print Assumptions C01_so2_pairwise.

(** C02 *)
Theorem C02_so2_group_laws : forall a b c : R,
  so2_left_apply_angle (so2_inverse_angle a) a = 0 /\
  so2_left_apply_angle a (so2_inverse_angle a) = 0 /\
  so2_left_apply_angle a (so2_left_apply_angle b c)
    = so2_left_apply_angle (so2_left_apply_angle a b) c /\
  so2_left_apply_angle a b = so2_left_apply_angle b a /\
  so2_left_apply_angle 0 a = Rmod a (2 * PI).
Proof.
  exact (fun a b c => conj (so2_inv_l a) (conj (so2_inv_r a) (conj (so2_assoc a b c)
          (conj (so2_comm a b) (so2_neutral a))))).
Qed.
Print Assumptions C02_so2_group_laws.

Theorem C02_so2_inverse_matrix : forall a : R,
  so2_inverse_matrix (so2_angle_to_matrix a) = so2_angle_to_matrix (so2_inverse_angle a) /\
  mul2 (so2_inverse_matrix (so2_angle_to_matrix a)) (so2_angle_to_matrix a) = I2 /\
  mul2 (so2_angle_to_matrix a) (so2_inverse_matrix (so2_angle_to_matrix a)) = I2.
Proof.
  exact (fun a => conj (so2_inv_matrix a)
           (conj (proj1 (so2_matrix_SO2 a)) (proj1 (proj2 (so2_matrix_SO2 a))))).
Qed.
Print Assumptions C02_so2_inverse_matrix.

(** C03 *)
Theorem C03_so2_uniform_grid_is_cyclic_group : forall n : nat,
  length (so2_uniform_grid n) = n /\
  NoDup (so2_uniform_grid n) /\
  (forall i, (i < n)%nat -> nth_error (so2_uniform_grid n) i = Some (2 * PI * INR i / INR n)) /\
  (forall a, In a (so2_uniform_grid n) -> 0 <= a < 2 * PI) /\
  (forall i j a b, nth_error (so2_uniform_grid n) i = Some a ->
                   nth_error (so2_uniform_grid n) j = Some b ->
     nth_error (so2_uniform_grid n) ((i + j) mod n) = Some (so2_left_apply_angle a b)) /\
  (forall i a, nth_error (so2_uniform_grid n) i = Some a ->
     nth_error (so2_uniform_grid n) ((n - i) mod n)
     = Some (Rmod (so2_inverse_angle a) (2 * PI))).
Proof. exact so2_uniform_grid_group. Qed.
Print Assumptions C03_so2_uniform_grid_is_cyclic_group.

(** C04: [arc a b] is the length of the shorter arc between the directions [a] and [b]. *)
Theorem C04_so2_geodesic_distance : forall a b g eps : R, 0 < eps < 1 ->
  so2_geodesic_distance a b eps = clamp (arc a b) (acos (1 - eps)) (acos (-1 + eps)) /\
  so2_geodesic_distance a b eps = so2_geodesic_distance b a eps /\
  so2_geodesic_distance (so2_left_apply_angle g a) (so2_left_apply_angle g b) eps
    = so2_geodesic_distance a b eps /\
  (forall j k : Z, so2_geodesic_distance (a + 2 * PI * IZR j) (b + 2 * PI * IZR k) eps
    = so2_geodesic_distance a b eps) /\
  acos (1 - eps) <= so2_geodesic_distance a b eps <= acos (-1 + eps).
Proof.
  exact (fun a b g eps He => conj (so2_geodesic_arc a b eps He) (conj (so2_geodesic_sym a b eps)
    (conj (so2_geodesic_invariant g a b eps)
      (conj (fun j k => so2_geodesic_period a b j k eps) (so2_geodesic_range a b eps He))))).
Qed.
Print Assumptions C04_so2_geodesic_distance.
(** The default eps meets the hypothesis. *)
Example C04_nonvacuous : 0 < so2_eps < 1.
Proof. exact so2_eps_range. Qed.

(** C05 *)
Theorem C05_so2_nearest_neighbour_is_self_distance : forall grid : list R,
  (grid <> [] -> so2_nearest_neighbour_distance grid
                 = Ok (repeat (acos (1 - so2_eps)) (length grid))) /\
  so2_nearest_neighbour_distance [] = Err IndexError.
Proof. exact (fun grid => conj (so2_nn_constant grid) eq_refl). Qed.
Print Assumptions C05_so2_nearest_neighbour_is_self_distance.

(** The documented contract fails on every grid whose elements are separated. *)
Theorem C05_so2_nn_contract_fails_on_separated_grids : forall grid out,
  (forall i j a b, i <> j -> nth_error grid i = Some a -> nth_error grid j = Some b ->
     acos (1 - so2_eps) < arc a b) ->
  grid <> [] ->
  so2_nearest_neighbour_distance grid = Ok out -> ~ so2_nn_contract grid out.
Proof. exact so2_nn_contract_fails. Qed.
Print Assumptions C05_so2_nn_contract_fails_on_separated_grids.

Theorem C05_so2_nn_contract_refuted :
  exists out, so2_nearest_neighbour_distance [0; PI] = Ok out /\ ~ so2_nn_contract [0; PI] out.
Proof. exact so2_nn_refuted_grid. Qed.
Print Assumptions C05_so2_nn_contract_refuted.

(** C06 *)
Theorem C06_so2_action_pointwise : forall Rs grid,
  (length (so2_left_apply_angle_to_R2 Rs grid) = length Rs /\
   forall G, In G (so2_left_apply_angle_to_R2 Rs grid) ->
     length G = length grid /\ map (@length V2) G = map (@length V2) grid) /\
  forall n w h r row v,
  nth_error Rs n = Some r -> nth_error grid w = Some row -> nth_error row h = Some v ->
  exists G row', nth_error (so2_left_apply_angle_to_R2 Rs grid) n = Some G /\
    nth_error G w = Some row' /\
    nth_error row' h = Some (app2 (mkM2 (cos r) (- sin r) (sin r) (cos r)) v).
Proof. exact (fun Rs grid => conj (so2_action_shape Rs grid) (so2_action_spec Rs grid)). Qed.
Print Assumptions C06_so2_action_pointwise.

Theorem C06_so2_action_laws : forall a b u v,
  app2 (so2_angle_to_matrix a) (app2 (so2_angle_to_matrix b) v)
    = app2 (so2_angle_to_matrix (so2_left_apply_angle a b)) v /\
  app2 (so2_angle_to_matrix 0) v = v /\
  dot2 (app2 (so2_angle_to_matrix a) u) (app2 (so2_angle_to_matrix a) v) = dot2 u v.
Proof.
  exact (fun a b u v => conj (so2_action_compose a b v)
          (conj (so2_action_id v) (so2_action_isometry a u v))).
Qed.
Print Assumptions C06_so2_action_laws.

Theorem C06_so2_action_on_grids_composes : forall a b grid,
  map (map (map (app2 (so2_angle_to_matrix a)))) (so2_left_apply_angle_to_R2 [b] grid)
  = so2_left_apply_angle_to_R2 [so2_left_apply_angle a b] grid.
Proof. exact so2_action_list_compose. Qed.
Print Assumptions C06_so2_action_on_grids_composes.
