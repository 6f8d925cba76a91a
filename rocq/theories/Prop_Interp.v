(** Property theorems C28-C31 (gconv/geometry/interpolation.py). *)
From Verif Require Import Prelude RMath Interp InterpFacts InterpExample.
Open Scope R_scope.

(** C28: whatever metric, radial function and width, and for every torch environment whose
    solver returns only genuine solutions, a successful interpolation returns the signal at
    the grid nodes. *)
Theorem C28_RBF_reproduces_signal :
  forall (G : Type) (T : torch_env), torch_ok T ->
  forall (dist : G -> G -> R) (rbf : R -> R -> R) (width : R) (S : nat)
         (nodes grid : list G) (signal out : mat) (k i : nat) (a : G),
    wfm (length grid) S signal ->
    interpolate_RBF T dist rbf width S nodes grid signal = Ok out ->
    nth_error nodes k = Some a -> nth_error grid i = Some a ->
    nth_error out k = nth_error signal i.
Proof. exact @RBF_reproduces. Qed.
Print Assumptions C28_RBF_reproduces_signal.

Theorem C28_RBF_linear_in_signal :
  forall (G : Type) (T : torch_env), torch_ok T ->
  forall (dist : G -> G -> R) (rbf : R -> R -> R) (width : R) (S : nat) (u v : R)
         (nodes grid : list G) (s1 s2 o1 : mat),
    wfm (length grid) S s1 -> wfm (length grid) S s2 ->
    interpolate_RBF T dist rbf width S nodes grid s1 = Ok o1 ->
    exists o2, interpolate_RBF T dist rbf width S nodes grid s2 = Ok o2 /\
    interpolate_RBF T dist rbf width S nodes grid (mlin u v s1 s2) = Ok (mlin u v o1 o2).
Proof. exact @RBF_linear. Qed.
Print Assumptions C28_RBF_linear_in_signal.

Theorem C28_RBF_rows_independent :
  forall (G : Type) (T : torch_env) (dist : G -> G -> R) (rbf : R -> R -> R) (width : R) (S : nat)
         (nodes grid : list G) (signal out : mat),
    interpolate_RBF T dist rbf width S nodes grid signal = Ok out ->
    length out = length nodes /\
    (forall r, In r out -> length r = S) /\
    forall k a, nth_error nodes k = Some a ->
      exists row, nth_error out k = Some row /\
        interpolate_RBF T dist rbf width S [a] grid signal = Ok [row].
Proof. exact @RBF_rows. Qed.
Print Assumptions C28_RBF_rows_independent.

Theorem C28_RBF_isometry_invariant :
  forall (G G' : Type) (T : torch_env) (dist : G -> G -> R) (dist' : G' -> G' -> R) (f : G -> G')
    (rbf : R -> R -> R) (width : R) (S : nat) (nodes grid : list G) (signal : mat),
  (forall a b, dist' (f a) (f b) = dist a b) ->
  interpolate_RBF T dist' rbf width S (map f nodes) (map f grid) signal
  = interpolate_RBF T dist rbf width S nodes grid signal.
Proof. exact @RBF_isometry. Qed.
Print Assumptions C28_RBF_isometry_invariant.

(** A torch environment meeting [torch_ok] exists, and its solver succeeds on a two-node grid. *)
Example C28_nonvacuous : torch_ok ex_env /\
  exists x, te_solve ex_env [[1; / 2]; [/ 2; 1]] [[3; 5]; [7; 9]] = Ok x.
Proof.
  refine (conj ex_env_ok (ex_solve_succeeds 2 2 _ _ (gram2_nonsingular (/ 2) _) _)); [lra|].
  split; [reflexivity|]. intros q [<-|[<-|[]]]; reflexivity.
Qed.

(** C29 *)
Theorem C29_NN_returns_a_nearest_node :
  forall (G Row : Type) (T : torch_env), torch_ok T ->
  forall (dist : G -> G -> R) (nodes grid : list G) (signal : list Row),
  grid <> [] -> length signal = length grid ->
  exists out, interpolate_NN T dist nodes grid signal = Ok out /\
    length out = length nodes /\
    forall k a, nth_error nodes k = Some a ->
      exists i b row, nth_error grid i = Some b /\ nth_error signal i = Some row /\
        nth_error out k = Some row /\
        (forall b', In b' grid -> dist a b <= dist a b') /\
        interpolate_NN T dist [a] grid signal = Ok [row].
Proof. exact @NN_spec. Qed.
Print Assumptions C29_NN_returns_a_nearest_node.

Theorem C29_NN_unique_minimum :
  forall (G Row : Type) (T : torch_env), torch_ok T ->
  forall (dist : G -> G -> R) (nodes grid : list G) (signal out : list Row) k a i b,
  length signal = length grid ->
  interpolate_NN T dist nodes grid signal = Ok out ->
  nth_error nodes k = Some a -> nth_error grid i = Some b ->
  (forall j b', nth_error grid j = Some b' -> j <> i -> dist a b < dist a b') ->
  nth_error out k = nth_error signal i.
Proof. exact @NN_unique. Qed.
Print Assumptions C29_NN_unique_minimum.

Theorem C29_NN_isometry_invariant :
  forall (G G' Row : Type) (T : torch_env) (dist : G -> G -> R) (dist' : G' -> G' -> R)
    (f : G -> G') (nodes grid : list G) (signal : list Row),
  (forall a b, dist' (f a) (f b) = dist a b) ->
  interpolate_NN T dist' (map f nodes) (map f grid) signal = interpolate_NN T dist nodes grid signal.
Proof. exact @NN_isometry. Qed.
Print Assumptions C29_NN_isometry_invariant.

Theorem C29_NN_empty_grid_raises :
  forall (G Row : Type) (T : torch_env) (dist : G -> G -> R) (nodes : list G) (signal : list Row),
  interpolate_NN T dist nodes [] signal = Err RuntimeError.
Proof. exact @NN_empty. Qed.
Print Assumptions C29_NN_empty_grid_raises.

(** C30 *)
Theorem C30_BCC_convex :
  forall (G : Type) (T : torch_env), torch_ok T ->
  forall (dist : G -> G -> R) (lstsq : G -> G -> G -> G -> R * R * R) (eps : R) (D S : nat)
         (nodes grid : list G) (signal : mat),
  (3 <= D)%nat -> (3 <= length grid)%nat -> length signal = length grid ->
  exists out, interpolate_BCC T dist lstsq eps D S nodes grid signal = Ok out /\
  length out = length nodes /\
  forall p n, nth_error nodes p = Some n ->
  exists i j k gi gj gk si sj sk a b c row,
    nth_error grid i = Some gi /\ nth_error grid j = Some gj /\ nth_error grid k = Some gk /\
    nth_error signal i = Some si /\ nth_error signal j = Some sj /\ nth_error signal k = Some sk /\
    i <> j /\ i <> k /\ j <> k /\
    dist n gi <= dist n gj <= dist n gk /\
    (forall m g, nth_error grid m = Some g -> m <> i -> m <> j -> dist n gk <= dist n g) /\
    nth_error out p = Some row /\ length row = S /\
    (forall t, (t < S)%nat -> nth t row 0 = a * nth t si 0 + b * nth t sj 0 + c * nth t sk 0) /\
    (let '(x, y, z) := lstsq gi gj gk n in
     dist n gi <= eps \/ 0 < x \/ 0 < y \/ 0 < z ->
     0 <= a /\ 0 <= b /\ 0 <= c /\ a + b + c = 1) /\
    (dist n gi <= eps -> forall t, (t < S)%nat -> nth t row 0 = nth t si 0).
Proof. exact @BCC_spec. Qed.
Print Assumptions C30_BCC_convex.

(** Nodes with one or two coordinates (angles of SO(2), spherical coordinates of S2) and grids
    of fewer than three nodes are refused, whatever the distance function. *)
Theorem C30_BCC_needs_three :
  forall (G : Type) (T : torch_env)
         (dist : G -> G -> R) (lstsq : G -> G -> G -> G -> R * R * R) (eps : R) (D S : nat)
         (nodes grid : list G) (signal : mat),
  ((D < 3)%nat /\ nodes <> [] \/ (length grid < 3)%nat) ->
  interpolate_BCC T dist lstsq eps D S nodes grid signal = Err RuntimeError.
Proof.
  intros G T dist lstsq eps D S nodes grid signal [[HD Hn]|Hg].
  - exact (BCC_few_coordinates T dist lstsq eps D S nodes grid signal HD Hn).
  - exact (BCC_small_grid T dist lstsq eps D S nodes grid signal Hg).
Qed.
Print Assumptions C30_BCC_needs_three.

Theorem C30_convex_output_between_signals : forall a b c x y z lo hi : R,
  0 <= a -> 0 <= b -> 0 <= c -> a + b + c = 1 ->
  lo <= x <= hi -> lo <= y <= hi -> lo <= z <= hi ->
  lo <= a * x + b * y + c * z <= hi.
Proof. exact convex_between. Qed.
Print Assumptions C30_convex_output_between_signals.

(** C31 *)
Theorem C31_RBF_gauss : forall w : R, 0 < w ->
  (forall x, 0 < RBF_gauss x w <= 1) /\
  (forall x, RBF_gauss x w = 1 <-> x = 0) /\
  (forall x, RBF_gauss (- x) w = RBF_gauss x w) /\
  (forall x y, Rabs x < Rabs y -> RBF_gauss y w < RBF_gauss x w) /\
  1 / 2 - / 10 ^ 8 < RBF_gauss w w < 1 / 2 + / 10 ^ 8.
Proof.
  exact (fun w Hw => conj (fun x => RBF_gauss_range x w Hw)
    (conj (fun x => RBF_gauss_one_iff x w Hw) (conj (fun x => RBF_gauss_even x w)
      (conj (fun x y => RBF_gauss_decr x y w Hw) (RBF_gauss_width w Hw))))).
Qed.
Print Assumptions C31_RBF_gauss.
Example C31_nonvacuous : 0 < 1 / 2. Proof. lra. Qed.
