(** Property C100 (gconv/geometry/interpolation.py:58-142 used with gconv/geometry/groups/so3.py:637-652 on quaternions). *)
From Coq Require Import String.
From Verif Require Import Prelude RMath Mat Interp InterpExample SO3 SO3More Bary BarySpec BaryFacts BaryExample.
Open Scope R_scope.

(** The default tolerance of interpolate_BCC (10^-6), below which a node counts as a grid node, is below
    every value the SO(3) distance takes. *)
Theorem C100_tolerance_is_never_met : forall p q : Q4, / 10 ^ 6 < so3_geodesic_distance p q (/ 10 ^ 7).
Proof. exact tolerance_unreachable. Qed.
Print Assumptions C100_tolerance_is_never_met.

(** interpolate_BCC at q and at -q, two names of the same rotation: the same three nearest grid rotations and
    opposite least-squares coefficients, of which each answer keeps the positive ones. Where the first answer
    used all three (a, b, c >= 0) the second is NaN. *)
Theorem C100_two_quaternions :
  forall (T : torch_env) (lstsq : Q4 -> Q4 -> Q4 -> Q4 -> R * R * R) (S : nat) (nodes grid : list Q4) (signal : mat),
  torch_ok T -> least_squares lstsq -> general_position grid ->
  (3 <= length grid)%nat -> length signal = length grid ->
  exists out : list (list (option R)),
    interpolate_BCC_ieee T (fun p q => so3_geodesic_distance p q (/ 10 ^ 7)) lstsq (/ 10 ^ 6) 4 S nodes grid signal = Ok out /\
    length out = length nodes /\
    forall r q, nth_error nodes r = Some q ->
    exists i j k gi gj gk si sj sk a b c,
      i <> j /\ i <> k /\ j <> k /\
      nth_error grid i = Some gi /\ nth_error grid j = Some gj /\ nth_error grid k = Some gk /\
      nth_error signal i = Some si /\ nth_error signal j = Some sj /\ nth_error signal k = Some sk /\
      so3_geodesic_distance q gi (/ 10 ^ 7) <= so3_geodesic_distance q gj (/ 10 ^ 7) <= so3_geodesic_distance q gk (/ 10 ^ 7) /\
      (forall m g, nth_error grid m = Some g -> m <> i -> m <> j ->
         so3_geodesic_distance q gk (/ 10 ^ 7) <= so3_geodesic_distance q g (/ 10 ^ 7)) /\
      (forall t, gap q (combination (a, b, c) gi gj gk) <= gap q (combination t gi gj gk)) /\
      nth_error out r = Some (average S (Rmax a 0) (Rmax b 0) (Rmax c 0) si sj sk) /\
      forall r', nth_error nodes r' = Some (qneg q) ->
        nth_error out r' = Some (average S (Rmax (- a) 0) (Rmax (- b) 0) (Rmax (- c) 0) si sj sk) /\
        (0 <= a -> 0 <= b -> 0 <= c -> nth_error out r' = Some (repeat None S)).
Proof.
  intros T lstsq S nodes grid signal HT L P H3 Hs.
  destruct (two_quaternions T HT lstsq L S grid signal P H3 Hs nodes) as (out & E & Len & R).
  exists out. split; [exact E|]. split; [exact Len|]. intros r q Hr.
  destruct (R r q Hr) as (i & j & k & gi & gj & gk & si & sj & sk & a & b & c & E1 & E2 & E3 & E4 & E5 & E6 & E7 & E8 & E9 & E10 & E11 & E12 & E13 & N).
  exists i, j, k, gi, gj, gk, si, sj, sk, a, b, c. do 13 (split; [assumption|]).
  intros r' Hr'. split; [exact (N r' Hr')|]. intros Ha Hb Hc.
  rewrite (N r' Hr'), !Rmax_right by lra. f_equal. apply average_none.
Qed.
Print Assumptions C100_two_quaternions.

(** At the rotations of the grid: the signal when asked with the quaternion of the grid, NaN when asked with
    the other quaternion of the same rotation. *)
Theorem C100_on_the_grid :
  forall (T : torch_env) (lstsq : Q4 -> Q4 -> Q4 -> Q4 -> R * R * R) (S : nat) (nodes grid : list Q4) (signal : mat),
  torch_ok T -> least_squares lstsq -> general_position grid -> told_apart grid ->
  (3 <= length grid)%nat -> wfm (length grid) S signal ->
  exists out : list (list (option R)),
    interpolate_BCC_ieee T (fun p q => so3_geodesic_distance p q (/ 10 ^ 7)) lstsq (/ 10 ^ 6) 4 S nodes grid signal = Ok out /\
    length out = length nodes /\
    forall r m g s, nth_error grid m = Some g -> nth_error signal m = Some s ->
      (nth_error nodes r = Some g -> nth_error out r = Some (map Some s)) /\
      (nth_error nodes r = Some (qneg g) -> nth_error out r = Some (repeat None S)).
Proof.
  intros T lstsq S nodes grid signal HT L P A H3 [Hs W].
  exact (on_grid T HT lstsq L S grid signal P H3 Hs nodes A W).
Qed.
Print Assumptions C100_on_the_grid.

(** Multiplying nodes and grid by one unit quaternion, on either side, does not change the answer. *)
Theorem C100_translation :
  forall (T : torch_env) (lstsq : Q4 -> Q4 -> Q4 -> Q4 -> R * R * R) (eps : R) (S : nat) (nodes grid : list Q4) (signal : mat) (u : Q4),
  torch_ok T -> least_squares lstsq -> general_position grid -> unitq u ->
  let at_ nodes grid := interpolate_BCC_ieee T (fun p q => so3_geodesic_distance p q (/ 10 ^ 7)) lstsq eps 4 S nodes grid signal in
  at_ (map (qmul u) nodes) (map (qmul u) grid) = at_ nodes grid /\
  at_ (map (fun q => qmul q u) nodes) (map (fun q => qmul q u) grid) = at_ nodes grid.
Proof.
  intros T lstsq eps S nodes grid signal u HT L P U. split.
  - apply (BCC_isometry T HT lstsq L (qmul u)); [intros; apply qmul_left_comb|intros; apply gap_left; exact U|
      intros; apply geo_left; exact U|exact P].
  - apply (BCC_isometry T HT lstsq L (fun q => qmul q u)); [intros; apply qmul_right_comb|intros; apply gap_right; exact U|
      intros; apply geo_right; exact U|exact P].
Qed.
Print Assumptions C100_translation.

(** Nearest-neighbour and RBF sampling of SO(3) signals do not depend on which of its two quaternions names a
    rotation, in the query or in the grid. *)
Theorem C100_sampling_ignores_the_sign :
  forall (T : torch_env) (mode : string) (width : R) (S : nat) (nodes nodes' grid grid' : list Q4) (signal : mat),
  Forall2 same_rotation nodes nodes' -> Forall2 same_rotation grid grid' ->
  so3_grid_sample T mode width S nodes' signal grid' = so3_grid_sample T mode width S nodes signal grid.
Proof.
  intros T mode width S nodes nodes' grid grid' signal Hn Hg. unfold so3_grid_sample.
  destruct (String.eqb mode "nearest"); [exact (NN_signs T nodes nodes' grid grid' signal Hn Hg)|].
  destruct (String.eqb mode "rbf"); [|reflexivity]. exact (RBF_signs T RBF_gauss width S nodes nodes' grid grid' signal Hn Hg).
Qed.
Print Assumptions C100_sampling_ignores_the_sign.

(** An environment, a least-squares solver, and a grid of three rotations asked with both quaternions of its
    second element. *)
Example C100_nonvacuous : exists out,
  torch_ok ex_env /\ least_squares ex_lstsq /\ general_position ex_grid /\ told_apart ex_grid /\
  interpolate_BCC_ieee ex_env (fun p q => so3_geodesic_distance p q (/ 10 ^ 7)) ex_lstsq (/ 10 ^ 6) 4 1
    [mkQ 0 1 0 0; mkQ 0 (-1) 0 0] ex_grid [[5]; [7]; [9]] = Ok out /\
  nth_error out 0 = Some [Some 7] /\ nth_error out 1 = Some [None] /\
  Forall2 same_rotation [mkQ 0 1 0 0] [qneg (mkQ 0 1 0 0)] /\ unitq (mkQ 0 1 0 0).
Proof.
  destruct (C100_on_the_grid ex_env ex_lstsq 1 [mkQ 0 1 0 0; mkQ 0 (-1) 0 0] ex_grid [[5]; [7]; [9]]
    ex_env_ok ex_least_squares ex_grid_position ex_grid_apart) as (out & E & _ & R).
  - cbn. lia.
  - split; [reflexivity|]. intros q [<-|[<-|[<-|[]]]]; reflexivity.
  - exists out. split; [exact ex_env_ok|]. split; [exact ex_least_squares|]. split; [exact ex_grid_position|].
    split; [exact ex_grid_apart|]. split; [exact E|].
    split; [|split; [|split]].
    + apply (R 0%nat 1%nat (mkQ 0 1 0 0) [7]); reflexivity.
    + apply (R 1%nat 1%nat (mkQ 0 1 0 0) [7]); [reflexivity|reflexivity|].
      cbn [nth_error]. unfold qneg. cbn [qw qx qy qz]. do 2 f_equal; lra.
    + constructor; [right; reflexivity|constructor].
    + unfold unitq, qdot. cbn. ring.
Qed.

(** With any distance function and any least-squares coefficients, a node that has a grid element within the tolerance gets exactly the signal of a nearest grid element, never NaN. *)
Theorem C100_within_tolerance :
  forall (G : Type) (T : torch_env) (dist : G -> G -> R) (lstsq : G -> G -> G -> G -> R * R * R) (eps : R) (D S : nat)
         (nodes grid : list G) (signal : mat) (out : list (list (option R))) (p : nat) (n g : G),
  torch_ok T -> length signal = length grid ->
  interpolate_BCC_ieee T dist lstsq eps D S nodes grid signal = Ok out ->
  nth_error nodes p = Some n -> In g grid -> dist n g <= eps ->
  exists i gi si, nth_error grid i = Some gi /\ nth_error signal i = Some si /\
    (forall h, In h grid -> dist n gi <= dist n h) /\
    nth_error out p = Some (map (fun t => Some (nth t si 0)) (seq 0 S)).
Proof. exact @within_tolerance. Qed.
Print Assumptions C100_within_tolerance.

(** Where no NaN arises, the model used for C30 (real division) gives the same answers. *)
Theorem C100_agrees_with_C30 :
  forall (G : Type) (T : torch_env) (dist : G -> G -> R) (lstsq : G -> G -> G -> G -> R * R * R) (eps : R) (D S : nat)
         (nodes grid : list G) (signal out : mat),
  interpolate_BCC_ieee T dist lstsq eps D S nodes grid signal = Ok (map (map Some) out) ->
  interpolate_BCC T dist lstsq eps D S nodes grid signal = Ok out.
Proof. exact @ieee_agrees. Qed.
Print Assumptions C100_agrees_with_C30.
