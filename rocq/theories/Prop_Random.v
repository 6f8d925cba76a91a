(** Property theorems C98: networks that draw their grids at random.
    Reading guide.  [rand_values N]: the equally likely values k / N of torch.rand; [both], [independent]: independent draws; [same_law l l']: the two lists are
    permutations of each other; [features]: average pool, maximum pool and modules with their running statistics (RandomSpec.v).  [network], [drawn_SE2], ... as in Prop_Network.v. *)
From Coq Require Import String ZArith Permutation.
From Verif Require Import Prelude RMath Mat Interp SO2 SO2Facts O2 O2Facts SO3 SO3Facts SO3More O3 O3Facts Repulse RepulseFacts Tensor TensorFacts SignedPerm Functional FunctionalFacts Kernel KernelFacts GroupKernelFacts KernelMore Conv ConvSpec ConvFacts ConvInit ConvShift NormFacts Prop_Kernel
  EquiSpec EquiGroups Layers LayersSpec LayersFacts Prop_Conv Prop_Equi Prop_Layers RegridSpec Prop_Regrid Public PublicFacts Prop_Public Network NetworkSpec NetworkCond NetDraws Prop_Network TrainSpec Prop_Train RandomSpec RandomFacts RandomMean.
Open Scope R_scope.

Lemma combine_as_map {G P A} (f : A -> list G) (net : list (block G P)) us :
  combine net (map f us) = map (fun b => (fst b, f (snd b))) (combine net us).
Proof. revert us. induction net as [|b net IH]; intros [|u us]; cbn [combine map fst snd]; try reflexivity. f_equal. apply IH. Qed.
Lemma Forall_combine {A B} (P : A -> Prop) (Q : B -> Prop) l l' : Forall P l -> Forall Q l' -> Forall (fun p => P (fst p) /\ Q (snd p)) (combine l l').
Proof. intros H. revert l'. induction H as [|a l Ha H IH]; intros [|b l'] H'; cbn [combine]; constructor; inversion H'; subst; auto. Qed.
Lemma in_law_transfer {A} (t : A -> A) l : Permutation (map t l) l -> forall a, In a l -> In (t a) l.
Proof. intros H a Ha. eapply Permutation_in; [exact H|]. apply in_map. exact Ha. Qed.

(** ** SE(2): the first convolution draws u for its grid, each of the later ones a draw of its own.
    Whatever is drawn the network answers (C86).  Then the globally pooled features of an image and of the image turned by q quarter turns are equally distributed. *)
Theorem C98_SE2 : forall (N : nat) (q : Z) (M : gmodule R V2) (weight : tensor R) (K : option (list R)) (net : list (block R V2)) (X X' : tensor R),
  (0 < N)%nat -> (N mod 4 = 0)%nat ->
  let law := both (rand_values N) (independent (rand_values N) (List.length net)) in
  let prog us := combine net (map drawn_SE2 us) in
  let call X d := network SEn 2 so2_left_apply_angle M weight (drawn_SE2 (fst d)) K (prog (snd d)) X in
  gm_permute M = true -> Forall default_grid net -> ready_lifting_SE2 M weight X ->
  (forall d, In d law -> network_ok SEn 2 so2_left_apply_angle ready_SE2 M weight (drawn_SE2 (fst d)) K (prog (snd d)) X /\ answered (call X d)) ->
  moved2 (so2_angle_to_matrix (IZR q * (PI / 2))) X X' ->
  same_law (map (fun d => features (call X' d)) law) (map (fun d => features (call X d)) law).
Proof.
  intros N q M weight K net X X' HN H4 law prog call Hp Hd HL Hok HM.
  apply same_outcomes with (t := fun d => (Rmod (fst d + IZR q / 4) 1, snd d)).
  - unfold law. transitivity (both (map (fun u => Rmod (u + IZR q / 4) 1) (rand_values N)) (map (fun x => x) (independent (rand_values N) (List.length net)))).
    + rewrite (both_map (fun u => Rmod (u + IZR q / 4) 1) (fun x => x)). reflexivity.
    + apply both_perm; [apply rand_turned; assumption|]. rewrite map_id. reflexivity.
  - intros [u us] Hin. destruct (Hok _ Hin) as (Hn & Y & HY & ms & v & i & E & Ev). unfold call, prog in *. cbn [fst snd] in *. rewrite !combine_as_map in *.
    destruct (C52_random_SE2 q u M weight K (combine net us) X X' Y HY ms Hp) as (_ & Y' & HY' & E' & _ & Ea & Em); try assumption.
    { apply Forall_forall. intros [b c] Hb. apply in_combine_l in Hb. rewrite Forall_forall in Hd. exact (Hd b Hb). }
    destruct (Em v i Ev) as [i' Ev']. rewrite E. eapply features_same; eassumption.
Qed.
Print Assumptions C98_SE2.

(** ** E(2): every convolution draws an angle and a reflection coefficient. *)
Theorem C98_E2 : forall (N : nat) (coins : list R) (q : Z) (M : gmodule O2 V2) (weight : tensor R) (K : option (list O2)) (net : list (block O2 V2)) (X X' : tensor R),
  (0 < N)%nat -> (N mod 4 = 0)%nat ->
  let draw := both (rand_values N) coins in
  let law := both draw (independent draw (List.length net)) in
  let prog us := combine net (map (fun u => drawn_E2 (fst u) (snd u)) us) in
  let call X d := network En 2 o2_left_apply_angle M weight (drawn_E2 (fst (fst d)) (snd (fst d))) K (prog (snd d)) X in
  gm_permute M = true -> Forall permuting net -> ready_lifting_E2 M weight X ->
  (forall d, In d law -> network_ok En 2 o2_left_apply_angle ready_E2 M weight (drawn_E2 (fst (fst d)) (snd (fst d))) K (prog (snd d)) X /\ answered (call X d)) ->
  moved2 (o2_acting_matrix (mkO2 1 (IZR q * (PI / 2)))) X X' ->
  same_law (map (fun d => features (call X' d)) law) (map (fun d => features (call X d)) law).
Proof.
  intros N coins q M weight K net X X' HN H4 draw law prog call Hp Hd HL Hok HM.
  set (t := fun u : R * R => (Rmod (fst u + IZR q / 4) 1, snd u)).
  assert (Permutation (map t draw) draw) as Ht.
  { unfold draw. transitivity (both (map (fun u => Rmod (u + IZR q / 4) 1) (rand_values N)) (map (fun x => x) coins)).
    - rewrite (both_map (fun u => Rmod (u + IZR q / 4) 1) (fun x => x)). reflexivity.
    - apply both_perm; [apply rand_turned; assumption|]. rewrite map_id. reflexivity. }
  apply same_outcomes with (t := fun d => (t (fst d), map t (snd d))).
  - unfold law. rewrite <- (both_map t (map t)). apply both_perm; [exact Ht|]. apply independent_perm. exact Ht.
  - intros [[u c] us] Hin. destruct (Hok _ Hin) as (Hn & Y & HY & ms & v & i & E & Ev). unfold call, prog in *. cbn [fst snd t] in *.
    rewrite (combine_as_map (fun u => drawn_E2 (fst u) (snd u)) net us) in *.
    destruct (C52_random_E2 q M weight K u c (combine net us) X X' Y HY ms Hp) as (Y' & HY' & E' & _ & Ea & Em); try assumption.
    { apply Forall_forall. intros [b w] Hb. apply in_combine_l in Hb. rewrite Forall_forall in Hd. exact (Hd b Hb). }
    destruct (Em v i Ev) as [i' Ev']. rewrite E. eapply features_same; try eassumption.
    etransitivity; [|exact E']. f_equal. rewrite map_map. unfold t. cbn [fst snd]. clear. revert us. induction net as [|b net IH]; intros [|u us]; cbn [combine map fst snd]; try reflexivity. f_equal. apply IH.
Qed.
Print Assumptions C98_E2.

(** ** SE(3): the draws are quaternions (torch.randn, normalized).  The law of the first draw need only be unchanged by left multiplication with the quaternion p of the rotation g,
    and the law of the later ones by conjugation with p, as is the case for the uniform distribution on the sphere. *)
Theorem C98_SE3 : forall (first later : list Q4) (g : M3) (M : gmodule M3 V3) (weight : tensor R) (K : option (list M3)) (net : list (block M3 V3)) (X X' : tensor R),
  signed3 g -> det3 g = 1 -> let p := so3_matrix_to_quat g in
  same_law (map (qmul p) first) first -> same_law (map (fun x => qmul (qmul p x) (so3_quat_inverse p)) later) later ->
  Forall (fun x => 0 < qdot x x) first -> Forall (fun x => 0 < qdot x x) later ->
  let law := both first (independent later (List.length net)) in
  let prog us := combine net (map drawn_SE3 us) in
  let call X d := network SEn 3 so3_left_apply_matrix M weight (drawn_SE3 (fst d)) K (prog (snd d)) X in
  gm_permute M = true -> Forall default_grid net -> ready_lifting_SE3 M weight X ->
  (forall d, In d law -> network_ok SEn 3 so3_left_apply_matrix ready_SE3 M weight (drawn_SE3 (fst d)) K (prog (snd d)) X /\ answered (call X d)) ->
  moved3 g X X' ->
  same_law (map (fun d => features (call X' d)) law) (map (fun d => features (call X d)) law).
Proof.
  intros first later g M weight K net X X' Hsg Hdet p H1 H2 P1 P2 law prog call Hp Hd HL Hok HM.
  set (t := fun x => qmul (qmul p x) (so3_quat_inverse p)) in *.
  apply same_outcomes with (t := fun d => (qmul p (fst d), map t (snd d))).
  - unfold law. rewrite <- (both_map (qmul p) (map t)). apply both_perm; [exact H1|]. apply independent_perm. exact H2.
  - intros [x xs] Hin. destruct (Hok _ Hin) as (Hn & Y & HY & ms & v & i & E & Ev). unfold law in Hin. apply in_both in Hin as [Hx Hxs]. apply in_independent in Hxs as [_ Hxs].
    unfold call, prog in *. cbn [fst snd] in *. rewrite (combine_as_map drawn_SE3 net xs) in *.
    destruct (C52_random_SE3 g x Hsg Hdet) with (M := M) (weight := weight) (K := K) (net := combine net xs) (X := X) (X' := X') (Y := Y) (HY := HY) (modules := ms)
      as (Y' & HY' & E' & _ & Ea & Em); try assumption.
    { rewrite Forall_forall in P1. exact (P1 x Hx). }
    { apply (Forall_combine default_grid (fun x => 0 < qdot x x)); [exact Hd|]. rewrite Forall_forall in *. auto. }
    destruct (Em v i Ev) as [i' Ev']. rewrite E. eapply features_same; try eassumption.
    etransitivity; [|exact E']. f_equal. rewrite map_map. unfold t. clear. revert xs. induction net as [|b net IH]; intros [|u us]; cbn [combine map fst snd]; try reflexivity. f_equal. apply IH.
Qed.
Print Assumptions C98_SE3.

(** ** E(3): a coefficient and a quaternion for every convolution. *)
Theorem C98_E3 : forall (coins : list R) (quats : list Q4) (g : O3) (M : gmodule O3 V3) (weight : tensor R) (K : option (list O3)) (net : list (block O3 V3)) (X X' : tensor R),
  o3_wf g -> o3c g = 1 -> signed3 (o3_as_matrix g) -> let p := so3_matrix_to_quat (o3r g) in
  same_law (map (qmul p) quats) quats -> Forall (fun x => 0 < qdot x x) quats ->
  let draw := both coins quats in
  let law := both draw (independent draw (List.length net)) in
  let prog us := combine net (map (fun u => drawn_E3 (fst u) (snd u)) us) in
  let call X d := network En 3 o3_left_apply_O3 M weight (drawn_E3 (fst (fst d)) (snd (fst d))) K (prog (snd d)) X in
  gm_permute M = true -> Forall permuting net -> ready_lifting_E3 M weight X ->
  (forall d, In d law -> network_ok En 3 o3_left_apply_O3 ready_E3 M weight (drawn_E3 (fst (fst d)) (snd (fst d))) K (prog (snd d)) X /\ answered (call X d)) ->
  moved3 (o3_as_matrix g) X X' ->
  same_law (map (fun d => features (call X' d)) law) (map (fun d => features (call X d)) law).
Proof.
  intros coins quats g M weight K net X X' Hwf Hc Hsg p H1 P1 draw law prog call Hp Hd HL Hok HM.
  set (t := fun u : R * Q4 => (fst u, qmul p (snd u))).
  assert (Permutation (map t draw) draw) as Ht.
  { unfold draw. transitivity (both (map (fun x => x) coins) (map (qmul p) quats)).
    - rewrite (both_map (fun x => x) (qmul p)). reflexivity.
    - apply both_perm; [rewrite map_id; reflexivity|exact H1]. }
  apply same_outcomes with (t := fun d => (t (fst d), map t (snd d))).
  - unfold law. rewrite <- (both_map t (map t)). apply both_perm; [exact Ht|]. apply independent_perm. exact Ht.
  - intros [[c x] us] Hin. destruct (Hok _ Hin) as (Hn & Y & HY & ms & v & i & E & Ev). unfold law in Hin. apply in_both in Hin as [Hx Hxs]. apply in_independent in Hxs as [_ Hxs].
    unfold call, prog in *. cbn [fst snd t] in *. unfold draw in Hx. apply in_both in Hx as [_ Hx]. cbn [fst snd] in Hx. rewrite Forall_forall in P1.
    rewrite (combine_as_map (fun u => drawn_E3 (fst u) (snd u)) net us) in *.
    destruct (C52_random_E3 g Hwf Hc Hsg M weight K c x (combine net us) X X' Y HY ms Hp) as (Y' & HY' & E' & _ & Ea & Em); try assumption.
    { exact (P1 x Hx). }
    { apply (Forall_combine permuting (fun u => 0 < qdot (snd u) (snd u))); [exact Hd|]. rewrite Forall_forall in *. intros u Hu. specialize (Hxs u Hu).
      unfold draw in Hxs. apply in_both in Hxs as [_ Hxs]. exact (P1 _ Hxs). }
    destruct (Em v i Ev) as [i' Ev']. rewrite E. eapply features_same; try eassumption.
    etransitivity; [|exact E']. f_equal. rewrite map_map. unfold t. cbn [fst snd]. clear. revert us. induction net as [|b net IH]; intros [|u us]; cbn [combine map fst snd]; try reflexivity. f_equal. apply IH.
Qed.
Print Assumptions C98_E3.

(** ** Training: the correspondence of draws of one forward pass may differ from batch to batch. *)
Lemma independent_zip {A} (law : list A) (ts : list (A -> A)) : Forall (fun t => Permutation (map t law) law) ts ->
  Permutation (map (zip_with (fun t a => t a) ts) (independent law (List.length ts))) (independent law (List.length ts)).
Proof.
  intros H. induction H as [|t ts Ht H IH]; cbn [List.length independent map zip_with]; [reflexivity|].
  transitivity (map (fun p => fst p :: snd p) (both (map t law) (map (zip_with (fun t a => t a) ts) (independent law (List.length ts))))).
  - rewrite both_map, !map_map. reflexivity.
  - apply Permutation_map. apply both_perm; assumption.
Qed.
Lemma turned_lifting_draw q u (M : gmodule R V2) K : gm_permute M = true -> partner_lifting so2_left_apply_angle (IZR q * (PI / 2)) M K (drawn_SE2 u) (drawn_SE2 (Rmod (u + IZR q / 4) 1)).
Proof.
  intros Hp. unfold partner_lifting. rewrite Hp. exists (2 * PI * u), (2 * PI * Rmod (u + IZR q / 4) 1). split; [reflexivity|]. split; [reflexivity|]. intros x _. apply so2_turned_draw.
Qed.
Lemma same_later_draws g (net : list (block R V2)) us : Forall default_grid net -> partners SEn so2_left_apply_angle g (combine net (map drawn_SE2 us)) (combine net (map drawn_SE2 us)).
Proof.
  intros Hd. unfold partners. revert us. induction Hd as [|b net Hb Hd IH]; intros [|v us]; cbn [map combine]; constructor; [|apply IH].
  split; [reflexivity|]. cbn [fst snd]. destruct b as [M w out|M wH w out| | | | |]; cbn [partner default_grid] in *; try exact I; subst out;
    unfold partner_draw; (destruct (gm_permute M); [|exact I]); exists (2 * PI * v), (2 * PI * v); (split; [reflexivity|]); (split; [reflexivity|]);
    intros x; rewrite !so2_assoc; f_equal; apply so2_comm.
Qed.

(** Train with fresh draws in every iteration, on a data set and on the data set in which every batch is turned by quarter turns of its own.  The results (weights, running
    statistics, optimizer state) are equally distributed. *)
Theorem C98_training_SE2 : forall (N n : nat) (Label S : Type) (M : gmodule R V2) (K : option (list R)) (within : weights -> Prop) (opt : optimizer S)
  (loss : tensor R -> tensor R -> Label -> R) (data data' : list (tensor R * Label)),
  (0 < N)%nat -> (N mod 4 = 0)%nat ->
  let draw := both (rand_values N) (independent (rand_values N) n) in
  let law := independent draw (List.length data) in
  let batches data ds := zip_with (fun x d => mkBatch (fst x) (snd x) (drawn_SE2 (fst d)) (map drawn_SE2 (snd d))) data ds in
  gm_permute M = true -> (forall s, within s -> Forall default_grid (snd s)) ->
  stays_within opt within ->
  (forall ds, In ds law -> answers SEn 2 so2_left_apply_angle M K within (batches data ds) /\
    forall s b, within s -> In b (batches data ds) -> ready_lifting_SE2 M (fst s) (images b) /\
      network_ok SEn 2 so2_left_apply_angle ready_SE2 M (fst s) (lifting_draw b) K (combine (snd s) (draws b)) (images b)) ->
  Forall2 (fun x x' => snd x' = snd x /\ exists q : Z, moved2 (so2_angle_to_matrix (IZR q * (PI / 2))) (fst x) (fst x')) data data' ->
  forall (t : S) (s : weights), within s ->
    same_law (map (fun ds => train SEn 2 so2_left_apply_angle opt loss M K (t, s) (batches data' ds)) law)
             (map (fun ds => train SEn 2 so2_left_apply_angle opt loss M K (t, s) (batches data ds)) law).
Proof.
  intros N n Label S M K within opt loss data data' HN H4 draw law batches Hp Hd Hopt Hok H t s Hs.
  assert (exists ts : list (R * list R -> R * list R), List.length ts = List.length data /\ Forall (fun f => Permutation (map f draw) draw) ts /\
    forall ds, Forall2 (fun b b' => labels b' = labels b /\ exists q : Z, let g := IZR q * (PI / 2) in
      moved2 (so2_angle_to_matrix g) (images b) (images b') /\
      partner_lifting so2_left_apply_angle g M K (lifting_draw b) (lifting_draw b') /\
      forall s, within s -> partners SEn so2_left_apply_angle g (combine (snd s) (draws b)) (combine (snd s) (draws b')))
      (batches data ds) (batches data' (zip_with (fun f a => f a) ts ds))) as (ts & Lts & Hts & HR).
  { clear Hok law t s Hs. induction H as [|x x' data data' [El [q Hq]] H IH].
    - exists []. split; [reflexivity|]. split; [constructor|]. intros ds. constructor.
    - destruct IH as (ts & L & F & HR). exists ((fun d => (Rmod (fst d + IZR q / 4) 1, snd d)) :: ts). split; [cbn; congruence|]. split.
      + constructor; [|exact F]. unfold draw. transitivity (both (map (fun u => Rmod (u + IZR q / 4) 1) (rand_values N)) (map (fun x => x) (independent (rand_values N) n))).
        * rewrite (both_map (fun u => Rmod (u + IZR q / 4) 1) (fun x => x)). reflexivity.
        * apply both_perm; [apply rand_turned; assumption|]. rewrite map_id. reflexivity.
      + intros [|[u us] ds]; cbn [zip_with batches]; [constructor|]. constructor; [|apply HR]. cbn [labels images lifting_draw draws fst snd].
        split; [exact El|]. exists q. cbv zeta. split; [exact Hq|]. split; [apply turned_lifting_draw; exact Hp|].
        intros s Hs. apply same_later_draws. exact (Hd s Hs). }
  apply same_outcomes with (t := zip_with (fun f a => f a) ts).
  - unfold law. rewrite <- Lts. apply independent_zip. exact Hts.
  - intros ds Hds. destruct (Hok ds Hds) as [Ha Hr]. apply (C97_SE2 Label S M K within opt loss (batches data ds)); try assumption. apply HR.
Qed.
Print Assumptions C98_training_SE2.

(** What equal distribution means: every event has the same probability, every quantity the same mean. *)
Theorem C98_means : forall {A B} (f f' : A -> B) (law : list A) (phi : B -> R), same_law (map f' law) (map f law) ->
  meanR (map (fun d => phi (f' d)) law) = meanR (map (fun d => phi (f d)) law) /\
  forall event : B -> bool, List.length (filter (fun d => event (f' d)) law) = List.length (filter (fun d => event (f d)) law).
Proof.
  intros A B f f' law phi H. split.
  - unfold meanR. rewrite !map_length. f_equal. rewrite <- (map_map f' phi), <- (map_map f phi). apply (sumR_perm). apply Permutation_map. exact H.
  - intros event. assert (forall h : A -> B, List.length (filter (fun d => event (h d)) law) = List.length (filter event (map h law))) as E.
    { intros h. clear H. induction law as [|a l IH]; cbn [map filter]; [reflexivity|]. destruct (event (h a)); cbn [List.length]; congruence. }
    rewrite !E. apply Permutation_length. clear E. unfold same_law in H. induction H as [|x l l' H IH|x y l|l1 l2 l3 H1 IH1 H2 IH2]; cbn [filter].
    + constructor.
    + destruct (event x); [constructor|]; exact IH.
    + destruct (event x), (event y); try reflexivity. apply perm_swap.
    + etransitivity; eassumption.
Qed.
Print Assumptions C98_means.

(** ** What is estimated: averaging the response of a lifting layer over its randomly turned grid of n rotations gives, in the mean, the average response over the uniform grid of
    N rotations, for every divisor n of N.  The size of the group changes the variance of the average-pooled features, not their mean. *)
Theorem C98_mean_response_SE2 : forall (N n : nat) T (L : gconv R V2) cin out s groups stride padding dil m bias mode pm mask grid weight (K : option (list R)) (X YN PN : tensor R) B h w,
  constructed 2 L cin out [s; s] (lifting_kernel_SE2 T cin out s groups mode pm mask grid) groups stride padding dil m bias ->
  has_shape weight (out :: cin / groups :: [s; s])%nat -> has_shape X (B :: cin :: [h; w]) ->
  (0 < s)%nat -> (0 < N)%nat -> (N mod n = 0)%nat -> (0 < n)%nat ->
  let M := mkModule L true in
  or_else K grid = so2_uniform_grid n ->
  lifting_forward L weight X (so2_uniform_grid N) = Ok (YN, so2_uniform_grid N) -> g_avg_group_pool YN = Ok (PTensor PN) ->
  exists P : R -> tensor R,
    (forall u, In u (rand_values N) -> exists Y H, lifting_call M so2_left_apply_angle (drawn_SE2 u) weight X K = Ok (Y, H) /\ g_avg_group_pool Y = Ok (PTensor (P u))) /\
    exists size, has_shape PN (B :: out :: size) /\ forall u, In u (rand_values N) -> has_shape (P u) (B :: out :: size) /\
    forall b o y, (b < B)%nat -> (o < out)%nat -> valid size y ->
      meanR (map (fun u => at_ (P u) (b :: o :: y)) (rand_values N)) = at_ PN (b :: o :: y).
Proof.
  intros N n T L cin out s groups stride padding dil m bias mode pm mask grid weight K X YN PN B h w Hc Hw HX Hs HN Hmod Hn M HK EYN EPN.
  apply Nat.mod_divides in Hmod as [r Er]; [|lia].
  assert (so2_uniform_grid N <> []) as HNe by (intros Q; apply (f_equal (@List.length R)) in Q; rewrite so2_uniform_grid_length in Q; cbn in Q; lia).
  assert (kernel_grid M = grid) as Ekg.
  { unfold kernel_grid, M. cbn [gm_layer]. destruct (constructed_spec _ _ _ _ _ _ _ _ _ _ _ _ Hc) as (_ & _ & Ek & _). rewrite Ek. reflexivity. }
  assert (exists size, List.length size = 2%nat /\ has_shape YN (B :: out :: N :: size)) as (size & Lsz & SN).
  { destruct (constructed_spec _ _ _ _ _ _ _ _ _ _ _ _ Hc) as (_ & _ & Ek & _ & _ & _ & _ & _ & _ & _ & _ & _ & Hlen & _).
    destruct (sample_R2 mode pm) as [smp|] eqn:Es.
    2:{ unfold lifting_forward in EYN. rewrite (proj1 HX), Ek in EYN. unfold lifting_kernel_forward in EYN. cbn in EYN. cbn in Es. rewrite Es in EYN. discriminate. }
    destruct (C36_SE2 T cin out s groups mode pm mask grid smp weight (so2_uniform_grid N)) as (W & EW & SW & _); [exact Hs|exact Es|exact Hw|].
    pose proof (C45_lifting_convolution _ _ _ _ _ _ _ _ _ _ _ _ _ _ _ _ _ _ _ _ _ Hc HNe EW SW HX eq_refl) as [A Q]. cbv zeta in A, Q.
    destruct (fits_em m [h; w] [s; s] stride dil (lefts (stored_padding 2 padding) [s; s] dil) (rights (stored_padding 2 padding) [s; s] dil)) as [F|F]; [|rewrite (Q F) in EYN; discriminate].
    destruct (A F) as (Y & EY & SY & _). rewrite EY in EYN. injection EYN as ->. rewrite so2_uniform_grid_length in SY. eexists. split; [|exact SY].
    unfold conv_size. rewrite axes_length. reflexivity. }
  assert (forall k, exists Y, has_shape Y (B :: out :: n :: size) /\
    lifting_call M so2_left_apply_angle (drawn_SE2 (INR k / INR N)) weight X K = Ok (Y, bcast_left so2_left_apply_angle (so2_random_grid [INR k / INR N]) (so2_uniform_grid n)) /\
    forall b o j y, (b < B)%nat -> (o < out)%nat -> (j < n)%nat -> valid size y -> at_ Y (b :: o :: j :: y) = at_ YN (b :: o :: ((k + j * r) mod N)%nat :: y)) as Hk.
  { intros k. set (H' := bcast_left so2_left_apply_angle (so2_random_grid [INR k / INR N]) (so2_uniform_grid n)).
    assert (List.length H' = n) as LH. { unfold H', bcast_left, so2_random_grid. cbn [map flat_map]. rewrite app_nil_r, map_length. apply so2_uniform_grid_length. }
    destruct (C70_lifting_SE2 T L cin out s groups stride padding dil m bias mode pm mask grid weight X YN B h w (so2_uniform_grid N) H' (fun j => ((k + j * r) mod N)%nat) Hc Hw HX HNe)
      as (Y & E & B' & C' & size' & Ls & S1 & S2 & HV); [| |exact EYN|].
    - intros Q. rewrite Q in LH. cbn in LH. lia.
    - apply turned_uniform_regrid; assumption.
    - rewrite LH in *. rewrite so2_uniform_grid_length in *. pose proof (eq_trans (eq_sym (proj1 S1)) (proj1 SN)) as Q. injection Q as -> -> ->.
      exists Y. split; [exact S2|]. split.
      + unfold lifting_call, permuted. cbn [gm_permute gm_layer M]. rewrite Ekg, HK. exact E.
      + intros b o j y Hb Ho Hj Hy. exact (proj2 (HV b o j y Hb Ho Hj Hy)). }
  clearbody M. destruct (C54_avg_group_pool YN B out N size SN) as (PN' & E1 & S1 & V1). rewrite EPN in E1. injection E1 as <-.
  exists (fun u => match lifting_call M so2_left_apply_angle (drawn_SE2 u) weight X K with
    | Ok (Y, _) => match g_avg_group_pool Y with Ok (PTensor p) => p | _ => YN end | Err _ => YN end).
  set (P := fun u => match lifting_call M so2_left_apply_angle (drawn_SE2 u) weight X K with
    | Ok (Y, _) => match g_avg_group_pool Y with Ok (PTensor p) => p | _ => YN end | Err _ => YN end).
  assert (forall k, (exists Y H, lifting_call M so2_left_apply_angle (drawn_SE2 (INR k / INR N)) weight X K = Ok (Y, H) /\ g_avg_group_pool Y = Ok (PTensor (P (INR k / INR N)))) /\
     has_shape (P (INR k / INR N)) (B :: out :: size) /\ forall b o y, (b < B)%nat -> (o < out)%nat -> valid size y ->
       at_ (P (INR k / INR N)) (b :: o :: y) = meanR (map (fun j => at_ YN (b :: o :: ((k + j * r) mod N)%nat :: y)) (seq 0 n))) as HP.
  { intros k. destruct (Hk k) as (Y & SY & EY & VY). destruct (C54_avg_group_pool Y B out n size SY) as (p & Ep & Sp & Vp).
    assert (P (INR k / INR N) = p) as ->. { unfold P. rewrite EY, Ep. reflexivity. }
    split; [eauto|]. split; [exact Sp|]. intros b o y Hb Ho Hy. rewrite Vp by assumption. rewrite total_sumR. unfold meanR. rewrite map_length, seq_length. f_equal. f_equal.
    apply map_ext_in. intros j Hj. apply in_seq in Hj. apply VY; try assumption. lia. }
  split.
  { intros u Hu. unfold rand_values in Hu. apply in_map_iff in Hu as (k & <- & _). exact (proj1 (HP k)). }
  exists size. split; [exact S1|]. intros u Hu. unfold rand_values in Hu. apply in_map_iff in Hu as (k & <- & _). split; [exact (proj1 (proj2 (HP k)))|].
  intros b o y Hb Ho Hy. unfold rand_values. rewrite map_map.
  transitivity (meanR (map (fun k => meanR (map (fun j => at_ YN (b :: o :: ((k + j * r) mod N)%nat :: y)) (seq 0 n))) (seq 0 N))).
  { f_equal. apply map_ext. intros k'. apply (proj2 (proj2 (HP k'))); assumption. }
  rewrite (mean_of_turned N n r (fun k => at_ YN (b :: o :: k :: y))) by assumption.
  rewrite V1 by assumption. rewrite total_sumR. unfold meanR. rewrite map_length, seq_length. reflexivity.
Qed.
Print Assumptions C98_mean_response_SE2.

(** ** The features of a single call do depend on the draw: the default lifting layer GLiftingConvSE2(1, 1, 3) on one and the same 3 x 3 image, drawing u = 0 and u = 1/8.
    Kernel: 1 in the four corners; image: 1 in the middle of the first row.  The globally pooled features are 0 and 1. *)
Lemma linear_corner im v : (forall a b, (a < 3)%nat -> (b < 3)%nat -> (a <> 1)%nat -> (b <> 1)%nat -> at_ (mkT [3; 3]%nat im) [a; b] = 1) -> 2/3 <= Rabs (v2x v) -> 2/3 <= Rabs (v2y v) ->
  gs2 true GsBorder [3; 3]%nat im v = 1.
Proof.
  intros H Hx Hy.
  assert (forall z, 2/3 <= Rabs z -> exists a, (a < 3)%nat /\ (a <> 1)%nat /\ gs_coord GsBorder 3 z = INR a) as C.
  { intros z Hz. unfold gs_coord, gs_place, gs_unnormalize. replace (INR 3) with 3 by (cbn; lra).
    unfold Rabs in Hz. destruct (Rcase_abs z).
    - exists 0%nat. split; [lia|]. split; [lia|]. rewrite clamp_lo by lra. reflexivity.
    - exists 2%nat. split; [lia|]. split; [lia|]. rewrite clamp_hi by lra. cbn; lra. }
  destruct (C _ Hx) as (a & Ha & Na & Ea). destruct (C _ Hy) as (b & Hb & Nb & Eb).
  unfold gs2. cbn [axis2]. rewrite (linear_int GsBorder [3; 3]%nat im _ [b; a]); [apply H; assumption|repeat apply valid_cons; try assumption; apply valid_nil|].
  unfold axis2. cbn [map2 map]. rewrite Ea, Eb. reflexivity.
Qed.
Lemma linear_edge im v : (forall a b, (a < 3)%nat -> (b < 3)%nat -> a = 1%nat \/ b = 1%nat -> at_ (mkT [3; 3]%nat im) [a; b] = 0) -> v2x v = 0 /\ Rabs (v2y v) = 1 \/ v2y v = 0 /\ Rabs (v2x v) = 1 ->
  gs2 true GsBorder [3; 3]%nat im v = 0.
Proof.
  intros H Hv.
  assert (gs_coord GsBorder 3 0 = INR 1) as C0. { unfold gs_coord, gs_place, gs_unnormalize. replace (INR 3) with 3 by (cbn; lra). rewrite clamp_id by lra. cbn; lra. }
  assert (forall z, Rabs z = 1 -> exists a, (a < 3)%nat /\ gs_coord GsBorder 3 z = INR a) as C.
  { intros z Hz. unfold gs_coord, gs_place, gs_unnormalize. replace (INR 3) with 3 by (cbn; lra).
    unfold Rabs in Hz. destruct (Rcase_abs z).
    - exists 0%nat. split; [lia|]. rewrite clamp_lo by lra. reflexivity.
    - exists 2%nat. split; [lia|]. rewrite clamp_hi by lra. cbn; lra. }
  destruct Hv as [[Hx Hy]|[Hy Hx]].
  - destruct (C _ Hy) as (b & Hb & Eb). unfold gs2. rewrite (linear_int GsBorder [3; 3]%nat im _ [b; 1%nat]); [apply H; auto; lia|repeat apply valid_cons; try assumption; try lia; apply valid_nil|].
    unfold axis2. cbn [map2 map]. rewrite Hx, C0, Eb. reflexivity.
  - destruct (C _ Hx) as (b & Hb & Eb). unfold gs2. rewrite (linear_int GsBorder [3; 3]%nat im _ [1%nat; b]); [apply H; auto; lia|repeat apply valid_cons; try assumption; try lia; apply valid_nil|].
    unfold axis2. cbn [map2 map]. rewrite Hy, C0, Eb. reflexivity.
Qed.
Theorem C98_pathwise_refuted : forall T, exists (M : gmodule R V2) (weight X : tensor R) Y0 H0 Y1 H1 p0 p1,
  lifting_SE2 T 1 1 3 1 1 (PInt 0) 1 "zeros" true None "bilinear" "border" true 4 None = Ok M /\
  has_shape weight [1; 1; 3; 3]%nat /\ has_shape X [1; 1; 3; 3]%nat /\
  lifting_SE2_call M 0 weight X None = Ok (Y0, H0) /\ lifting_SE2_call M (1 / 8) weight X None = Ok (Y1, H1) /\
  g_avg_global_pool Y0 = Ok (PTensor p0) /\ g_avg_global_pool Y1 = Ok (PTensor p1) /\ at_ p0 [0; 0; 0]%nat = 0 /\ at_ p1 [0; 0; 0]%nat = 1.
Proof.
  intros T.
  pose (w := build [1; 1; 3; 3]%nat (fun idx => if (nth 2 idx 0 =? 1)%nat || (nth 3 idx 0 =? 1)%nat then 0 else 1)).
  pose (X := build [1; 1; 3; 3]%nat (fun idx => if (nth 2 idx 0 =? 0)%nat && (nth 3 idx 0 =? 1)%nat then 1 else 0)).
  assert (has_shape w [1; 1; 3; 3]%nat) as Hw by (split; [reflexivity|apply wft_build]).
  assert (has_shape X [1; 1; 3; 3]%nat) as HX by (split; [reflexivity|apply wft_build]).
  destruct (C69_lifting_SE2 T 1 1 3 1 1 (PInt 0) 1 "zeros" true None "bilinear" "border" true 4 None) as (A & _ & Eg & _).
  destruct A as (L & EM & EL & HC).
  { split; [exact I|]. split; [lia|]. split; [exists 1%Z; reflexivity|]. split; [exists 1%Z; reflexivity|]. split; [discriminate|simpl; auto]. }
  set (M := mkModule L true) in *.
  assert (kernel_grid M = so2_uniform_grid 4) as EK. { unfold kernel_grid, M. cbn [gm_layer]. rewrite EL. exact Eg. }
  destruct HC as (m & Em & HC). { repeat split; lia. } injection Em as <-.
  pose (im := slice w [3; 3]%nat [0; 0]%nat).
  assert (forall a b, (a < 3)%nat -> (b < 3)%nat -> at_ (mkT [3; 3]%nat im) [a; b] = if (a =? 1)%nat || (b =? 1)%nat then 0 else 1) as Eim.
  { intros a b Ha Hb. change (mkT [3; 3]%nat im) with (build [3; 3]%nat (fun y => at_ w ([0; 0]%nat ++ y))).
    rewrite at_build by (repeat apply valid_cons; try assumption; apply valid_nil). cbn [app]. unfold w.
    rewrite at_build by (repeat apply valid_cons; try assumption; try lia; apply valid_nil). reflexivity. }
  pose (angle := fun u j => so2_left_apply_angle (2 * PI * u) (2 * PI * INR j / INR 4)).
  assert (forall u, exists Y H p, lifting_SE2_call M u w X None = Ok (Y, H) /\ g_avg_global_pool Y = Ok (PTensor p) /\
    at_ p [0; 0; 0]%nat = sumR (map (fun j => gs2 true GsBorder [3; 3]%nat im (app2 (so2_angle_to_matrix (- angle u j)) (mkV2 (-1) 0))) (seq 0 4)) / 4) as Main.
  { intros u. pose (H := bcast_left so2_left_apply_angle (drawn_SE2 u) (so2_uniform_grid 4)).
    assert (List.length H = 4%nat) as LH. { unfold H, bcast_left, drawn_SE2, so2_random_grid. cbn [map flat_map]. rewrite app_nil_r, map_length. apply so2_uniform_grid_length. }
    assert (forall j, (j < 4)%nat -> nth_error H j = Some (angle u j)) as Hnth.
    { intros j Hj. unfold H, bcast_left, drawn_SE2, so2_random_grid. cbn [map flat_map]. rewrite app_nil_r, nth_error_map, so2_uniform_grid_nth by assumption. reflexivity. }
    destruct (C36_SE2 T 1 1 3 1 "bilinear" "border" true (so2_uniform_grid 4) (gs2 true GsBorder) w H) as (W & EW & SW & VW); [lia|reflexivity|exact Hw|].
    rewrite LH in SW.
    pose proof (C45_lifting_convolution R V2 _ 2 L 1 1 [3; 3]%nat _ 1 [1; 1]%nat (PInt 0) [1; 1]%nat Zeros None w W H X 1 [3; 3]%nat HC) as Q. cbv zeta in Q.
    destruct Q as [Q _]; [intros Z; rewrite Z in LH; discriminate|exact EW|rewrite LH; exact SW|exact HX|reflexivity|].
    destruct Q as (Y & EY & SY & VY). { intros j Hj. cbn in Hj. destruct j as [|[|j]]; [vm_compute; lia|vm_compute; lia|lia]. }
    rewrite LH in SY. change (has_shape Y [1; 1; 4; 1; 1]%nat) in SY.
    destruct (C54_avg_global_pool Y 1 1 4 [1; 1]%nat SY) as (p & Ep & _ & Vp).
    exists Y, H, p. split.
    { unfold lifting_SE2_call, lifting_call, permuted. cbn [gm_permute gm_layer M or_else]. fold M. rewrite EK. fold H. exact EY. }
    split; [exact Ep|]. rewrite Vp by lia. rewrite total_sumR. change (INR (4 * prodn [1; 1]%nat)) with (INR 4). replace (INR 4) with 4 by (cbn; lra). f_equal.
    change (indices [4; 1; 1]%nat) with (map (fun j => [j; 0; 0]%nat) (seq 0 4)). rewrite map_map. f_equal. apply map_ext_in. intros j Hj. apply in_seq in Hj.
    rewrite VY; [|lia|lia|rewrite LH; lia|repeat apply valid_cons; try lia; apply valid_nil].
    assert (forall a b, (a < 3)%nat -> (b < 3)%nat ->
      image_at Zeros X [3; 3]%nat [0; 0]%nat (read_pos [1; 1]%nat [1; 1]%nat (lefts (stored_padding 2 (PInt 0)) [3; 3]%nat [1; 1]%nat) [0; 0]%nat [a; b])
      = if (a =? 0)%nat && (b =? 1)%nat then 1 else 0) as HR.
    { intros a b Ha Hb. assert (read_pos [1; 1]%nat [1; 1]%nat (lefts (stored_padding 2 (PInt 0)) [3; 3]%nat [1; 1]%nat) [0; 0]%nat [a; b] = [Z.of_nat a; Z.of_nat b]) as ->.
      { unfold read_pos. change (lefts (stored_padding 2 (PInt 0)) [3; 3]%nat [1; 1]%nat) with [0; 0]%nat. unfold axes. cbn [List.length seq map nth]. f_equal; [|f_equal]; lia. }
      rewrite image_at_inside. 2:{ intros i Hi. cbn in Hi. destruct i as [|[|i]]; [cbn; lia|cbn; lia|lia]. }
      unfold axes. cbn [List.length seq map nth app]. rewrite !Nat2Z.id. unfold X. rewrite at_build by (repeat apply valid_cons; try assumption; try lia; apply valid_nil). reflexivity. }
    change (seq 0 (1 / 1)) with [0]%nat. change (indices [3; 3]%nat) with [[0; 0]; [0; 1]; [0; 2]; [1; 0]; [1; 1]; [1; 2]; [2; 0]; [2; 1]; [2; 2]]%nat.
    change (0 / (1 / 1) * (1 / 1) + 0)%nat with 0%nat.
    cbn [map]. change (0 / (1 / 1) * (1 / 1) + 0)%nat with 0%nat. rewrite !HR by lia. cbn [Nat.eqb andb]. unfold sumR. cbn [fold_right]. rewrite (VW 0%nat j (angle u j) 0%nat 0%nat 1%nat) by (try apply Hnth; cbn; lia).
    rewrite mask_R2_at by (repeat apply valid_cons; try lia; apply valid_nil). rewrite grid_R2_at by lia.
    assert (mkV2 (lin 3 0) (lin 3 1) = mkV2 (-1) 0) as ->. { unfold lin. cbn. f_equal; field. }
    fold im. cbn [bias_value].
    assert (lt_float (norm2 (mkV2 (-1) 0)) (11 / 10) = 1) as ->.
    { unfold lt_float, norm2, dot2. cbn [v2x v2y]. replace (-1 * -1 + 0 * 0) with 1 by ring. rewrite sqrt_1. destruct (Rlt_dec 1 (11 / 10)); [reflexivity|lra]. }
    ring. }
  destruct (Main 0) as (Y0 & H0 & p0 & E0 & A0 & V0). destruct (Main (1/8)) as (Y1 & H1 & p1 & E1 & A1 & V1).
  exists M, w, X, Y0, H0, Y1, H1, p0, p1.
  do 7 (split; [assumption|]). rewrite V0, V1.
  assert (forall u j, so2_angle_to_matrix (- angle u j) = mkM2 (cos (2 * PI * u + 2 * PI * INR j / INR 4)) (sin (2 * PI * u + 2 * PI * INR j / INR 4))
     (- sin (2 * PI * u + 2 * PI * INR j / INR 4)) (cos (2 * PI * u + 2 * PI * INR j / INR 4))) as Ea.
  { intros u j. unfold angle, so2_angle_to_matrix, so2_left_apply_angle. rewrite cos_neg, sin_neg, cos_Rmod, sin_Rmod, Ropp_involutive. reflexivity. }
  split.
  - assert (forall j, (j < 4)%nat -> gs2 true GsBorder [3; 3]%nat im (app2 (so2_angle_to_matrix (- angle 0 j)) (mkV2 (-1) 0)) = 0) as Z.
    { intros j Hj. apply linear_edge.
      - intros a b Ha Hb Hab. rewrite Eim by assumption. destruct Hab as [-> | ->]; [reflexivity|]. rewrite orb_true_r. reflexivity.
      - rewrite Ea. unfold app2. cbn [b00 b01 b10 b11 v2x v2y].
        assert (2 * PI * INR j / INR 4 = INR j * (PI / 2)) as -> by (replace (INR 4) with 4 by (cbn; lra); field). rewrite Rmult_0_r, Rplus_0_l.
        destruct j as [|[|[|[|j]]]]; [| | | |lia].
        + replace (INR 0 * (PI / 2)) with 0 by (cbn; ring). rewrite cos_0, sin_0. right. split; [ring|]. replace (1 * -1 + 0 * 0) with (-1) by ring. rewrite Rabs_left; lra.
        + replace (INR 1 * (PI / 2)) with (PI / 2) by (cbn; ring). rewrite cos_PI2, sin_PI2. left. split; [ring|]. replace (- (1) * -1 + 0 * 0) with 1 by ring. rewrite Rabs_right; lra.
        + replace (INR 2 * (PI / 2)) with PI by (cbn; field). rewrite cos_PI, sin_PI. right. split; [ring|]. replace (-1 * -1 + 0 * 0) with 1 by ring. rewrite Rabs_right; lra.
        + replace (INR 3 * (PI / 2)) with (3 * (PI / 2)) by (cbn; ring). rewrite cos_3PI2, sin_3PI2. left. split; [ring|]. replace (- -1 * -1 + 0 * 0) with (-1) by ring. rewrite Rabs_left; lra. }
    cbn [seq map]. rewrite !Z by lia. unfold sumR. cbn [fold_right]. lra.
  - assert (forall j, (j < 4)%nat -> let t := 2 * PI * (1 / 8) + 2 * PI * INR j / INR 4 in 2/3 <= Rabs (cos t) /\ 2/3 <= Rabs (sin t)) as Hcs.
    { intros j Hj t. assert (cos (2 * t) = 0) as E.
      { replace (2 * t) with (PI / 2 + INR j * PI) by (unfold t; replace (INR 4) with 4 by (cbn; lra); field). rewrite cos_plus, cos_PI2, sin_PI2.
        assert (sin (INR j * PI) = 0) as ->; [|ring]. destruct j as [|[|[|[|j]]]]; [| | | |lia].
        - replace (INR 0 * PI) with 0 by (cbn; ring). apply sin_0.
        - replace (INR 1 * PI) with PI by (cbn; ring). apply sin_PI.
        - replace (INR 2 * PI) with (2 * PI) by (cbn; ring). apply sin_2PI.
        - replace (INR 3 * PI) with (2 * PI + PI) by (cbn; ring). rewrite neg_sin, sin_2PI. ring. }
      assert (forall z, z * z = 1 / 2 -> 2/3 <= Rabs z) as Q. { clear. intros z Hz. unfold Rabs. destruct (Rcase_abs z); nra. }
      pose proof (sin2_cos2 t) as S. unfold Rsqr in S. rewrite cos_2a in E. split; apply Q; lra. }
    assert (forall j, (j < 4)%nat -> gs2 true GsBorder [3; 3]%nat im (app2 (so2_angle_to_matrix (- angle (1/8) j)) (mkV2 (-1) 0)) = 1) as Z.
    { intros j Hj. apply linear_corner.
      - intros a b Ha Hb Na Nb. rewrite Eim by assumption. apply Nat.eqb_neq in Na, Nb. rewrite Na, Nb. reflexivity.
      - rewrite Ea. unfold app2. cbn [b00 b01 b10 b11 v2x v2y]. replace (_ * -1 + _ * 0) with (- cos (2 * PI * (1 / 8) + 2 * PI * INR j / INR 4)) by ring. rewrite Rabs_Ropp. exact (proj1 (Hcs j Hj)).
      - rewrite Ea. unfold app2. cbn [b00 b01 b10 b11 v2x v2y]. replace (_ * -1 + _ * 0) with (sin (2 * PI * (1 / 8) + 2 * PI * INR j / INR 4)) by ring. exact (proj2 (Hcs j Hj)). }
    cbn [seq map]. rewrite !Z by lia. unfold sumR. cbn [fold_right]. lra.
Qed.
Print Assumptions C98_pathwise_refuted.

(** ** The hypotheses are met: a lifting layer, a batch normalization, ReLU and a "nearest" group convolution, all with their default random grid, for any number N of values of torch.rand. *)
Example C98_nonvacuous : forall T (N : nat), torch_ok T -> exists (M M1 : gmodule R V2),
  let w := build [2; 1; 3; 3]%nat (fun idx => INR (nth 3 idx 0%nat)) in
  let w1 := build [4; 3; 2; 3; 3]%nat (fun idx => INR (nth 0 idx 0%nat)) in
  let X := build [2; 1; 6; 6]%nat (fun idx => INR (nth 2 idx 0%nat)) in
  let s := {| nm_features := 2; nm_eps := 1/100000; nm_momentum := Some (1/10); nm_weight := Some [1; 1]; nm_bias := Some [0; 0];
    nm_mean := Some [0; 0]; nm_var := Some [1; 1]; nm_count := 0; nm_training := true |} in
  let net := [BBatchNorm s; BReLU; BConv M1 w1 None] in
  let law := both (rand_values N) (independent (rand_values N) (List.length net)) in
  let prog us := combine net (map drawn_SE2 us) in
  gm_permute M = true /\ gm_permute M1 = true /\ Forall default_grid net /\ ready_lifting_SE2 M w X /\
  forall d, In d law -> network_ok SEn 2 so2_left_apply_angle ready_SE2 M w (drawn_SE2 (fst d)) None (prog (snd d)) X /\
    answered (network SEn 2 so2_left_apply_angle M w (drawn_SE2 (fst d)) None (prog (snd d)) X).
Proof.
  intros T N HT.
  pose (w := build [2; 1; 3; 3]%nat (fun idx => INR (nth 3 idx 0%nat))).
  pose (w1 := build [4; 3; 2; 3; 3]%nat (fun idx => INR (nth 0 idx 0%nat))).
  pose (X := build [2; 1; 6; 6]%nat (fun idx => INR (nth 2 idx 0%nat))).
  pose (s := {| nm_features := 2; nm_eps := 1/100000; nm_momentum := Some (1/10); nm_weight := Some [1; 1]; nm_bias := Some [0; 0];
    nm_mean := Some [0; 0]; nm_var := Some [1; 1]; nm_count := 0; nm_training := true |}).
  assert (has_shape w [2; 1; 3; 3]%nat) as Hw by (split; [reflexivity|apply wft_build]).
  assert (has_shape w1 [4; 3; 2; 3; 3]%nat) as Hw1 by (split; [reflexivity|apply wft_build]).
  assert (has_shape X [2; 1; 6; 6]%nat) as HX by (split; [reflexivity|apply wft_build]).
  destruct (C69_lifting_SE2 T 1 2 3 1 1 (PInt 0) 1 "zeros" true None "bilinear" "border" true 4 None) as (A & _ & Eg & _).
  destruct A as (L & EM & EL & _).
  { split; [exact I|]. split; [lia|]. split; [exists 1%Z; reflexivity|]. split; [exists 2%Z; reflexivity|]. split; [discriminate|simpl; auto]. }
  set (M := mkModule L true) in *.
  destruct (C69_group_SE2 T 2 3 3 1 1 (PInt 0) 1 "zeros" true None "bilinear" "border" true 4 "nearest" 1 None) as (A1 & _).
  destruct A1 as (k & Ek & (L1 & EM1 & EL1 & HC1) & Egk & _).
  { left. lra. }
  { split; [exact I|]. split; [lia|]. split; [exists 2%Z; reflexivity|]. split; [exists 3%Z; reflexivity|]. split; [discriminate|simpl; auto]. }
  set (M1 := mkModule L1 true) in *.
  destruct HC1 as (m1 & Em1 & HC1). { repeat split; lia. } injection Em1 as <-.
  assert (kernel_grid M = so2_uniform_grid 4) as EK. { unfold kernel_grid, M. cbn [gm_layer]. rewrite EL. exact Eg. }
  assert (forall H : list R, List.length H = 4%nat -> H <> []) as Hne4. { intros H E Q. rewrite Q in E. discriminate. }
  assert (so2_uniform_grid 4 <> []) as Hne. { apply Hne4. apply so2_uniform_grid_length. }
  assert (forall u H, List.length (bcast_left so2_left_apply_angle (drawn_SE2 u) H) = List.length H) as LB.
  { intros u H. unfold bcast_left, drawn_SE2, so2_random_grid. cbn [map flat_map]. rewrite app_nil_r, map_length. reflexivity. }
  exists M, M1. cbv zeta. fold w w1 X s.
  split; [reflexivity|]. split; [reflexivity|]. split; [repeat constructor|]. split.
  { exists T, 1%nat, 2%nat, 3%nat, 1%Z, 1%nat, (PInt 0), 1%nat, "zeros"%string, true, None, "bilinear"%string, "border"%string, true, 4%nat, None, (so2_uniform_grid 4), 0%nat, 2%nat, 6%nat, 6%nat.
    split; [reflexivity|]. split; [exact EM|]. split; [repeat split; lia|]. split; [lia|]. split; [left; reflexivity|]. split; [exact Hw|]. split; [exact HX|left; reflexivity]. }
  intros [u us] Hin. apply in_both in Hin as [_ Hus]. apply in_independent in Hus as [Lus _]. cbn [fst snd]. cbn [List.length] in Lus.
  destruct us as [|u1 [|u2 [|u3 [|? ?]]]]; try discriminate Lus. clear Lus. cbn [map combine].
  destruct (C69_lifting_SE2_calls T 1 2 3 1 1 (PInt 0) 1 "zeros" true None "bilinear" "border" true 4 None M u w X 2 6 6 (gs2 true GsBorder) EM)
    with (H := @None (list R)) as (m & Hm & F & _); [repeat split; lia|reflexivity|exact Hw|exact HX|exact Hne|].
  injection Hm as <-. destruct F as (Y1 & H1 & EY1 & SY1).
  { intros j Hj. cbn in Hj. destruct j as [|[|j]]; [vm_compute; lia|vm_compute; lia|lia]. }
  assert (lifting_call M so2_left_apply_angle (drawn_SE2 u) w X None = Ok (Y1, H1)) as EY by exact EY1.
  assert (H1 = bcast_left so2_left_apply_angle (drawn_SE2 u) (so2_uniform_grid 4)) as E1.
  { pose proof (lifting_forward_grid _ _ _ _ _ _ EY1) as Q. rewrite Q. unfold permuted. cbn [gm_permute M or_else]. fold M. rewrite EK. reflexivity. }
  assert (List.length H1 = 4%nat) as L4. { rewrite E1, LB. apply so2_uniform_grid_length. }
  rewrite L4 in SY1. change (has_shape Y1 [2; 2; 4; 4; 4]%nat) in SY1.
  destruct (C56_batch_norm R 2 s Y1 H1 2 2 4 [4; 4]%nat SY1 eq_refl ltac:(lia) eq_refl) as [_ B].
  destruct B as (Y2 & s' & EY2 & SY2 & _). { right. vm_compute. discriminate. }
  pose (Y3 := ewise relu Y2). assert (has_shape Y3 [2; 2; 4; 4; 4]%nat) as SY3. { destruct SY2 as [Q1 Q2]. split; [exact Q1|]. unfold wft in *. cbn [Y3 ewise shape data]. rewrite map_length. exact Q2. }
  pose (H2 := bcast_left so2_left_apply_angle (drawn_SE2 u3) H1).
  assert (List.length H2 = 4%nat) as L2. { unfold H2. rewrite LB. exact L4. }
  destruct (nearest_full_SE2 T HT 2 3 3 1 1 true (so2_uniform_grid 4) k w1 H1 H2) as (W & EW & HW);
    [lia|lra|exact Hne|exact Ek|rewrite so2_uniform_grid_length; exact Hw1|].
  rewrite L4, L2 in HW.
  destruct (C46_group_convolution R V2 _ 2 L1 2 3 [3; 3]%nat k 1 [1; 1]%nat (PInt 0) [1; 1]%nat Zeros None w1 W H1 H2 Y3 2 [4; 4]%nat)
    as [C _]; [exact HC1|apply Hne4; exact L2|exact EW|rewrite L4, L2; exact HW|rewrite L4; exact SY3|reflexivity|].
  destruct C as (Y4 & EY4 & SY4 & _).
  { intros j Hj. cbn in Hj. destruct j as [|[|j]]; [vm_compute; lia|vm_compute; lia|lia]. }
  rewrite L2 in SY4. change (has_shape Y4 [2; 3; 4; 2; 2]%nat) in SY4.
  split.
  { split; [cbn [or_else]; rewrite EK; exact Hne|]. intros Y0 H0 E0. rewrite EY in E0. injection E0 as <- <-. cbn [throughout ready_SE2]. split; [exact I|].
    intros Y0 H0 b0 E0. cbn [step] in E0. rewrite EY2 in E0. cbn [bind fst snd] in E0. injection E0 as <- <- <-. split; [exact I|].
    intros Y0 H0 b0 E0. cbn [step g_relu bind fst snd] in E0. injection E0 as <- <- <-. split; [|intros; exact I].
    split; [|apply Hne4; exact L2].
    exists T, 2%nat, 3%nat, 3%nat, 1%Z, 1%nat, (PInt 0), 1%nat, "zeros"%string, true, None, "bilinear"%string, "border"%string, true, 4%nat, "nearest"%string, 1, None, (so2_uniform_grid 4), 0%nat, 2%nat, 4%nat, 4%nat, 4%nat.
    split; [reflexivity|]. split; [exact EM1|]. split; [repeat split; lia|]. split; [lia|]. split; [left; reflexivity|].
    split; [rewrite so2_uniform_grid_length; exact Hw1|]. split; [exact SY3|left; reflexivity]. }
  exists Y4, H2, [BBatchNorm s'; BReLU; BConv M1 w1 None].
  destruct SY4 as [SY4 W4].
  unfold g_max_global_pool, flatten2, max2. do 2 eexists. split.
  { unfold network. rewrite EY. cbn [bind fst snd run step]. rewrite EY2. cbn [bind fst snd run step g_relu]. fold Y3.
    unfold full_call_SEn. cbn [or_else permuted M1 gm_permute gm_layer]. unfold permuted. cbn [gm_permute]. fold H2. rewrite EY4. cbn [bind fst snd]. reflexivity. }
  rewrite SY4. cbn [bind shape]. change (prodn [4; 2; 2]%nat) with 16%nat. cbn [Nat.eqb rmap]. reflexivity.
Qed.

Ltac cut_at x l k := lazymatch l with x :: ?t => k (@nil Q4) t | ?y :: ?t => cut_at x t ltac:(fun a b => k (y :: a) b) end.
Ltac same_members := lazymatch goal with
  | |- Permutation (?x :: _) ?l => cut_at x l ltac:(fun a b => apply (Permutation_cons_app a b x)); cbn [app]; same_members
  | _ => apply perm_nil end.
(** The laws of C98_SE3 and C98_E3: the eight unit quaternions +-1, +-i, +-j, +-k are unchanged by left multiplication and by conjugation with the quaternion of a half turn. *)
Example C98_nonvacuous_quaternions : let law := [mkQ 1 0 0 0; mkQ (-1) 0 0 0; mkQ 0 1 0 0; mkQ 0 (-1) 0 0; mkQ 0 0 1 0; mkQ 0 0 (-1) 0; mkQ 0 0 0 1; mkQ 0 0 0 (-1)] in
  let g := so3_quat_to_matrix (mkQ 0 1 0 0) in let p := so3_matrix_to_quat g in
  signed3 g /\ det3 g = 1 /\ g <> I3 /\
  same_law (map (qmul p) law) law /\ same_law (map (fun x => qmul (qmul p x) (so3_quat_inverse p)) law) law /\ Forall (fun x => 0 < qdot x x) law.
Proof.
  intros law g p.
  assert (g = mkM3 1 0 0 0 (-1) 0 0 0 (-1)) as Eg. { unfold g, so3_quat_to_matrix. cbn. f_equal; field. }
  assert (isSO3 g) as HS. { apply q2m_SO3. unfold unitq, qdot. cbn. lra. }
  split. { split; [exact (proj1 HS)|]. rewrite Eg. cbn. unfold unit_entry. intuition lra. }
  split; [exact (proj2 HS)|].
  split; [rewrite Eg; unfold I3; intros Q; injection Q; intros; lra|].
  assert (p = mkQ 0 1 0 0 \/ p = mkQ 0 (-1) 0 0) as Hp.
  { destruct (m2q_left_inv (mkQ 0 1 0 0)) as [Q|Q]; [unfold unitq, qdot; cbn; lra|left; exact Q|right]. unfold p, g. rewrite Q. unfold qneg. cbn. f_equal; ring. }
  clearbody p. clear HS Eg g. split; [|split]; [| |repeat constructor; unfold qdot; cbn; lra].
  - assert (map (qmul p) law = [mkQ 0 1 0 0; mkQ 0 (-1) 0 0; mkQ (-1) 0 0 0; mkQ 1 0 0 0; mkQ 0 0 0 1; mkQ 0 0 0 (-1); mkQ 0 0 (-1) 0; mkQ 0 0 1 0] \/
      map (qmul p) law = [mkQ 0 (-1) 0 0; mkQ 0 1 0 0; mkQ 1 0 0 0; mkQ (-1) 0 0 0; mkQ 0 0 0 (-1); mkQ 0 0 0 1; mkQ 0 0 1 0; mkQ 0 0 (-1) 0]) as E.
    { destruct Hp as [-> | ->]; [left|right]; unfold law, qmul; cbn [map qw qx qy qz]; repeat (apply f_equal2; [f_equal; ring|]); reflexivity. }
    unfold same_law. destruct E as [-> | ->]; unfold law; same_members.
  - assert (map (fun x => qmul (qmul p x) (so3_quat_inverse p)) law =
      [mkQ 1 0 0 0; mkQ (-1) 0 0 0; mkQ 0 1 0 0; mkQ 0 (-1) 0 0; mkQ 0 0 (-1) 0; mkQ 0 0 1 0; mkQ 0 0 0 (-1); mkQ 0 0 0 1]) as ->.
    { destruct Hp as [-> | ->]; unfold law, qmul, so3_quat_inverse; cbn [map qw qx qy qz]; repeat (apply f_equal2; [f_equal; ring|]); reflexivity. }
    unfold same_law, law. same_members.
Qed.

(** The hypotheses of C98_mean_response_SE2: the default lifting layer with 4 rotations, a 6 x 6 image and the 2^24 values of torch.rand. *)
Example C98_nonvacuous_mean : forall T, let N := (2 ^ 24)%nat in let n := 4%nat in
  exists (L : gconv R V2) (X YN PN : tensor R),
  constructed 2 L 1 2 [3; 3]%nat (lifting_kernel_SE2 T 1 2 3 1 "bilinear" "border" true (so2_uniform_grid n)) 1 [1; 1]%nat (PInt 0) [1; 1]%nat Zeros None /\
  let w := build [2; 1; 3; 3]%nat (fun idx => INR (nth 3 idx 0%nat)) in
  has_shape w [2; 1; 3; 3]%nat /\ has_shape X [2; 1; 6; 6]%nat /\ (0 < N)%nat /\ (N mod n = 0)%nat /\
  lifting_forward L w X (so2_uniform_grid N) = Ok (YN, so2_uniform_grid N) /\ g_avg_group_pool YN = Ok (PTensor PN).
Proof.
  intros T N n.
  assert (Z.of_nat N = 16777216)%Z as EN. { unfold N. rewrite Nat2Z.inj_pow. reflexivity. }
  pose (w := build [2; 1; 3; 3]%nat (fun idx => INR (nth 3 idx 0%nat))).
  pose (X := build [2; 1; 6; 6]%nat (fun idx => INR (nth 2 idx 0%nat))).
  assert (has_shape w [2; 1; 3; 3]%nat) as Hw by (split; [reflexivity|apply wft_build]).
  assert (has_shape X [2; 1; 6; 6]%nat) as HX by (split; [reflexivity|apply wft_build]).
  clearbody N. 
  destruct (C69_lifting_SE2 T 1 2 3 1 1 (PInt 0) 1 "zeros" true None "bilinear" "border" true 4 None) as (A & _ & Eg & _).
  destruct A as (L & EM & EL & HC).
  { split; [exact I|]. split; [lia|]. split; [exists 1%Z; reflexivity|]. split; [exists 2%Z; reflexivity|]. split; [discriminate|simpl; auto]. }
  destruct HC as (m & Em & HC). { repeat split; lia. } injection Em as <-.
  destruct (C36_SE2 T 1 2 3 1 "bilinear" "border" true (so2_uniform_grid 4) (gs2 true GsBorder) w (so2_uniform_grid N)) as (W & EW & SW & _); [lia|reflexivity|exact Hw|].
  pose proof (C45_lifting_convolution R V2 _ 2 L 1 2 [3; 3]%nat _ 1 [1; 1]%nat (PInt 0) [1; 1]%nat Zeros None w W (so2_uniform_grid N) X 2 [6; 6]%nat HC) as Q. cbv zeta in Q.
  assert (so2_uniform_grid N <> []) as Hne. { intros Z. apply (f_equal (@List.length R)) in Z. rewrite so2_uniform_grid_length in Z. cbn in Z. lia. }
  destruct Q as [Q _]; [exact Hne|exact EW|exact SW|exact HX|reflexivity|].
  destruct Q as (Y & EY & SY & VY). { intros j Hj. cbn in Hj. destruct j as [|[|j]]; [vm_compute; lia|vm_compute; lia|lia]. }
  destruct (C54_avg_group_pool Y 2 2 _ _ SY) as (p & Ep & _).
  exists L, X, Y, p. split; [exact HC|]. fold w. split; [exact Hw|]. split; [exact HX|]. split; [lia|]. split; [|split; [exact EY|exact Ep]].
  unfold n. apply Nat2Z.inj. rewrite Nat2Z.inj_mod, EN. reflexivity.
Qed.
