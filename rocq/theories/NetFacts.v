(** Facts about networks: the modules that are not convolutions, grids, induction over the modules. *)
From Coq Require Import String ZArith Permutation FinFun.
From Verif Require Import Prelude RMath Mat Tensor TensorFacts SignedPerm KernelFacts Kernel Conv EquiSpecFacts EquiKernel Layers LayersSpec LayersFacts NormFacts PoolFacts
  RegridSpec Regrid Prop_Layers Public PublicFacts Network NetworkSpec NetworkCond.
Open Scope nat_scope.

(** A one-to-one map of multi-indices has an inverse. *)
Lemma bijective_inverse f s s' : bijective f s s' -> exists g, bijective g s' s /\ (forall y, valid s y -> g (f y) = y) /\ (forall y, valid s' y -> f (g y) = y).
Proof.
  intros (A & B & C).
  pose (g := fun y' => match find (fun y => if list_eq_dec Nat.eq_dec (f y) y' then true else false) (indices s) with Some y => y | None => [] end).
  assert (forall y', valid s' y' -> valid s (g y') /\ f (g y') = y') as Hg.
  { intros y' Hy'. unfold g. destruct (find _ (indices s)) as [y|] eqn:E.
    - apply find_some in E. destruct E as [E1 E2]. apply in_indices in E1. split; [assumption|].
      destruct (list_eq_dec Nat.eq_dec (f y) y'); [assumption|discriminate].
    - exfalso. destruct (C y' Hy') as (y & Hy & Ey). apply in_indices in Hy. apply (find_none _ _ E) in Hy.
      destruct (list_eq_dec Nat.eq_dec (f y) y'); [discriminate|contradiction]. }
  assert (forall y, valid s y -> g (f y) = y) as Hgf.
  { intros y Hy. destruct (Hg (f y) (A y Hy)) as [V E]. apply B; assumption. }
  exists g. split; [|split; [assumption|intros y Hy; apply Hg; assumption]].
  split; [intros y Hy; apply Hg; assumption|]. split.
  - intros y z Hy Hz E. rewrite <- (proj2 (Hg y Hy)), <- (proj2 (Hg z Hz)), E. reflexivity.
  - intros y Hy. exists (f y). split; [apply A; assumption|apply Hgf; assumption].
Qed.

Definition eqrel : list nat -> R -> R -> Prop := fun _ v v' => v' = v.

Section Turn.
  Context (d : nat) (sp : sperm) (Hok : sp_ok d sp).

  (** X' is X with group axis and positions rearranged. *)
  Definition turn (f : nat -> nat) (N C n : nat) (s s' : list nat) (X X' : tensor R) : Prop :=
    length s = d /\ has_shape X (N :: C :: n :: s) /\ has_shape X' (N :: C :: n :: s') /\ sp_shape sp s s' /\ permutes n f /\
    forall a c e i, a < N -> c < C -> e < n -> valid s' i -> at_ X' (a :: c :: e :: i) = at_ X (a :: c :: f e :: sp_idx sp s i).

  Lemma turn_intro f N C n s s' X Z X' : length s = d -> has_shape X (N :: C :: n :: s) -> has_shape X' (N :: C :: n :: s') -> permutes n f ->
    carried_sp d sp eqrel X Z -> regrouped d f n n Z X' -> turn f N C n s s' X X'.
  Proof.
    intros L HX HX' Hp HM HR. destruct (carried_sp_inv d sp eqrel X Z [N; C; n] s HM HX L) as (s1 & HZ & Hsh & V).
    destruct (regrouped_inv d f n n Z X' N C s1 HR HZ) as (_ & HX2 & W). pose proof (proj1 HX2) as Q. rewrite (proj1 HX') in Q. injection Q as <-.
    split; [assumption|]. split; [assumption|]. split; [assumption|]. split; [assumption|]. split; [assumption|].
    intros a c e i Ha Hc He Hi. destruct (W a c e i Ha Hc He Hi) as [F ->].
    apply (V [a; c; f e] i); [repeat apply valid_cons; auto using valid_nil|assumption].
  Qed.

  Lemma turn_elim f N C n s s' X X' : turn f N C n s s' X X' -> exists Z, carried_sp d sp eqrel X Z /\ regrouped d f n n Z X'.
  Proof.
    intros (L & HX & HX' & Hsh & Hp & V).
    exists (build ([N; C; n] ++ s') (fun idx => at_ X (firstn 3 idx ++ sp_idx sp s (skipn 3 idx)))). split.
    - exists [N; C; n], s, s'. split; [assumption|]. split; [exact HX|]. split; [split; [reflexivity|apply wft_build]|]. split; [assumption|].
      intros pre i Hpre Hi. unfold eqrel. pose proof (valid_length _ _ Hpre) as Lp. destruct pre as [|a [|b [|c [|]]]]; try discriminate.
      rewrite at_build by (apply valid_app; assumption). reflexivity.
    - exists N, C, s'. split; [destruct Hsh; congruence|]. split; [split; [reflexivity|apply wft_build]|]. split; [exact HX'|].
      intros a c e z Ha Hc He Hz. assert (f e < n) as Hf by (apply Hp; assumption). split; [assumption|].
      rewrite V by assumption. symmetry. change (a :: c :: f e :: z) with ([a; c; f e] ++ z).
      rewrite at_build by (apply valid_app; [repeat apply valid_cons; auto using valid_nil|assumption]). reflexivity.
  Qed.

  Definition pull (f : nat -> nat) (s : list nat) (y : list nat) : list nat := f (nth 0 y 0) :: sp_idx sp s (skipn 1 y).
  Lemma pull_bijective f n s s' : length s = d -> sp_shape sp s s' -> permutes n f -> bijective (pull f s) (n :: s') (n :: s).
  Proof.
    intros L Hsh [P1 P2]. split; [|split].
    - intros y Hy. apply valid_inv_cons in Hy. destruct Hy as (e & i & -> & He & Hi). unfold pull. cbn [nth skipn].
      apply valid_cons; [apply P1; assumption|]. apply (sp_idx_valid d sp Hok s s' L Hsh). assumption.
    - intros y z Hy Hz E. apply valid_inv_cons in Hy, Hz. destruct Hy as (e & i & -> & He & Hi), Hz as (e' & i' & -> & He' & Hi').
      unfold pull in E. cbn [nth skipn] in E. injection E as E1 E2. f_equal; [apply P2; assumption|].
      apply (sp_idx_inj d sp Hok s s' L Hsh); assumption.
    - intros y' Hy'. apply valid_inv_cons in Hy'. destruct Hy' as (e & i & -> & He & Hi).
      assert (exists e0, e0 < n /\ f e0 = e) as (e0 & H0 & E0).
      { assert (In e (map f (seq 0 n))) as Q. { apply (Permutation_in _ (Permutation_sym (permutes_perm n f (conj P1 P2)))). apply in_seq. lia. }
        apply in_map_iff in Q. destruct Q as (e0 & Q1 & Q2). apply in_seq in Q2. exists e0. split; [lia|assumption]. }
      assert (exists i0, valid s' i0 /\ sp_idx sp s i0 = i) as (i0 & V0 & F0).
      { assert (In i (map (sp_idx sp s) (indices s'))) as Q. { apply (Permutation_in _ (Permutation_sym (sp_idx_perm d sp Hok s s' L Hsh))). apply in_indices. assumption. }
        apply in_map_iff in Q. destruct Q as (i0 & Q1 & Q2). apply in_indices in Q2. eauto. }
      exists (e0 :: i0). split; [apply valid_cons; assumption|]. unfold pull. cbn [nth skipn]. congruence.
  Qed.

  Lemma turn_rearranged f N C n s s' X X' : turn f N C n s s' X X' -> exists F, rearranged F (n :: s) (n :: s') X X' /\
    (forall Y Y', rearranged F (n :: s) (n :: s') Y Y' -> exists N C, turn f N C n s s' Y Y').
  Proof.
    intros (L & HX & HX' & Hsh & Hp & V).
    destruct (bijective_inverse _ _ _ (pull_bijective f n s s' L Hsh Hp)) as (F & BF & FG & GF). exists F. split.
    - split; [exact BF|]. exists N, C. split; [assumption|]. split; [assumption|]. intros a c y Ha Hc Hy.
      pose proof (proj1 BF y Hy) as Hv. pose proof (GF y Hy) as E. destruct (valid_inv_cons _ _ _ Hv) as (e & i & Ei & He & Hi). rewrite Ei in *.
      rewrite V by assumption. unfold pull in E. cbn [nth skipn] in E. rewrite E. reflexivity.
    - intros Y Y' (_ & N2 & C2 & HY & HY' & W). exists N2, C2. split; [assumption|]. split; [assumption|]. split; [assumption|]. split; [assumption|]. split; [assumption|].
      intros a c e i Ha Hc He Hi. assert (valid (n :: s') (e :: i)) as Hv by (apply valid_cons; assumption).
      pose proof (proj1 (pull_bijective f n s s' L Hsh Hp) _ Hv) as Hv2.
      rewrite <- (FG _ Hv) at 1. rewrite W by assumption. reflexivity.
  Qed.
End Turn.

(** ** Grids *)
Lemma regrid_permutation {G} (H H' : list G) : Permutation H H' -> exists f, permutes (length H) f /\ regrid f H H'.
Proof.
  intros P. pose proof (Permutation_length P) as L. apply Permutation_nth_error_bis in P. destruct P as (f & Hi & Hb & E). exists f. split.
  - split; [exact Hb|]. intros i j _ _. apply Hi.
  - intros j h Hj. rewrite <- E. exact Hj.
Qed.
Lemma regrid_map {G G'} (u : G -> G') f (H H' : list G) : regrid f H H' -> regrid f (map u H) (map u H').
Proof.
  intros HR j h Hj. rewrite nth_error_map in Hj. destruct (nth_error H' j) as [x|] eqn:E; [|discriminate]. injection Hj as <-.
  rewrite nth_error_map, (HR j x E). reflexivity.
Qed.
Lemma regrid_id {G} (H : list G) : regrid (fun i => i) H H.
Proof. intros j h Hj. exact Hj. Qed.
Lemma permutes_id n : permutes n (fun i => i).
Proof. split; auto. Qed.

Section Net.
  Context {G P : Type} {D : Dflt P} (fam : family) (d : nat) (mul : G -> G -> G) (g : G) (sp : sperm) (Hok : sp_ok d sp) (Hd : 0 < d)
          (mv : tensor R -> tensor R -> Prop) (Hmv : forall X Z, mv X Z <-> carried_sp d sp eqrel X Z).

  Local Notation base_grid := (@base_grid G P fam).
  Local Notation out_grid := (@out_grid G P fam mul).
  Local Notation partner_draw := (@partner_draw G P fam mul g).
  Local Notation partner := (@partner G P fam mul g).
  Local Notation throughout := (@throughout G P D fam d mul).

  Lemma partner_grids M out rs rs' H H' f : partner_draw M out rs rs' -> length H' = length H -> permutes (length H) f -> regrid f (map (mul g) H) H' ->
    let o := out_grid M out rs H in let o' := out_grid M out rs' H' in
    exists fo, length o' = length o /\ permutes (length o) fo /\ regrid fo (map (mul g) o) o'.
  Proof.
    intros Hp EL Hf HR. cbv zeta. unfold NetworkCond.partner_draw in Hp. unfold NetworkCond.out_grid, permuted.
    assert (forall K r r', (forall x, In x K -> mul r' x = mul g (mul r x)) ->
      exists fo, length (bcast_left mul [r'] K) = length (bcast_left mul [r] K) /\ permutes (length (bcast_left mul [r] K)) fo /\
        regrid fo (map (mul g) (bcast_left mul [r] K)) (bcast_left mul [r'] K)) as KA.
    { intros K r r' E. exists (fun i => i). rewrite !bcast_left_one. split; [rewrite !map_length; reflexivity|]. split; [apply permutes_id|].
      replace (map (mul r') K) with (map (mul g) (map (mul r) K)); [apply regrid_id|]. rewrite map_map. apply map_ext_in. intros x Hx. symmetry. auto. }
    assert (forall K, Permutation (map (mul g) K) K -> exists fo, length K = length K /\ permutes (length K) fo /\ regrid fo (map (mul g) K) K) as KB.
    { intros K E. destruct (regrid_permutation _ _ E) as (fo & F1 & F2). rewrite map_length in F1. exists fo. auto. }
    assert (forall r r', (forall x, mul r' (mul g x) = mul g (mul r x)) ->
      exists fo, length (bcast_left mul [r'] H') = length (bcast_left mul [r] H) /\ permutes (length (bcast_left mul [r] H)) fo /\
        regrid fo (map (mul g) (bcast_left mul [r] H)) (bcast_left mul [r'] H')) as KC.
    { intros r r' E. exists f. rewrite !bcast_left_one, !map_length. split; [assumption|]. split; [assumption|].
      apply (regrid_map (mul r')) in HR. rewrite map_map in *. erewrite map_ext in HR by (intros x; apply E). exact HR. }
    destruct (gm_permute M); [destruct Hp as (r & r' & -> & -> & Hp)|]; destruct out as [K|]; cbn [base_grid or_else] in *; try destruct fam;
      cbn [or_else] in *; auto; try (apply KA; exact Hp); try (apply KC; exact Hp).
    exists f. auto.
  Qed.

  Definition same_by (f : nat -> nat) (X : tensor R) (H : list G) (X' : tensor R) (H' : list G) : Prop :=
    exists N C s s', turn d sp f N C (length H) s s' X X' /\ length H' = length H /\ regrid f (map (mul g) H) H'.

  Lemma same_by_same f X H X' H' : same_by f X H X' H' -> same_up_to d mv (mul g) X H X' H'.
  Proof.
    intros (N & C & s & s' & T & EL & HR). destruct (turn_elim _ _ _ _ _ _ _ _ _ _ T) as (Z & Z1 & Z2). destruct T as (L & HX & HX' & Hsh & Hp & V).
    exists f, Z, N, C, s, s'. split; [assumption|]. split; [rewrite EL; assumption|]. split; [assumption|]. split; [assumption|]. split; [assumption|].
    split; [assumption|]. split; [apply Hmv; assumption|rewrite EL; assumption].
  Qed.
  Lemma same_same_by X H X' H' : same_up_to d mv (mul g) X H X' H' -> exists f, same_by f X H X' H'.
  Proof.
    intros (f & Z & N & C & s & s' & HX & HX' & L & EL & Hp & HR & M & Rg). exists f. apply Hmv in M. rewrite EL in HX', Rg.
    exists N, C, s, s'. split; [|split; assumption]. exact (turn_intro d sp f N C (length H) s s' X Z X' L HX HX' Hp M Rg).
  Qed.

  (** A layer is equivariant at (X, H) with output grid o when moving and relisting the input moves and relists the output. *)
  Definition fwd_equi (fwd : tensor R -> list G -> list G -> result (tensor R * list G)) (X : tensor R) (H o : list G) : Prop :=
    forall X' H' Y f fo o', same_by f X H X' H' -> fwd X H o = Ok (Y, o) ->
      length o' = length o -> permutes (length o) fo -> regrid fo (map (mul g) o) o' ->
      exists Y', fwd X' H' o' = Ok (Y', o') /\ same_by fo Y o Y' o'.
  Lemma turn_of_pair fo n Y Y1 Y' : carried_sp d sp eqrel Y Y1 -> regrouped d fo n n Y1 Y' -> permutes n fo -> exists N C s s', turn d sp fo N C n s s' Y Y'.
  Proof.
    intros HM HR Hp. destruct HR as (N & C & s' & L & H1 & H2 & V). pose proof HM as (lead & s & s1 & L0 & S0 & S1 & Hsh & W).
    pose proof (proj1 S1) as Q. rewrite (proj1 H1) in Q. change (N :: C :: n :: s') with ([N; C; n] ++ s') in Q.
    destruct (app_inv_len _ _ _ _ Q) as [E1 E2]; [destruct Hsh; congruence|]. subst lead s1.
    exists N, C, s, s'. apply (turn_intro d sp fo N C n s s' Y Y1 Y' L0 S0 H2 Hp HM). exists N, C, s'. auto.
  Qed.

  (** Equivariance follows from moving the whole grid and relisting it. *)
  Lemma fwd_equi_intro fwd X H o : o <> [] ->
    (forall Y Z s s', length s = d -> length s' = d -> carried_sp d sp eqrel X Z ->
       (exists N C, has_shape X (N :: C :: length H :: s) /\ has_shape Z (N :: C :: length (map (mul g) H) :: s')) ->
       fwd X H o = Ok (Y, o) ->
       exists Y1, fwd Z (map (mul g) H) (map (mul g) o) = Ok (Y1, map (mul g) o) /\ carried_sp d sp eqrel Y Y1 /\
         forall X' H' f fo o', o' <> [] -> regrid fo (map (mul g) o) o' -> length o' = length (map (mul g) o) -> length H' = length (map (mul g) H) ->
           permutes (length (map (mul g) H)) f -> regrid f (map (mul g) H) H' ->
           regrouped d f (length (map (mul g) H)) (length H') Z X' ->
           exists Y', fwd X' H' o' = Ok (Y', o') /\ regrouped d fo (length (map (mul g) o)) (length o') Y1 Y') ->
    fwd_equi fwd X H o.
  Proof.
    intros Ho K X' H' Y f fo o' (N & C & s & s' & T & ELH & HRH) E EL Hp HR.
    destruct (turn_elim _ _ _ _ _ _ _ _ _ _ T) as (Z & Z1 & Z2). destruct T as (L & HX & HX' & Hsh & Hpf & V).
    assert (length s' = d) as L' by (destruct Hsh; congruence).
    destruct (carried_sp_inv d sp eqrel X Z [N; C; length H] s Z1 HX L) as (s1 & HZ & Hsh1 & _).
    assert (length s1 = d) as L1 by (destruct Hsh1; congruence).
    destruct (K Y Z s s1 L L1 Z1) as (Y1 & E1 & M1 & B); [exists N, C; rewrite map_length; auto|exact E|].
    destruct (B X' H' f fo o') as (Y' & E' & R'); try assumption.
    - destruct o' as [|x o']; [|discriminate]. destruct o; [congruence|discriminate].
    - rewrite map_length. assumption.
    - rewrite map_length. assumption.
    - rewrite map_length. assumption.
    - rewrite map_length, ELH. exact Z2.
    - exists Y'. split; [exact E'|]. rewrite map_length, EL in R'. destruct (turn_of_pair fo (length o) Y Y1 Y' M1 R' Hp) as (N2 & C2 & s2 & s2' & T2).
      exists N2, C2, s2, s2'. auto.
  Qed.

  Definition block_equi (b : block G P) (rs : list G) (X : tensor R) (H : list G) : Prop :=
    match b with
    | BConv M w out => fwd_equi (full_forward (gm_layer M) w) X H (out_grid M out rs H)
    | BSeparable M wH w out => fwd_equi (separable_forward (gm_layer M) wH w) X H (out_grid M out rs H)
    | _ => True
    end.
  Lemma step_conv M w out rs X H : step fam d mul (BConv M w out) rs X H =
    (r <- full_forward (gm_layer M) w X H (out_grid M out rs H) ;; Ok (fst r, snd r, BConv M w out)).
  Proof. unfold step, NetworkCond.out_grid, NetworkCond.base_grid. destruct fam; reflexivity. Qed.
  Lemma step_separable M wH w out rs X H : step fam d mul (BSeparable M wH w out) rs X H =
    (r <- separable_forward (gm_layer M) wH w X H (out_grid M out rs H) ;; Ok (fst r, snd r, BSeparable M wH w out)).
  Proof. unfold step, NetworkCond.out_grid, NetworkCond.base_grid. destruct fam; reflexivity. Qed.

  Lemma turn_act f N C n s s' X X' phi : turn d sp f N C n s s' X X' -> turn d sp f N C n s s' (ewise phi X) (ewise phi X').
  Proof.
    intros (L & HX & HX' & Hsh & Hp & V). split; [assumption|]. split; [apply ewise_shape; assumption|]. split; [apply ewise_shape; assumption|].
    split; [assumption|]. split; [assumption|]. intros a c e i Ha Hc He Hi.
    rewrite (at_ewise phi X' (N :: C :: n :: s')) by (try assumption; repeat apply valid_cons; assumption).
    assert (valid (N :: C :: n :: s) (a :: c :: f e :: sp_idx sp s i)) as Hv.
    { do 2 (apply valid_cons; [assumption|]). apply valid_cons; [apply Hp; assumption|apply (sp_idx_valid d sp Hok s s' L Hsh); assumption]. }
    rewrite (at_ewise phi X (N :: C :: n :: s)) by assumption. rewrite V by assumption. reflexivity.
  Qed.

  Lemma step_equi b rs rs' X H X' H' f Y H1 b1 : block_equi b rs X H -> partner b rs rs' -> same_by f X H X' H' ->
    step fam d mul b rs X H = Ok (Y, H1, b1) ->
    exists Y' H1' f1, step fam d mul b rs' X' H' = Ok (Y', H1', b1) /\ same_by f1 Y H1 Y' H1'.
  Proof.
    intros HE HP HS E.
    assert (forall phi, exists Y' H1' f1, Ok (ewise phi X', H', b) = Ok (Y', H1', b) /\ same_by f1 (ewise phi X) H Y' H1') as KAct.
    { intros phi. exists (ewise phi X'), H', f. split; [reflexivity|]. destruct HS as (N & C & s & s' & T & EL & HR). exists N, C, s, s'.
      split; [apply turn_act; assumption|]. split; assumption. }
    assert (length H' = length H /\ permutes (length H) f /\ regrid f (map (mul g) H) H') as (EL & Hp & HR).
    { destruct HS as (N & C & s & s' & T & EL & HR). split; [assumption|]. split; [apply T|assumption]. }
    destruct b as [M w out|M wH w out|s|s| |slope|erf a]; cbn [block_equi NetworkCond.partner] in *.
    - rewrite step_conv in *. destruct (full_forward (gm_layer M) w X H (out_grid M out rs H)) as [[Y0 o0]|] eqn:EF; [|discriminate]. cbn [bind fst snd] in E.
      pose proof (full_forward_grid _ _ _ _ _ _ _ EF) as ->. injection E as <- <- <-.
      destruct (partner_grids M out rs rs' H H' f HP EL Hp HR) as (fo & E1 & E2 & E3). cbv zeta in *.
      destruct (HE X' H' Y0 f fo _ HS EF E1 E2 E3) as (Y' & E' & HS'). exists Y', (out_grid M out rs' H'), fo. rewrite E'. auto.
    - rewrite step_separable in *. destruct (separable_forward (gm_layer M) wH w X H (out_grid M out rs H)) as [[Y0 o0]|] eqn:EF; [|discriminate]. cbn [bind fst snd] in E.
      pose proof (separable_forward_grid _ _ _ _ _ _ _ _ EF) as ->. injection E as <- <- <-.
      destruct (partner_grids M out rs rs' H H' f HP EL Hp HR) as (fo & E1 & E2 & E3). cbv zeta in *.
      destruct (HE X' H' Y0 f fo _ HS EF E1 E2 E3) as (Y' & E' & HS'). exists Y', (out_grid M out rs' H'), fo. rewrite E'. auto.
    - cbn [step] in *. destruct (g_batch_norm d s X H) as [[[Y0 o0] s1]|] eqn:EF; [|discriminate]. cbn [bind fst snd] in E. injection E as <- <- <-.
      assert (o0 = H) as ->.
      { unfold g_batch_norm, g_norm in EF. destruct (shape X) as [|? [|? [|? [|? ?]]]]; try discriminate. destruct (view _ X); [|discriminate]. cbn [bind] in EF.
        destruct (batch_norm _ _ _); [|discriminate]. cbn [bind] in EF. destruct (view _ _); [|discriminate]. cbn [bind] in EF. injection EF as _ <- _. reflexivity. }
      destruct HS as (N & C & u & u' & T & _ & _). destruct (turn_rearranged d sp Hok _ _ _ _ _ _ _ _ T) as (F & RF & RB).
      assert (length u' = d) as L'. { destruct T as (L & _ & _ & [Q _] & _). congruence. }
      destruct (batch_norm_rearranged d s F _ u _ u' X X' H H' Y0 s1 RF (proj1 T) L' Hd EF) as (Y' & E' & RY). rewrite E'. cbn [bind fst snd].
      exists Y', H', f. split; [reflexivity|]. destruct (RB _ _ RY) as (N2 & C2 & T2). exists N2, C2, u, u'. auto.
    - cbn [step] in *. destruct (g_instance_norm d s X H) as [[[Y0 o0] s1]|] eqn:EF; [|discriminate]. cbn [bind fst snd] in E. injection E as <- <- <-.
      assert (o0 = H) as ->.
      { unfold g_instance_norm, g_norm in EF. destruct (shape X) as [|? [|? [|? [|? ?]]]]; try discriminate. destruct (view _ X); [|discriminate]. cbn [bind] in EF.
        destruct (instance_norm _ _ _); [|discriminate]. cbn [bind] in EF. destruct (view _ _); [|discriminate]. cbn [bind] in EF. injection EF as _ <- _. reflexivity. }
      destruct HS as (N & C & u & u' & T & _ & _). destruct (turn_rearranged d sp Hok _ _ _ _ _ _ _ _ T) as (F & RF & RB).
      assert (length u' = d) as L'. { destruct T as (L & _ & _ & [Q _] & _). congruence. }
      destruct (instance_norm_rearranged d s F _ u _ u' X X' H H' Y0 s1 RF (proj1 T) L' Hd EF) as (Y' & E' & RY). rewrite E'. cbn [bind fst snd].
      exists Y', H', f. split; [reflexivity|]. destruct (RB _ _ RY) as (N2 & C2 & T2). exists N2, C2, u, u'. auto.
    - cbn [step g_relu bind fst snd] in *. injection E as <- <- <-. apply KAct.
    - cbn [step g_leaky_relu bind fst snd] in *. injection E as <- <- <-. apply KAct.
    - cbn [step] in *. unfold g_gelu in *. destruct (gelu erf a) as [phi|]; [|discriminate]. cbn [bind fst snd] in *. injection E as <- <- <-. apply KAct.
  Qed.

  Lemma run_equi prog : forall prog' X H X' H' f Y HY bs,
    throughout block_equi prog X H -> Forall2 (fun p p' => fst p' = fst p /\ partner (fst p) (snd p) (snd p')) prog prog' ->
    same_by f X H X' H' -> run fam d mul prog X H = Ok (Y, HY, bs) ->
    exists Y' HY' f1, run fam d mul prog' X' H' = Ok (Y', HY', bs) /\ same_by f1 Y HY Y' HY'.
  Proof.
    induction prog as [|[b rs] rest IH]; intros prog' X H X' H' f Y HY bs Hall HF HS E.
    - inversion HF; subst. cbn [run] in *. injection E as <- <- <-. exists X', H', f. auto.
    - inversion HF as [|? [b' rs'] ? rest' [Eb HP] HF']; subst. cbn [fst snd] in Eb, HP. subst b'. cbn [NetworkCond.throughout] in Hall. destruct Hall as [HE Hall].
      cbn [run] in *. destruct (step fam d mul b rs X H) as [[[Y1 H1] b1]|] eqn:ES; [|discriminate]. cbn [bind fst snd] in E.
      destruct (run fam d mul rest Y1 H1) as [[[Y2 H2] bs2]|] eqn:ER; [|discriminate]. cbn [bind fst snd] in E. injection E as <- <- <-.
      destruct (step_equi b rs rs' X H X' H' f Y1 H1 b1 HE HP HS ES) as (Y1' & H1' & f1 & ES' & HS1). rewrite ES'. cbn [bind fst snd].
      destruct (IH rest' Y1 H1 Y1' H1' f1 Y2 H2 bs2 (Hall _ _ _ eq_refl) HF' HS1 ER) as (Y2' & H2' & f2 & ER' & HS2). rewrite ER'. cbn [bind fst snd].
      exists Y2', H2', f2. auto.
  Qed.

  Lemma same_by_pools f X H X' H' : same_by f X H X' H' ->
    g_avg_global_pool X' = g_avg_global_pool X /\
    (forall v i, g_max_global_pool X = Ok (PPair v i) -> exists i', g_max_global_pool X' = Ok (PPair v i')).
  Proof.
    intros (N & C & s & s' & T & _). destruct (turn_rearranged d sp Hok _ _ _ _ _ _ _ _ T) as (F & RF & _).
    exact (C54_global_pool_invariance F _ s _ s' X X' RF).
  Qed.

  Lemma throughout_mono (ok ok' : block G P -> list G -> tensor R -> list G -> Prop) prog : (forall b rs X H, ok b rs X H -> ok' b rs X H) ->
    forall X H, throughout ok prog X H -> throughout ok' prog X H.
  Proof.
    intros Hi. induction prog as [|[b rs] rest IH]; intros X H Hall; cbn [NetworkCond.throughout] in *; [exact I|].
    destruct Hall as [H0 Hall]. split; [apply Hi; exact H0|]. intros Y H1 b1 E. apply IH. exact (Hall Y H1 b1 E).
  Qed.

  Lemma partner_lifting_grids (M : gmodule G P) (K : option (list G)) rs rs' : partner_lifting mul g M K rs rs' ->
    let o := permuted M mul rs (or_else K (kernel_grid M)) in let o' := permuted M mul rs' (or_else K (kernel_grid M)) in
    exists fo, length o' = length o /\ permutes (length o) fo /\ regrid fo (map (mul g) o) o'.
  Proof.
    unfold partner_lifting, permuted. intros Hp. cbv zeta in *. set (grid := or_else K (kernel_grid M)) in *.
    destruct (gm_permute M).
    - destruct Hp as (r & r' & -> & -> & E). exists (fun i => i). rewrite !bcast_left_one, !map_length. split; [reflexivity|]. split; [apply permutes_id|].
      replace (map (mul r') grid) with (map (mul g) (map (mul r) grid)); [apply regrid_id|]. rewrite map_map. apply map_ext_in. intros x Hx. symmetry. auto.
    - destruct (regrid_permutation _ _ Hp) as (fo & F1 & F2). rewrite map_length in F1. exists fo. auto.
  Qed.
  Lemma permuted_nonempty (M : gmodule G P) rs K : rs <> [] -> K <> [] -> permuted M mul rs K <> [].
  Proof.
    intros Hr HK. unfold permuted. destruct (gm_permute M); [|assumption]. destruct rs as [|r rs]; [congruence|]. destruct K; [congruence|]. discriminate.
  Qed.

  Lemma network_equi (ok : block G P -> list G -> tensor R -> list G -> Prop) (M : gmodule G P) (w : tensor R) (K : option (list G)) rs rs' prog prog' X X' Y HY bs :
    (forall b rs X H, ok b rs X H -> block_equi b rs X H) ->
    (forall o o' f Y, o <> [] -> lifting_forward (gm_layer M) w X o = Ok (Y, o) -> length o' = length o -> permutes (length o) f -> regrid f (map (mul g) o) o' ->
       exists Y', lifting_forward (gm_layer M) w X' o' = Ok (Y', o') /\ same_by f Y o Y' o') ->
    network_ok fam d mul ok M w rs K prog X -> partner_lifting mul g M K rs rs' -> partners fam mul g prog prog' ->
    network fam d mul M w rs K prog X = Ok (Y, HY, bs) ->
    exists Y' HY', network fam d mul M w rs' K prog' X' = Ok (Y', HY', bs) /\ same_up_to d mv (mul g) Y HY Y' HY' /\
      g_avg_global_pool Y' = g_avg_global_pool Y /\
      (forall v i, g_max_global_pool Y = Ok (PPair v i) -> exists i', g_max_global_pool Y' = Ok (PPair v i')).
  Proof.
    intros Hready Hlift [HK Hall] HP HPs E. unfold network in E. unfold lifting_call in *.
    set (o := permuted M mul rs (or_else K (kernel_grid M))) in *.
    destruct (lifting_forward (gm_layer M) w X o) as [[X1 H1]|] eqn:E1; [|discriminate]. cbn [bind fst snd] in E.
    pose proof (lifting_forward_grid _ _ _ _ _ _ E1) as ->.
    destruct (partner_lifting_grids M K rs rs' HP) as (fo & EL & Hperm & HR). fold o in EL, Hperm, HR.
    assert (o <> []) as Ho.
    { unfold partner_lifting in HP. unfold o, permuted. destruct (gm_permute M); [|assumption]. destruct HP as (r & r' & -> & _). rewrite bcast_left_one.
      destruct (or_else K (kernel_grid M)); [congruence|discriminate]. }
    destruct (Hlift o _ fo X1 Ho E1 EL Hperm HR) as (X1' & E1' & S1).
    destruct (run_equi prog prog' X1 o X1' (permuted M mul rs' (or_else K (kernel_grid M))) fo Y HY bs) as (Y' & HY' & f1 & E' & S').
    - apply (throughout_mono ok); [assumption|]. apply Hall. reflexivity.
    - exact HPs.
    - exact S1.
    - exact E.
    - exists Y', HY'. split; [|split; [exact (same_by_same f1 Y HY Y' HY' S')|exact (same_by_pools f1 Y HY Y' HY' S')]].
      unfold network, lifting_call. rewrite E1'. cbn [bind fst snd]. exact E'.
  Qed.
End Net.
