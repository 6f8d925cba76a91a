(** Facts about finite laws (RandomSpec.v). *)
From Coq Require Import String ZArith Permutation Lia Lra.
From Verif Require Import Prelude RMath Mat Tensor Kernel Conv Layers Public Network RandomSpec.
Open Scope R_scope.

Lemma NoDup_map_on' {A B} (f : A -> B) l : NoDup l -> (forall x y, In x l -> In y l -> f x = f y -> x = y) -> NoDup (map f l).
Proof.
  intros H. induction H as [|a l Ha H IH]; intros Hf; cbn [map]; constructor.
  - intros Hin. apply in_map_iff in Hin as (b & E & Hb). apply Ha. rewrite (Hf a b); auto; [left; reflexivity|right; exact Hb].
  - apply IH. intros x y Hx Hy. apply Hf; right; assumption.
Qed.
Lemma both_perm {A B} (l1 l1' : list A) (l2 l2' : list B) : Permutation l1 l1' -> Permutation l2 l2' -> Permutation (both l1 l2) (both l1' l2').
Proof.
  intros H1 H2. unfold both. transitivity (flat_map (fun a => map (fun b => (a, b)) l2) l1').
  - apply Permutation_flat_map. exact H1.
  - clear H1 l1. induction l1' as [|a l IH]; cbn [flat_map]; [constructor|]. apply Permutation_app; [|exact IH]. apply Permutation_map. exact H2.
Qed.
Lemma both_map {A B A' B'} (f : A -> A') (g : B -> B') l1 l2 : both (map f l1) (map g l2) = map (fun p => (f (fst p), g (snd p))) (both l1 l2).
Proof.
  unfold both. induction l1 as [|a l IH]; cbn [map flat_map]; [reflexivity|]. rewrite map_app, IH. f_equal. rewrite !map_map. reflexivity.
Qed.
Lemma in_both {A B} (l1 : list A) (l2 : list B) p : In p (both l1 l2) <-> In (fst p) l1 /\ In (snd p) l2.
Proof.
  unfold both. rewrite in_flat_map. destruct p as [a b]. cbn [fst snd]. split.
  - intros (x & Hx & Hp). apply in_map_iff in Hp as (y & E & Hy). injection E as <- <-. auto.
  - intros [Ha Hb]. exists a. split; [exact Ha|]. apply in_map_iff. eauto.
Qed.
Lemma both_length {A B} (l1 : list A) (l2 : list B) : List.length (both l1 l2) = (List.length l1 * List.length l2)%nat.
Proof. unfold both. induction l1 as [|a l IH]; cbn [flat_map List.length]; [reflexivity|]. rewrite app_length, map_length, IH. reflexivity. Qed.

Lemma independent_perm {A} (t : A -> A) l k : Permutation (map t l) l -> Permutation (map (map t) (independent l k)) (independent l k).
Proof.
  intros H. induction k as [|k IH]; cbn [independent]; [reflexivity|].
  transitivity (map (fun p => fst p :: snd p) (both (map t l) (map (map t) (independent l k)))).
  - rewrite both_map, !map_map. reflexivity.
  - apply Permutation_map. apply both_perm; assumption.
Qed.
Lemma in_independent {A} (l : list A) k ds : In ds (independent l k) <-> List.length ds = k /\ Forall (fun d => In d l) ds.
Proof.
  revert ds. induction k as [|k IH]; intros ds; cbn [independent].
  - split; [intros [<-|[]]; auto|]. intros [E _]. destruct ds; [left; reflexivity|discriminate].
  - rewrite in_map_iff. split.
    + intros ([a r] & <- & H). apply in_both in H as [Ha Hr]. cbn [fst snd] in *. apply IH in Hr as [E F]. cbn [List.length]. auto.
    + intros [E F]. destruct ds as [|a r]; [discriminate|]. inversion F; subst. exists (a, r). split; [reflexivity|]. apply in_both. cbn [fst snd]. split; [assumption|].
      apply IH. injection E as E. auto.
Qed.

(** A correspondence of draws that keeps the law and the outcome. *)
Lemma same_outcomes {A B} (f f' : A -> B) (t : A -> A) l : Permutation (map t l) l -> (forall a, In a l -> f' (t a) = f a) -> Permutation (map f' l) (map f l).
Proof.
  intros H E. transitivity (map f' (map t l)).
  - apply Permutation_map. apply Permutation_sym. exact H.
  - rewrite map_map. replace (map (fun x => f' (t x)) l) with (map f l); [reflexivity|]. apply map_ext_in. intros a Ha. symmetry. apply E. exact Ha.
Qed.

(** Turning the values of torch.rand by a multiple of their step. *)
Lemma Rmod_fraction N (k : nat) (j : Z) : (0 < N)%nat -> Rmod (INR k / INR N + IZR j / INR N) 1 = INR (Z.to_nat ((Z.of_nat k + j) mod Z.of_nat N)) / INR N.
Proof.
  intros HN. assert (0 < INR N) as HN' by (apply lt_0_INR; exact HN).
  assert (0 <= (Z.of_nat k + j) mod Z.of_nat N < Z.of_nat N)%Z as B by (apply Z.mod_pos_bound; lia).
  rewrite (INR_IZR_INZ (Z.to_nat _)), Z2Nat.id by lia. rewrite (INR_IZR_INZ N) in *.
  apply Rmod_unique with (k := ((Z.of_nat k + j) / Z.of_nat N)%Z); [lra| |].
  - rewrite INR_IZR_INZ. pose proof (Z.div_mod (Z.of_nat k + j) (Z.of_nat N) ltac:(lia)) as E. apply (f_equal IZR) in E. rewrite !plus_IZR, mult_IZR in E.
    apply (Rmult_eq_reg_r (IZR (Z.of_nat N))); [|lra]. field_simplify; [lra|lra|lra].
  - destruct B as [B1 B2]. apply IZR_le in B1. apply IZR_lt in B2. split.
    + apply Rmult_le_reg_r with (IZR (Z.of_nat N)); [lra|]. unfold Rdiv. rewrite Rmult_assoc, Rinv_l by lra. lra.
    + apply Rmult_lt_reg_r with (IZR (Z.of_nat N)); [lra|]. unfold Rdiv. rewrite Rmult_assoc, Rinv_l by lra. lra.
Qed.
Lemma shift_mod_perm N (j : Z) : (0 < N)%nat -> Permutation (map (fun k => Z.to_nat ((Z.of_nat k + j) mod Z.of_nat N)) (seq 0 N)) (seq 0 N).
Proof.
  intros HN. apply NoDup_Permutation_bis.
  - apply NoDup_map_on'; [apply seq_NoDup|].
    intros x y Hx Hy E. apply in_seq in Hx, Hy.
    pose proof (Z.mod_pos_bound (Z.of_nat x + j) (Z.of_nat N) ltac:(lia)). pose proof (Z.mod_pos_bound (Z.of_nat y + j) (Z.of_nat N) ltac:(lia)).
    assert ((Z.of_nat x + j) mod Z.of_nat N = (Z.of_nat y + j) mod Z.of_nat N)%Z as E' by lia.
    pose proof (Z.div_mod (Z.of_nat x + j) (Z.of_nat N) ltac:(lia)). pose proof (Z.div_mod (Z.of_nat y + j) (Z.of_nat N) ltac:(lia)).
    assert (Z.of_nat x - Z.of_nat y = Z.of_nat N * ((Z.of_nat x + j) / Z.of_nat N - (Z.of_nat y + j) / Z.of_nat N))%Z as Q by lia.
    set (d := ((Z.of_nat x + j) / Z.of_nat N - (Z.of_nat y + j) / Z.of_nat N)%Z) in *.
    assert (d = 0)%Z; [|lia]. clear - Q Hx Hy HN. assert (d < 1)%Z by nia. assert (-1 < d)%Z by nia. lia.
  - rewrite map_length, seq_length. lia.
  - intros x Hx. apply in_map_iff in Hx as (k & <- & Hk). apply in_seq. pose proof (Z.mod_pos_bound (Z.of_nat k + j) (Z.of_nat N) ltac:(lia)). lia.
Qed.
Lemma rand_turned N q : (0 < N)%nat -> (N mod 4 = 0)%nat -> Permutation (map (fun u => Rmod (u + IZR q / 4) 1) (rand_values N)) (rand_values N).
Proof.
  intros HN H4. apply Nat.mod_divides in H4 as [m ->]; [|lia]. unfold rand_values. rewrite map_map.
  transitivity (map (fun k => INR k / INR (4 * m)) (map (fun k => Z.to_nat ((Z.of_nat k + q * Z.of_nat m) mod Z.of_nat (4 * m))) (seq 0 (4 * m)))).
  - rewrite map_map. apply Permutation_refl'. apply map_ext. intros k. rewrite <- Rmod_fraction by exact HN. f_equal. f_equal.
    rewrite mult_IZR, <- INR_IZR_INZ, mult_INR. assert (INR m <> 0) by (apply not_0_INR; lia). cbn [INR]. field. lra.
  - apply Permutation_map. apply shift_mod_perm. exact HN.
Qed.

(** From C52 to [features]. *)
Lemma features_same {G P} (X' : result (tensor R * list G * list (block G P))) Y H ms v i Y' H' i' :
  g_max_global_pool Y = Ok (PPair v i) -> X' = Ok (Y', H', ms) -> g_avg_global_pool Y' = g_avg_global_pool Y -> g_max_global_pool Y' = Ok (PPair v i') ->
  features X' = features (Ok (Y, H, ms)).
Proof. intros E1 -> E2 E3. unfold features. cbn [bind fst snd]. rewrite E1, E2, E3. destruct (g_avg_global_pool Y); reflexivity. Qed.
