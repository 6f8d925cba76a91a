(** Facts for C107: the laws of the random group elements. *)
From Coq Require Import String ZArith Permutation Lia Lra.
From Verif Require Import Prelude RMath Mat Interp SO2 SO2Facts O2 O2Facts SO3 SO3Facts SO3More O3 O3Facts Repulse RepulseFacts S2 S2Facts Tensor Kernel KernelMore Conv Layers Public Network NetDraws RandomSpec RandomFacts SepProduct PoolWindows RandElem.
Open Scope R_scope.

(** ** lists *)
Lemma both_map_r {A B C} (g : B -> C) (l1 : list A) l2 : both l1 (map g l2) = map (fun p => (fst p, g (snd p))) (both l1 l2).
Proof. rewrite <- (map_id l1) at 1. exact (both_map (fun x => x) g l1 l2). Qed.
Lemma combine_zip {A B} (l : list A) (l' : list B) : combine l l' = zip_with pair l l'.
Proof. revert l'. induction l as [|a l IH]; intros [|b l']; cbn [combine zip_with]; try reflexivity. f_equal. apply IH. Qed.
Lemma both_nil_r {A B} (l : list A) : both l (@nil B) = [].
Proof. unfold both. induction l as [|a l IH]; cbn [flat_map map app]; [reflexivity|exact IH]. Qed.
Lemma flat_map_flat_map {A B C} (f : A -> list B) (g : B -> list C) l : flat_map g (flat_map f l) = flat_map (fun a => flat_map g (f a)) l.
Proof. induction l as [|a l IH]; cbn [flat_map]; [reflexivity|]. rewrite flat_map_app, IH. reflexivity. Qed.
Lemma flat_map_map {A B C} (f : A -> B) (g : B -> list C) l : flat_map g (map f l) = flat_map (fun a => g (f a)) l.
Proof. induction l as [|a l IH]; cbn [flat_map map]; [reflexivity|]. rewrite IH. reflexivity. Qed.
Lemma map_flat_map {A B C} (f : A -> list B) (g : B -> C) l : map g (flat_map f l) = flat_map (fun a => map g (f a)) l.
Proof. induction l as [|a l IH]; cbn [flat_map map]; [reflexivity|]. rewrite map_app, IH. reflexivity. Qed.
Lemma flat_map_app2 {A B} (f g : A -> list B) l : Permutation (flat_map (fun a => f a ++ g a) l) (flat_map f l ++ flat_map g l).
Proof.
  induction l as [|a l IH]; cbn [flat_map]; [reflexivity|]. rewrite IH, <- !app_assoc. apply Permutation_app_head.
  rewrite !app_assoc. apply Permutation_app_tail. apply Permutation_app_comm.
Qed.
Lemma flat_map_const_nil {A B} (l : list A) : flat_map (fun _ => @nil B) l = [].
Proof. induction l; [reflexivity|assumption]. Qed.
Lemma flat_map_swap {A B C} (f : A -> B -> list C) la lb : Permutation (flat_map (fun a => flat_map (f a) lb) la) (flat_map (fun b => flat_map (fun a => f a b) la) lb).
Proof.
  induction la as [|a la IH]; cbn [flat_map].
  - rewrite flat_map_const_nil. reflexivity.
  - rewrite IH. symmetry. apply flat_map_app2.
Qed.
Lemma flat_map_perm_ext {A B} (f g : A -> list B) l : (forall a, Permutation (f a) (g a)) -> Permutation (flat_map f l) (flat_map g l).
Proof. intros H. induction l as [|a l IH]; cbn [flat_map]; [reflexivity|]. apply Permutation_app; [apply H|exact IH]. Qed.

(** Four draws: (a, as) and (b, bs) is (a, b) and (as, bs). *)
Lemma both_shuffle {A B C D} (la : list A) (lb : list B) (lc : list C) (ld : list D) :
  Permutation (map (fun p => ((fst (fst p), fst (snd p)), (snd (fst p), snd (snd p)))) (both (both la lb) (both lc ld))) (both (both la lc) (both lb ld)).
Proof.
  unfold both. rewrite map_flat_map, !flat_map_flat_map. apply flat_map_perm_ext. intros a. rewrite !flat_map_map.
  transitivity (flat_map (fun b => flat_map (fun c => map (fun d => ((a, c), (b, d))) ld) lc) lb).
  - apply flat_map_perm_ext. intros b. rewrite map_map, map_flat_map. apply flat_map_perm_ext. intros c. rewrite map_map. reflexivity.
  - etransitivity; [apply (flat_map_swap (fun b c => map (fun d => ((a, c), (b, d))) ld) lb lc)|]. apply flat_map_perm_ext. intros c. rewrite map_flat_map.
    apply flat_map_perm_ext. intros b. rewrite map_map. reflexivity.
Qed.

(** k rows of two separate batches of draws are k independent pairs. *)
Lemma zip_independent {A B} (la : list A) (lb : list B) k :
  Permutation (map (fun d => zip_with pair (fst d) (snd d)) (both (independent la k) (independent lb k))) (independent (both la lb) k).
Proof.
  induction k as [|k IH]; [reflexivity|]. cbn [independent].
  rewrite both_map, !map_map. cbn [fst snd zip_with].
  transitivity (map (fun p => fst p :: zip_with pair (fst (snd p)) (snd (snd p))) (both (both la lb) (both (independent la k) (independent lb k)))).
  - etransitivity; [|apply Permutation_map, (both_shuffle la (independent la k) lb (independent lb k))]. rewrite map_map. reflexivity.
  - transitivity (map (fun p => fst p :: snd p) (both (both la lb) (map (fun d => zip_with pair (fst d) (snd d)) (both (independent la k) (independent lb k))))).
    + rewrite both_map_r, map_map. reflexivity.
    + apply Permutation_map. apply both_perm; [reflexivity|exact IH].
Qed.
Lemma independent_map {A B} (f : A -> B) l k : independent (map f l) k = map (map f) (independent l k).
Proof.
  induction k as [|k IH]; cbn [independent map]; [reflexivity|]. rewrite IH, both_map, !map_map. reflexivity.
Qed.
Lemma independent_same {A} (l l' : list A) k : Permutation l l' -> Permutation (independent l k) (independent l' k).
Proof. intros H. induction k as [|k IH]; cbn [independent]; [reflexivity|]. apply Permutation_map. apply both_perm; assumption. Qed.
Lemma independent_length {A} (l : list A) k : List.length (independent l k) = (List.length l ^ k)%nat.
Proof. induction k as [|k IH]; cbn [independent Nat.pow]; [reflexivity|]. rewrite map_length, both_length, IH. reflexivity. Qed.
Lemma NoDup_both {A B} (l : list A) (l' : list B) : NoDup l -> NoDup l' -> NoDup (both l l').
Proof.
  intros H H'. unfold both. induction H as [|a l Ha H IH]; cbn [flat_map]; [constructor|].
  apply NoDup_app_intro; [apply FinFun.Injective_map_NoDup; [intros x y E; injection E; auto|exact H']|exact IH|].
  intros p Hp Hq. apply in_map_iff in Hp as (b & <- & _). change (In (a, b) (both l l')) in Hq. apply in_both in Hq as [Hq _]. exact (Ha Hq).
Qed.
Lemma NoDup_independent {A} (l : list A) k : NoDup l -> NoDup (independent l k).
Proof.
  intros H. induction k as [|k IH]; cbn [independent]; [repeat constructor; auto|].
  apply FinFun.Injective_map_NoDup; [|apply NoDup_both; assumption]. intros [a r] [b s] E. cbn [fst snd] in E. injection E as <- <-. reflexivity.
Qed.

(** ** sums over laws *)
Lemma sumR_both {A B} (f : A -> R) (g : B -> R) la lb : sumR (map (fun p => f (fst p)) (both la lb)) = INR (List.length lb) * sumR (map f la) /\
  sumR (map (fun p => g (snd p)) (both la lb)) = INR (List.length la) * sumR (map g lb).
Proof.
  unfold both. induction la as [|a la [IH1 IH2]]; cbn [flat_map map sumR List.length]; [split; [ring|cbn [INR]; ring]|].
  rewrite !map_app, !sumR_app, IH1, IH2, S_INR, !map_map. cbn [fst snd]. split; [|change (map (fun x : B => g x) lb) with (map g lb); ring].
  assert (sumR (map (fun _ : B => f a) lb) = INR (List.length lb) * f a) as ->; [|ring].
  clear. induction lb as [|b lb IH]; [cbn; ring|]. cbn [map sumR]. change (List.length (b :: lb)) with (S (List.length lb)). rewrite S_INR, IH. ring.
Qed.
Lemma mean_independent {A} (f : A -> R) d (l : list A) k i : (i < k)%nat -> l <> [] -> meanR (map (fun g => f (nth i g d)) (independent l k)) = meanR (map f l).
Proof.
  intros Hi Hl. assert (0 < INR (List.length l)) as HL. { apply lt_0_INR. destruct l; [congruence|cbn; lia]. }
  assert (forall k, 0 < INR (List.length (independent l k))) as HK. { intros k'. rewrite independent_length, pow_INR. apply pow_lt. exact HL. }
  revert i Hi. induction k as [|k IH]; intros i Hi; [lia|]. cbn [independent]. rewrite map_map. unfold meanR in *. rewrite !map_length in *. rewrite both_length, mult_INR.
  specialize (HK k). destruct i as [|i]; cbn [nth].
  - rewrite (proj1 (sumR_both f (fun _ : list A => 0) l (independent l k))). field. lra.
  - specialize (IH i ltac:(lia)). rewrite map_length in IH. rewrite (proj2 (sumR_both (fun _ : A => 0) (fun p => f (nth i p d)) l (independent l k))). rewrite <- IH. field. lra.
Qed.

(** ** the angles *)
Definition angles (N : nat) : list R := map (fun k => 2 * PI * (INR k / INR N)) (seq 0 N).
Lemma so2_grid_law N n : map so2_random_grid (independent (rand_values N) n) = independent (angles N) n.
Proof.
  replace (angles N) with (map (fun u => 2 * PI * u) (rand_values N)) by (unfold rand_values, angles; rewrite map_map; reflexivity).
  rewrite independent_map. reflexivity.
Qed.
Lemma angles_NoDup N : NoDup (angles N).
Proof.
  unfold angles. apply NoDup_map_on'; [apply seq_NoDup|]. intros x y Hx Hy E. apply in_seq in Hx. assert (0 < INR N) by (apply lt_0_INR; lia). pose proof PI_RGT_0.
  apply INR_eq. apply (Rmult_eq_reg_l (2 * PI / INR N)); [|apply Rgt_not_eq; apply Rdiv_lt_0_compat; lra]. transitivity (2 * PI * (INR x / INR N)); [field; lra|]. rewrite E. field. lra.
Qed.
Lemma in_angles N a : In a (angles N) <-> exists k, (k < N)%nat /\ a = 2 * PI * (INR k / INR N).
Proof. unfold angles. rewrite in_map_iff. split; [intros (k & <- & H); apply in_seq in H; exists k; split; [lia|reflexivity]|intros (k & H & ->); exists k; split; [reflexivity|apply in_seq; lia]]. Qed.
Lemma turned_angle N k j : (0 < N)%nat -> so2_left_apply_angle (2 * PI * (IZR j / INR N)) (2 * PI * (INR k / INR N)) = 2 * PI * (INR (Z.to_nat ((Z.of_nat k + j) mod Z.of_nat N)) / INR N).
Proof.
  intros HN. pose proof PI_RGT_0. rewrite <- Rmod_fraction by exact HN. unfold so2_left_apply_angle. rewrite <- Rmod_scale by lra. f_equal. ring.
Qed.
Lemma angles_turned N j : (0 < N)%nat -> Permutation (map (so2_left_apply_angle (2 * PI * (IZR j / INR N))) (angles N)) (angles N).
Proof.
  intros HN. unfold angles. rewrite map_map. rewrite (map_ext _ _ (fun k => turned_angle N k j HN)).
  rewrite <- (map_map (fun k => Z.to_nat ((Z.of_nat k + j) mod Z.of_nat N)) (fun k => 2 * PI * (INR k / INR N))). apply Permutation_map. apply shift_mod_perm. exact HN.
Qed.
Lemma inverse_angle_step N k j : (0 < N)%nat -> so2_left_apply_angle (2 * PI * (IZR j / INR N)) (so2_inverse_angle (2 * PI * (INR k / INR N))) = 2 * PI * (INR (Z.to_nat ((j - Z.of_nat k) mod Z.of_nat N)) / INR N).
Proof.
  intros HN. pose proof PI_RGT_0. assert (0 < INR N) by (apply lt_0_INR; exact HN).
  pose proof (Rmod_fraction N 0 (j - Z.of_nat k) HN) as E. rewrite Z.add_0_l in E. rewrite <- E. unfold so2_left_apply_angle, so2_inverse_angle. rewrite <- Rmod_scale by lra. f_equal.
  rewrite minus_IZR, <- INR_IZR_INZ. cbn [INR]. field. lra.
Qed.
Lemma angles_inverted N j : (0 < N)%nat -> Permutation (map (fun a => so2_left_apply_angle (2 * PI * (IZR j / INR N)) (so2_inverse_angle a)) (angles N)) (angles N).
Proof.
  intros HN. unfold angles. rewrite map_map. rewrite (map_ext _ _ (fun k => inverse_angle_step N k j HN)).
  rewrite <- (map_map (fun k => Z.to_nat ((j - Z.of_nat k) mod Z.of_nat N)) (fun k => 2 * PI * (INR k / INR N))). apply Permutation_map.
  apply NoDup_Permutation_bis.
  - apply NoDup_map_on'; [apply seq_NoDup|]. intros x y Hx Hy E. apply in_seq in Hx, Hy.
    pose proof (Z.mod_pos_bound (j - Z.of_nat x) (Z.of_nat N) ltac:(lia)). pose proof (Z.mod_pos_bound (j - Z.of_nat y) (Z.of_nat N) ltac:(lia)).
    assert ((j - Z.of_nat x) mod Z.of_nat N = (j - Z.of_nat y) mod Z.of_nat N)%Z as E' by lia.
    pose proof (Z.div_mod (j - Z.of_nat x) (Z.of_nat N) ltac:(lia)). pose proof (Z.div_mod (j - Z.of_nat y) (Z.of_nat N) ltac:(lia)).
    assert (Z.of_nat y - Z.of_nat x = Z.of_nat N * ((j - Z.of_nat x) / Z.of_nat N - (j - Z.of_nat y) / Z.of_nat N))%Z as Q by lia.
    set (d := ((j - Z.of_nat x) / Z.of_nat N - (j - Z.of_nat y) / Z.of_nat N)%Z) in *.
    assert (d = 0)%Z; [|lia]. clear - Q Hx Hy HN. assert (d < 1)%Z by nia. assert (-1 < d)%Z by nia. lia.
  - rewrite map_length, seq_length. lia.
  - intros x Hx. apply in_map_iff in Hx as (k & <- & Hk). apply in_seq. pose proof (Z.mod_pos_bound (j - Z.of_nat k) (Z.of_nat N) ltac:(lia)). lia.
Qed.

(** ** the coefficients *)
Lemma map_constant {A B} (b : B) (l : list A) : map (fun _ => b) l = repeat b (List.length l).
Proof. induction l as [|a l IH]; cbn [map repeat List.length]; [reflexivity|]. f_equal. exact IH. Qed.
Definition coin (u : R) : R := 2 * (if Rlt_dec (1 / 2) u then 1 else 0) - 1.
Lemma coin_value N k : (0 < N)%nat -> coin (INR k / INR N) = if (N <? 2 * k)%nat then 1 else -1.
Proof.
  intros HN. assert (0 < INR N) as H by (apply lt_0_INR; exact HN). unfold coin. destruct (Nat.ltb_spec N (2 * k)) as [L|L].
  - destruct (Rlt_dec (1 / 2) (INR k / INR N)) as [_|n]; [lra|]. exfalso. apply n. apply (Rmult_lt_reg_r (INR N)); [exact H|]. unfold Rdiv. rewrite (Rmult_assoc (INR k)), Rinv_l by lra.
    apply lt_INR in L. rewrite mult_INR in L. cbn [INR] in L. lra.
  - destruct (Rlt_dec (1 / 2) (INR k / INR N)) as [l|_]; [|lra]. exfalso. apply (Rmult_lt_compat_r (INR N)) in l; [|exact H]. unfold Rdiv in l. rewrite (Rmult_assoc (INR k)), Rinv_l in l by lra.
    apply le_INR in L. rewrite mult_INR in L. cbn [INR] in L. lra.
Qed.
(** Of the N equally likely draws (N - 1) / 2 exceed one half. *)
Lemma coins N : (0 < N)%nat -> map coin (rand_values N) = repeat (-1) (N / 2 + 1) ++ repeat 1 ((N - 1) / 2).
Proof.
  intros HN. unfold rand_values. rewrite map_map. rewrite (map_ext _ _ (fun k => coin_value N k HN)).
  assert ((N / 2 + 1) + ((N - 1) / 2) = N)%nat as E.
  { pose proof (Nat.div_mod N 2 ltac:(lia)). pose proof (Nat.mod_upper_bound N 2 ltac:(lia)). pose proof (Nat.div_mod (N - 1) 2 ltac:(lia)). pose proof (Nat.mod_upper_bound (N - 1) 2 ltac:(lia)). lia. }
  rewrite <- E at 1. rewrite seq_app, map_app. pose proof (Nat.div_mod N 2 ltac:(lia)). pose proof (Nat.mod_upper_bound N 2 ltac:(lia)). f_equal.
  - rewrite (map_ext_in _ (fun _ => -1)); [rewrite map_constant, seq_length; reflexivity|]. intros k Hk. apply in_seq in Hk. destruct (Nat.ltb_spec N (2 * k)); [lia|reflexivity].
  - rewrite (map_ext_in _ (fun _ => 1)); [rewrite map_constant, seq_length; reflexivity|]. intros k Hk. apply in_seq in Hk. destruct (Nat.ltb_spec N (2 * k)); [reflexivity|lia].
Qed.

Lemma coin_mean N : (0 < N)%nat -> meanR (map coin (rand_values N)) = (INR ((N - 1) / 2) - INR (N / 2 + 1)) / INR N.
Proof.
  intros HN. unfold meanR. rewrite coins by exact HN. rewrite sumR_app, !sumR_repeat.
  replace (List.length (repeat (-1) (N / 2 + 1) ++ repeat 1 ((N - 1) / 2))) with N; [f_equal; ring|].
  rewrite <- coins by exact HN. rewrite map_length. unfold rand_values. rewrite map_length, seq_length. reflexivity.
Qed.
Lemma coin_mean_even N : (0 < N)%nat -> Nat.even N = true -> meanR (map coin (rand_values N)) = - (2 / INR N).
Proof.
  intros HN HE. rewrite coin_mean by exact HN. apply Nat.even_spec in HE as [m ->]. assert (0 < INR (2 * m)) as HP by (apply lt_0_INR; exact HN).
  assert ((2 * m - 1) / 2 = m - 1)%nat as -> by (symmetry; apply Nat.div_unique with 1%nat; lia). rewrite (Nat.mul_comm 2 m), Nat.div_mul by lia. rewrite (Nat.mul_comm m 2).
  assert (INR (m + 1) = INR (m - 1) + 2) as ->. { replace (m + 1)%nat with (S (S (m - 1))) by lia. rewrite !S_INR. ring. } field. lra.
Qed.
Lemma coin_mean_neg N : (0 < N)%nat -> meanR (map coin (rand_values N)) < 0.
Proof.
  intros HN. rewrite coin_mean by exact HN. assert (0 < INR N) as HP by (apply lt_0_INR; exact HN).
  assert (INR ((N - 1) / 2) < INR (N / 2 + 1)). { apply lt_INR. pose proof (Nat.div_le_mono (N - 1) N 2 ltac:(lia) ltac:(lia)). lia. }
  apply (Rmult_lt_reg_r (INR N)); [exact HP|]. unfold Rdiv. rewrite Rmult_assoc, Rinv_l by lra. lra.
Qed.
Lemma rand_values_nonempty N : (0 < N)%nat -> rand_values N <> [].
Proof. intros H E. apply (f_equal (@List.length R)) in E. unfold rand_values in E. rewrite map_length, seq_length in E. cbn in E. lia. Qed.

(** ** O(2) *)
Definition o2_one (d : R * R) : O2 := mkO2 (coin (snd d)) (2 * PI * fst d).
Lemma o2_grid_zip us cs : o2_random_grid us cs = map o2_one (zip_with pair us cs).
Proof. unfold o2_random_grid, so2_random_grid. revert cs. induction us as [|u us IH]; intros [|c cs]; cbn [map combine zip_with]; try reflexivity. f_equal. apply IH. Qed.
Lemma o2_grid_law (la lc : list R) n : Permutation (map (fun d => o2_random_grid (fst d) (snd d)) (both (independent la n) (independent lc n))) (independent (map o2_one (both la lc)) n).
Proof.
  rewrite (map_ext _ (fun d => map o2_one (zip_with pair (fst d) (snd d)))) by (intros; apply o2_grid_zip).
  rewrite <- (map_map (fun d => zip_with pair (fst d) (snd d)) (map o2_one)), independent_map. apply Permutation_map. apply zip_independent.
Qed.
Lemma o2_one_law N : (0 < N)%nat -> Permutation (map o2_one (both (rand_values N) (rand_values N)))
  (map (fun p => mkO2 (fst p) (snd p)) (both (repeat 1 ((N - 1) / 2) ++ repeat (-1) (N / 2 + 1)) (angles N))).
Proof.
  intros HN.
  transitivity (map (fun p => mkO2 (fst p) (snd p)) (both (map coin (rand_values N)) (angles N))).
  - replace (angles N) with (map (fun u => 2 * PI * u) (rand_values N)) by (unfold rand_values, angles; rewrite map_map; reflexivity).
    rewrite both_map, map_map. cbn [fst snd]. unfold both. rewrite !map_flat_map.
    rewrite (flat_map_ext _ (fun a => flat_map (fun b => [o2_one (a, b)]) (rand_values N))).
    2:{ intros a. rewrite map_map. generalize (rand_values N). induction l as [|b l IH]; cbn [map flat_map app]; [reflexivity|]. f_equal; exact IH. }
    etransitivity; [apply (flat_map_swap (fun a b => [o2_one (a, b)]))|]. apply Permutation_refl'. apply flat_map_ext. intros b. rewrite map_map.
    generalize (rand_values N). induction l as [|a l IH]; cbn [map flat_map app]; [reflexivity|]. f_equal; exact IH.
  - apply Permutation_map. apply both_perm; [|reflexivity]. rewrite coins by exact HN. apply Permutation_app_comm.
Qed.
Lemma o2_turned N j : (0 < N)%nat -> forall cs, Permutation (map (o2_left_apply_angle (mkO2 1 (2 * PI * (IZR j / INR N)))) (map (fun p => mkO2 (fst p) (snd p)) (both cs (angles N)))) (map (fun p => mkO2 (fst p) (snd p)) (both cs (angles N))).
Proof.
  intros HN cs. rewrite map_map. cbn [o2_left_apply_angle o2c o2a].
  transitivity (map (fun p => mkO2 (fst p) (snd p)) (both cs (map (so2_left_apply_angle (2 * PI * (IZR j / INR N))) (angles N)))).
  - rewrite both_map_r, map_map. apply Permutation_refl'. apply map_ext. intros [c a]. cbn [fst snd]. unfold o2_left_apply_angle, so2_left_apply_angle. cbn [o2c o2a]. f_equal. ring.
  - apply Permutation_map. apply both_perm; [reflexivity|]. apply angles_turned. exact HN.
Qed.
(** What a random element does to the plane. *)
Lemma o2_acting_law N : (0 < N)%nat -> Nat.even N = true -> forall cs, Forall (fun c => c = 1 \/ c = -1) cs ->
  Permutation (map o2_acting_matrix (map (fun p => mkO2 (fst p) (snd p)) (both cs (angles N)))) (flat_map (fun _ => map so2_angle_to_matrix (angles N)) cs).
Proof.
  intros HN HE cs HC. rewrite map_map. unfold both. rewrite map_flat_map. induction HC as [|c cs Hc HC IH]; cbn [flat_map]; [reflexivity|].
  apply Permutation_app; [|exact IH]. rewrite map_map. cbn [fst snd].
  destruct Hc as [-> | ->].
  - apply Permutation_refl'. apply map_ext. intros a. unfold o2_acting_matrix. cbn [o2c o2a]. unfold so2_angle_to_matrix, scal2. cbn. f_equal; ring.
  - apply Nat.even_spec in HE as [m ->]. transitivity (map so2_angle_to_matrix (map (so2_left_apply_angle (2 * PI * (IZR (Z.of_nat m) / INR (2 * m)))) (angles (2 * m)))).
    + rewrite map_map. apply Permutation_refl'. apply map_ext. intros a. rewrite so2_matrix_mul.
      replace (2 * PI * (IZR (Z.of_nat m) / INR (2 * m))) with PI. 2:{ rewrite <- INR_IZR_INZ, mult_INR. assert (0 < INR m) by (apply lt_0_INR; lia). cbn [INR]. field. lra. }
      unfold o2_acting_matrix, so2_angle_to_matrix, scal2, mul2. cbn [o2c o2a b00 b01 b10 b11]. rewrite cos_PI, sin_PI. cbn. f_equal; ring.
    + apply Permutation_map. apply angles_turned. exact HN.
Qed.

(** ** SO(3), O(3) *)
Lemma so3_grid_law normals n : map so3_random_matrices (independent normals n) = independent (map so3_random_matrix normals) n.
Proof. rewrite independent_map. apply map_ext. intros l. unfold so3_random_matrices, so3_random_quats. rewrite map_map. reflexivity. Qed.
Definition o3_one (d : Q4 * R) : O3 := mkO3 (coin (snd d)) (so3_random_matrix (fst d)).
Lemma o3_grid_zip ds us : o3_random_grid ds us = map o3_one (zip_with pair ds us).
Proof.
  unfold o3_random_grid, so3_random_matrices, so3_random_quats. revert us. induction ds as [|d ds IH]; intros [|u us]; cbn [map combine zip_with]; try reflexivity. f_equal; [|apply IH].
  unfold o3_one, coin, so3_random_matrix. cbn [fst snd]. f_equal. ring.
Qed.
Lemma o3_grid_law (la : list Q4) (lc : list R) n : Permutation (map (fun d => o3_random_grid (fst d) (snd d)) (both (independent la n) (independent lc n))) (independent (map o3_one (both la lc)) n).
Proof.
  rewrite (map_ext _ (fun d => map o3_one (zip_with pair (fst d) (snd d)))) by (intros; apply o3_grid_zip).
  rewrite <- (map_map (fun d => zip_with pair (fst d) (snd d)) (map o3_one)), independent_map. apply Permutation_map. apply zip_independent.
Qed.
Lemma so3_left_law p normals : unitq p -> Permutation (map (qmul p) normals) normals -> Permutation (map (mul3 (so3_quat_to_matrix p)) (map so3_random_matrix normals)) (map so3_random_matrix normals).
Proof. intros Hp H. transitivity (map so3_random_matrix (map (qmul p) normals)); [|apply Permutation_map; exact H]. rewrite !map_map. apply Permutation_refl'. apply map_ext. intros q. rewrite random_mul_l by exact Hp. reflexivity. Qed.
Lemma so3_right_law p normals : unitq p -> Permutation (map (fun q => qmul q p) normals) normals -> Permutation (map (fun r => mul3 r (so3_quat_to_matrix p)) (map so3_random_matrix normals)) (map so3_random_matrix normals).
Proof. intros Hp H. transitivity (map so3_random_matrix (map (fun q => qmul q p) normals)); [|apply Permutation_map; exact H]. rewrite !map_map. apply Permutation_refl'. apply map_ext. intros q. rewrite random_mul_r by exact Hp. reflexivity. Qed.
Lemma random_inverse q : so3_random_matrix (so3_quat_inverse q) = so3_matrix_inverse (so3_random_matrix q).
Proof.
  transitivity (so3_quat_to_matrix (so3_quat_inverse (so3_random_quat q))); [|apply q2m_inv]. unfold so3_random_matrix, so3_random_quat. f_equal. rewrite !qnormalize_scal. assert (qnorm (so3_quat_inverse q) = qnorm q) as ->.
  { unfold qnorm. f_equal. unfold qdot, so3_quat_inverse. cbn. ring. }
  unfold qscal, so3_quat_inverse. cbn -[qnorm]. f_equal; ring.
Qed.
Lemma so3_inverse_law normals : Permutation (map so3_quat_inverse normals) normals -> Permutation (map so3_matrix_inverse (map so3_random_matrix normals)) (map so3_random_matrix normals).
Proof. intros H. transitivity (map so3_random_matrix (map so3_quat_inverse normals)); [|apply Permutation_map; exact H]. rewrite !map_map. apply Permutation_refl'. apply map_ext. intros q. rewrite random_inverse. reflexivity. Qed.
Lemma rows_law {A B} (t : B -> B) (f : A -> B) l n : Permutation (map t (map f l)) (map f l) -> Permutation (map (map t) (independent (map f l) n)) (independent (map f l) n).
Proof. apply independent_perm. Qed.

(** ** the sphere *)
Lemma norm3_rot A d : isO3 A -> norm3 (app3 A d) = norm3 d.
Proof. intros H. unfold norm3. f_equal. exact (isO3_isometry A d d H). Qed.
Lemma s2_point d : 0 < dot3 d d -> s2_spherical_to_euclid (s2_random d) = scalv3 (/ norm3 d) d.
Proof.
  intros H. rewrite <- (s2_random_direction d H) at 3. assert (0 < norm3 d) by (apply sqrt_lt_R0; assumption). destruct (s2_spherical_to_euclid (s2_random d)) as [x y z]. unfold scalv3. cbn [vx vy vz]. f_equal; field; lra.
Qed.
Lemma s2_law A normals : isO3 A -> Forall (fun d => 0 < dot3 d d) normals -> Permutation (map (app3 A) normals) normals ->
  Permutation (map (app3 A) (map (fun d => s2_spherical_to_euclid (s2_random d)) normals)) (map (fun d => s2_spherical_to_euclid (s2_random d)) normals).
Proof.
  intros HA HD H. transitivity (map (fun d => s2_spherical_to_euclid (s2_random d)) (map (app3 A) normals)); [|apply Permutation_map; exact H].
  rewrite !map_map. apply Permutation_refl'. apply map_ext_in. intros d Hd. rewrite Forall_forall in HD. pose proof (HD d Hd).
  rewrite (s2_point d) by assumption. rewrite s2_point by (rewrite isO3_isometry; assumption). rewrite norm3_rot by exact HA. unfold app3, scalv3. cbn. f_equal; ring.
Qed.

Lemma both_swap {A B} (la : list A) (lb : list B) : Permutation (both la lb) (map (fun p => (snd p, fst p)) (both lb la)).
Proof.
  unfold both. rewrite map_flat_map.
  transitivity (flat_map (fun a => flat_map (fun b => [(a, b)]) lb) la).
  - apply Permutation_refl'. apply flat_map_ext. intros a. induction lb as [|b l IH]; cbn [map flat_map app]; [reflexivity|]. f_equal; exact IH.
  - etransitivity; [apply (flat_map_swap (fun a b => [(a, b)]))|]. apply Permutation_refl'. apply flat_map_ext. intros b. rewrite map_map. cbn [fst snd].
    induction la as [|a l IH]; cbn [map flat_map app]; [reflexivity|]. f_equal; exact IH.
Qed.
Lemma o3_one_law N normals : (0 < N)%nat -> Permutation (map o3_one (both normals (rand_values N)))
  (map (fun p => mkO3 (fst p) (snd p)) (both (repeat 1 ((N - 1) / 2) ++ repeat (-1) (N / 2 + 1)) (map so3_random_matrix normals))).
Proof.
  intros HN. rewrite (both_swap normals). rewrite map_map.
  transitivity (map (fun p => mkO3 (fst p) (snd p)) (both (map coin (rand_values N)) (map so3_random_matrix normals))).
  - rewrite both_map, map_map. reflexivity.
  - apply Permutation_map. apply both_perm; [|reflexivity]. rewrite coins by exact HN. apply Permutation_app_comm.
Qed.
Lemma o3_left_law N normals p : unitq p -> Permutation (map (qmul p) normals) normals ->
  Permutation (map (o3_left_apply_O3 (mkO3 1 (so3_quat_to_matrix p))) (map o3_one (both normals (rand_values N)))) (map o3_one (both normals (rand_values N))).
Proof.
  intros Hp H. transitivity (map o3_one (both (map (qmul p) normals) (map (fun u => u) (rand_values N)))).
  - rewrite both_map, !map_map. apply Permutation_refl'. apply map_ext. intros [q u]. unfold o3_one, o3_left_apply_O3. cbn [fst snd o3c o3r]. rewrite random_mul_l by exact Hp. f_equal. ring.
  - rewrite map_id. apply Permutation_map. apply both_perm; [exact H|reflexivity].
Qed.
Lemma o3_right_law N normals p : unitq p -> Permutation (map (fun q => qmul q p) normals) normals ->
  Permutation (map (fun h => o3_left_apply_O3 h (mkO3 1 (so3_quat_to_matrix p))) (map o3_one (both normals (rand_values N)))) (map o3_one (both normals (rand_values N))).
Proof.
  intros Hp H. transitivity (map o3_one (both (map (fun q => qmul q p) normals) (map (fun u => u) (rand_values N)))).
  - rewrite both_map, !map_map. apply Permutation_refl'. apply map_ext. intros [q u]. unfold o3_one, o3_left_apply_O3. cbn [fst snd o3c o3r]. rewrite random_mul_r by exact Hp. f_equal. ring.
  - rewrite map_id. apply Permutation_map. apply both_perm; [exact H|reflexivity].
Qed.
(** The mean determinant, row by row. *)
Lemma meanR_perm l l' : Permutation l l' -> meanR l = meanR l'.
Proof. intros H. unfold meanR. rewrite (sumR_perm _ _ H), (Permutation_length H). reflexivity. Qed.
Lemma mean_both_snd {A B} (g : B -> R) (la : list A) lb : la <> [] -> lb <> [] -> meanR (map (fun p => g (snd p)) (both la lb)) = meanR (map g lb).
Proof.
  intros Ha Hb. unfold meanR. rewrite (proj2 (sumR_both (fun _ => 0) g la lb)), !map_length, both_length, mult_INR.
  assert (0 < INR (List.length la)) by (apply lt_0_INR; destruct la; [congruence|cbn; lia]). assert (0 < INR (List.length lb)) by (apply lt_0_INR; destruct lb; [congruence|cbn; lia]). field. lra.
Qed.
Lemma both_nonempty {A B} (la : list A) (lb : list B) : la <> [] -> lb <> [] -> both la lb <> [].
Proof. intros Ha Hb. destruct la; [congruence|]. destruct lb; [congruence|]. discriminate. Qed.
Lemma map_nonempty {A B} (f : A -> B) l : l <> [] -> map f l <> [].
Proof. destruct l; [congruence|discriminate]. Qed.
Lemma o2_det_mean N n i : (0 < N)%nat -> (i < n)%nat ->
  meanR (map (fun g => o2_det (nth i g (mkO2 1 0))) (map (fun d => o2_random_grid (fst d) (snd d)) (both (independent (rand_values N) n) (independent (rand_values N) n)))) = meanR (map coin (rand_values N)).
Proof.
  intros HN Hi. rewrite (meanR_perm _ _ (Permutation_map _ (o2_grid_law (rand_values N) (rand_values N) n))).
  rewrite (mean_independent o2_det (mkO2 1 0)); [|exact Hi|apply map_nonempty, both_nonempty; apply rand_values_nonempty; exact HN]. rewrite map_map. cbn [o2_one o2_det o2c].
  apply (mean_both_snd coin); apply rand_values_nonempty; exact HN.
Qed.
Lemma o3_det_mean N normals n i : (0 < N)%nat -> normals <> [] -> (i < n)%nat ->
  meanR (map (fun g => o3c (nth i g (mkO3 1 I3))) (map (fun d => o3_random_grid (fst d) (snd d)) (both (independent normals n) (independent (rand_values N) n)))) = meanR (map coin (rand_values N)).
Proof.
  intros HN HQ Hi. rewrite (meanR_perm _ _ (Permutation_map _ (o3_grid_law normals (rand_values N) n))).
  rewrite (mean_independent o3c (mkO3 1 I3)); [|exact Hi|apply map_nonempty, both_nonempty; [exact HQ|apply rand_values_nonempty; exact HN]]. rewrite map_map. cbn [o3_one o3c].
  apply (mean_both_snd coin); [exact HQ|apply rand_values_nonempty; exact HN].
Qed.
Lemma meanR_opp {A} (f : A -> R) l : meanR (map (fun a => - f a) l) = - meanR (map f l).
Proof. unfold meanR. rewrite !map_length. replace (sumR (map (fun a => - f a) l)) with (- sumR (map f l)); [unfold Rdiv; ring|]. induction l as [|a l IH]; cbn [map sumR]; [ring|]. rewrite <- IH. ring. Qed.

Lemma random_quat_mul p q : unitq p -> so3_random_quat (qmul p q) = qmul p (so3_random_quat q).
Proof.
  intros Hp. unfold so3_random_quat. rewrite !qnormalize_scal.
  assert (qnorm (qmul p q) = qnorm q) as ->. { unfold qnorm. rewrite qdot_mul. unfold unitq in Hp. rewrite Hp. f_equal. ring. }
  unfold qscal, qmul. cbn -[qnorm]. f_equal; ring.
Qed.
Lemma so3_quat_law p normals n : unitq p -> Permutation (map (qmul p) normals) normals ->
  Permutation (map (map (qmul p)) (map so3_random_quats (independent normals n))) (map so3_random_quats (independent normals n)).
Proof.
  intros Hp H. change so3_random_quats with (map so3_random_quat). rewrite <- independent_map. apply independent_perm.
  transitivity (map so3_random_quat (map (qmul p) normals)); [|apply Permutation_map; exact H]. rewrite !map_map. apply Permutation_refl'. apply map_ext. intros q. rewrite random_quat_mul by exact Hp. reflexivity.
Qed.
(** Multiplying by an element of determinant -1 turns the sign of the mean determinant. *)
Lemma o2_not_reflected N n x : (0 < N)%nat -> (0 < n)%nat -> let law := map (fun d => o2_random_grid (fst d) (snd d)) (both (independent (rand_values N) n) (independent (rand_values N) n)) in
  o2c x = -1 -> ~ Permutation (map (map (o2_left_apply_angle x)) law) law.
Proof.
  intros HN Hn law Hx H. pose proof (meanR_perm _ _ (Permutation_map (fun g => o2_det (nth 0 g (mkO2 1 0))) H)) as E. unfold law in E at 2. rewrite o2_det_mean in E by assumption.
  rewrite map_map in E. rewrite (map_ext_in _ (fun g => - o2_det (nth 0 g (mkO2 1 0)))) in E.
  - rewrite meanR_opp in E. unfold law in E. rewrite o2_det_mean in E by assumption. pose proof (coin_mean_neg N HN). lra.
  - intros g Hg. assert (g <> []) as Hg0.
    { intros ->. unfold law in Hg. apply in_map_iff in Hg as (d & E0 & Hd). apply in_both in Hd as [H1 H2]. apply in_independent in H1 as [L1 _]. apply in_independent in H2 as [L2 _].
      apply (f_equal (@List.length O2)) in E0. unfold o2_random_grid in E0. rewrite map_length, combine_length in E0. unfold so2_random_grid in E0. rewrite map_length, L1, L2 in E0. cbn in E0. lia. }
    destruct g as [|y g]; [congruence|]. cbn [map nth]. unfold o2_det, o2_left_apply_angle. cbn [o2c]. rewrite Hx. ring.
Qed.
Lemma o3_not_inverted N normals n x : (0 < N)%nat -> (0 < n)%nat -> normals <> [] -> let law := map (fun d => o3_random_grid (fst d) (snd d)) (both (independent normals n) (independent (rand_values N) n)) in
  o3c x = -1 -> ~ Permutation (map (map (o3_left_apply_O3 x)) law) law.
Proof.
  intros HN Hn HQ law Hx H. pose proof (meanR_perm _ _ (Permutation_map (fun g => o3c (nth 0 g (mkO3 1 I3))) H)) as E. unfold law in E at 2. rewrite o3_det_mean in E by assumption.
  rewrite map_map in E. rewrite (map_ext_in _ (fun g => - o3c (nth 0 g (mkO3 1 I3)))) in E.
  - rewrite (meanR_opp (fun g => o3c (nth 0 g (mkO3 1 I3)))) in E. unfold law in E. rewrite o3_det_mean in E by assumption. pose proof (coin_mean_neg N HN). lra.
  - intros g Hg. assert (g <> []) as Hg0.
    { intros ->. unfold law in Hg. apply in_map_iff in Hg as (d & E0 & Hd). apply in_both in Hd as [H1 H2]. apply in_independent in H1 as [L1 _]. apply in_independent in H2 as [L2 _].
      apply (f_equal (@List.length O3)) in E0. unfold o3_random_grid in E0. rewrite map_length, combine_length in E0. unfold so3_random_matrices, so3_random_quats in E0. rewrite !map_length, L1, L2 in E0. cbn in E0. lia. }
    destruct g as [|y g]; [congruence|]. cbn [map nth]. unfold o3_left_apply_O3. cbn [o3c]. rewrite Hx. ring.
Qed.
