(** Property theorems C108: angles of so2 / o2 in single precision.
    Reading guide (Angle32.v): [left_apply32 a b]: left_apply_angle on float32; [inverse32]: inverse_angle; [random32 u]: the entry of random_grid for the value u of torch.rand;
    [o2_left_apply32], [o2_inverse32], [o2_random32]: the same for rows (coefficient, angle) of o2;
    [tau32]: the float32 nearest to 2 pi; [B2R]: the value of a float; [round radix2 (SpecFloat.fexp 24 128) ZnearestE] (below [nearest32]): the nearest float32 (ties to even) of a real number. *)
From Coq Require Import ZArith Bool List Reals Lra Lia.
From Flocq Require Import Core IEEE754.BinarySingleNaN.
From Verif Require Import Float32 Float32Facts Angle32 Angle32Facts.
Import ListNotations.
Open Scope R_scope.

Notation nearest32 := (round radix2 (SpecFloat.fexp 24 128) (round_mode mode_NE)).

(** The scalar 2 * math.pi on float32 tensors is larger than 2 pi, by less than 1 / 4000000. *)
Theorem C108_tau : 0 < B2R tau32 - 2 * PI < / 4000000.
Proof. exact tau_PI. Qed.
Print Assumptions C108_tau.

(** The product of two angles: with s the rounded sum, the float nearest to the exact remainder of s modulo tau; exact, and below tau, if s >= 0; s itself if 0 <= s < tau. *)
Theorem C108_product : forall a b : f32, is_finite a = true -> is_finite b = true -> Rabs (B2R a + B2R b) <= 1000 ->
  let s := nearest32 (B2R a + B2R b) in let v := B2R (left_apply32 a b) in
  is_finite (left_apply32 a b) = true /\ 0 <= v <= B2R tau32 /\
  (exists (k : Z) (rem : R), s = rem + IZR k * B2R tau32 /\ 0 <= rem < B2R tau32 /\ v = nearest32 rem /\ (0 <= s -> v = rem) /\
     (v = B2R tau32 <-> B2R tau32 - / 4194304 < rem /\ s < 0)) /\
  (0 <= s -> v < B2R tau32) /\ (0 <= s < B2R tau32 -> v = s).
Proof.
  intros a b Fa Fb B s v. destruct (sum32 a b Fa Fb B) as [F E]. change (rnd (B2R a + B2R b)) with s in E.
  destruct (left_spec a b F) as (Fl & k & rem & Ek & Br & Er & X). rewrite E in *. split; [exact Fl|]. split; [apply left_range, F|]. fold v in Er.
  split; [|split].
  - exists k, rem. split; [exact Ek|]. split; [exact Br|]. split; [exact Er|]. split; [intros P; rewrite Er; apply X, P|].
    rewrite Er, (rounds_to_tau_iff rem Br). split; [|intros [H _]; exact H]. intros H. split; [exact H|].
    destruct (Rlt_le_dec s 0) as [L|L]; [exact L|]. specialize (X L). apply rounds_to_tau_iff in H; lra.
  - intros P. rewrite Er, (X P). lra.
  - intros P. rewrite <- E. apply left_small; [exact F|]. rewrite E. exact P.
Qed.
Print Assumptions C108_product.

(** Defect: a result can lie outside the documented range [0, 2 pi): for every angle a in (-2^-22, 0) the product of 0 and a is tau (above 2 pi), and multiplying that by 0 again gives 0. *)
Theorem C108_outside_the_range : forall a : f32, is_finite a = true -> - / 4194304 < B2R a < 0 ->
  B2R (left_apply32 zero32 a) = B2R tau32 /\ 2 * PI < B2R (left_apply32 zero32 a) /\ B2R (left_apply32 zero32 (left_apply32 zero32 a)) = 0.
Proof.
  intros a Fa Ba. destruct tau_value as (TV & TF & _). destruct (C108_product zero32 a eq_refl Fa) as (Fl & _ & (k & rem & Ek & Br & Ev & _ & _) & _).
  { change (B2R zero32) with 0. apply Rabs_le. lra. }
  change (B2R zero32) with 0 in Ek. rewrite Rplus_0_l in Ek. fold (rnd (B2R a)) in Ek. rewrite (rnd_float a) in Ek.
  assert (k = -1)%Z as ->. { assert (-2 < k)%Z; [apply lt_IZR; nra|]. assert (k < 0)%Z; [apply lt_IZR; nra|]. lia. }
  assert (rnd rem = B2R tau32) as T by (apply rounds_to_tau; lra). fold (rnd rem) in Ev. rewrite T in Ev. split; [exact Ev|]. pose proof tau_PI. split; [lra|].
  destruct (C108_product zero32 (left_apply32 zero32 a) eq_refl Fl) as (_ & _ & (k' & rem' & Ek' & Br' & _ & Ev' & _) & _).
  { change (B2R zero32) with 0. rewrite Ev. apply Rabs_le. lra. }
  change (B2R zero32) with 0 in *. rewrite Rplus_0_l in *. fold (rnd (B2R (left_apply32 zero32 a))) in *. rewrite (rnd_float (left_apply32 zero32 a)), Ev in *. rewrite Ev' by lra.
  assert (k' = 1)%Z as ->; [|lra]. assert (0 < k')%Z; [apply lt_IZR; nra|]. assert (k' < 2)%Z; [apply lt_IZR; nra|]. lia.
Qed.
Print Assumptions C108_outside_the_range.

(** The group laws that survive: commutative on all floats (special values included), 0 is neutral on [0, tau), an angle times its inverse is 0, and the inverse of the inverse is the element. *)
Theorem C108_laws :
  (forall a b : f32, left_apply32 a b = left_apply32 b a) /\
  (forall a : f32, is_finite a = true -> 0 <= B2R a < B2R tau32 -> B2R (left_apply32 zero32 a) = B2R a) /\
  (forall a : f32, is_finite a = true -> B2R (left_apply32 a (inverse32 a)) = 0) /\
  (forall a : f32, inverse32 (inverse32 a) = a).
Proof.
  destruct tau_value as (TV & TF & _).
  split; [|split; [|split]].
  - intros a b. unfold left_apply32. rewrite add32_comm. reflexivity.
  - intros a Fa Ba. destruct (C108_product zero32 a eq_refl Fa) as (_ & _ & _ & _ & H).
    { change (B2R zero32) with 0. apply Rabs_le. lra. }
    change (B2R zero32) with 0 in H. rewrite Rplus_0_l in H. fold (rnd (B2R a)) in H. rewrite (rnd_float a) in H. apply H, Ba.
  - intros a Fa. assert (is_finite (inverse32 a) = true) as Fi. { unfold inverse32, opp32. rewrite is_finite_Bopp. exact Fa. }
    assert (B2R a + B2R (inverse32 a) = 0) as Z. { unfold inverse32, opp32. rewrite B2R_Bopp. ring. }
    destruct (C108_product a (inverse32 a) Fa Fi) as (_ & _ & _ & _ & H). { rewrite Z, Rabs_R0. lra. }
    rewrite Z in H. fold (rnd 0) in H. rewrite rnd_0 in H. apply H. lra.
  - intros a. apply Bopp_involutive.
Qed.
Print Assumptions C108_laws.

(** Defect: not associative, not even up to a small difference of the angles: for three angles of [0, tau) one bracketing gives an angle next to 2 pi and the other 0. *)
Theorem C108_not_associative : exists a b c : f32,
  is_finite a = true /\ is_finite b = true /\ is_finite c = true /\ 0 <= B2R a < 2 * PI /\ 0 < B2R b < / 1000000 /\ b = c /\
  B2R (left_apply32 (left_apply32 a b) c) = B2R tau32 - / 2097152 /\ B2R (left_apply32 a (left_apply32 b c)) = 0.
Proof.
  exists (binary_normalize 24 128 p32 e32 mode_NE 13176794 (-21) false), (binary_normalize 24 128 p32 e32 mode_NE 3 (-24) false), (binary_normalize 24 128 p32 e32 mode_NE 3 (-24) false).
  split; [vm_compute; reflexivity|]. split; [vm_compute; reflexivity|]. split; [vm_compute; reflexivity|].
  split. { pose proof PI_tight as P. assert (B2R (binary_normalize 24 128 p32 e32 mode_NE 13176794 (-21) false) = 13176794 / 2097152) as -> by (vm_compute; lra). lra. }
  split; [vm_compute; lra|]. split; [reflexivity|]. split; [rewrite (proj1 tau_value)|]; vm_compute; lra.
Qed.
Print Assumptions C108_not_associative.

(** Accuracy: products of any length of angles of [0, tau] stay in [0, tau] and are, up to full turns, within 2^-19 per factor of the exact sum. *)
Theorem C108_accuracy : forall (a : f32) (l : list f32),
  is_finite a = true -> 0 <= B2R a <= B2R tau32 -> (forall x, In x l -> is_finite x = true /\ 0 <= B2R x <= B2R tau32) ->
  let r := fold_left left_apply32 l a in
  is_finite r = true /\ 0 <= B2R r <= B2R tau32 /\
  exists k : Z, Rabs (B2R r - (B2R a + fold_right Rplus 0 (map (fun x : f32 => B2R x) l) - 2 * PI * IZR k)) <= INR (length l) * / 2 ^ 19.
Proof.
  intros a l Fa Ba H. assert (/ 2 ^ 19 = / 524288) as -> by (f_equal; cbn; ring). apply word_error; [exact Fa|exact Ba|]. apply Forall_forall. exact H.
Qed.
Print Assumptions C108_accuracy.

(** random_grid: for every float32 u of [0, 1) the angle lies in [0, 2 pi) although tau is above 2 pi, within 2^-20 of 2 pi u; a larger u gives no smaller angle. *)
Theorem C108_random : forall u : f32, is_finite u = true -> 0 <= B2R u < 1 ->
  is_finite (random32 u) = true /\ 0 <= B2R (random32 u) < 2 * PI /\ Rabs (B2R (random32 u) - 2 * PI * B2R u) <= / 2 ^ 20 /\
  (forall u' : f32, is_finite u' = true -> B2R u <= B2R u' < 1 -> B2R (random32 u) <= B2R (random32 u')).
Proof.
  intros u Fu Bu. destruct (random_value u Fu Bu) as [F E]. split; [exact F|]. split; [apply random_range; assumption|]. split.
  - assert (/ 2 ^ 20 = / 1048576) as -> by (f_equal; cbn; ring). apply random_error; assumption.
  - intros u' Fu' B. destruct (random_value u' Fu') as [_ E']; [lra|]. rewrite E, E'. apply rnd_le. destruct tau_value as (TV & _ & _). apply Rmult_le_compat_l; lra.
Qed.
Print Assumptions C108_random.

(** O(2): coefficients 1 and -1 are multiplied without error; an element times its inverse is (1, 0), the inverse keeps the coefficient and negates the angle exactly, the product is commutative in its values;
    a random row has coefficient 1 exactly if u > 1/2, else -1, and an angle in [0, 2 pi). *)
Theorem C108_O2 :
  let sign (c : f32) := is_finite c = true /\ (B2R c = 1 \/ B2R c = -1) in
  (forall c a d b : f32, sign c -> sign d -> let r := o2_left_apply32 (c, a) (d, b) in
     sign (fst r) /\ B2R (fst r) = B2R c * B2R d /\ snd r = left_apply32 a b /\
     B2R (fst (o2_left_apply32 (d, b) (c, a))) = B2R (fst r) /\ snd (o2_left_apply32 (d, b) (c, a)) = snd r) /\
  (forall c a : f32, sign c -> is_finite a = true -> Rabs (B2R a) <= 1000 ->
     fst (o2_inverse32 (c, a)) = c /\ B2R (snd (o2_inverse32 (c, a))) = - B2R a /\
     B2R (fst (o2_left_apply32 (c, a) (o2_inverse32 (c, a)))) = 1 /\ B2R (snd (o2_left_apply32 (c, a) (o2_inverse32 (c, a)))) = 0) /\
  (forall u v : f32, is_finite u = true -> is_finite v = true -> 0 <= B2R v < 1 ->
     (/ 2 < B2R u -> B2R (fst (o2_random32 u v)) = 1) /\ (B2R u <= / 2 -> B2R (fst (o2_random32 u v)) = -1) /\ 0 <= B2R (snd (o2_random32 u v)) < 2 * PI).
Proof.
  intros sign. split; [|split].
  - intros c a d b Hc Hd r. destruct (mul_sign c d (proj1 Hc) Hd (sign_bound c Hc)) as [F E]. destruct (mul_sign d c (proj1 Hd) Hc (sign_bound d Hd)) as [F' E'].
    unfold r, o2_left_apply32. cbn [fst snd]. split. { split; [exact F|]. rewrite E. destruct (proj2 Hc) as [-> | ->], (proj2 Hd) as [-> | ->]; lra. }
    split; [exact E|]. split; [reflexivity|]. split; [rewrite E, E'; ring|]. apply (proj1 C108_laws).
  - intros c a Hc Fa Ba. destruct minus_one_value as [MV MF]. destruct (mul_sign a (of_Z32 (-1)) Fa (conj MF (or_intror MV)) Ba) as [F E]. rewrite MV in E.
    unfold o2_left_apply32, o2_inverse32. cbn [fst snd]. split; [reflexivity|]. split; [rewrite E; ring|]. split.
    + destruct (mul_sign c c (proj1 Hc) Hc (sign_bound c Hc)) as [_ K]. rewrite K. destruct (proj2 Hc) as [-> | ->]; lra.
    + assert (B2R a + B2R (mul32 a (of_Z32 (-1))) = 0) as Z by (rewrite E; ring).
      destruct (C108_product a (mul32 a (of_Z32 (-1))) Fa F) as (_ & _ & _ & _ & H). { rewrite Z, Rabs_R0. lra. }
      rewrite Z in H. fold (rnd 0) in H. rewrite rnd_0 in H. apply H. destruct tau_value as (TV & _). lra.
  - intros u v Fu Fv Bv. unfold o2_random32. cbn [fst snd].
    assert (B2R (div32 one32 (of_Z32 2)) = / 2 /\ is_finite (div32 one32 (of_Z32 2)) = true) as [HV HF] by (split; [vm_compute; lra|vm_compute; reflexivity]).
    rewrite (Bltb_correct 24 128 _ u HF Fu), HV. split; [|split; [|apply random_range; assumption]].
    + intros H. rewrite Rlt_bool_true by exact H. vm_compute. lra.
    + intros H. rewrite Rlt_bool_false by exact H. vm_compute. lra.
Qed.
Print Assumptions C108_O2.

(** The hypotheses are met by concrete angles: 3 + 4 passes tau and is reduced; -2^-30 is an angle of the defect. *)
Example C108_example :
  let x (m e : Z) := binary_normalize 24 128 p32 e32 mode_NE m e false in
  B2R (left_apply32 (x 3 0)%Z (x 4 0)%Z) = 7 - B2R tau32 /\
  (is_finite (x (-1) (-30))%Z = true /\ - / 4194304 < B2R (x (-1) (-30))%Z < 0) /\
  (let u := x 1%Z (-1)%Z in is_finite u = true /\ 0 <= B2R u < 1 /\ B2R (random32 u) = B2R tau32 / 2) /\
  (let c := x (-1)%Z 0%Z in is_finite c = true /\ B2R c = -1).
Proof.
  split; [rewrite (proj1 tau_value); vm_compute; lra|]. split; [split; [vm_compute; reflexivity|vm_compute; lra]|].
  split; [split; [vm_compute; reflexivity|split; [vm_compute; lra|rewrite (proj1 tau_value); vm_compute; lra]]|].
  split; [vm_compute; reflexivity|vm_compute; lra].
Qed.
