(** torch.linalg.lstsq's promise can be kept: the normal equations by Cramer's rule. *)
From Coq Require Import Psatz.
From Verif Require Import Prelude RMath Mat BarySpec BaryFacts.
Open Scope R_scope.

Definition gram_det (x y z : Q4) : R :=
  let p := qdot x x in let q := qdot y y in let r := qdot z z in
  let u := qdot x y in let v := qdot x z in let w := qdot y z in
  p * (q * r - w * w) - u * (u * r - w * v) + v * (u * w - q * v).

Definition ex_lstsq (x y z n : Q4) : R * R * R :=
  let p := qdot x x in let q := qdot y y in let r := qdot z z in
  let u := qdot x y in let v := qdot x z in let w := qdot y z in
  let a := qdot n x in let b := qdot n y in let c := qdot n z in
  let D := gram_det x y z in
  ((a * (q * r - w * w) + b * (v * w - u * r) + c * (u * w - v * q)) / D,
   (a * (v * w - u * r) + b * (p * r - v * v) + c * (u * v - p * w)) / D,
   (a * (u * w - v * q) + b * (u * v - p * w) + c * (p * q - u * u)) / D).

Lemma comb_norm a b c x y z :
  gap (combination (a, b, c) x y z) (mkQ 0 0 0 0) =
  a * a * qdot x x + b * b * qdot y y + c * c * qdot z z + 2 * a * b * qdot x y + 2 * a * c * qdot x z + 2 * b * c * qdot y z.
Proof. unfold gap, combination, qdot. cbn [qw qx qy qz]. ring. Qed.

Lemma comb_null a b c x y z : independent x y z ->
  gap (combination (a, b, c) x y z) (mkQ 0 0 0 0) = 0 -> a = 0 /\ b = 0 /\ c = 0.
Proof. intros I H. apply I. apply gap_zero. lra. Qed.

Lemma gram_det_nonzero x y z : independent x y z -> gram_det x y z <> 0.
Proof.
  intros I D. unfold gram_det in D. cbv zeta in D.
  set (p := qdot x x) in *. set (q := qdot y y) in *. set (r := qdot z z) in *.
  set (u := qdot x y) in *. set (v := qdot x z) in *. set (w := qdot y z) in *.
  destruct (comb_null (q * r - w * w) (v * w - u * r) (u * w - v * q) x y z I) as (A & _ & _).
  { rewrite comb_norm. fold p q r u v w.
    transitivity ((q * r - w * w) * (p * (q * r - w * w) - u * (u * r - w * v) + v * (u * w - q * v))); [ring|].
    rewrite D. ring. }
  destruct (comb_null 0 r (- w) x y z I) as (_ & B & _).
  { rewrite comb_norm. fold p q r u v w. transitivity (r * (q * r - w * w)); [ring|]. rewrite A. ring. }
  destruct (comb_null 0 0 1 x y z I) as (_ & _ & C); [|lra].
  rewrite comb_norm. fold p q r u v w. rewrite B. ring.
Qed.

Lemma ex_least_squares : least_squares ex_lstsq.
Proof.
  intros x y z n I t. pose proof (gram_det_nonzero x y z I) as D.
  destruct (ex_lstsq x y z n) as [[a b] c] eqn:E. destruct t as [[a' b'] c'].
  assert (N : a * qdot x x + b * qdot x y + c * qdot x z = qdot n x /\
              a * qdot x y + b * qdot y y + c * qdot y z = qdot n y /\
              a * qdot x z + b * qdot y z + c * qdot z z = qdot n z).
  { unfold ex_lstsq in E. cbv zeta in E. injection E as <- <- <-. unfold gram_det in *. cbv zeta in *.
    revert D. generalize (qdot x x) (qdot y y) (qdot z z) (qdot x y) (qdot x z) (qdot y z) (qdot n x) (qdot n y) (qdot n z).
    intros p q r u v w d e f D. split; [|split]; field; exact D. }
  destruct N as (N1 & N2 & N3).
  assert (P : gap n (combination (a', b', c') x y z) = gap n (combination (a, b, c) x y z)
    + gap (combination (a' - a, b' - b, c' - c) x y z) (mkQ 0 0 0 0)
    - 2 * ((a' - a) * (qdot n x - (a * qdot x x + b * qdot x y + c * qdot x z))
         + (b' - b) * (qdot n y - (a * qdot x y + b * qdot y y + c * qdot y z))
         + (c' - c) * (qdot n z - (a * qdot x z + b * qdot y z + c * qdot z z)))).
  { clear. unfold gap, combination, qdot. cbn [qw qx qy qz]. ring. }
  rewrite P, N1, N2, N3. pose proof (gap_nonneg (combination (a' - a, b' - b, c' - c) x y z) (mkQ 0 0 0 0)). lra.
Qed.

(** The grid of the rotations by 0, and by half a turn about the first two axes. *)
Definition ex_grid : list Q4 := [mkQ 1 0 0 0; mkQ 0 1 0 0; mkQ 0 0 1 0].

Lemma ex_grid_position : general_position ex_grid.
Proof.
  intros i j k x y z Hij Hik Hjk Hi Hj Hk a b c E. unfold combination in E. injection E as E1 E2 E3 E4.
  destruct i as [|[|[|]]]; cbn in Hi; try (destruct n; discriminate); injection Hi as <-;
  destruct j as [|[|[|]]]; cbn in Hj; try (destruct n; discriminate); try congruence; injection Hj as <-;
  destruct k as [|[|[|]]]; cbn in Hk; try (destruct n; discriminate); try congruence; injection Hk as <-;
  cbn [qw qx qy qz] in *; repeat split; lra.
Qed.

Lemma ex_grid_apart : told_apart ex_grid.
Proof.
  split.
  - intros g [<-|[<-|[<-|[]]]]; unfold unitq, qdot; cbn; ring.
  - intros i j p q N Hi Hj.
    destruct i as [|[|[|]]]; cbn in Hi; try (destruct n; discriminate); injection Hi as <-;
    destruct j as [|[|[|]]]; cbn in Hj; try (destruct n; discriminate); try congruence; injection Hj as <-;
    unfold qdot; cbn [qw qx qy qz];
    (match goal with |- Rabs ?e < _ => replace e with 0 by ring end); rewrite Rabs_R0; lra.
Qed.
