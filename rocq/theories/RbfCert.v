(** Integer computations that certify, for the tabulated grids, that the Gaussian RBF matrices are nonsingular.  Real numbers x are enclosed in
    boxes lo <= 2^24 x <= hi of integers; distances and approximate inverses are supplied as hints (RbfHints.v) and only checked.  Nothing here
    models code; RbfSound.v proves what the checks imply.  The checks are small enough to be evaluated without the virtual machine. *)
From Coq Require Import ZArith List Bool.
From Verif Require Import GridTables.
Import ListNotations.
Open Scope Z_scope.

Definition SC : Z := 16777216.
Definition box := (Z * Z)%type.
Definition dn (a b : Z) : Z := a / b.
Definition up (a b : Z) : Z := - ((- a) / b).
(** Division by SC. *)
Definition dns (a : Z) : Z := Z.shiftr a 24.
Definition ups (a : Z) : Z := - Z.shiftr (- a) 24.

(** 1 - y / d * h for y >= 0. *)
Definition horner (y : box) (h : box) (d : Z) : box :=
  (SC - up (ups ((if Z.ltb (snd h) 0 then fst y else snd y) * snd h)) d,
   SC - dn (dns ((if Z.ltb (fst h) 0 then snd y else fst y) * fst h)) d).
(** cos (t / SC), 0 <= t <= 2 SC. *)
Definition cos_box (t : Z) : box :=
  let y := (dns (t * t), ups (t * t)) in
  fold_left (horner y) [90; 56; 30; 12; 2] (SC - up (snd y) 132, SC).
(** exp (- t / SC), 0 <= t <= 8 SC. *)
Definition square (b : box) : box := let l := Z.max 0 (fst b) in (dns (l * l), ups (snd b * snd b)).
Definition exp_box (t : Z) : box :=
  let y := (dn t 8, up t 8) in
  square (square (square (fold_left (horner y) [6; 5; 4; 3; 2; 1] (SC - up (snd y) 7, SC)))).

(** acos (sqrt (num / den)): t is below, respectively above. *)
Definition acos_above (num den t : Z) : bool :=
  let c := snd (cos_box t) in Z.leb t (2 * SC) && Z.leb 0 t && (Z.leb c 0 || Z.leb (c * c * den) (num * (SC * SC))).
Definition acos_below (num den t : Z) : bool :=
  let c := fst (cos_box t) in Z.eqb t 0 || (Z.leb t (2 * SC) && Z.leb 0 t && Z.leb 0 c && Z.leb (num * (SC * SC)) (c * c * den)).

(** acos (1 - 1e-7), the smallest value of a clamped distance. *)
Definition least : box := (7502, 7504).
(** How a distance is enclosed: it is the smallest one, it is anything, or it is near t / SC. *)
Inductive hint := Hclamp | Hany | Hat (t : Z).
Definition at_box (t : Z) : box := (Z.max 0 (t - 64), t + 64).
Definition box_of (h : hint) : box := match h with Hclamp => least | Hany => (fst least, 2 * SC) | Hat t => at_box t end.
Definition at_check (num den t : Z) : bool :=
  Z.leb (snd least) (t + 64) && acos_below num den (Z.max 0 (t - 64)) && acos_above num den (t + 64).
Definition hint_check (num den : Z) (h : hint) : bool :=
  match h with Hclamp => Z.leb den num | Hany => true | Hat t => at_check num den t end.

(** Quaternions of the tabulated matrices, before normalisation (over 10^11). *)
Definition U : Z := 100000000000.
Definition zargmax (d0 d1 d2 d3 : Z) : nat :=
  if Z.leb d1 d0 then
    if Z.leb d2 d0 then if Z.leb d3 d0 then 0%nat else 3%nat
    else if Z.leb d3 d2 then 2%nat else 3%nat
  else
    if Z.leb d2 d1 then if Z.leb d3 d1 then 1%nat else 3%nat
    else if Z.leb d3 d2 then 2%nat else 3%nat.
Definition zpivot (r : ZM) : ZQ :=
  let t := z00 r + z11 r + z22 r in
  match zargmax (z00 r) (z11 r) (z22 r) t with
  | 0%nat => zq (z21 r - z12 r) (U - t + 2 * z00 r) (z10 r + z01 r) (z20 r + z02 r)
  | 1%nat => zq (z02 r - z20 r) (z01 r + z10 r) (U - t + 2 * z11 r) (z21 r + z12 r)
  | 2%nat => zq (z10 r - z01 r) (z02 r + z20 r) (z12 r + z21 r) (U - t + 2 * z22 r)
  | _ => zq (U + t) (z21 r - z12 r) (z02 r - z20 r) (z10 r - z01 r)
  end.
Definition zdot (p q : ZQ) : Z := zw p * zw q + zx p * zx q + zy p * zy q + zz p * zz q.
(** The ten-vectors (coefficient, matrix) of the E(3) kernels. *)
Definition zflat (r s : ZM) : Z :=
  U * U + (z00 r * z00 s + z01 r * z01 s + z02 r * z02 s + z10 r * z10 s + z11 r * z11 s + z12 r * z12 s + z20 r * z20 s + z21 r * z21 s + z22 r * z22 s).

(** The distances between different elements of a grid: row i of the hints has the entries j > i.  Quaternions come with their squared norms. *)
Definition normed (r : ZM) : ZQ * Z := let q := zpivot r in (q, zdot q q).
Definition pair_check (a b : ZQ * Z) (t : Z) : bool := let d := zdot (fst a) (fst b) in at_check (d * d) (snd a * snd b) t.
Fixpoint row_pairs (a : ZQ * Z) (l : list (ZQ * Z)) (h : list Z) : bool :=
  match l, h with
  | [], [] => true
  | b :: l, t :: h => pair_check a b t && row_pairs a l h
  | _, _ => false
  end.
Fixpoint tri_check (l : list (ZQ * Z)) (h : list (list Z)) : bool :=
  match l, h with
  | [], [] => true
  | a :: l, r :: h => Z.ltb 0 (snd a) && row_pairs a l r && tri_check l h
  | _, _ => false
  end.
(** Entry (i, j) of the symmetric matrix with the given diagonal and strict upper triangle. *)
Definition sym {A} (diag d : A) (tri : list (list A)) (i j : nat) : A :=
  match Nat.compare i j with
  | Eq => diag
  | Lt => nth (j - i - 1) (nth i tri []) d
  | Gt => nth (i - j - 1) (nth j tri []) d
  end.
Definition square_of {A} (n : nat) (f : nat -> nat -> A) : list (list A) := map (fun i => map (f i) (seq 0 n)) (seq 0 n).
Definition dist_boxes (n : nat) (h : list (list Z)) : list (list box) := square_of n (sym least (0, 0) (map (map at_box) h)).
(** The flat distances. *)
Fixpoint flat_row (r : ZM) (l : list ZM) (h : list hint) : bool :=
  match l, h with
  | [], [] => true
  | s :: l, x :: h => let z := zflat r s in hint_check (z * z) (U * U * (U * U)) x && flat_row r l h
  | _, _ => false
  end.
Fixpoint flat_check (l' l : list ZM) (h : list (list hint)) : bool :=
  match l', h with
  | [], [] => true
  | r :: l', x :: h => flat_row r l x && flat_check l' l h
  | _, _ => false
  end.

Fixpoint insertZ (x : Z) (l : list Z) : list Z :=
  match l with [] => [x] | y :: r => if Z.leb x y then x :: l else y :: insertZ x r end.
Definition sortZ (l : list Z) : list Z := fold_right insertZ [] l.
Definition sumZ (l : list Z) : Z := fold_right Z.add 0 l.
(** 0.8 times the mean of the second smallest entries of the rows. *)
Definition second (l : list Z) : Z := nth 1 (sortZ l) 0.
Definition width_box (rows : list (list box)) : box :=
  let n := Z.of_nat (length rows) in
  (dn (8 * sumZ (map (fun r => second (map fst r)) rows)) (10 * n), up (8 * sumZ (map (fun r => second (map snd r)) rows)) (10 * n)).

(** exp (- (d^2 / (w^2 / ln2))), from a box for SC^3 ln2 / w^2. *)
Definition factor_box (w : box) : box :=
  (dn (69314718 * (SC * SC * SC)) (100000000 * (snd w * snd w)), up (69314718 * (SC * SC * SC)) (100000000 * (fst w * fst w))).
Definition E8 : Z := 5650.
Definition gauss_box (k d : box) : box :=
  let ul := Z.shiftr (fst d * fst d * fst k) 48 in
  if Z.leb (8 * SC) ul then (0, E8)
  else let uh := Z.shiftr (snd d * snd d * snd k) 48 + 1 in
       let b := exp_box ul in (Z.max 0 (fst b - (uh - ul)), snd b).

(** The scale of the approximate inverses. *)
Definition BS : Z := 128.
Fixpoint zdotl (a b : list Z) : Z := match a, b with x :: a, y :: b => x * y + zdotl a b | _, _ => 0 end.
Definition unit_row (n i : nat) : list Z := map (fun j => if Nat.eqb j i then SC * BS else 0) (seq 0 n).
Definition deviation (n i : nat) (b : list Z) (m : list (list Z)) : Z := sumZ (map (fun p => Z.abs (fst p - zdotl b (snd p))) (combine (unit_row n i) m)).
(** Rows of I - B M, and of the error, have absolute sum at most 1/2; rows of B at most beta. *)
Definition row_check (n : nat) (m : list (list Z)) (e beta : Z) (i : nat) (b : list Z) : bool :=
  let rb := sumZ (map Z.abs b) in
  Nat.eqb (length b) n && Z.leb (2 * (deviation n i b m + rb * (Z.of_nat n * e))) (SC * BS) && Z.leb rb (beta * BS).

Definition spread (b : box) : Z := snd b - fst b.
(** The check for one width: [h] are the distances, [wd] those that determine the width and [b] the approximate inverse. *)
Definition certify (n : nat) (h : list (list Z)) (wd : list (list box)) (b : list (list Z)) (beta : Z) : bool :=
  let w := width_box wd in
  let k := factor_box w in
  let g := map (map (fun t => gauss_box k (at_box t))) h in
  let d := gauss_box k least in
  let m := square_of n (sym (fst d) 0 (map (map fst) g)) in
  let e := Z.max (spread d) (fold_right Z.max 0 (map spread (concat g))) in
  Z.ltb 0 (fst w) && Nat.eqb (length b) n && forallb (fun p => row_check n m e beta (fst p) (snd p)) (combine (seq 0 n) b).
Definition certify_SE3 (beta : Z) (n : nat) (h b : list (list Z)) : bool := certify n h (dist_boxes n h) b beta.
Definition certify_E3 (beta : Z) (n : nat) (h : list (list Z)) (f : list (list hint)) (b : list (list Z)) : bool :=
  flat_check (zmat n) (zmat n) f && certify n h (map (map box_of) f) b beta.
Definition certify_dist (n : nat) (h : list (list Z)) : bool := tri_check (map normed (zmat n)) h.
