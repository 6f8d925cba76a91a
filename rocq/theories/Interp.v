(** Model of gconv/geometry/interpolation.py (one batch element; every caller in the package
    passes a batch of size one: so2.py:216-230, so3.py:705-716).
    A signal is the list of its rows (one row of S reals per grid node). *)
From Coq Require Import String.
From Verif Require Import Prelude RMath.
Open Scope R_scope.

(** Models interpolation.py:22-142: a 2-d tensor as rows. *)
Definition mat := list (list R).

(** The torch primitives whose result is not determined by their documentation or whose
    algorithm is not modelled: torch.linalg.solve, torch.topk (tie-breaking), torch.linalg.lstsq.
    Theorems quantify over every such environment meeting [torch_ok]. *)
Record torch_env := {
  te_solve : mat -> mat -> result mat;
  te_argmin : list R -> nat;
  te_top3 : list R -> nat * nat * nat;
}.

(** Row-by-column products of torch.matmul. *)
Definition dotl (a b : list R) : R :=
  fold_right Rplus 0 (map (fun ab => fst ab * snd ab) (combine a b)).
Definition col (j : nat) (x : mat) : list R := map (fun v => nth j v 0) x.
Definition rowmul (S : nat) (row : list R) (x : mat) : list R :=
  map (fun j => dotl row (col j x)) (seq 0 S).
Definition matmul (S : nat) (p x : mat) : mat := map (fun row => rowmul S row x) p.

(** [wfm n k m]: m has n rows of k entries. *)
(** Specification of torch.topk / sort / linalg.solve as called at interpolation.py:22-142. *)
Definition wfm (n k : nat) (m : mat) : Prop := length m = n /\ forall r, In r m -> length r = k.

(** Specification of torch.topk / sort / linalg.solve as called at interpolation.py:22-142. *)
Record torch_ok (T : torch_env) : Prop := {
  (** a returned solution solves the system and is the only one (a singular system raises) *)
  ok_solve : forall n s m b x, wfm n n m -> wfm n s b -> te_solve T m b = Ok x ->
    wfm n s x /\ matmul s m x = b /\ (forall y, wfm n s y -> matmul s m y = b -> y = x);
  (** whether solve raises depends on the matrix only, not on the right-hand side *)
  ok_solve_any : forall n s m b x s' b', wfm n n m -> wfm n s b -> wfm n s' b' ->
    te_solve T m b = Ok x -> exists x', te_solve T m b' = Ok x';
  ok_argmin : forall l, l <> [] ->
    exists v, nth_error l (te_argmin T l) = Some v /\ forall z, In z l -> v <= z;
  ok_top3 : forall l, (3 <= length l)%nat ->
    exists i j k a b c, te_top3 T l = (i, j, k) /\ i <> j /\ i <> k /\ j <> k /\
      nth_error l i = Some a /\ nth_error l j = Some b /\ nth_error l k = Some c /\
      a <= b <= c /\
      forall n z, nth_error l n = Some z -> n <> i -> n <> j -> c <= z;
}.

(** interpolation.py:6-19 [RBF_gauss] ([ln2] literal 0.69314718). *)
Definition ln2_lit : R := 69314718 / 100000000.
Definition RBF_gauss (x width : R) : R := exp (- (x ^ 2 / (width ^ 2 / ln2_lit))).

(** interpolation.py:22-55 [interpolate_RBF]. [S] is the number of signal columns. *)
Definition interpolate_RBF {G} (T : torch_env) (dist : G -> G -> R) (rbf : R -> R -> R)
    (width : R) (S : nat) (nodes grid : list G) (signal : mat) : result mat :=
  let m := map (fun a => map (fun b => rbf (dist a b) width) grid) grid in
  coeffs <- te_solve T m signal ;;
  let p := map (fun a => map (fun b => rbf (dist a b) width) grid) nodes in
  Ok (matmul S p coeffs).

(** Models interpolation.py:22-142: row by row evaluation that may raise. *)
Fixpoint mapM {A B} (f : A -> result B) (l : list A) : result (list B) :=
  match l with
  | [] => Ok []
  | x :: r => y <- f x ;; ys <- mapM f r ;; Ok (y :: ys)
  end.

(** Models interpolation.py:22-142: row by row evaluation that may raise. *)
Definition of_option {A} (e : exn) (o : option A) : result A :=
  match o with Some a => Ok a | None => Err e end.

(** interpolation.py:58-86 [interpolate_NN]: topk with k = 1 raises on an empty grid, gather
    raises when the index exceeds the signal. *)
Definition interpolate_NN {G Row} (T : torch_env) (dist : G -> G -> R)
    (nodes grid : list G) (signal : list Row) : result (list Row) :=
  match grid with
  | [] => Err RuntimeError
  | _ => mapM (fun a => of_option RuntimeError
                 (nth_error signal (te_argmin T (map (fun b => dist a b) grid)))) nodes
  end.

(** interpolation.py:121-134: the barycentric weights of one node. [bcc0] is whatever
    torch.linalg.lstsq returned, [d0] the smallest distance. *)
Definition bcc_weights (eps d0 : R) (bcc0 : R * R * R) : R * R * R :=
  let '(a, b, c) := if Rle_dec d0 eps then (1, 0, 0) else bcc0 in
  let pos x := if Rlt_dec x 0 then 0 else x in
  let '(a, b, c) := (pos a, pos b, pos c) in
  let s := a + b + c in
  (a / s, b / s, c / s).

(** interpolation.py:89-142 [interpolate_BCC]; [lstsq x y z n] is torch.linalg.lstsq of the
    simplex with vertices x, y, z against node n. Signal rows are read entrywise. [D] is the
    number of coordinates of a node: lines 118-122 expand the grid to (N, L, D, D) and gather
    with an index of shape (N, K, 3, D), which torch refuses (for a non-empty index) unless
    3 <= D. *)
Definition interpolate_BCC {G} (T : torch_env) (dist : G -> G -> R)
    (lstsq : G -> G -> G -> G -> R * R * R) (eps : R) (D S : nat)
    (nodes grid : list G) (signal : mat) : result mat :=
  if Nat.ltb (length grid) 3 then Err RuntimeError
  else mapM (fun n =>
    let ds := map (fun b => dist n b) grid in
    let '(i, j, k) := te_top3 T ds in
    if Nat.ltb D 3 then Err RuntimeError else
    d0 <- of_option RuntimeError (nth_error ds i) ;;
    gi <- of_option RuntimeError (nth_error grid i) ;;
    gj <- of_option RuntimeError (nth_error grid j) ;;
    gk <- of_option RuntimeError (nth_error grid k) ;;
    si <- of_option RuntimeError (nth_error signal i) ;;
    sj <- of_option RuntimeError (nth_error signal j) ;;
    sk <- of_option RuntimeError (nth_error signal k) ;;
    let '(a, b, c) := bcc_weights eps d0 (lstsq gi gj gk n) in
    Ok (map (fun t => a * nth t si 0 + b * nth t sj 0 + c * nth t sk 0) (seq 0 S))) nodes.
