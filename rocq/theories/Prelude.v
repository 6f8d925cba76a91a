(** Results with Python exceptions as values, and small list helpers. *)
From Coq Require Export List Arith Lia Bool.
Export ListNotations.

(** Exceptions that the modelled code (or torch on its behalf) can raise. *)
Inductive exn : Type :=
| ValueError | RuntimeError | IndexError | KeyError | TypeError
| AttributeError | UnboundLocalError | ZeroDivisionError.

(** Models Python's exceptions, as raised by the ValueErrors of gconv.py:57-118 and by torch. *)
Inductive result (A : Type) : Type :=
| Ok (a : A)
| Err (e : exn).
Arguments Ok {A} a.
Arguments Err {A} e.

(** Models Python's exceptions, as raised by the ValueErrors of gconv.py:57-118 and by torch. *)
Definition bind {A B} (m : result A) (f : A -> result B) : result B :=
  match m with Ok a => f a | Err e => Err e end.

Notation "x <- m ;; k" := (bind m (fun x => k))
  (at level 61, m at next level, right associativity).

(** Models Python's exceptions, as raised by the ValueErrors of gconv.py:57-118 and by torch. *)
Definition is_ok {A} (m : result A) : bool :=
  match m with Ok _ => true | Err _ => false end.

(** Models Python's exceptions, as raised by the ValueErrors of gconv.py:57-118 and by torch. *)
Definition rmap {A B} (f : A -> B) (m : result A) : result B :=
  match m with Ok a => Ok (f a) | Err e => Err e end.

(** Position in which a value occurs; used only in specifications. *)
(** Models the builtin sum, o2.py:9-37, o3.py:8-43. *)
Fixpoint sum_nat (l : list nat) : nat :=
  match l with [] => 0 | x :: r => x + sum_nat r end.

Lemma nth_error_map_inv {A B} (f : A -> B) l n y :
  nth_error (map f l) n = Some y -> exists x, nth_error l n = Some x /\ y = f x.
Proof.
  rewrite nth_error_map. destruct (nth_error l n) as [x|]; simpl; intros H; inversion H; eauto.
Qed.

Lemma nth_error_seq a n i : i < n -> nth_error (seq a n) i = Some (a + i).
Proof.
  revert a i; induction n as [|n IH]; intros a i Hi; [lia|].
  destruct i as [|i]; simpl; [f_equal; lia|].
  rewrite IH by lia. f_equal; lia.
Qed.

Lemma nth_error_Some_lt {A} (l : list A) n x : nth_error l n = Some x -> n < length l.
Proof. intros H. apply nth_error_Some. congruence. Qed.

Lemma removelast_map {A B} (f : A -> B) l : removelast (map f l) = map f (removelast l).
Proof.
  induction l as [|a l IH]; [reflexivity|]. destruct l as [|b l]; [reflexivity|].
  change (removelast (map f (a :: b :: l))) with (f a :: removelast (map f (b :: l))).
  rewrite IH. reflexivity.
Qed.

Lemma removelast_seq a n : removelast (seq a (S n)) = seq a n.
Proof.
  rewrite seq_S. apply removelast_last.
Qed.
