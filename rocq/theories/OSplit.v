(** The order-restoring split used identically by o2.grid_sample (o2.py:172-203) and
    o3.grid_sample (o3.py:181-212): the group elements [E] are split by their coefficient, each
    half is sampled with its own sampler on its own part of the signal, the halves are
    concatenated and put back with argsort. *)
From Verif Require Import Prelude RMath Interp.
Open Scope R_scope.

(** torch.where(coeffs == c)[0]. *)
Definition where_eq (c : R) (coeffs : list R) : list nat :=
  filter (fun i => match nth_error coeffs i with
                   | Some x => if Req_EM_T x c then true else false
                   | None => false end) (seq 0 (length coeffs)).

(** Advanced indexing l[idx]. *)
(** Models o2.py:145-203, o3.py:154-212: indexing by the positions of a mask. *)
Definition take_idx {A} (l : list A) (idx : list nat) : result (list A) :=
  mapM (fun i => of_option IndexError (nth_error l i)) idx.

(** torch.argsort of an integer vector: positions sorted by value. Stable insertion sort; the
    code only sorts vectors without duplicates, where every sorting algorithm agrees. *)
Fixpoint insert_kv (x : nat * nat) (l : list (nat * nat)) : list (nat * nat) :=
  match l with
  | [] => [x]
  | y :: r => if Nat.leb (fst x) (fst y) then x :: l else y :: insert_kv x r
  end.
Definition sort_kv (l : list (nat * nat)) : list (nat * nat) := fold_right insert_kv [] l.
Definition argsort (l : list nat) : list nat := map snd (sort_kv (combine l (seq 0 (length l)))).

Section Split.
  Context {E G Row : Type} (coeff : E -> R) (part : E -> G).
  (** [samp_rot queries signal signal_grid] is so2/so3.grid_sample with the rotation width,
      [samp_ref] the same with the reflection width. *)
  Context (samp_rot samp_ref : list G -> list Row -> list G -> result (list Row)).

  (** o2.py:172-203, o3.py:181-212. A half whose declared size is 0 is not sampled and the
      (sliced) signal itself is used. *)
  Definition split_sample (grid : list E) (signal : list Row) (signal_grid : list E)
      (n_rot n_ref : nat) : result (list Row) :=
    let coeffs := map coeff grid in
    let Rs := map part grid in
    let rot_signal := firstn n_rot signal in
    let rot_grid := map part (firstn n_rot signal_grid) in
    let ref_signal := skipn n_rot signal in
    let ref_grid := map part (skipn n_rot signal_grid) in
    let rot_idx := where_eq 1 coeffs in
    let ref_idx := where_eq (-1) coeffs in
    rot_out <- (if Nat.eqb n_rot 0 then Ok rot_signal
                else q <- take_idx Rs rot_idx ;; samp_rot q rot_signal rot_grid) ;;
    ref_out <- (if Nat.eqb n_ref 0 then Ok ref_signal
                else q <- take_idx Rs ref_idx ;; samp_ref q ref_signal ref_grid) ;;
    take_idx (rot_out ++ ref_out) (argsort (rot_idx ++ ref_idx)).
End Split.
