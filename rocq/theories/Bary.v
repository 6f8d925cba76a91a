(** interpolation.py:89-142 [interpolate_BCC] once more, with IEEE division: 0 / 0 is NaN ([None]).
    [Interp.interpolate_BCC] models the same lines with real division and is compared in BaryFacts.v. *)
From Verif Require Import Prelude RMath Mat Interp.
Open Scope R_scope.

(** interpolation.py:124-133: lines 128-129 put (1, 0, 0) where the smallest distance is at most eps and
    set negative coefficients to zero; line 132 divides by the sum (0 / 0 = NaN when all three are zero). *)
Definition bcc_weights_ieee (eps d0 : R) (bcc0 : R * R * R) : option (R * R * R) :=
  let '(a, b, c) := if Rle_dec d0 eps then (1, 0, 0) else bcc0 in
  let pos x := if Rlt_dec x 0 then 0 else x in
  let '(a, b, c) := (pos a, pos b, pos c) in
  let s := a + b + c in
  if Req_EM_T s 0 then None else Some (a / s, b / s, c / s).

(** interpolation.py:113-142 [interpolate_BCC]; NaN weights make every entry of the row NaN (line 142).
    Simplification: the signal is finite. *)
Definition interpolate_BCC_ieee {G} (T : torch_env) (dist : G -> G -> R)
    (lstsq : G -> G -> G -> G -> R * R * R) (eps : R) (D S : nat)
    (nodes grid : list G) (signal : mat) : result (list (list (option R))) :=
  if Nat.ltb (length grid) 3 then Err RuntimeError
  else mapM (fun n =>
    let ds := map (fun b => dist n b) grid in
    let '(i, j, k) := te_top3 T ds in
    if Nat.ltb D 3 then Err RuntimeError else
    d0 <- of_option RuntimeError (nth_error ds i) ;;
    gi <- of_option RuntimeError (nth_error grid i) ;;
    gj <- of_option RuntimeError (nth_error grid j) ;;
    gk <- of_option RuntimeError (nth_error grid k) ;;
    si <- of_option RuntimeError (nth_error signal i) ;;
    sj <- of_option RuntimeError (nth_error signal j) ;;
    sk <- of_option RuntimeError (nth_error signal k) ;;
    let w := bcc_weights_ieee eps d0 (lstsq gi gj gk n) in
    Ok (map (fun t => match w with
                      | Some (a, b, c) => Some (a * nth t si 0 + b * nth t sj 0 + c * nth t sk 0)
                      | None => None
                      end) (seq 0 S))) nodes.
