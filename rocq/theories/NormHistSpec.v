(** Specification notions for the running statistics of normalization modules over a history of uses. Independent of the model of the
    modules; [norm_event] (NormHistory.v) is a call, train(), eval() or a parameter update. *)
From Verif Require Import Prelude RMath Tensor KernelFacts LayersSpec NormHistory.
Open Scope nat_scope.

(** A feature map (N, C, n, *sp) with d spatial axes that a module with C channels takes in training mode: more than one value per
    channel (batch), per channel and sample (instance). *)
Definition takes (kind : norm_kind) (C d : nat) (x : tensor R) : bool :=
  match shape x with
  | N :: C' :: n :: sp => Nat.eqb C' C && Nat.eqb (length sp) d && negb (Nat.eqb (match kind with KBatch => N | KInstance => 1 end * (n * prodn sp)) 1)
  | _ => false
  end.
(** Well-formed, not empty, with the right number of axes. *)
Definition proper {G} (d : nat) (e : norm_event G) : Prop :=
  match e with NCall x _ => wft x /\ 0 < prodn (shape x) /\ length (shape x) = 3 + d | _ => True end.
Definition params_fit {G} (C : nat) (e : norm_event G) : Prop := match e with NParams w b => length w = C /\ length b = C | _ => True end.

(** The calls made in training mode, in order: [Some x] where the module took x, [None] where it raised. *)
Fixpoint training_calls {G} (kind : norm_kind) (C d : nat) (training : bool) (es : list (norm_event G)) : list (option (tensor R)) :=
  match es with
  | [] => []
  | NTrain :: r => training_calls kind C d true r
  | NEval :: r => training_calls kind C d false r
  | NParams _ _ :: r => training_calls kind C d training r
  | NCall x _ :: r => (if training then [if takes kind C d x then Some x else None] else []) ++ training_calls kind C d training r
  end.
(** The batches used for training. *)
Definition used (l : list (option (tensor R))) : list (tensor R) := flat_map (fun o => match o with Some x => [x] | None => [] end) l.

(** Statistics of one batch: average and unbiased variance of a channel; for instance normalization, averaged over the samples. *)
Definition batch_mean (kind : norm_kind) (c : nat) (x : tensor R) : R :=
  match kind with
  | KBatch => average (channel_entries (nth 0 (shape x) 0) (skipn 2 (shape x)) x c)
  | KInstance => average (map (fun a => average (sample_entries (skipn 2 (shape x)) x a c)) (seq 0 (nth 0 (shape x) 0)))
  end.
Definition batch_var (kind : norm_kind) (c : nat) (x : tensor R) : R :=
  match kind with
  | KBatch => sample_variance (channel_entries (nth 0 (shape x) 0) (skipn 2 (shape x)) x c)
  | KInstance => average (map (fun a => sample_variance (sample_entries (skipn 2 (shape x)) x a c)) (seq 0 (nth 0 (shape x) 0)))
  end.

Open Scope R_scope.
(** Exponential average of the numbers l, oldest first, with initial value r: after each number x the value is (1 - m) r + m x. As a
    sum: [moving_sum]. *)
Fixpoint moving (m r : R) (l : list R) : R := match l with [] => r | x :: l => moving m ((1 - m) * r + m * x) l end.
Definition moving_sum (m r : R) (l : list R) : R :=
  (1 - m) ^ length l * r + total (map (fun i => m * (1 - m) ^ (length l - 1 - i) * nth i l 0) (seq 0 (length l))).
