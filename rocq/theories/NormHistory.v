(** Model of a GBatchNorm / GInstanceNorm module as an object used over time (normalization.py:6-15, 23-32): construction, train() /
    eval(), parameter updates by an optimizer, and forward calls, including calls that raise. *)
From Coq Require Import String ZArith.
From Verif Require Import Prelude RMath Tensor Repulse Layers.
Open Scope nat_scope.

(** normalization.py:6, 12, 23, 29: the classes inherit the constructors of torch.nn.BatchNorm / InstanceNorm: running_mean 0, running_var
    1, num_batches_tracked 0, weight 1, bias 0, training mode. *)
Definition norm_new (features : nat) (eps : R) (momentum : option R) (affine track : bool) : norm_state :=
  {| nm_features := features; nm_eps := eps; nm_momentum := momentum;
     nm_weight := if affine then Some (repeat 1%R features) else None; nm_bias := if affine then Some (repeat 0%R features) else None;
     nm_mean := if track then Some (repeat 0%R features) else None; nm_var := if track then Some (repeat 1%R features) else None;
     nm_count := 0; nm_training := true |}.

(** What happens to the module. [NParams w b]: an optimizer step writes the affine parameters. *)
Inductive norm_event (G : Type) :=
| NCall (x : tensor R) (H : list G) | NTrain | NEval | NParams (w b : list R).
Arguments NCall {G}. Arguments NTrain {G}. Arguments NEval {G}. Arguments NParams {G}.
(** normalization.py:6-15 (batch), 23-32 (instance). *)
Inductive norm_kind := KBatch | KInstance.
Definition norm_call {G} (kind : norm_kind) (d : nat) (s : norm_state) (x : tensor R) (H : list G) : result (tensor R * list G * norm_state) :=
  match kind with KBatch => g_batch_norm d s x H | KInstance => g_instance_norm d s x H end.

Definition set_training (b : bool) (s : norm_state) : norm_state :=
  {| nm_features := nm_features s; nm_eps := nm_eps s; nm_momentum := nm_momentum s; nm_weight := nm_weight s; nm_bias := nm_bias s;
     nm_mean := nm_mean s; nm_var := nm_var s; nm_count := nm_count s; nm_training := b |}.
Definition set_count (n : nat) (s : norm_state) : norm_state :=
  {| nm_features := nm_features s; nm_eps := nm_eps s; nm_momentum := nm_momentum s; nm_weight := nm_weight s; nm_bias := nm_bias s;
     nm_mean := nm_mean s; nm_var := nm_var s; nm_count := n; nm_training := nm_training s |}.
(** Parameters are only written where they exist. *)
Definition set_params (w b : list R) (s : norm_state) : norm_state :=
  {| nm_features := nm_features s; nm_eps := nm_eps s; nm_momentum := nm_momentum s;
     nm_weight := match nm_weight s with Some _ => Some w | None => None end; nm_bias := match nm_bias s with Some _ => Some b | None => None end;
     nm_mean := nm_mean s; nm_var := nm_var s; nm_count := nm_count s; nm_training := nm_training s |}.

(** normalization.py:8, 14: the state a raising call leaves. torch.nn.BatchNorm checks the rank, then increments num_batches_tracked,
    then checks the sizes; torch.nn.InstanceNorm writes nothing before its checks. *)
Definition norm_failed (kind : norm_kind) (d : nat) (s : norm_state) (x : tensor R) : norm_state :=
  match kind with
  | KBatch => if Nat.eqb (length (shape x)) (3 + d) && nm_training s && match nm_mean s with Some _ => true | None => false end
              then set_count (S (nm_count s)) s else s
  | KInstance => s
  end.
(** The state after an event (normalization.py:6-15, 23-32). *)
Definition norm_after {G} (kind : norm_kind) (d : nat) (s : norm_state) (e : norm_event G) : norm_state :=
  match e with
  | NCall x H => match norm_call kind d s x H with Ok (_, _, s') => s' | Err _ => norm_failed kind d s x end
  | NTrain => set_training true s
  | NEval => set_training false s
  | NParams w b => set_params w b s
  end.
Definition norm_run {G} (kind : norm_kind) (d : nat) (s : norm_state) (es : list (norm_event G)) : norm_state := fold_left (norm_after kind d) es s.
