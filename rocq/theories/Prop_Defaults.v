(** Property theorems C106: leaving out metric_fn (repulse) or dist_fn (interpolate_NN, interpolate_BCC). *)
From Verif Require Import Prelude RMath Interp Bary Defaults DefaultsFacts.
Open Scope R_scope.

Theorem C106_default_metric_defect : forall (N D steps : nat) (c lr alpha : R) (noise : nat -> nat -> nat -> R) (grid : nat -> nat -> R),
  (2 <= N)%nat -> (1 <= D)%nat -> 0 < c ->
  let t := repulse_default N D steps c lr alpha noise grid in
  default_energy N D c (t 0%nat) = PInf /\
  (forall e i k, (1 <= e)%nat -> (1 <= i < N)%nat -> t e i k = NaN) /\
  (forall e i k, (2 <= e)%nat -> (i < N)%nat -> t e i k = NaN).
Proof.
  intros N D steps c lr alpha noise grid HN HD Hc t.
  assert (A : forall e i k, (1 <= e)%nat -> (1 <= i < N)%nat -> t e i k = NaN).
  { induction e as [|e IH]; intros i k He Hi; [lia|]. unfold t. cbn [repulse_default]. fold t. apply epoch_NaN.
    destruct e as [|e]; [exact (grad_NaN N D c Hc HN HD (t 0%nat) grid (fun _ _ => eq_refl) i k Hi)|].
    apply grad_NaN_later; [exact HN|]. intros j Hj. apply IH; [lia|exact Hj]. }
  split; [exact (energy_inf N D c HN HD (t 0%nat) grid (fun _ _ => eq_refl))|]. split; [exact A|].
  intros [|[|e]] i k He Hi; [lia|lia|]. unfold t. cbn [repulse_default]. apply epoch_NaN. apply grad_NaN_later; [exact HN|].
  intros j Hj. exact (A (S e) j k ltac:(lia) Hj).
Qed.
Print Assumptions C106_default_metric_defect.

Theorem C106_default_distance_defect : forall (G Row : Type) (T : torch_env) (lstsq : G -> G -> G -> G -> R * R * R) (eps : R) (D S : nat)
    (nodes grid : list G) (signal : list Row) (signal' : mat),
  interpolate_NN_call T None nodes grid signal = Err TypeError /\
  interpolate_BCC_call T None lstsq eps D S nodes grid signal' = Err TypeError /\
  (forall d, interpolate_NN_call T (Some d) nodes grid signal <> Err TypeError) /\
  (forall d, interpolate_BCC_call T (Some d) lstsq eps D S nodes grid signal' <> Err TypeError).
Proof.
  intros G Row T lstsq eps D S nodes grid signal signal'.
  assert (M : forall (A B : Type) (f : A -> result B) l, (forall a, f a <> Err TypeError) -> mapM f l <> Err TypeError).
  { intros A B f l H. induction l as [|a l IH]; [discriminate|]. cbn [mapM]. specialize (H a). destruct (f a) as [b|e]; cbn [bind]; [|congruence].
    destruct (mapM f l) as [bs|e]; cbn [bind] in *; congruence. }
  split; [reflexivity|]. split; [reflexivity|]. split.
  - intros d. cbn [interpolate_NN_call]. unfold interpolate_NN. destruct grid as [|g grid]; [discriminate|]. apply M. intros a. destruct (nth_error signal _); discriminate.
  - intros d. cbn [interpolate_BCC_call]. unfold interpolate_BCC_ieee. destruct (Nat.ltb (length grid) 3); [discriminate|]. apply M. intros a.
    destruct (te_top3 T _) as ((i, j), k). destruct (Nat.ltb D 3); [discriminate|].
    destruct (nth_error _ i); cbn [of_option bind]; [|discriminate]. destruct (nth_error grid i); cbn [of_option bind]; [|discriminate].
    destruct (nth_error grid j); cbn [of_option bind]; [|discriminate]. destruct (nth_error grid k); cbn [of_option bind]; [|discriminate].
    destruct (nth_error signal' i); cbn [of_option bind]; [|discriminate]. destruct (nth_error signal' j); cbn [of_option bind]; [|discriminate].
    destruct (nth_error signal' k); cbn [of_option bind]; discriminate.
Qed.
Print Assumptions C106_default_distance_defect.

(** Two points of the plane, apart: what is not finite is not the fault of the grid. *)
Example C106_nonvacuous :
  let grid := fun i k : nat => INR (i + 2 * k) in
  (2 <= 2)%nat /\ (1 <= 2)%nat /\ 0 < 1 /\ grid 0%nat 0%nat <> grid 1%nat 0%nat /\
  exists r, repulse_default 2 2 1 1 1 0 (fun _ _ _ => 0) grid 1 0 0 = Fin r.
Proof.
  cbv zeta. split; [lia|]. split; [lia|]. split; [lra|]. split; [cbn; lra|].
  assert (E : default_pair_grad 2 2 1 (fun i k => Fin (INR (i + 2 * k))) 0 1 0 = Fin (/ 1 * (/ (INR 2 * INR (2 - 1) * INR 2) * (-2 * / (/ 1 * (0 + - 1)) ^ 3)))).
  { unfold default_pair_grad, default_diff. cbn [xneg xadd xscale xinv_pow Nat.add Nat.mul INR]. destruct (Req_EM_T _ 0) as [Z|_]; [exfalso; lra|reflexivity]. }
  cbn [repulse_default]. unfold default_epoch, default_grad. cbn [kept Nat.sub seq map Nat.eqb]. rewrite E. eexists. reflexivity.
Qed.
