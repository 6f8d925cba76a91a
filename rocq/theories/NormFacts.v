(** Proofs about batch and instance normalization. *)
From Coq Require Import String ZArith Permutation.
From Verif Require Import Prelude RMath Mat Repulse RepulseFacts Tensor TensorFacts Kernel KernelFacts Conv Layers LayersSpec LayersFacts.
Open Scope nat_scope.

Lemma total_sumR l : total l = sumR l.
Proof. induction l as [|x l IH]; [reflexivity|]. simpl. rewrite IH. reflexivity. Qed.
Lemma average_meanR l : average l = meanR l.
Proof. unfold average, meanR. rewrite total_sumR. reflexivity. Qed.
Lemma variance_varR l : variance l = varR l.
Proof. unfold variance, varR, average at 1, squares. rewrite total_sumR, map_length, average_meanR. reflexivity. Qed.
Lemma sample_variance_uvarR l : sample_variance l = uvarR l.
Proof. unfold sample_variance, uvarR, squares. rewrite total_sumR, average_meanR. reflexivity. Qed.

(** Reshaping the axes after the channels keeps the entries in order. *)
Lemma sample_reshape (x : tensor R) N C s s' a b : has_shape x (N :: C :: s) -> prodn s' = prodn s -> a < N -> b < C ->
  sample_values s' (mkT (N :: C :: s') (data x)) a b = sample_values s x a b.
Proof.
  intros H E Ha Hb. unfold sample_values. rewrite <- (flat_values x N C s a b H Ha Hb).
  assert (has_shape (mkT (N :: C :: s') (data x)) (N :: C :: s')) as H'.
  { split; [reflexivity|]. destruct H as [Hs Hw]. unfold wft in *. cbn [shape data]. rewrite Hw, Hs. rewrite !prodn_cons, E. reflexivity. }
  rewrite <- (flat_values _ N C s' a b H' Ha Hb). cbn [data]. rewrite E. reflexivity.
Qed.
Lemma channel_reshape (x : tensor R) N C s s' c : has_shape x (N :: C :: s) -> prodn s' = prodn s -> c < C ->
  channel_values N s' (mkT (N :: C :: s') (data x)) c = channel_values N s x c.
Proof.
  intros H E Hc. unfold channel_values. rewrite !flat_map_concat_map. f_equal. apply map_ext_in. intros n Hn. apply in_seq in Hn.
  apply (sample_reshape x N C s s' n c); try assumption. lia.
Qed.
Lemma channel_entries_eq N s x c : channel_entries N s x c = channel_values N s x c.
Proof. reflexivity. Qed.

Definition bn_tracked (s : norm_state) : bool := match nm_mean s with Some _ => true | None => false end.
Definition bn_batch (s : norm_state) : bool := nm_training s || negb (bn_tracked s).
Definition bn_count (s : norm_state) : nat := if nm_training s && bn_tracked s then S (nm_count s) else nm_count s.
Definition bn_factor (s : norm_state) : R := match nm_momentum s with Some m => m | None => (1 / INR (bn_count s))%R end.
(** Next state given the values per channel. *)
Definition bn_next (s : norm_state) (C : nat) (V : nat -> list R) : norm_state :=
  let upd old new := if nm_training s then match old with Some l => Some (blend (bn_factor s) l new) | None => None end else old in
  {| nm_features := nm_features s; nm_eps := nm_eps s; nm_momentum := nm_momentum s; nm_weight := nm_weight s; nm_bias := nm_bias s;
     nm_mean := upd (nm_mean s) (map (fun c => meanR (V c)) (seq 0 C));
     nm_var := upd (nm_var s) (map (fun c => uvarR (V c)) (seq 0 C)); nm_count := bn_count s; nm_training := nm_training s |}.
Definition olist (o : option (list R)) : list R := match o with Some l => l | None => [] end.
Definition bn_mean (s : norm_state) (V : list R) (c : nat) : R := if bn_batch s then meanR V else nth c (olist (nm_mean s)) 0%R.
Definition bn_var (s : norm_state) (V : list R) (c : nat) : R := if bn_batch s then varR V else nth c (olist (nm_var s)) 0%R.

Lemma nth_map_seq {A} (F : nat -> A) C c d : c < C -> nth c (map F (seq 0 C)) d = F c.
Proof. intros H. rewrite (nth_indep _ d (F 0)) by (rewrite map_length, seq_length; exact H). rewrite map_nth, seq_nth by exact H. reflexivity. Qed.

Lemma has_shape_mk {E} (x : tensor E) s s' : has_shape x s -> prodn s' = prodn s -> has_shape (mkT s' (data x)) s'.
Proof. intros [Hs Hw] E'. split; [reflexivity|]. unfold wft in *. cbn [shape data]. rewrite Hw, Hs, E'. reflexivity. Qed.

(** Batch normalization of the flattened tensor. *)
Lemma batch_norm_spec d s (x : tensor R) N C rest : has_shape x (N :: C :: rest) -> List.length rest = d ->
  batch_norm d s x =
    if bn_batch s && Nat.eqb (N * prodn rest) 1 then Err ValueError
    else if negb (check_channels s C) then Err RuntimeError
    else Ok (build (N :: C :: rest) (fun idx => let c := nth 1 idx 0 in
               affine1 (nm_weight s) (nm_bias s) c (normalized (at_ x idx)
                 (nth c (if bn_batch s then map (fun c => meanR (channel_values N rest x c)) (seq 0 C) else olist (nm_mean s)) 0%R)
                 (nth c (if bn_batch s then map (fun c => varR (channel_values N rest x c)) (seq 0 C) else olist (nm_var s)) 0%R) (nm_eps s))),
             bn_next s C (channel_values N rest x)).
Proof. intros [Hs _] Hd. unfold batch_norm. rewrite Hs. rewrite Hd, Nat.eqb_refl. cbn [negb]. reflexivity. Qed.

Lemma bn_next_ext s C V V' : (forall c, c < C -> meanR (V c) = meanR (V' c)) -> (forall c, c < C -> uvarR (V c) = uvarR (V' c)) ->
  bn_next s C V = bn_next s C V'.
Proof.
  intros A B. unfold bn_next.
  replace (map (fun c => meanR (V' c)) (seq 0 C)) with (map (fun c => meanR (V c)) (seq 0 C)) by (apply map_ext_in; intros c Hc; apply in_seq in Hc; apply A; lia).
  replace (map (fun c => uvarR (V' c)) (seq 0 C)) with (map (fun c => uvarR (V c)) (seq 0 C)) by (apply map_ext_in; intros c Hc; apply in_seq in Hc; apply B; lia).
  reflexivity.
Qed.

Section GN.
  Context {G : Type} (H : list G).

  (** The group layer: everything in terms of the five-dimensional tensor. *)
  Lemma g_batch_norm_spec d s (x : tensor R) N C n sp : has_shape x (N :: C :: n :: sp) -> List.length sp = d -> 0 < d ->
    let V := channel_values N (n :: sp) x in
    (bn_batch s = true /\ N * (n * prodn sp) = 1 -> g_batch_norm d s x H = Err ValueError) /\
    (~ (bn_batch s = true /\ N * (n * prodn sp) = 1) -> check_channels s C = false -> g_batch_norm d s x H = Err RuntimeError) /\
    (~ (bn_batch s = true /\ N * (n * prodn sp) = 1) -> check_channels s C = true -> exists y,
      g_batch_norm d s x H = Ok (y, H, bn_next s C V) /\ has_shape y (N :: C :: n :: sp) /\
      forall a c z, a < N -> c < C -> valid (n :: sp) z ->
        at_ y (a :: c :: z) = affine1 (nm_weight s) (nm_bias s) c (normalized (at_ x (a :: c :: z)) (bn_mean s (V c) c) (bn_var s (V c) c) (nm_eps s))).
  Proof.
    intros Hx Hd Hd0 V. destruct sp as [|Z dims]; [simpl in Hd; lia|].
    set (s1 := (n * Z) :: dims). assert (prodn s1 = prodn (n :: Z :: dims)) as Ep by (unfold s1; rewrite !prodn_cons; lia).
    assert (prodn (N :: C :: s1) = prodn (N :: C :: n :: Z :: dims)) as Ep2 by (rewrite !(prodn_cons N), !(prodn_cons C), Ep; reflexivity).
    pose proof (has_shape_mk x _ (N :: C :: s1) Hx Ep2) as H1.
    assert (List.length s1 = d) as L1 by (unfold s1; simpl in *; exact Hd).
    assert (g_batch_norm d s x H = r <- batch_norm d s (mkT (N :: C :: s1) (data x)) ;; y <- view (N :: C :: n :: Z :: dims) (fst r) ;; Ok (y, H, snd r)) as E.
    { unfold g_batch_norm, g_norm. rewrite (proj1 Hx). fold s1. rewrite view_ok by (rewrite (proj1 Hx); exact Ep2). reflexivity. }
    rewrite E, (batch_norm_spec d s _ N C s1 H1 L1).
    assert (n * prodn (Z :: dims) = prodn s1) as Eq by (rewrite Ep, !prodn_cons; reflexivity). rewrite Eq.
    split; [|split].
    - intros [A B]. rewrite A, B. reflexivity.
    - intros A B. rewrite B. destruct (bn_batch s); [|reflexivity]. destruct (Nat.eqb_spec (N * prodn s1) 1); [tauto|reflexivity].
    - intros A B. rewrite B. cbn [negb].
      assert (bn_batch s && Nat.eqb (N * prodn s1) 1 = false) as Ef.
      { destruct (bn_batch s); [|reflexivity]. destruct (Nat.eqb_spec (N * prodn s1) 1); [tauto|reflexivity]. }
      rewrite Ef. cbn [bind fst snd].
      set (b := build (N :: C :: s1) _). assert (has_shape b (N :: C :: s1)) as Hb by (split; [reflexivity|apply wft_build]).
      rewrite view_ok by (cbn [shape b build]; symmetry; exact Ep2). cbn [bind].
      eexists. split; [f_equal; f_equal|].
      + apply bn_next_ext; intros c Hc; unfold V; rewrite (channel_reshape x N C _ s1 c Hx Ep Hc); reflexivity.
      + split; [apply (has_shape_mk b _ _ Hb); symmetry; exact Ep2|].
        intros a c z Ha Hc Hz. pose proof (ravel_lt _ _ Hz) as Hr.
        assert (valid s1 (unravel s1 (ravel (n :: Z :: dims) z))) as Hv by (apply unravel_valid; rewrite Ep; exact Hr).
        rewrite (at_reshape (N :: C :: n :: Z :: dims) (N :: C :: s1) (data b) _ (a :: c :: unravel s1 (ravel (n :: Z :: dims) z))).
        2: { cbn [ravel]. rewrite (ravel_unravel s1) by (rewrite Ep; exact Hr). rewrite !(prodn_cons C), Ep. reflexivity. }
        change (mkT (N :: C :: s1) (data b)) with b. unfold b. rewrite at_build by (do 2 (apply valid_cons; [assumption|]); exact Hv).
        cbn [nth]. unfold bn_mean, bn_var. f_equal.
        assert (at_ (mkT (N :: C :: s1) (data x)) (a :: c :: unravel s1 (ravel (n :: Z :: dims) z)) = at_ x (a :: c :: z)) as E3.
        { destruct x as [sx dx]. destruct Hx as [Hs _]. cbn in Hs. subst sx. cbn [data]. apply at_reshape.
          cbn [ravel]. rewrite (ravel_unravel s1) by (rewrite Ep; exact Hr). rewrite !(prodn_cons C), Ep. reflexivity. }
        rewrite E3. destruct (bn_batch s); [|reflexivity].
        rewrite !nth_map_seq by exact Hc. rewrite (channel_reshape x N C _ s1 c Hx Ep Hc). reflexivity.
  Qed.

  (** Same for instance normalization. *)
  Definition in_factor (s : norm_state) : R := match nm_momentum s with Some m => m | None => 0%R end.
  Definition in_next (s : norm_state) (N C : nat) (V : nat -> nat -> list R) : norm_state :=
    let upd old new := if bn_batch s then match old with Some l => Some (blend (in_factor s) l new) | None => None end else old in
    {| nm_features := nm_features s; nm_eps := nm_eps s; nm_momentum := nm_momentum s; nm_weight := nm_weight s; nm_bias := nm_bias s;
       nm_mean := upd (nm_mean s) (map (fun c => meanR (map (fun a => meanR (V a c)) (seq 0 N))) (seq 0 C));
       nm_var := upd (nm_var s) (map (fun c => meanR (map (fun a => uvarR (V a c)) (seq 0 N))) (seq 0 C));
       nm_count := nm_count s; nm_training := nm_training s |}.
  Definition in_rejected (s : norm_state) (C K : nat) : Prop :=
    (C <> nm_features s /\ nm_weight s <> None) \/ (bn_batch s = true /\ K = 1).
  Definition sel (o : option (list R)) (c : nat) : R := match o with Some l => nth c l 0%R | None => 0%R end.

  Lemma sel_olist o c : sel o c = nth c (olist o) 0%R.
  Proof. destruct o; [reflexivity|]. destruct c; reflexivity. Qed.

  Lemma instance_norm_spec d s (x : tensor R) N C rest : has_shape x (N :: C :: rest) -> List.length rest = d ->
    instance_norm d s x =
      if negb (Nat.eqb C (nm_features s)) && match nm_weight s with Some _ => true | None => false end then Err ValueError
      else if bn_batch s && Nat.eqb (prodn rest) 1 then Err ValueError
      else if negb (check_channels s C) then Err RuntimeError
      else Ok (build (N :: C :: rest) (fun idx => let a := nth 0 idx 0 in let c := nth 1 idx 0 in
                 affine1 (nm_weight s) (nm_bias s) c (normalized (at_ x idx)
                   (if bn_batch s then meanR (sample_values rest x a c) else sel (nm_mean s) c)
                   (if bn_batch s then varR (sample_values rest x a c) else sel (nm_var s) c) (nm_eps s))),
               in_next s N C (sample_values rest x)).
  Proof.
    intros [Hs _] Hd. unfold instance_norm. rewrite Hs. cbn [List.length]. rewrite Hd. destruct (Nat.eqb_spec (S (S d)) (S d)) as [Q|_]; [lia|].
    unfold instance_batched. rewrite Hs. rewrite Hd, Nat.eqb_refl. cbn [negb]. reflexivity.
  Qed.

  Lemma in_next_ext s N C V V' : (forall a c, a < N -> c < C -> meanR (V a c) = meanR (V' a c)) -> (forall a c, a < N -> c < C -> uvarR (V a c) = uvarR (V' a c)) ->
    in_next s N C V = in_next s N C V'.
  Proof.
    intros A B. unfold in_next.
    replace (map (fun c => meanR (map (fun a => meanR (V' a c)) (seq 0 N))) (seq 0 C)) with (map (fun c => meanR (map (fun a => meanR (V a c)) (seq 0 N))) (seq 0 C)).
    2: { apply map_ext_in; intros c Hc; apply in_seq in Hc. f_equal. apply map_ext_in. intros a Ha. apply in_seq in Ha. apply A; lia. }
    replace (map (fun c => meanR (map (fun a => uvarR (V' a c)) (seq 0 N))) (seq 0 C)) with (map (fun c => meanR (map (fun a => uvarR (V a c)) (seq 0 N))) (seq 0 C)).
    2: { apply map_ext_in; intros c Hc; apply in_seq in Hc. f_equal. apply map_ext_in. intros a Ha. apply in_seq in Ha. apply B; lia. }
    reflexivity.
  Qed.

  Lemma g_instance_norm_spec d s (x : tensor R) N C n sp : has_shape x (N :: C :: n :: sp) -> List.length sp = d -> 0 < d ->
    let V := sample_values (n :: sp) x in
    (in_rejected s C (n * prodn sp) -> g_instance_norm d s x H = Err ValueError) /\
    (~ in_rejected s C (n * prodn sp) -> check_channels s C = false -> g_instance_norm d s x H = Err RuntimeError) /\
    (~ in_rejected s C (n * prodn sp) -> check_channels s C = true -> exists y,
      g_instance_norm d s x H = Ok (y, H, in_next s N C V) /\ has_shape y (N :: C :: n :: sp) /\
      forall a c z, a < N -> c < C -> valid (n :: sp) z ->
        at_ y (a :: c :: z) = affine1 (nm_weight s) (nm_bias s) c (normalized (at_ x (a :: c :: z)) (bn_mean s (V a c) c) (bn_var s (V a c) c) (nm_eps s))).
  Proof.
    intros Hx Hd Hd0 V. destruct sp as [|Z dims]; [simpl in Hd; lia|].
    set (s1 := (n * Z) :: dims). assert (prodn s1 = prodn (n :: Z :: dims)) as Ep by (unfold s1; rewrite !prodn_cons; lia).
    assert (prodn (N :: C :: s1) = prodn (N :: C :: n :: Z :: dims)) as Ep2 by (rewrite !(prodn_cons N), !(prodn_cons C), Ep; reflexivity).
    pose proof (has_shape_mk x _ (N :: C :: s1) Hx Ep2) as H1.
    assert (List.length s1 = d) as L1 by (unfold s1; simpl in *; exact Hd).
    assert (g_instance_norm d s x H = r <- instance_norm d s (mkT (N :: C :: s1) (data x)) ;; y <- view (N :: C :: n :: Z :: dims) (fst r) ;; Ok (y, H, snd r)) as E.
    { unfold g_instance_norm, g_norm. rewrite (proj1 Hx). fold s1. rewrite view_ok by (rewrite (proj1 Hx); exact Ep2). reflexivity. }
    rewrite E, (instance_norm_spec d s _ N C s1 H1 L1).
    assert (n * prodn (Z :: dims) = prodn s1) as Eq by (rewrite Ep, !prodn_cons; reflexivity). rewrite Eq.
    assert (forall K, in_rejected s C K <-> (negb (Nat.eqb C (nm_features s)) && match nm_weight s with Some _ => true | None => false end) || (bn_batch s && Nat.eqb K 1) = true) as Hrej.
    { intros K. unfold in_rejected. rewrite Bool.orb_true_iff, !Bool.andb_true_iff, Bool.negb_true_iff, Nat.eqb_neq, Nat.eqb_eq.
      destruct (nm_weight s); intuition congruence. }
    split; [|split].
    - intros A. apply Hrej in A. destruct (negb _ && _); [reflexivity|]. cbn [orb] in A. rewrite A. reflexivity.
    - intros A B. rewrite B, Hrej in *. apply Bool.not_true_is_false, Bool.orb_false_iff in A. destruct A as [A1 A2]. rewrite A1, A2. reflexivity.
    - intros A B. rewrite B, Hrej in *. apply Bool.not_true_is_false, Bool.orb_false_iff in A. destruct A as [A1 A2]. rewrite A1, A2. cbn [negb bind fst snd].
      set (b := build (N :: C :: s1) _). assert (has_shape b (N :: C :: s1)) as Hb by (split; [reflexivity|apply wft_build]).
      rewrite view_ok by (cbn [shape b build]; symmetry; exact Ep2). cbn [bind].
      eexists. split; [f_equal; f_equal|].
      + apply in_next_ext; intros a c Ha Hc; unfold V; rewrite (sample_reshape x N C _ s1 a c Hx Ep Ha Hc); reflexivity.
      + split; [apply (has_shape_mk b _ _ Hb); symmetry; exact Ep2|].
        intros a c z Ha Hc Hz. pose proof (ravel_lt _ _ Hz) as Hr.
        assert (valid s1 (unravel s1 (ravel (n :: Z :: dims) z))) as Hv by (apply unravel_valid; rewrite Ep; exact Hr).
        rewrite (at_reshape (N :: C :: n :: Z :: dims) (N :: C :: s1) (data b) _ (a :: c :: unravel s1 (ravel (n :: Z :: dims) z))).
        2: { cbn [ravel]. rewrite (ravel_unravel s1) by (rewrite Ep; exact Hr). rewrite !(prodn_cons C), Ep. reflexivity. }
        change (mkT (N :: C :: s1) (data b)) with b. unfold b. rewrite at_build by (do 2 (apply valid_cons; [assumption|]); exact Hv).
        cbn [nth]. unfold bn_mean, bn_var. f_equal.
        assert (at_ (mkT (N :: C :: s1) (data x)) (a :: c :: unravel s1 (ravel (n :: Z :: dims) z)) = at_ x (a :: c :: z)) as E3.
        { destruct x as [sx dx]. destruct Hx as [Hs _]. cbn in Hs. subst sx. cbn [data]. apply at_reshape.
          cbn [ravel]. rewrite (ravel_unravel s1) by (rewrite Ep; exact Hr). rewrite !(prodn_cons C), Ep. reflexivity. }
        rewrite E3. rewrite !sel_olist. destruct (bn_batch s); [|reflexivity].
        rewrite (sample_reshape x N C _ s1 a c Hx Ep Ha Hc). reflexivity.
  Qed.
End GN.

(** ** Commutation with rearrangements *)
Lemma rearranged_sample f s s' X X' N C a c : bijective f s s' -> (forall n c y, n < N -> c < C -> valid s y -> at_ X' (n :: c :: f y) = at_ X (n :: c :: y)) ->
  a < N -> c < C -> Permutation (sample_values s X a c) (sample_values s' X' a c).
Proof. intros B E Ha Hc. unfold sample_values. apply (rearranged_values f); [exact B|]. intros y Hy. apply E; assumption. Qed.
Lemma Permutation_flat_map {A B} (F F' : A -> list B) l : (forall a, In a l -> Permutation (F a) (F' a)) -> Permutation (flat_map F l) (flat_map F' l).
Proof.
  induction l as [|a l IH]; intros E; [constructor|]. simpl. apply Permutation_app; [apply E; left; reflexivity|]. apply IH. intros b Hb. apply E. right. exact Hb.
Qed.
Lemma rearranged_channel f s s' X X' N C c : bijective f s s' -> (forall n c y, n < N -> c < C -> valid s y -> at_ X' (n :: c :: f y) = at_ X (n :: c :: y)) ->
  c < C -> Permutation (channel_values N s X c) (channel_values N s' X' c).
Proof.
  intros B E Hc. unfold channel_values. apply Permutation_flat_map. intros a Ha. apply in_seq in Ha.
  apply (rearranged_sample f s s' X X' N C a c B E); [lia|exact Hc].
Qed.

Lemma has_shape_inj {E} (x : tensor E) s s' : has_shape x s -> has_shape x s' -> s = s'.
Proof. intros [A _] [B _]. congruence. Qed.

Lemma batch_norm_rearranged {G G'} d s f n sp n' sp' X X' (H : list G) (H' : list G') Y st :
  rearranged f (n :: sp) (n' :: sp') X X' -> List.length sp = d -> List.length sp' = d -> 0 < d ->
  g_batch_norm d s X H = Ok (Y, H, st) ->
  exists Y', g_batch_norm d s X' H' = Ok (Y', H', st) /\ rearranged f (n :: sp) (n' :: sp') Y Y'.
Proof.
  intros (B & N & C & HX & HX' & E) L L' D R0.
  pose proof (bijective_prodn _ _ _ B) as Ep. rewrite !prodn_cons in Ep.
  destruct (g_batch_norm_spec H d s X N C n sp HX L D) as (A1 & A2 & A3).
  destruct (g_batch_norm_spec H' d s X' N C n' sp' HX' L' D) as (B1 & B2 & B3). rewrite Ep in *.
  assert (~ (bn_batch s = true /\ N * (n * prodn sp) = 1)) as K1 by (intros Q; rewrite (A1 Q) in R0; discriminate).
  assert (check_channels s C = true) as K2 by (destruct (check_channels s C); [reflexivity|rewrite (A2 K1 eq_refl) in R0; discriminate]).
  destruct (A3 K1 K2) as (y & R1 & S1 & V1). destruct (B3 K1 K2) as (y' & R2 & S2 & V2).
  rewrite R0 in R1. injection R1 as <- E1. exists y'.
  assert (forall c, c < C -> Permutation (channel_values N (n :: sp) X c) (channel_values N (n' :: sp') X' c)) as P by (intros c Hc; apply (rearranged_channel f _ _ _ _ N C); assumption).
  split.
  - rewrite R2. do 2 f_equal. rewrite E1. symmetry. apply bn_next_ext; intros c Hc; [apply meanR_perm|apply uvarR_perm]; apply P; exact Hc.
  - split; [exact B|]. exists N, C. split; [exact S1|]. split; [exact S2|]. intros a c y Ha Hc Hy.
    rewrite V1, V2 by (try assumption; apply B; exact Hy). rewrite E by assumption. unfold bn_mean, bn_var.
    rewrite (meanR_perm _ _ (P c Hc)), (varR_perm _ _ (P c Hc)). reflexivity.
Qed.
Lemma instance_norm_rearranged {G G'} d s f n sp n' sp' X X' (H : list G) (H' : list G') Y st :
  rearranged f (n :: sp) (n' :: sp') X X' -> List.length sp = d -> List.length sp' = d -> 0 < d ->
  g_instance_norm d s X H = Ok (Y, H, st) ->
  exists Y', g_instance_norm d s X' H' = Ok (Y', H', st) /\ rearranged f (n :: sp) (n' :: sp') Y Y'.
Proof.
  intros (B & N & C & HX & HX' & E) L L' D R0.
  pose proof (bijective_prodn _ _ _ B) as Ep. rewrite !prodn_cons in Ep.
  destruct (g_instance_norm_spec H d s X N C n sp HX L D) as (A1 & A2 & A3).
  destruct (g_instance_norm_spec H' d s X' N C n' sp' HX' L' D) as (B1 & B2 & B3). rewrite Ep in *.
  assert (~ in_rejected s C (n * prodn sp)) as K1 by (intros Q; rewrite (A1 Q) in R0; discriminate).
  assert (check_channels s C = true) as K2 by (destruct (check_channels s C); [reflexivity|rewrite (A2 K1 eq_refl) in R0; discriminate]).
  destruct (A3 K1 K2) as (y & R1 & S1 & V1). destruct (B3 K1 K2) as (y' & R2 & S2 & V2).
  rewrite R0 in R1. injection R1 as <- E1. exists y'.
  assert (forall a c, a < N -> c < C -> Permutation (sample_values (n :: sp) X a c) (sample_values (n' :: sp') X' a c)) as P by (intros a c Ha Hc; apply (rearranged_sample f _ _ _ _ N C); assumption).
  split.
  - rewrite R2. do 2 f_equal. rewrite E1. symmetry. apply in_next_ext; intros a c Ha Hc; [apply meanR_perm|apply uvarR_perm]; apply P; assumption.
  - split; [exact B|]. exists N, C. split; [exact S1|]. split; [exact S2|]. intros a c y Ha Hc Hy.
    rewrite V1, V2 by (try assumption; apply B; exact Hy). rewrite E by assumption. unfold bn_mean, bn_var.
    rewrite (meanR_perm _ _ (P a c Ha Hc)), (varR_perm _ _ (P a c Ha Hc)). reflexivity.
Qed.
