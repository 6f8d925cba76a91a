(** Existence and uniqueness of moved images; the effect of a sign. *)
From Coq Require Import String ZArith Permutation Lra.
From Verif Require Import Prelude RMath Mat Tensor TensorFacts SignedPerm Functional FunctionalFacts Kernel KernelFacts Conv ConvSpec ConvFacts ConvInit
  EquiSpec EquiSpecFacts EquiKernel EquiGroups.
Open Scope R_scope.

Lemma sp_surj n sp s s' : sp_ok n sp -> List.length s = n -> sp_shape sp s s' ->
  forall y, valid s y -> exists i, valid s' i /\ sp_idx sp s i = y.
Proof.
  intros Hok Hs Hsh y Hy. apply in_indices in Hy. apply (Permutation_in _ (Permutation_sym (sp_idx_perm n sp Hok s s' Hs Hsh))) in Hy.
  apply in_map_iff in Hy. destruct Hy as (i & E & Hi). exists i. split; [apply in_indices; assumption|assumption].
Qed.

Lemma sp_shape_exists d sp s : d = 2%nat \/ d = 3%nat -> sp_ok d sp -> List.length s = d -> exists s', sp_shape sp s s'.
Proof.
  intros [-> | ->] Hok L.
  - destruct (len2 s L) as (a & b & ->). destruct (sp2_cases sp Hok) as (fa & fb & [-> | ->]); [exists [a; b]|exists [b; a]]; split; reflexivity.
  - destruct (len3 s L) as (x & y & z & ->). destruct (sp3_cases sp Hok) as (a & b & c & fa & fb & fc & -> & Q).
    destruct Q as [(-> & -> & ->)|[(-> & -> & ->)|[(-> & -> & ->)|[(-> & -> & ->)|[(-> & -> & ->)|(-> & -> & ->)]]]]];
    [exists [x; y; z]|exists [x; z; y]|exists [y; x; z]|exists [z; x; y]|exists [y; z; x]|exists [z; y; x]]; split; reflexivity.
Qed.

Lemma sp_shape_fun d sp s s1 s2 : sp_ok d sp -> List.length s = d -> sp_shape sp s s1 -> sp_shape sp s s2 -> s1 = s2.
Proof.
  intros Hok L [L1 E1] [L2 E2]. apply nth_ext with (d := 0%nat) (d' := 0%nat); [congruence|].
  intros j Hj. destruct (sp_axis_surj d sp Hok j) as (a & p & Ha & <-); [lia|].
  rewrite (sp_shape_nth sp s s1 (conj L1 E1) a p Ha), (sp_shape_nth sp s s2 (conj L2 E2) a p Ha). reflexivity.
Qed.

Lemma carried_sp_exists d sp X lead s : d = 2%nat \/ d = 3%nat -> sp_ok d sp -> has_shape X (lead ++ s) -> List.length s = d ->
  exists X', carried_sp d sp (fun _ v v' => v' = v) X X'.
Proof.
  intros Hd Hok HX L. destruct (sp_shape_exists d sp s Hd Hok L) as (s' & Hsh).
  exists (build (lead ++ s') (fun idx => at_ X (firstn (List.length lead) idx ++ sp_idx sp s (skipn (List.length lead) idx)))).
  exists lead, s, s'. split; [assumption|]. split; [assumption|]. split; [split; [reflexivity|apply wft_build]|]. split; [assumption|].
  intros pre i Hp Hi. rewrite at_build by (apply valid_app; assumption). pose proof (valid_length _ _ Hp) as E. rewrite <- E.
  rewrite firstn_app, firstn_all, Nat.sub_diag, skipn_app, skipn_all, Nat.sub_diag. cbn [firstn skipn app]. rewrite app_nil_r. reflexivity.
Qed.

Lemma carried_sp_unique d sp X X1 X2 : sp_ok d sp -> carried_sp d sp (fun _ v v' => v' = v) X X1 ->
  carried_sp d sp (fun _ v v' => v' = v) X X2 -> X1 = X2.
Proof.
  intros Hok (lead & s & s1 & L & HX & H1 & Hs1 & V1) C2. destruct (carried_sp_inv _ _ _ _ _ _ _ C2 HX L) as (s2 & H2 & Hs2 & V2).
  pose proof (sp_shape_fun d sp s s1 s2 Hok L Hs1 Hs2) as <-. destruct H1 as [S1 W1], H2 as [S2 W2].
  apply tensor_ext; try assumption; [congruence|]. intros idx Hi. rewrite S1 in Hi. apply valid_app_inv in Hi. destruct Hi as (a & b & -> & Ha & Hb).
  rewrite (V1 a b Ha Hb), (V2 a b Ha Hb). reflexivity.
Qed.

(** With the sign -1 the output is carried onto the moved output exactly when nothing but the bias is there. *)
Lemma sign_flip_iff d sp bias Y Y' lead s : sp_ok d sp -> has_shape Y (lead ++ s) -> List.length s = d ->
  carried_sp d sp (sign_rel d bias (-1)) Y Y' ->
  (carried_sp d sp (fun _ v v' => v' = v) Y Y' <->
   forall pre y, valid lead pre -> valid s y -> at_ Y (pre ++ y) = bias_value d bias (nth 1 pre 0%nat)).
Proof.
  intros Hok HY L C. destruct (carried_sp_inv _ _ _ _ _ _ _ C HY L) as (s' & HY' & Hsh & V). split.
  - intros C2 pre y Hp Hy. destruct (carried_sp_inv _ _ _ _ _ _ _ C2 HY L) as (s2 & HY2 & Hsh2 & V2).
    pose proof (sp_shape_fun d sp s s' s2 Hok L Hsh Hsh2) as <-.
    destruct (sp_surj d sp s s' Hok L Hsh y Hy) as (i & Hi & <-).
    specialize (V pre i Hp Hi). specialize (V2 pre i Hp Hi). unfold sign_rel in V. rewrite V2 in V. lra.
  - intros A. exists lead, s, s'. do 4 (split; [assumption|]). intros pre i Hp Hi. specialize (V pre i Hp Hi). unfold sign_rel in V.
    pose proof (sp_idx_valid d sp Hok s s' L Hsh i Hi) as Hv. rewrite (A pre _ Hp Hv) in *. lra.
Qed.

Lemma moved2_exists A X lead h w : signed2 A -> has_shape X (lead ++ [h; w]) -> exists X', moved2 A X X' /\ forall X2, moved2 A X X2 -> X2 = X'.
Proof.
  intros HA HX. destruct (symmetry2 A HA) as (sp & Hok & _ & Hiff).
  destruct (carried_sp_exists 2 sp X lead [h; w] (or_introl eq_refl) Hok HX eq_refl) as (X' & C).
  exists X'. split; [apply Hiff; exact C|]. intros X2 C2. apply Hiff in C2. exact (carried_sp_unique _ _ _ _ _ Hok C2 C).
Qed.
Lemma moved3_exists A X lead d h w : signed3 A -> has_shape X (lead ++ [d; h; w]) -> exists X', moved3 A X X' /\ forall X2, moved3 A X X2 -> X2 = X'.
Proof.
  intros HA HX. destruct (symmetry3 A HA) as (sp & Hok & _ & Hiff).
  destruct (carried_sp_exists 3 sp X lead [d; h; w] (or_intror eq_refl) Hok HX eq_refl) as (X' & C).
  exists X'. split; [apply Hiff; exact C|]. intros X2 C2. apply Hiff in C2. exact (carried_sp_unique _ _ _ _ _ Hok C2 C).
Qed.

(** Transport of the iff to the specification. *)
Lemma flip2_iff A bias Y Y' lead h w : signed2 A -> has_shape Y (lead ++ [h; w]) ->
  carried2 (fun pre v v' => v' - bias_value 2 bias (nth 1 pre 0%nat) = -1 * (v - bias_value 2 bias (nth 1 pre 0%nat))) A Y Y' ->
  (moved2 A Y Y' <-> forall pre i j, valid lead pre -> (i < h)%nat -> (j < w)%nat -> at_ Y (pre ++ [i; j]) = bias_value 2 bias (nth 1 pre 0%nat)).
Proof.
  intros HA HY C. destruct (symmetry2 A HA) as (sp & Hok & _ & Hiff). apply Hiff in C.
  pose proof (sign_flip_iff 2 sp bias Y Y' lead [h; w] Hok HY eq_refl C) as Q. unfold moved2. rewrite Hiff, Q. split.
  - intros B pre i j Hp Hi Hj. apply B; [assumption|]. repeat apply valid_cons; try assumption. apply valid_nil.
  - intros B pre y Hp Hy. destruct (valid2_split _ _ _ Hy) as (i & j & -> & Hi & Hj). apply B; assumption.
Qed.
Lemma flip3_iff A bias Y Y' lead d h w : signed3 A -> has_shape Y (lead ++ [d; h; w]) ->
  carried3 (fun pre v v' => v' - bias_value 3 bias (nth 1 pre 0%nat) = -1 * (v - bias_value 3 bias (nth 1 pre 0%nat))) A Y Y' ->
  (moved3 A Y Y' <-> forall pre i j k, valid lead pre -> (i < d)%nat -> (j < h)%nat -> (k < w)%nat ->
     at_ Y (pre ++ [i; j; k]) = bias_value 3 bias (nth 1 pre 0%nat)).
Proof.
  intros HA HY C. destruct (symmetry3 A HA) as (sp & Hok & _ & Hiff). apply Hiff in C.
  pose proof (sign_flip_iff 3 sp bias Y Y' lead [d; h; w] Hok HY eq_refl C) as Q. unfold moved3. rewrite Hiff, Q. split.
  - intros B pre i j k Hp Hi Hj Hk. apply B; [assumption|]. repeat apply valid_cons; try assumption. apply valid_nil.
  - intros B pre y Hp Hy. destruct (valid3_split _ _ _ _ Hy) as (i & j & k & -> & Hi & Hj & Hk). apply B; assumption.
Qed.
