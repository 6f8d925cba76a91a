(** The call contracts of the twelve public classes. *)
From Coq Require Import String ZArith Lia Lra.
From Verif Require Import Prelude RMath Mat Interp SO2 O2 O2Facts SO3 O3 O3Facts Repulse GridTables GridCache Tensor TensorFacts Functional Kernel KernelFacts Conv ConvSpec ConvInit Public PublicFacts LinSpec SampleRn
  Prop_Conv Prop_Public Prop_Linear AcceptSpec SolveSpec RbfSpec RbfGrid AnswerSpec AnswerFacts.
Open Scope nat_scope.

Lemma permuted_length {G P} (M : gmodule G P) mul r H : length (permuted M mul [r] H) = length H.
Proof. unfold permuted. destruct (gm_permute M); [|reflexivity]. rewrite bcast_left_one. apply map_length. Qed.
Lemma permuted_nonempty {G P} (M : gmodule G P) mul r H : H <> [] -> permuted M mul [r] H <> [].
Proof. intros N E. apply (f_equal (@length _)) in E. rewrite permuted_length in E. destruct H; [contradiction|discriminate]. Qed.
Lemma permuted_proper {G P} (M : gmodule G P) mul r (proper : G -> Prop) H : (forall a b, proper a -> proper b -> proper (mul a b)) -> proper r -> Forall proper H -> Forall proper (permuted M mul [r] H).
Proof.
  intros Hm Hr HH. unfold permuted. destruct (gm_permute M); [|exact HH]. rewrite bcast_left_one. rewrite Forall_forall in *. intros x Hx. apply in_map_iff in Hx. destruct Hx as (y & <- & Hy). auto.
Qed.
Lemma outcome_length {G} ok N cout n n' size (r : result (tensor R * list G)) : n = n' -> outcome_is ok N cout n size r -> outcome_is ok N cout n' size r.
Proof. intros ->. exact (fun x => x). Qed.

Section Generic.
  Context {G P : Type} {D : Dflt P} (d : nat) (L : gconv G P) (cin cout s : nat) (k : gkernel G P) (groups st : nat) (padding : padarg) (dl : nat) (m : padmode) (bias : option (tensor R)) (permute : bool).
  Hypothesis Hc : constructed d L cin cout (repeat s d) k groups (repeat st d) padding (repeat dl d) m bias.
  Hypothesis HK : regular_kernel k cin cout (repeat s d) groups.
  Context (smp : sampler P) (mul : G -> G -> G) (r : G).
  Hypothesis Hsmp : op_sample_Rn (k_ops k) = Ok smp.
  Let M := mkModule L permute.
  Lemma lifting_contracts : lifting_contract d cin cout s groups st padding dl m (kernel_grid M) (lifting_call M mul [r]).
  Proof using Hc HK Hsmp.
    intros weight X N sp H Hw HX Hs HH. unfold lifting_call. set (H1 := or_else H (kernel_grid M)) in *.
    apply (outcome_length _ _ _ (length (permuted M mul [r] H1))); [apply permuted_length|].
    apply (lifting_total d L cin cout _ k groups _ padding _ m bias Hc HK smp Hsmp); try assumption. apply permuted_nonempty, HH.
  Qed.
  Context (proper : G -> Prop).
  Hypothesis Hans : answers proper k.
  Hypothesis Hd : k_gdim k <> 0.
  Hypothesis Hmul : forall a b, proper a -> proper b -> proper (mul a b).
  Hypothesis Hr : proper r.
  Lemma full_contracts_SE : full_contract d cin cout s groups st padding dl m proper (k_gdim k) (fun in_H => in_H) (full_call_SEn M mul [r]).
  Proof using Hc HK Hsmp Hans Hd Hmul Hr.
    intros weight X N sp in_H out_H Hw HX Hs HH Pi Po. unfold full_call_SEn. set (H1 := or_else out_H in_H) in *.
    apply (outcome_length _ _ _ (length (permuted M mul [r] H1))); [apply permuted_length|].
    apply (full_total d L cin cout _ k groups _ padding _ m bias Hc HK smp Hsmp proper Hans Hd); try assumption; [apply permuted_nonempty, HH|apply permuted_proper; assumption].
  Qed.
  Lemma full_contracts_E : full_contract d cin cout s groups st padding dl m proper (k_gdim k) (fun _ => kernel_grid M) (full_call_En M mul [r]).
  Proof using Hc HK Hsmp Hans Hd Hmul Hr.
    intros weight X N sp in_H out_H Hw HX Hs HH Pi Po. unfold full_call_En. set (H1 := or_else out_H (kernel_grid M)) in *.
    apply (outcome_length _ _ _ (length (permuted M mul [r] H1))); [apply permuted_length|].
    apply (full_total d L cin cout _ k groups _ padding _ m bias Hc HK smp Hsmp proper Hans Hd); try assumption; [apply permuted_nonempty, HH|apply permuted_proper; assumption].
  Qed.
  Lemma separable_contracts_SE : separable_contract d cin cout s groups st padding dl m proper (k_gdim k) (fun in_H => in_H) (separable_call_SEn M mul [r]).
  Proof using Hc HK Hsmp Hans Hd Hmul Hr.
    intros weight_H weight X N sp in_H out_H Hwh Hw HX Hs HH Pi Po. unfold separable_call_SEn. set (H1 := or_else out_H in_H) in *.
    apply (outcome_length _ _ _ (length (permuted M mul [r] H1))); [apply permuted_length|].
    apply (separable_total d L cin cout _ k groups _ padding _ m bias Hc HK smp Hsmp proper Hans Hd); try assumption; [apply permuted_nonempty, HH|apply permuted_proper; assumption].
  Qed.
  Lemma separable_contracts_E : separable_contract d cin cout s groups st padding dl m proper (k_gdim k) (fun _ => kernel_grid M) (separable_call_En M mul [r]).
  Proof using Hc HK Hsmp Hans Hd Hmul Hr.
    intros weight_H weight X N sp in_H out_H Hwh Hw HX Hs HH Pi Po. unfold separable_call_En. set (H1 := or_else out_H (kernel_grid M)) in *.
    apply (outcome_length _ _ _ (length (permuted M mul [r] H1))); [apply permuted_length|].
    apply (separable_total d L cin cout _ k groups _ padding _ m bias Hc HK smp Hsmp proper Hans Hd); try assumption; [apply permuted_nonempty, HH|apply permuted_proper; assumption].
  Qed.
End Generic.

(** ** Constructors that returned a layer *)
Lemma valid_config_dec gks cin cout groups padding st pmode : valid_config gks cin cout groups padding st pmode \/ ~ valid_config gks cin cout groups padding st pmode.
Proof.
  destruct (check_config_spec gks cin cout groups padding st pmode) as [C1 C2].
  destruct (check_config gks cin cout groups padding st pmode) as [[]|e] eqn:Ec; [left; apply C1; reflexivity|right; intros Hv; apply C1 in Hv; discriminate].
Qed.
Lemma width_dec (w : R) n : (w <> 0%R \/ 2 <= n) \/ ~ (w <> 0%R \/ 2 <= n).
Proof. destruct (Req_EM_T w 0) as [->|N]; [|left; left; exact N]. destruct (le_lt_dec 2 n) as [H|H]; [left; right; exact H|right; intros [K|K]; [apply K; reflexivity|lia]]. Qed.
Lemma nonempty_dec {A} (w : R) (g : list A) : (w <> 0%R \/ g <> []) \/ ~ (w <> 0%R \/ g <> []).
Proof. destruct (Req_EM_T w 0) as [->|N]; [|left; left; exact N]. destruct g as [|a g]; [right; intros [K|K]; apply K; reflexivity|left; right; discriminate]. Qed.

Lemma and_dec {P Q : Prop} : P \/ ~ P -> Q \/ ~ Q -> (P /\ Q) \/ ~ (P /\ Q).
Proof. tauto. Qed.

Lemma made_lifting_SE2 T cin cout s groups st padding dl pmode permute bias mode pm mask n given M :
  lifting_SE2 T cin cout s groups st padding dl pmode permute bias mode pm mask n given = Ok M -> usable 2 s st dl cin cout padding bias ->
  exists L grid k m, M = mkModule L permute /\ kernel_grid M = grid /\ k = lifting_kernel_SE2 T cin cout s (Z.to_nat groups) mode pm mask grid /\ padmode_of pmode = Some m /\
    constructed 2 L cin cout (repeat s 2) k (Z.to_nat groups) (repeat st 2) padding (repeat dl 2) m bias.
Proof.
  intros E U. pose proof (C69_lifting_SE2 T cin cout s groups st padding dl pmode permute bias mode pm mask n given) as K. cbv zeta in K. destruct K as (A & B & _).
  destruct (valid_config_dec (GkInt (Z.of_nat n)) cin cout groups padding [st; st] pmode) as [V|V]; [|destruct (B V) as (e & E' & _); rewrite E in E'; discriminate].
  destruct (A V) as (L & EL & Ek & Hc). rewrite E in EL. injection EL as ->. destruct (Hc U) as (m & Em & Hcon).
  eexists L, _, _, m. split; [reflexivity|]. split; [reflexivity|]. unfold kernel_grid. cbn [gm_layer]. rewrite Ek. split; [reflexivity|]. split; [exact Em|exact Hcon].
Qed.
Lemma made_lifting_SE3 T cin cout s groups st padding dl pmode permute bias mode pm mask n given default M :
  lifting_SE3 T cin cout s groups st padding dl pmode permute bias mode pm mask n given default = Ok M -> usable 3 s st dl cin cout padding bias ->
  exists L grid k m, M = mkModule L permute /\ kernel_grid M = grid /\ k = lifting_kernel_SE3 T cin cout s (Z.to_nat groups) mode pm mask grid /\ padmode_of pmode = Some m /\
    constructed 3 L cin cout (repeat s 3) k (Z.to_nat groups) (repeat st 3) padding (repeat dl 3) m bias.
Proof.
  intros E U. destruct (pick_grid given default) as [grid|e] eqn:Eg; [|unfold lifting_SE3 in E; rewrite Eg in E; discriminate].
  assert (given = Some grid \/ given = None /\ default = Ok grid) as Hg by (destruct given; cbn in Eg; [left|right; split; [reflexivity|exact Eg]]; congruence).
  pose proof (C69_lifting_SE3 T cin cout s groups st padding dl pmode permute bias mode pm mask n given default grid Hg) as K. cbv zeta in K. destruct K as (A & B & _).
  destruct (valid_config_dec (GkInt (Z.of_nat n)) cin cout groups padding [st; st; st] pmode) as [V|V]; [|destruct (B V) as (e & E' & _); rewrite E in E'; discriminate].
  destruct (A V) as (L & EL & Ek & Hc). rewrite E in EL. injection EL as ->. destruct (Hc U) as (m & Em & Hcon).
  eexists L, _, _, m. split; [reflexivity|]. split; [reflexivity|]. unfold kernel_grid. cbn [gm_layer]. rewrite Ek. split; [reflexivity|]. split; [exact Em|exact Hcon].
Qed.
Lemma made_lifting_E2 T cin cout s groups st padding dl pmode permute bias mode pm mask gks given M :
  lifting_E2 T cin cout s groups st padding dl pmode permute bias mode pm mask gks given = Ok M -> usable 2 s st dl cin cout padding bias ->
  exists L grid k m, M = mkModule L permute /\ kernel_grid M = grid /\ k = lifting_kernel_E2 T cin cout s (Z.to_nat groups) (pair_rot gks) (pair_ref gks) mode pm mask grid /\ padmode_of pmode = Some m /\
    constructed 2 L cin cout (repeat s 2) k (Z.to_nat groups) (repeat st 2) padding (repeat dl 2) m bias.
Proof.
  intros E U. pose proof (C69_lifting_E2 T cin cout s groups st padding dl pmode permute bias mode pm mask gks given) as K. cbv zeta in K. destruct K as (A & B & _).
  destruct (valid_config_dec (pair_gks gks) cin cout groups padding [st; st] pmode) as [V|V]; [|destruct (B V) as (e & E' & _); rewrite E in E'; discriminate].
  destruct (A V) as (L & EL & Ek & Hc). rewrite E in EL. injection EL as ->. destruct (Hc U) as (m & Em & Hcon).
  eexists L, _, _, m. split; [reflexivity|]. split; [reflexivity|]. unfold kernel_grid. cbn [gm_layer]. rewrite Ek. split; [reflexivity|]. split; [exact Em|exact Hcon].
Qed.
Lemma made_lifting_E3 T cin cout s groups st padding dl pmode permute bias mode pm mask gks given default M :
  lifting_E3 T cin cout s groups st padding dl pmode permute bias mode pm mask gks given default = Ok M -> usable 3 s st dl cin cout padding bias ->
  exists L grid k m, M = mkModule L permute /\ kernel_grid M = grid /\ k = lifting_kernel_E3 T cin cout s (Z.to_nat groups) (pair_rot gks) (pair_ref gks) mode pm mask grid /\ padmode_of pmode = Some m /\
    constructed 3 L cin cout (repeat s 3) k (Z.to_nat groups) (repeat st 3) padding (repeat dl 3) m bias.
Proof.
  intros E U. destruct (pick_grid given default) as [grid|e] eqn:Eg; [|unfold lifting_E3 in E; rewrite Eg in E; discriminate].
  assert (given = Some grid \/ given = None /\ default = Ok grid) as Hg by (destruct given; cbn in Eg; [left|right; split; [reflexivity|exact Eg]]; congruence).
  pose proof (C69_lifting_E3 T cin cout s groups st padding dl pmode permute bias mode pm mask gks given default grid Hg) as K. cbv zeta in K. destruct K as (A & B & _).
  destruct (valid_config_dec (pair_gks gks) cin cout groups padding [st; st; st] pmode) as [V|V]; [|destruct (B V) as (e & E' & _); rewrite E in E'; discriminate].
  destruct (A V) as (L & EL & Ek & Hc). rewrite E in EL. injection EL as ->. destruct (Hc U) as (m & Em & Hcon).
  eexists L, _, _, m. split; [reflexivity|]. split; [reflexivity|]. unfold kernel_grid. cbn [gm_layer]. rewrite Ek. split; [reflexivity|]. split; [exact Em|exact Hcon].
Qed.
Lemma made_group_SE2 T cin cout s groups st padding dl pmode permute bias mode pm mask n gmode gw given M :
  group_SE2 T cin cout s groups st padding dl pmode permute bias mode pm mask n gmode gw given = Ok M -> usable 2 s st dl cin cout padding bias ->
  exists L k m, M = mkModule L permute /\ kernel_SE2 T cin cout s (Z.to_nat groups) gmode gw mode pm mask (kernel_grid M) = Ok k /\ k_gdim k = length (kernel_grid M) /\ padmode_of pmode = Some m /\
    constructed 2 L cin cout (repeat s 2) k (Z.to_nat groups) (repeat st 2) padding (repeat dl 2) m bias.
Proof.
  intros E U. pose proof (C69_group_SE2 T cin cout s groups st padding dl pmode permute bias mode pm mask n gmode gw given) as K. cbv zeta in K.
  set (grid := match given with Some g => g | None => so2_uniform_grid n end) in *. destruct K as (A & B & C).
  destruct (nonempty_dec gw grid) as [W|W]; [|specialize (C W); rewrite E in C; discriminate].
  destruct (valid_config_dec (GkInt (Z.of_nat n)) cin cout groups padding [st; st] pmode) as [V|V]; [|destruct (B W V) as (e & E' & _); rewrite E in E'; discriminate].
  destruct (A W V) as (k & Hk & (L & EL & Ek & Hc) & HH & Wf & _). rewrite E in EL. injection EL as ->. destruct (Hc U) as (m & Em & Hcon).
  exists L, k, m. split; [reflexivity|]. unfold kernel_grid. cbn [gm_layer]. rewrite Ek, HH. split; [exact Hk|]. split; [unfold full_weight_shape in Wf; injection Wf as Wf _ _; exact Wf|]. split; [exact Em|exact Hcon].
Qed.
Lemma made_group_SE3 T cin cout s groups st padding dl pmode permute bias mode pm mask n gmode gw given default M :
  group_SE3 T cin cout s groups st padding dl pmode permute bias mode pm mask n gmode gw given default = Ok M -> usable 3 s st dl cin cout padding bias ->
  exists L k m, M = mkModule L permute /\ kernel_SE3 T cin cout s (Z.to_nat groups) gmode gw mode pm mask (kernel_grid M) = Ok k /\ k_gdim k = length (kernel_grid M) /\ padmode_of pmode = Some m /\
    constructed 3 L cin cout (repeat s 3) k (Z.to_nat groups) (repeat st 3) padding (repeat dl 3) m bias.
Proof.
  intros E U. destruct (pick_grid given default) as [grid|e] eqn:Eg; [|unfold group_SE3 in E; rewrite Eg in E; discriminate].
  assert (given = Some grid \/ given = None /\ default = Ok grid) as Hg by (destruct given; cbn in Eg; [left|right; split; [reflexivity|exact Eg]]; congruence).
  pose proof (C69_group_SE3 T cin cout s groups st padding dl pmode permute bias mode pm mask n gmode gw given default grid Hg) as K. cbv zeta in K. destruct K as (A & B & C).
  destruct (width_dec gw (length grid)) as [W|W]; [|specialize (C W); rewrite E in C; discriminate].
  destruct (valid_config_dec (GkInt (Z.of_nat n)) cin cout groups padding [st; st; st] pmode) as [V|V]; [|destruct (B W V) as (e & E' & _); rewrite E in E'; discriminate].
  destruct (A W V) as (k & Hk & (L & EL & Ek & Hc) & HH & Wf & _). rewrite E in EL. injection EL as ->. destruct (Hc U) as (m & Em & Hcon).
  exists L, k, m. split; [reflexivity|]. unfold kernel_grid. cbn [gm_layer]. rewrite Ek, HH. split; [exact Hk|]. split; [unfold full_weight_shape in Wf; injection Wf as Wf _ _; exact Wf|]. split; [exact Em|exact Hcon].
Qed.
Lemma made_group_E2 T cin cout s groups st padding dl pmode permute bias mode pm mask gks gmode rot ref given M :
  group_E2 T cin cout s groups st padding dl pmode permute bias mode pm mask gks gmode rot ref given = Ok M -> usable 2 s st dl cin cout padding bias ->
  exists L k m, M = mkModule L permute /\ kernel_E2 T cin cout s (Z.to_nat groups) (pair_rot gks) (pair_ref gks) gmode rot ref mode pm mask (kernel_grid M) = Ok k /\
    k_gdim k = pair_rot gks + pair_ref gks /\ padmode_of pmode = Some m /\
    constructed 2 L cin cout (repeat s 2) k (Z.to_nat groups) (repeat st 2) padding (repeat dl 2) m bias.
Proof.
  intros E U. pose proof (C69_group_E2 T cin cout s groups st padding dl pmode permute bias mode pm mask gks gmode rot ref given) as K. cbv zeta in K.
  set (grid := match given with Some g => g | None => _ end) in *. destruct K as (A & B & C).
  destruct (and_dec (nonempty_dec rot (firstn (pair_rot gks) grid)) (nonempty_dec ref (skipn (pair_rot gks) grid))) as [W|W]; [|specialize (C W); rewrite E in C; discriminate].
  destruct (valid_config_dec (pair_gks gks) cin cout groups padding [st; st] pmode) as [V|V]; [|destruct (B W V) as (e & E' & _); rewrite E in E'; discriminate].
  destruct (A W V) as (k & Hk & (L & EL & Ek & Hc) & HH & Wf & _). rewrite E in EL. injection EL as ->. destruct (Hc U) as (m & Em & Hcon).
  exists L, k, m. split; [reflexivity|]. unfold kernel_grid. cbn [gm_layer]. rewrite Ek, HH. split; [exact Hk|]. split; [unfold full_weight_shape in Wf; injection Wf as Wf _ _; exact Wf|]. split; [exact Em|exact Hcon].
Qed.
Lemma made_group_E3 T cin cout s groups st padding dl pmode permute bias mode pm mask gks gmode rot ref given default M :
  group_E3 T cin cout s groups st padding dl pmode permute bias mode pm mask gks gmode rot ref given default = Ok M -> usable 3 s st dl cin cout padding bias ->
  exists L k m, M = mkModule L permute /\ kernel_E3 T cin cout s (Z.to_nat groups) (pair_rot gks) (pair_ref gks) gmode rot ref mode pm mask (kernel_grid M) = Ok k /\
    k_gdim k = pair_rot gks + pair_ref gks /\ padmode_of pmode = Some m /\
    constructed 3 L cin cout (repeat s 3) k (Z.to_nat groups) (repeat st 3) padding (repeat dl 3) m bias.
Proof.
  intros E U. destruct (pick_grid given default) as [grid|e] eqn:Eg; [|unfold group_E3 in E; rewrite Eg in E; discriminate].
  assert (given = Some grid \/ given = None /\ default = Ok grid) as Hg by (destruct given; cbn in Eg; [left|right; split; [reflexivity|exact Eg]]; congruence).
  pose proof (C69_group_E3 T cin cout s groups st padding dl pmode permute bias mode pm mask gks gmode rot ref given default grid Hg) as K. cbv zeta in K. destruct K as (A & B & C).
  destruct (and_dec (width_dec rot (length (firstn (pair_rot gks) grid))) (width_dec ref (length (skipn (pair_rot gks) grid)))) as [W|W]; [|specialize (C W); rewrite E in C; discriminate].
  destruct (valid_config_dec (pair_gks gks) cin cout groups padding [st; st; st] pmode) as [V|V]; [|destruct (B W V) as (e & E' & _); rewrite E in E'; discriminate].
  destruct (A W V) as (k & Hk & (L & EL & Ek & Hc) & HH & Wf & _). rewrite E in EL. injection EL as ->. destruct (Hc U) as (m & Em & Hcon).
  exists L, k, m. split; [reflexivity|]. unfold kernel_grid. cbn [gm_layer]. rewrite Ek, HH. split; [exact Hk|]. split; [unfold full_weight_shape in Wf; injection Wf as Wf _ _; exact Wf|]. split; [exact Em|exact Hcon].
Qed.
