(** Constructor facts. *)
From Coq Require Import String ZArith.
From Verif Require Import Prelude RMath Mat Repulse RepulseFacts Tensor TensorFacts SignedPerm Kernel KernelFacts Conv ConvSpec ConvFacts GConvFacts.
Open Scope nat_scope.

(** What the documentation asks of the hyper-parameters. *)
Definition valid_config (gks : gk_arg) (cin cout : nat) (groups : Z) (padding : padarg) (stride : list nat) (pm : string) : Prop :=
  match gks with
  | GkTuple l => (forall i, In i l -> (0 <= i)%Z) /\ (0 < sumZ l)%Z
  | GkInt _ => True
  end /\
  (0 < groups)%Z /\ (groups | Z.of_nat cin)%Z /\ (groups | Z.of_nat cout)%Z /\
  (forall s, padding = PStr s -> (s = "same"%string \/ s = "valid"%string) /\ (s = "same"%string -> forall x, In x stride -> x = 1)) /\
  In pm ["zeros"; "reflect"; "replicate"; "circular"]%string.

Lemma padmode_of_some pm : In pm ["zeros"; "reflect"; "replicate"; "circular"]%string <-> exists m, padmode_of pm = Some m.
Proof.
  unfold padmode_of. split.
  - intros [<-|[<-|[<-|[<-|[]]]]]; simpl; eauto.
  - intros [m H]. destruct (String.eqb_spec pm "zeros"); [subst; simpl; auto|].
    destruct (String.eqb_spec pm "reflect"); [subst; simpl; auto|].
    destruct (String.eqb_spec pm "replicate"); [subst; simpl; auto|].
    destruct (String.eqb_spec pm "circular"); [subst; simpl; auto|discriminate].
Qed.

Lemma check_config_spec gks cin cout groups padding stride pm :
  (check_config gks cin cout groups padding stride pm = Ok tt <-> valid_config gks cin cout groups padding stride pm) /\
  (~ valid_config gks cin cout groups padding stride pm -> check_config gks cin cout groups padding stride pm = Err ValueError).
Proof.
  assert (forall b c d : Prop, (b -> c) -> (c -> b) -> (~ c -> d) -> (b <-> c) /\ (~ c -> d)) as K by tauto.
  assert (check_config gks cin cout groups padding stride pm = Ok tt \/ check_config gks cin cout groups padding stride pm = Err ValueError) as Htot.
  { unfold check_config. repeat match goal with |- context [if ?b then _ else _] => destruct b; auto end;
    destruct (padmode_of pm); auto. }
  assert (check_config gks cin cout groups padding stride pm = Ok tt -> valid_config gks cin cout groups padding stride pm) as H1.
  { unfold check_config, valid_config. intros H.
    destruct (match gks with GkInt _ => false | GkTuple l => _ end) eqn:E1; [discriminate|].
    destruct (Z.leb_spec groups 0) as [E2|E2]; [discriminate|].
    destruct (Z.eqb_spec (Z.of_nat cin mod groups) 0) as [E3|E3]; [|discriminate].
    destruct (Z.eqb_spec (Z.of_nat cout mod groups) 0) as [E4|E4]; [|discriminate].
    cbn [negb] in H.
    destruct (match padding with PStr s => _ | _ => false end) eqn:E5; [discriminate|].
    repeat split.
    - destruct gks as [i|l]; [trivial|]. apply orb_false_iff in E1. destruct E1 as [Ea Eb]. split; [|apply Z.leb_gt; assumption].
      intros i Hi. apply Z.nlt_ge. intros Hlt. assert (existsb (fun i => (i <? 0)%Z) l = true); [|congruence].
      apply existsb_exists. exists i. split; [assumption|]. apply Z.ltb_lt; assumption.
    - assumption.
    - apply Z.mod_divide; [lia|assumption].
    - apply Z.mod_divide; [lia|assumption].
    - subst padding. apply orb_false_iff in E5. destruct E5 as [Ea _]. apply negb_false_iff, orb_true_iff in Ea.
      destruct Ea as [Ea|Ea]; apply String.eqb_eq in Ea; auto.
    - subst padding. apply orb_false_iff in E5. destruct E5 as [_ Eb]. intros -> x Hx.
      rewrite String.eqb_refl in Eb. cbn [andb] in Eb.
      destruct (Nat.eq_dec x 1) as [|Hn]; [assumption|]. exfalso.
      assert (existsb (fun x => negb (Nat.eqb x 1)) stride = true); [|congruence].
      apply existsb_exists. exists x. split; [assumption|]. apply negb_true_iff, Nat.eqb_neq. assumption.
    - apply padmode_of_some. destruct (padmode_of pm); [eauto|discriminate]. }
  assert (valid_config gks cin cout groups padding stride pm -> check_config gks cin cout groups padding stride pm = Ok tt) as H2.
  { unfold check_config, valid_config. intros (A & B & C & E & F & I).
    destruct (match gks with GkInt _ => false | GkTuple l => _ end) eqn:E1.
    { exfalso. destruct gks as [i|l]; [discriminate|]. destruct A as [A1 A2]. apply orb_true_iff in E1. destruct E1 as [E1|E1].
      - apply existsb_exists in E1. destruct E1 as (i & Hi & Hlt). apply Z.ltb_lt in Hlt. specialize (A1 i Hi). lia.
      - apply Z.leb_le in E1. lia. }
    destruct (Z.leb_spec groups 0) as [E2|E2]; [lia|].
    apply Z.mod_divide in C; [|lia]. apply Z.mod_divide in E; [|lia]. rewrite C, E. cbn [Z.eqb negb].
    destruct (match padding with PStr s => _ | _ => false end) eqn:E5.
    { exfalso. destruct padding as [| |s]; try discriminate. destruct (F s eq_refl) as [Fa Fb].
      apply orb_true_iff in E5. destruct E5 as [E5|E5].
      - apply negb_true_iff, orb_false_iff in E5. destruct E5 as [Ea Eb]. apply String.eqb_neq in Ea, Eb. tauto.
      - apply andb_true_iff in E5. destruct E5 as [Ea Eb]. apply String.eqb_eq in Ea. apply existsb_exists in Eb.
        destruct Eb as (x & Hx & Hn). rewrite (Fb Ea x Hx) in Hn. discriminate. }
    apply padmode_of_some in I. destruct I as [m ->]. reflexivity. }
  apply K; auto. intros Hn. destruct Htot as [H|H]; [|assumption]. exfalso. auto.
Qed.

(** Sizes, strides and dilations have one positive entry per axis, a padding tuple one entry per axis, and the
    kernel object was made for this kernel size (as every layer of the package does). *)
Definition good_args {G P} (d : nat) (k : gkernel G P) (ks stride dil : list nat) (padding : padarg) : Prop :=
  length ks = d /\ length stride = d /\ length dil = d /\ k_size k = ks /\
  match padding with PTuple l => length l = d | _ => True end /\
  (forall x, In x ks -> 0 < x) /\ (forall x, In x stride -> 0 < x) /\ (forall x, In x dil -> 0 < x).

(** self.padding. *)
Definition stored_padding (d : nat) (p : padarg) : padset :=
  match p with PInt n => PadTuple (repeat n d) | PTuple l => PadTuple l | PStr s => PadStr s end.

Lemma gconv_init_fields {G P} conv_mode d cin cout ks gks (k : gkernel G P) groups stride padding dil pm bias L :
  (conv_mode = "2d"%string /\ d = 2 \/ conv_mode = "3d"%string /\ d = 3) ->
  gconv_init conv_mode cin cout ks gks k groups stride padding dil pm bias = Ok L ->
  valid_config gks cin cout groups padding stride pm /\
  l_kernel L = k /\ l_in L = cin /\ l_out L = cout /\ l_ks L = ks /\ l_groups L = Z.to_nat groups /\
  l_stride L = stride /\ l_padding L = stored_padding d padding /\ l_dil L = dil /\
  padmode_of pm = Some (l_mode L) /\ l_rev L = reversed_padding (stored_padding d padding) dil (k_size k) /\ l_bias L = bias.
Proof.
  intros Hm H. unfold gconv_init in H.
  destruct (check_config gks cin cout groups padding stride pm) as [[]|] eqn:E; [|discriminate].
  pose proof (proj1 (proj1 (check_config_spec _ _ _ _ _ _ _)) E) as Hv. cbn [bind] in H.
  destruct Hm as [[-> ->]|[-> ->]]; cbn [String.eqb Ascii.eqb Bool.eqb bind] in H; inversion H; subst L; clear H;
    cbn [l_kernel l_in l_out l_ks l_groups l_stride l_padding l_dil l_mode l_rev l_bias]; split; try assumption;
    destruct Hv as (_ & _ & _ & _ & _ & Hpm); apply padmode_of_some in Hpm; destruct Hpm as [m ->]; repeat split; reflexivity.
Qed.

Lemma gconv_init_ok {G P} conv_mode d cin cout ks gks (k : gkernel G P) groups stride padding dil pm bias L :
  (conv_mode = "2d"%string /\ d = 2 \/ conv_mode = "3d"%string /\ d = 3) ->
  good_args d k ks stride dil padding ->
  gconv_init conv_mode cin cout ks gks k groups stride padding dil pm bias = Ok L -> layer_ok L.
Proof.
  intros Hm (A & B & C & E & F & I & J & K) H.
  destruct (gconv_init_fields _ _ _ _ _ _ _ _ _ _ _ _ _ _ Hm H) as (_ & Ek & _ & _ & Eks & _ & Es & Ep & Ed & _ & Er & _).
  constructor; rewrite ?Ek, ?Eks, ?Es, ?Ep, ?Ed, ?Er; auto; try congruence.
  - destruct padding; simpl; auto; rewrite ?repeat_length; congruence.
  - intros j Hj. repeat split; [apply J|apply K|apply I]; apply nth_In; lia.
Qed.

Lemma init_groups groups cin cout : (0 < groups)%Z -> (groups | Z.of_nat cin)%Z -> (groups | Z.of_nat cout)%Z ->
  let g := Z.to_nat groups in 0 < g /\ cin = (cin / g) * g /\ cout = (cout / g) * g.
Proof.
  intros H [a Ha] [b Hb] g. assert (Z.of_nat g = groups) as Eg by (unfold g; lia).
  assert (0 < g) as Hg by lia.
  assert (forall c q, Z.of_nat c = (q * groups)%Z -> c = c / g * g) as K.
  { intros c q Hc. assert (0 <= q)%Z by nia. assert (c = Z.to_nat q * g) as -> by nia. rewrite Nat.div_mul by lia. reflexivity. }
  split; [assumption|]. split; eapply K; eassumption.
Qed.

(** [constructed d L ...]: L is the result of a 2d / 3d constructor call with these arguments. *)
Definition bias_shape_ok (d cout : nat) (bias : option (tensor R)) : Prop :=
  match bias with None => True | Some b => has_shape b (cout :: repeat 1 (S d)) end.
Definition bias_value (d : nat) (bias : option (tensor R)) (o : nat) : R :=
  match bias with None => 0%R | Some b => at_ b (o :: repeat 0 (S d)) end.
Definition constructed {G P} (d : nat) (L : gconv G P) (cin cout : nat) (ks : list nat) (k : gkernel G P) (groups : nat)
    (stride : list nat) (padding : padarg) (dil : list nat) (m : padmode) (bias : option (tensor R)) : Prop :=
  exists conv_mode gks pm,
    (conv_mode = "2d"%string /\ d = 2 \/ conv_mode = "3d"%string /\ d = 3) /\
    gconv_init conv_mode cin cout ks gks k (Z.of_nat groups) stride padding dil pm bias = Ok L /\
    padmode_of pm = Some m /\ good_args d k ks stride dil padding /\
    bias_shape_ok d cout bias /\ 0 < cin /\ 0 < cout.

Lemma constructed_spec {G P} d (L : gconv G P) cin cout ks k groups stride padding dil m bias :
  constructed d L cin cout ks k groups stride padding dil m bias ->
  layer_ok L /\ bias_ok L /\ l_kernel L = k /\ l_in L = cin /\ l_out L = cout /\ l_ks L = ks /\ l_groups L = groups /\
  l_stride L = stride /\ l_padding L = stored_padding d padding /\ l_dil L = dil /\ l_mode L = m /\ l_bias L = bias /\
  length ks = d /\ (forall o, biasf L o = bias_value d bias o) /\
  0 < groups /\ 0 < cin / groups /\ 0 < cout / groups /\ cin = cin / groups * groups /\ cout = cout / groups * groups.
Proof.
  intros (cm & gks & pm & Hm & H & Hpm & Hgood & Hbs & Hci & Hco).
  pose proof (gconv_init_ok _ _ _ _ _ _ _ _ _ _ _ _ _ _ Hm Hgood H) as HL.
  destruct (gconv_init_fields _ _ _ _ _ _ _ _ _ _ _ _ _ _ Hm H) as (Hv & Ek & Ei & Eo & Eks & Eg & Es & Ep & Ed & Em & Er & Eb).
  destruct Hgood as (A & _). destruct Hv as (_ & V1 & V2 & V3 & _).
  destruct (init_groups _ _ _ V1 V2 V3) as (G1 & G2 & G3). rewrite Nat2Z.id in *.
  split; [assumption|].
  split; [unfold bias_ok; rewrite Eb, Eo, Eks, A; exact Hbs|].
  do 11 (split; [congruence|]).
  split; [intros o; unfold biasf, bias_value; rewrite Eb, Eks, A; reflexivity|].
  split; [assumption|].
  split; [destruct (cin / groups) eqn:E; [rewrite G2 in Hci; simpl in Hci; lia|lia]|].
  split; [destruct (cout / groups) eqn:E; [rewrite G3 in Hco; simpl in Hco; lia|lia]|].
  split; assumption.
Qed.

(** The channel read for output channel o and offset c within its group exists. *)
Lemma channel_read {G P} d (L : gconv G P) cin cout ks k groups stride padding dil m bias o c :
  constructed d L cin cout ks k groups stride padding dil m bias -> o < cout -> c < cin / groups ->
  o / (cout / groups) * (cin / groups) + c < cin.
Proof.
  intros Hc Ho Hcc. destruct (constructed_spec _ _ _ _ _ _ _ _ _ _ _ _ Hc)
    as (_ & _ & _ & _ & _ & _ & _ & _ & _ & _ & _ & _ & _ & _ & Hg & Hci & Hco & Din & Dout).
  assert (o / (cout / groups) < groups) as Hq by (apply Nat.div_lt_upper_bound; lia).
  set (q := o / (cout / groups)) in *. set (ci := cin / groups) in *. nia.
Qed.
