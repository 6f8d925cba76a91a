(** Proofs: the printed form of a layer can be read back. *)
From Coq Require Import String Ascii ZArith Decimal DecimalString DecimalNat DecimalFacts.
From Verif Require Import Prelude RMath Tensor Kernel Conv Repr.
Open Scope string_scope.

Definition digit (c : ascii) : bool := let n := nat_of_ascii c in (Nat.leb 48 n && Nat.leb n 57).
(** The text does not start with a digit. *)
Definition stops (s : string) : Prop := match s with EmptyString => True | String c _ => digit c = false end.

Lemma append_assoc a b c : (a ++ b) ++ c = a ++ b ++ c.
Proof. induction a as [|x a IH]; cbn; [reflexivity|]. rewrite IH. reflexivity. Qed.
Lemma append_nil a : a ++ "" = a.
Proof. induction a as [|x a IH]; cbn; [reflexivity|]. rewrite IH. reflexivity. Qed.
Lemma append_inj a b c : a ++ b = a ++ c -> b = c.
Proof. induction a as [|x a IH]; cbn; intros H; [exact H|]. injection H as H. auto. Qed.

Lemma empty_uint_read d : forall d' r r', stops r -> stops r' -> NilEmpty.string_of_uint d ++ r = NilEmpty.string_of_uint d' ++ r' -> d = d' /\ r = r'.
Proof.
  induction d; intros d' r r' Hr Hr' H; destruct d'; cbn [NilEmpty.string_of_uint append] in H;
    try (injection H as H; destruct (IHd _ _ _ Hr Hr' H) as [-> ->]; auto); try discriminate H; try auto;
    try (subst; cbn in *; discriminate).
Qed.
Lemma uint_read d d' r r' : stops r -> stops r' -> d <> Nil -> d' <> Nil -> NilZero.string_of_uint d ++ r = NilZero.string_of_uint d' ++ r' -> d = d' /\ r = r'.
Proof. intros Hr Hr' Hd Hd' H. destruct d; [contradiction|..]; (destruct d'; [contradiction|..]); exact (empty_uint_read _ _ _ _ Hr Hr' H). Qed.
Lemma to_uint_nonnil n : Nat.to_uint n <> Nil.
Proof.
  intros H. assert (n = 0) as -> by (rewrite <- (Unsigned.of_to n), H; reflexivity). discriminate H.
Qed.
Lemma nat_read n n' r r' : stops r -> stops r' -> py_nat n ++ r = py_nat n' ++ r' -> n = n' /\ r = r'.
Proof.
  intros Hr Hr' H. destruct (uint_read _ _ _ _ Hr Hr' (to_uint_nonnil n) (to_uint_nonnil n') H) as [E ->].
  split; [|reflexivity]. apply Unsigned.to_uint_inj. exact E.
Qed.
Lemma nat_head n : exists c r, py_nat n = String c r /\ digit c = true.
Proof.
  unfold py_nat. pose proof (to_uint_nonnil n) as H. destruct (Nat.to_uint n); [contradiction|..]; cbn [NilZero.string_of_uint NilEmpty.string_of_uint]; eexists _, _; split; reflexivity.
Qed.
Lemma int_read z z' r r' : stops r -> stops r' -> py_int z ++ r = py_int z' ++ r' -> z = z' /\ r = r'.
Proof.
  intros Hr Hr' H. unfold py_int in H. destruct (Z.ltb_spec z 0) as [A|A], (Z.ltb_spec z' 0) as [B|B].
  - cbn [append] in H. injection H as H. destruct (nat_read _ _ _ _ Hr Hr' H) as [E ->]. split; [lia|reflexivity].
  - exfalso. destruct (nat_head (Z.to_nat z')) as (c & q & E & D). rewrite E in H. cbn [append] in H. injection H as H _. subst c. discriminate D.
  - exfalso. destruct (nat_head (Z.to_nat z)) as (c & q & E & D). rewrite E in H. cbn [append] in H. injection H as H _. subst c. discriminate D.
  - destruct (nat_read _ _ _ _ Hr Hr' H) as [E ->]. split; [lia|reflexivity].
Qed.

Section Tuple.
  Context {A : Type} (p : A -> string).
  Hypothesis Hread : forall a a' r r', stops r -> stops r' -> p a ++ r = p a' ++ r' -> a = a' /\ r = r'.
  Hypothesis Hhead : forall a, exists c r, p a = String c r /\ c <> ")"%char.
  Lemma items_read l : forall l' x x' r r', py_items p x l ++ ")" ++ r = py_items p x' l' ++ ")" ++ r' -> x = x' /\ l = l' /\ r = r'.
  Proof using Hread.
    induction l as [|y l IH]; intros [|y' l'] x x' r r' H; cbn [py_items] in H; rewrite ?append_assoc in H; apply Hread in H; try exact eq_refl; destruct H as [-> H]; cbn [append] in H.
    - injection H as ->. auto.
    - discriminate H.
    - discriminate H.
    - injection H as H. change (String ")" r) with (")" ++ r) in H. change (String ")" r') with (")" ++ r') in H. destruct (IH _ _ _ _ _ H) as (-> & -> & ->). auto.
  Qed.
  Lemma tuple_read l l' r r' : py_tuple p l ++ r = py_tuple p l' ++ r' -> l = l' /\ r = r'.
  Proof using Hread Hhead.
    assert (forall x y l r l' r', (if match l with [] => true | _ => false end then "(" ++ p x ++ ",)" else "(" ++ py_items p x l ++ ")") ++ r =
      (if match l' with [] => true | _ => false end then "(" ++ p y ++ ",)" else "(" ++ py_items p y l' ++ ")") ++ r' -> x = y /\ l = l' /\ r = r') as K.
    { intros x y [|a u] q [|b v] q' H; rewrite ?append_assoc in H; apply append_inj in H.
      - rewrite ?append_assoc in H. apply Hread in H; try exact eq_refl. destruct H as [-> H]. apply append_inj in H. auto.
      - exfalso. cbn [py_items] in H. rewrite ?append_assoc in H. apply Hread in H; try exact eq_refl. destruct H as [_ H]. discriminate H.
      - exfalso. cbn [py_items] in H. rewrite ?append_assoc in H. apply Hread in H; try exact eq_refl. destruct H as [_ H]. discriminate H.
      - apply items_read in H. destruct H as (-> & -> & ->). auto. }
    assert (forall x (l : list A), py_tuple p (x :: l) = (if match l with [] => true | _ => false end then "(" ++ p x ++ ",)" else "(" ++ py_items p x l ++ ")")) as E by (intros x [|a u]; reflexivity).
    assert (forall x l q q', "()" ++ q = py_tuple p (x :: l) ++ q' -> False) as N.
    { intros x u q q' H. destruct (Hhead x) as (c & s & Ec & Hc). destruct u as [|a u]; cbn [py_tuple py_items] in H; rewrite ?append_assoc in H; rewrite Ec in H; cbn [append] in H; injection H as H _; congruence. }
    intros H. destruct l as [|x l], l' as [|x' l'].
    - apply append_inj in H. auto.
    - exfalso. exact (N _ _ _ _ H).
    - exfalso. exact (N _ _ _ _ (eq_sym H)).
    - rewrite (E x l), (E x' l') in H. destruct (K _ _ _ _ _ _ H) as (-> & -> & ->). auto.
  Qed.
End Tuple.
Lemma tuple_nat_read l l' r r' : py_tuple py_nat l ++ r = py_tuple py_nat l' ++ r' -> l = l' /\ r = r'.
Proof.
  apply tuple_read; [exact nat_read|]. intros a. destruct (nat_head a) as (c & s & E & D). exists c, s. split; [exact E|]. intros ->. discriminate D.
Qed.
Lemma int_head z : exists c r, py_int z = String c r /\ c <> ")"%char /\ c <> "("%char.
Proof.
  unfold py_int. destruct (z <? 0)%Z; [eexists _, _; split; [reflexivity|]; split; discriminate|].
  destruct (nat_head (Z.to_nat z)) as (c & s & E & D). exists c, s. split; [exact E|]. split; intros ->; discriminate D.
Qed.
Lemma tuple_head {A} (p : A -> string) l : exists r, py_tuple p l = String "(" r.
Proof. destruct l as [|x [|y l]]; eexists; reflexivity. Qed.
Lemma gks_read g g' r r' : stops r -> stops r' -> py_gks g ++ r = py_gks g' ++ r' -> g = g' /\ r = r'.
Proof.
  intros Hr Hr' H. destruct g as [z|l], g' as [z'|l']; cbn [py_gks] in H.
  - destruct (int_read _ _ _ _ Hr Hr' H) as [-> ->]. auto.
  - exfalso. destruct (int_head z) as (c & s & E & _ & D). destruct (tuple_head py_int l') as (q & E2). rewrite E, E2 in H. cbn [append] in H. injection H as H _. contradiction.
  - exfalso. destruct (int_head z') as (c & s & E & _ & D). destruct (tuple_head py_int l) as (q & E2). rewrite E, E2 in H. cbn [append] in H. injection H as H _. congruence.
  - apply tuple_read in H; [destruct H as [-> ->]; auto|exact int_read|]. intros a. destruct (int_head a) as (c & s & E & D & _). exists c, s. auto.
Qed.

(** ** The optional parts *)
Definition part_padding (p : padset) : string :=
  match p with
  | PadTuple l => if list_eq_dec Nat.eq_dec l (repeat 0 (length l)) then "" else ", padding=" ++ py_tuple py_nat l
  | PadStr s => ", padding=" ++ s
  end.
Definition part_dil (l : list nat) : string := if list_eq_dec Nat.eq_dec l (repeat 1 (length l)) then "" else ", dilation=" ++ py_tuple py_nat l.
Definition part_groups (g : nat) : string := if Nat.eqb g 1 then "" else ", groups=" ++ py_nat g.
Definition part_bias (b : bool) : string := if b then "" else ", bias=False".
Definition part_mode (m : padmode) : string := match m with Zeros => "" | m => ", padding_mode=" ++ mode_name m end.
Definition proper_pad (d : nat) (p : padset) : Prop := match p with PadTuple l => length l = d | PadStr s => s = "same" \/ s = "valid" end.

(** What can follow a part: nothing, or the next part. *)
Definition tail (c : list ascii) (s : string) : Prop := s = "" \/ exists x r, In x c /\ s = ", " ++ String x r.

Lemma mode_tail m : part_mode m = "" \/ exists r, part_mode m = ", padding_m" ++ r.
Proof. destruct m; [left; reflexivity|right; eexists; reflexivity..]. Qed.
Lemma mode_inj m m' : part_mode m = part_mode m' -> m = m'.
Proof. destruct m, m'; cbn; intros H; congruence. Qed.
Lemma bias_read b b' m m' : part_bias b ++ part_mode m = part_bias b' ++ part_mode m' -> b = b' /\ m = m'.
Proof.
  destruct b, b'; cbn [part_bias]; intros H; try (apply append_inj in H).
  - split; [reflexivity|]. apply mode_inj. exact H.
  - exfalso. destruct m; discriminate H.
  - exfalso. destruct m'; discriminate H.
  - split; [reflexivity|]. apply mode_inj. exact H.
Qed.
Lemma bias_stops b m : stops (part_bias b ++ part_mode m).
Proof. destruct b, m; exact eq_refl || exact I. Qed.
Lemma groups_read g g' b b' m m' : part_groups g ++ part_bias b ++ part_mode m = part_groups g' ++ part_bias b' ++ part_mode m' -> g = g' /\ b = b' /\ m = m'.
Proof.
  unfold part_groups. destruct (Nat.eqb_spec g 1) as [->|N], (Nat.eqb_spec g' 1) as [->|N']; intros H.
  - split; [reflexivity|]. apply bias_read. exact H.
  - exfalso. destruct b, m; discriminate H.
  - exfalso. destruct b', m'; discriminate H.
  - rewrite ?append_assoc in H. apply append_inj in H. destruct (nat_read _ _ _ _ (bias_stops b m) (bias_stops b' m') H) as [-> H']. split; [reflexivity|]. apply bias_read. exact H'.
Qed.
Lemma dil_read l l' g g' b b' m m' : length l = length l' ->
  part_dil l ++ part_groups g ++ part_bias b ++ part_mode m = part_dil l' ++ part_groups g' ++ part_bias b' ++ part_mode m' -> l = l' /\ g = g' /\ b = b' /\ m = m'.
Proof.
  intros L H. unfold part_dil in H. destruct (list_eq_dec Nat.eq_dec l (repeat 1 (length l))) as [E|E], (list_eq_dec Nat.eq_dec l' (repeat 1 (length l'))) as [E'|E'].
  - split; [congruence|]. apply groups_read. exact H.
  - exfalso. unfold part_groups in H. destruct (Nat.eqb g 1), b, m; discriminate H.
  - exfalso. unfold part_groups in H. destruct (Nat.eqb g' 1), b', m'; discriminate H.
  - rewrite ?append_assoc in H. apply append_inj in H. apply tuple_nat_read in H. destruct H as [-> H]. split; [reflexivity|]. apply groups_read. exact H.
Qed.
Lemma padding_read d q q' l l' g g' b b' m m' : length l = length l' -> proper_pad d q -> proper_pad d q' ->
  part_padding q ++ part_dil l ++ part_groups g ++ part_bias b ++ part_mode m = part_padding q' ++ part_dil l' ++ part_groups g' ++ part_bias b' ++ part_mode m' ->
  q = q' /\ l = l' /\ g = g' /\ b = b' /\ m = m'.
Proof.
  intros L Hq Hq' H.
  assert (forall x s l g b m, ", padding=" ++ s = x ++ part_dil l ++ part_groups g ++ part_bias b ++ part_mode m -> x = "" -> False) as K.
  { intros x s l0 g0 b0 m0 Q ->. cbn [append] in Q. unfold part_dil, part_groups in Q. destruct (list_eq_dec Nat.eq_dec l0 (repeat 1 (length l0))), (Nat.eqb g0 1), b0, m0; discriminate Q. }
  destruct q as [u|s], q' as [u'|s']; cbn [part_padding proper_pad] in *.
  - destruct (list_eq_dec Nat.eq_dec u (repeat 0 (length u))) as [E|E], (list_eq_dec Nat.eq_dec u' (repeat 0 (length u'))) as [E'|E'].
    + split; [congruence|]. apply dil_read; assumption.
    + exfalso. rewrite ?append_assoc in H. exact (K "" _ l g b m (eq_sym H) eq_refl).
    + exfalso. rewrite ?append_assoc in H. exact (K "" _ l' g' b' m' H eq_refl).
    + rewrite ?append_assoc in H. apply append_inj in H. apply tuple_nat_read in H. destruct H as [-> H]. split; [reflexivity|]. apply dil_read; assumption.
  - exfalso. destruct (list_eq_dec Nat.eq_dec u (repeat 0 (length u))) as [E|E].
    + rewrite ?append_assoc in H. exact (K "" _ l g b m (eq_sym H) eq_refl).
    + rewrite ?append_assoc in H. apply append_inj in H. destruct (tuple_head py_nat u) as (r & Er). rewrite Er in H. destruct Hq' as [->| ->]; discriminate H.
  - exfalso. destruct (list_eq_dec Nat.eq_dec u' (repeat 0 (length u'))) as [E|E].
    + rewrite ?append_assoc in H. exact (K "" _ l' g' b' m' H eq_refl).
    + rewrite ?append_assoc in H. apply append_inj in H. destruct (tuple_head py_nat u') as (r & Er). rewrite Er in H. destruct Hq as [->| ->]; discriminate H.
  - rewrite ?append_assoc in H. apply append_inj in H. destruct Hq as [->| ->], Hq' as [->| ->]; try discriminate H; (split; [reflexivity|]); apply dil_read; try assumption; exact (append_inj _ _ _ H).
Qed.

Lemma repr_parts {G P} (L : gconv G P) : gconv_repr L =
  py_nat (l_in L) ++ ", " ++ py_nat (l_out L) ++ ", kernel_size=" ++ py_tuple py_nat (l_ks L) ++
  ", group_kernel_size=" ++ py_gks (l_gks L) ++ ", stride=" ++ py_tuple py_nat (l_stride L) ++
  part_padding (l_padding L) ++ part_dil (l_dil L) ++ part_groups (l_groups L) ++ part_bias (match l_bias L with None => false | Some _ => true end) ++ part_mode (l_mode L).
Proof. unfold gconv_repr, part_padding, part_dil, part_groups, part_bias, part_mode. destruct (l_bias L), (l_mode L); reflexivity. Qed.

Lemma repr_read {G P G' P'} (L : gconv G P) (L' : gconv G' P') :
  proper_pad (length (l_ks L)) (l_padding L) -> length (l_dil L) = length (l_ks L) ->
  proper_pad (length (l_ks L')) (l_padding L') -> length (l_dil L') = length (l_ks L') -> gconv_repr L = gconv_repr L' ->
  l_in L = l_in L' /\ l_out L = l_out L' /\ l_ks L = l_ks L' /\ l_gks L = l_gks L' /\ l_stride L = l_stride L' /\ l_padding L = l_padding L' /\
  l_dil L = l_dil L' /\ l_groups L = l_groups L' /\ (l_bias L = None <-> l_bias L' = None) /\ l_mode L = l_mode L'.
Proof.
  intros H1 H2 H3 H4 H. rewrite !repr_parts in H.
  apply nat_read in H; try exact eq_refl. destruct H as [E1 H]. apply append_inj in H.
  apply nat_read in H; try exact eq_refl. destruct H as [E2 H]. apply append_inj in H.
  apply tuple_nat_read in H. destruct H as [E3 H]. apply append_inj in H.
  apply gks_read in H; try exact eq_refl. destruct H as [E4 H]. apply append_inj in H.
  apply tuple_nat_read in H. destruct H as [E5 H].
  apply (padding_read (length (l_ks L))) in H; [|congruence|assumption|rewrite E3; assumption]. destruct H as (E6 & E7 & E8 & E9 & E10).
  split; [exact E1|]. split; [exact E2|]. split; [exact E3|]. split; [exact E4|]. split; [exact E5|]. split; [exact E6|]. split; [exact E7|]. split; [exact E8|].
  split; [|exact E10]. destruct (l_bias L), (l_bias L'); split; intros Q; try discriminate; reflexivity.
Qed.
