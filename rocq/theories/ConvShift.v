(** Images read inside their extent; shifted images. *)
From Coq Require Import String ZArith.
From Verif Require Import Prelude RMath Mat Repulse RepulseFacts Tensor TensorFacts Conv ConvSpec ConvFacts.
Open Scope nat_scope.

(** The integer position z is inside an image of size sp. *)
Definition inside (sp : list nat) (z : list Z) : Prop :=
  forall j, j < length sp -> (0 <= nth j z 0 < Z.of_nat (nth j sp 0%nat))%Z.

Lemma image_at_inside m t sp pre z : inside sp z ->
  image_at m t sp pre z = at_ t (pre ++ axes (length sp) (fun j => Z.to_nat (nth j z 0%Z))).
Proof.
  intros H. unfold image_at.
  rewrite (sequence_axes_some _ _ (fun j => Z.to_nat (nth j z 0%Z))); [reflexivity|].
  intros j Hj. specialize (H j Hj). unfold shown.
  destruct (Z.leb_spec 0 (nth j z 0%Z)); [|lia]. destruct (Z.ltb_spec (nth j z 0%Z) (Z.of_nat (nth j sp 0))); [|lia]. reflexivity.
Qed.
Lemma inside_valid sp z : inside sp z -> valid sp (axes (length sp) (fun j => Z.to_nat (nth j z 0%Z))).
Proof. intros H. apply valid_axes; [reflexivity|]. intros j Hj. specialize (H j Hj). lia. Qed.

(** All positions read by output position y are inside. *)
Definition field_inside (sp ks stride dil left y : list nat) : Prop :=
  forall x, valid ks x -> inside sp (read_pos stride dil left y x).

(** X' (of size sp') shows at i + t what X (of size sp) shows at i, wherever both are defined. *)
Definition shifted (sp sp' : list nat) (t : list Z) (X X' : tensor R) (pre : list nat) : Prop :=
  forall i i', valid sp i -> valid sp' i' ->
    (forall j, j < length sp -> Z.of_nat (nth j i' 0%nat) = (Z.of_nat (nth j i 0%nat) + nth j t 0)%Z) ->
    at_ X' (pre ++ i') = at_ X (pre ++ i).

Lemma image_shift m sp sp' t X X' pre z z' : length sp = length sp' -> shifted sp sp' t X X' pre ->
  inside sp z -> inside sp' z' -> (forall j, j < length sp -> nth j z' 0%Z = (nth j z 0 + nth j t 0)%Z) ->
  image_at m X' sp' pre z' = image_at m X sp pre z.
Proof.
  intros Hl Hs Hz Hz' Ht. rewrite !image_at_inside by assumption. apply Hs; [apply inside_valid; assumption|apply inside_valid; assumption|].
  intros j Hj. rewrite !nth_axes by lia. specialize (Ht j Hj). specialize (Hz j Hj). rewrite Hl in Hj. specialize (Hz' j Hj). lia.
Qed.
Lemma read_pos_nth stride dil left y x j : j < length stride ->
  nth j (read_pos stride dil left y x) 0%Z =
  (Z.of_nat (nth j y 0 * nth j stride 0 + nth j x 0 * nth j dil 0)%nat - Z.of_nat (nth j left 0%nat))%Z.
Proof.
  intros Hj. unfold read_pos. rewrite nth_axes by assumption. reflexivity.
Qed.
Lemma sumR_map_ext {A} (f g : A -> R) l : (forall a, In a l -> f a = g a) -> sumR (map f l) = sumR (map g l).
Proof. intros H. f_equal. apply map_ext_in. assumption. Qed.
Lemma fits_em m sp ks stride dil left right : fits m sp ks stride dil left right \/ ~ fits m sp ks stride dil left right.
Proof.
  destruct (fits_dec m sp ks stride dil left right) as [H|(j & Hj & H)]; [left; assumption|right].
  intros F. destruct (F j Hj) as [F1 F2]. destruct H as [H|H]; [lia|].
  destruct m; simpl in H; try discriminate.
  - apply Bool.andb_false_iff in H. rewrite !Nat.ltb_ge in H. lia.
  - apply Nat.ltb_ge in H. lia.
  - apply Bool.andb_false_iff in H. rewrite !Nat.leb_gt in H. lia.
Qed.
