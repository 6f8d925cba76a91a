(** Convolutions commute with signed permutations of the axes (core, dimension independent). *)
From Coq Require Import String ZArith Permutation.
From Verif Require Import Prelude RMath Mat Repulse RepulseFacts Tensor TensorFacts SignedPerm Kernel KernelFacts
  Conv ConvSpec ConvFacts SepConvFacts SepProduct ConvShift.
Open Scope nat_scope.

(** [sp_idx] on integer positions. *)
Definition flipZ (sp : sperm) (s : list nat) (z : list Z) : list Z :=
  map2 (fun (p : nat * bool) n => let i := nth (fst p) z 0%Z in if snd p then (Z.of_nat n - 1 - i)%Z else i) sp s.

Lemma shown_flip m n z : 0 < n \/ m = Zeros ->
  match m with Reflect => (- Z.of_nat n < z)%Z /\ (z < 2 * Z.of_nat n - 1)%Z | _ => True end ->
  shown m n (Z.of_nat n - 1 - z) = option_map (fun i => n - 1 - i) (shown m n z).
Proof.
  intros Hz Hr. destruct (Nat.eq_dec n 0) as [E0|E0].
  { destruct Hz as [Hz| ->]; [lia|]. subst n. unfold shown.
    destruct (Z.leb_spec 0 z), (Z.ltb_spec z (Z.of_nat 0)), (Z.leb_spec 0 (Z.of_nat 0 - 1 - z)), (Z.ltb_spec (Z.of_nat 0 - 1 - z) (Z.of_nat 0));
      cbn [andb option_map]; try reflexivity; lia. }
  assert (0 < n) as Hn by lia. unfold shown.
  destruct (Z.leb_spec 0 z) as [A|A], (Z.ltb_spec z (Z.of_nat n)) as [B|B];
    destruct (Z.leb_spec 0 (Z.of_nat n - 1 - z)) as [C|C], (Z.ltb_spec (Z.of_nat n - 1 - z) (Z.of_nat n)) as [E|E];
    cbn [andb option_map]; try lia.
  all: destruct m; cbn [option_map]; try reflexivity; try (f_equal; lia).
  all: try (destruct (Z.ltb_spec z 0), (Z.ltb_spec (Z.of_nat n - 1 - z) 0); try lia; f_equal; lia).
  all: f_equal; assert (0 < Z.of_nat n)%Z as Hp by lia;
    pose proof (Z.mod_pos_bound z (Z.of_nat n) Hp) as Hb; pose proof (Z.div_mod z (Z.of_nat n)) as Hd;
    assert ((Z.of_nat n - 1 - z) mod Z.of_nat n = Z.of_nat n - 1 - z mod Z.of_nat n)%Z as ->;
    [symmetry; apply (Z.mod_unique _ _ (- (z / Z.of_nat n))); lia|]; lia.
Qed.

Lemma sequence_axes_none_inv {A} d (f : nat -> option A) : sequence (axes d f) = None -> exists j, j < d /\ f j = None.
Proof.
  assert (forall l, sequence (l : list (option A)) = None -> In None l) as H.
  { induction l as [|[a|] l IH]; simpl; intros H; [discriminate| |auto]. destruct (sequence l); [discriminate|]. auto. }
  intros E. apply H in E. unfold axes in E. apply in_map_iff in E. destruct E as (j & E & Hj). apply in_seq in Hj. exists j. split; [lia|assumption].
Qed.

(** X' is X re-indexed: X'[pre, i] = eps * X[pre', sp_idx sp s i]. *)
Definition reindexed (sp : sperm) (s s' : list nat) (eps : R) (X X' : tensor R) (pre pre' : list nat) : Prop :=
  forall i, valid s' i -> at_ X' (pre' ++ i) = (eps * at_ X (pre ++ sp_idx sp s i))%R.

Section Flip.
  Context (d : nat) (sp : sperm) (Hok : sp_ok d sp).

  Section Image.
    Context (s s' : list nat) (Hs : length s = d) (Hsh : sp_shape sp s s').
    Let Hs' : length s' = d := eq_trans (proj1 Hsh) Hs.

    Lemma flipZ_nth z a p : nth_error sp a = Some p ->
      nth a (flipZ sp s z) 0%Z = if snd p then (Z.of_nat (nth a s 0%nat) - 1 - nth (fst p) z 0)%Z else nth (fst p) z 0%Z.
    Proof.
      intros H. assert (a < length s) by (rewrite Hs, <- (sp_length d sp Hok); apply nth_error_Some_lt in H; assumption).
      erewrite nth_of_nth_error; [reflexivity|]. unfold flipZ.
      erewrite nth_error_map2; [| exact H | apply (nth_error_of_nth s a 0); assumption]. reflexivity.
    Qed.
    Lemma flipZ_length z : length (flipZ sp s z) = d.
    Proof. unfold flipZ. rewrite map2_length; rewrite (sp_length d sp Hok); auto. Qed.

    (** In the range read by a convolution with paddings l and r. *)
    Definition in_range (m : padmode) (z : list Z) : Prop := forall j, j < d ->
      (forall i, shown m (nth j s' 0) (nth j z 0%Z) = Some i -> i < nth j s' 0) /\
      match m with Reflect => (- Z.of_nat (nth j s' 0%nat) < nth j z 0)%Z /\ (nth j z 0 < 2 * Z.of_nat (nth j s' 0%nat) - 1)%Z | _ => True end.

    Lemma image_flip m eps X X' pre pre' z : reindexed sp s s' eps X X' pre pre' -> in_range m z ->
      (forall j, j < d -> 0 < nth j s' 0 \/ m = Zeros) ->
      image_at m X' s' pre' z = (eps * image_at m X s pre (flipZ sp s z))%R.
    Proof.
      intros HX Hr Hpos. unfold image_at. rewrite Hs, Hs'.
      assert (forall a p, nth_error sp a = Some p ->
        shown m (nth a s 0) (nth a (flipZ sp s z) 0%Z) =
        option_map (fun i => if snd p then nth a s 0 - 1 - i else i) (shown m (nth (fst p) s' 0) (nth (fst p) z 0%Z))) as Hstep.
      { intros a p Hp. rewrite (flipZ_nth z a p Hp). pose proof (sp_axis d sp Hok _ _ Hp) as Hax. pose proof (sp_shape_nth sp s s' Hsh a p Hp) as En.
        destruct (snd p).
        - rewrite <- En. apply shown_flip; [apply Hpos; assumption|]. apply (Hr _ Hax).
        - rewrite <- En. destruct (shown m (nth (fst p) s' 0) (nth (fst p) z 0%Z)); reflexivity. }
      destruct (sequence (axes d (fun j => shown m (nth j s' 0) (nth j z 0%Z)))) as [r|] eqn:E.
      - destruct (sequence_axes _ _ _ 0 E) as [Lr Er].
        assert (valid s' r) as Hv.
        { apply valid_nth. split; [congruence|]. intros j Hj. destruct (Hr j) as [Hlt _]; [lia|]. apply Hlt. apply Er. lia. }
        rewrite (HX r Hv). rewrite (sequence_axes_some d _ (fun a => nth a (sp_idx sp s r) 0)).
        + do 3 f_equal. symmetry. apply axes_nth. apply sp_idx_length; assumption.
        + intros a Ha. destruct (sp_get d sp Hok a Ha) as [p Hp]. rewrite (Hstep a p Hp).
          rewrite (Er (fst p)) by (apply (sp_axis d sp Hok _ _ Hp)). cbn [option_map]. rewrite (sp_idx_nth d sp Hok s Hs r a p Hp). reflexivity.
      - apply sequence_axes_none_inv in E. destruct E as (j & Hj & E).
        destruct (sp_axis_surj d sp Hok j Hj) as (a & p & Hp & Ep).
        rewrite (sequence_axes_none d _ a); [ring| |].
        + rewrite <- (sp_length d sp Hok). apply nth_error_Some_lt in Hp. assumption.
        + rewrite (Hstep a p Hp), Ep, E. reflexivity.
    Qed.
  End Image.

  (** ** Uniform convolutions: the same kernel size, stride, dilation and padding on every axis. *)
  Section Conv.
    Context (k st dl lp : nat) (Hk : 0 < k) (Hst : 0 < st) (Hdl : 0 < dl).
    Let ks := repeat k d.
    Let stride := repeat st d.
    Let dil := repeat dl d.
    Let pad := repeat lp d.
    Definition usize (s : list nat) : list nat := conv_size s ks stride dil pad pad.
    (** The stride divides the extent, so that the last read position is the last one of the padded image. *)
    Definition exact (s : list nat) : Prop := forall j, j < d ->
      exists q, nth j s 0 + 2 * lp = dl * (k - 1) + 1 + st * q.

    Lemma nth_rep x j : j < d -> nth j (repeat x d) 0 = x.
    Proof. intros H. rewrite (nth_indep _ 0 x) by (rewrite repeat_length; assumption). apply nth_repeat. Qed.
    Lemma usize_length s : length (usize s) = d.
    Proof. unfold usize, conv_size. rewrite axes_length. apply repeat_length. Qed.
    Lemma usize_nth s j : j < d -> nth j (usize s) 0 = (nth j s 0 + lp + lp - dl * (k - 1) - 1) / st + 1.
    Proof.
      intros H. unfold usize, conv_size. rewrite nth_axes by (unfold ks; rewrite repeat_length; assumption).
      unfold ks, stride, dil, pad. rewrite !nth_rep by assumption. reflexivity.
    Qed.
    Lemma usize_exact s j : exact s -> j < d -> st * (nth j (usize s) 0 - 1) + dl * (k - 1) + 1 = nth j s 0 + 2 * lp.
    Proof.
      intros H Hj. destruct (H j Hj) as [q E]. rewrite (usize_nth s j Hj).
      replace (nth j s 0 + lp + lp - dl * (k - 1) - 1) with (q * st) by lia. rewrite Nat.div_mul by lia. lia.
    Qed.

    Context (s s' : list nat) (Hs : length s = d) (Hsh : sp_shape sp s s').
    Let Hs' : length s' = d := eq_trans (proj1 Hsh) Hs.

    Lemma usize_shape : sp_shape sp (usize s) (usize s').
    Proof.
      split; [rewrite !usize_length; reflexivity|].
      apply nth_ext with (d := 0) (d' := 0); [rewrite map_length, usize_length; apply (sp_length d sp Hok)|].
      intros a Ha. rewrite map_length, (sp_length d sp Hok) in Ha. destruct (sp_get d sp Hok a Ha) as [p Hp].
      erewrite nth_of_nth_error; [|rewrite nth_error_map, Hp; reflexivity].
      pose proof (sp_axis d sp Hok _ _ Hp) as Hax. rewrite (usize_nth _ _ Hax), (usize_nth _ _ Ha).
      rewrite (sp_shape_nth sp s s' Hsh a p Hp). reflexivity.
    Qed.
    Lemma exact_moved : exact s -> exact s'.
    Proof.
      intros H j Hj. destruct (sp_axis_surj d sp Hok j Hj) as (a & p & Hp & Ep).
      rewrite <- Ep, (sp_shape_nth sp s s' Hsh a p Hp). apply H. rewrite <- (sp_length d sp Hok). apply nth_error_Some_lt in Hp. assumption.
    Qed.
    Lemma fits_moved m : fits m s ks stride dil pad pad -> fits m s' ks stride dil pad pad.
    Proof.
      intros H j Hj. unfold ks in Hj. rewrite repeat_length in Hj.
      destruct (sp_axis_surj d sp Hok j Hj) as (a & p & Hp & Ep).
      assert (a < d) as Ha by (rewrite <- (sp_length d sp Hok); apply nth_error_Some_lt in Hp; assumption).
      pose proof (H a) as Hf. unfold ks, stride, dil, pad in *. rewrite repeat_length in Hf. specialize (Hf Ha).
      rewrite !nth_rep in * by assumption. rewrite <- Ep, (sp_shape_nth sp s s' Hsh a p Hp). exact Hf.
    Qed.

    Lemma rep_shape x : sp_shape sp (repeat x d) (repeat x d).
    Proof. apply sp_shape_cube. assumption. Qed.

    Lemma read_flip y x : exact s -> (forall j, j < d -> dl * (k - 1) + 1 <= nth j s 0 + 2 * lp) ->
      valid (usize s') y -> valid ks x ->
      flipZ sp s (read_pos stride dil pad y x) = read_pos stride dil pad (sp_idx sp (usize s) y) (sp_idx sp ks x).
    Proof.
      intros Hex Hfit Hy Hx.
      apply nth_ext with (d := 0%Z) (d' := 0%Z).
      { rewrite flipZ_length by assumption. unfold read_pos. rewrite axes_length. unfold stride. rewrite repeat_length. reflexivity. }
      intros a Ha. rewrite flipZ_length in Ha by assumption. destruct (sp_get d sp Hok a Ha) as [p Hp].
      pose proof (sp_axis d sp Hok _ _ Hp) as Hax.
      rewrite (flipZ_nth s Hs _ a p Hp).
      assert (length stride = d) as Lst by apply repeat_length.
      rewrite !read_pos_nth by lia.
      rewrite (sp_idx_nth d sp Hok (usize s) (usize_length s) y a p Hp).
      rewrite (sp_idx_nth d sp Hok ks (repeat_length k d) x a p Hp).
      unfold stride, dil, pad, ks. rewrite !nth_rep by assumption.
      pose proof (valid_nth_lt _ _ (fst p) Hy) as Vy. rewrite usize_length in Vy. specialize (Vy Hax).
      pose proof (valid_nth_lt _ _ (fst p) Hx) as Vx. unfold ks in Vx. rewrite repeat_length, nth_rep in Vx by assumption. specialize (Vx Hax).
      pose proof (sp_shape_nth sp _ _ usize_shape a p Hp) as Eu. rewrite Eu in Vy.
      destruct (snd p); [|reflexivity].
      pose proof (usize_exact s a Hex Ha) as Ee.
      set (M := nth a (usize s) 0) in *. set (yy := nth (fst p) y 0) in *. set (xx := nth (fst p) x 0) in *.
      rewrite !Nat2Z.inj_add, !Nat2Z.inj_mul. rewrite !Nat2Z.inj_sub by lia.
      assert (Z.of_nat st * (Z.of_nat M - 1) + Z.of_nat dl * (Z.of_nat k - 1) + 1 = Z.of_nat (nth a s 0%nat) + 2 * Z.of_nat lp)%Z as EZ by nia.
      nia.
    Qed.

    Lemma read_range m y x : fits m s' ks stride dil pad pad -> valid (usize s') y -> valid ks x ->
      in_range s' m (read_pos stride dil pad y x).
    Proof.
      intros Hf Hy Hx j Hj. assert (length stride = d) as Lst by apply repeat_length.
      pose proof (Hf j) as Hfj. unfold ks in Hfj. rewrite repeat_length in Hfj. specialize (Hfj Hj). destruct Hfj as [F1 F2].
      rewrite read_pos_nth by lia. unfold stride, dil, pad, ks in *. rewrite !nth_rep in * by assumption.
      pose proof (valid_nth_lt _ _ j Hy) as Vy. rewrite usize_length in Vy. specialize (Vy Hj). rewrite usize_nth in Vy by assumption.
      pose proof (valid_nth_lt _ _ j Hx) as Vx. rewrite repeat_length, nth_rep in Vx by assumption. specialize (Vx Hj).
      set (n := nth j s' 0) in *. set (yy := nth j y 0) in *. set (xx := nth j x 0) in *.
      assert (yy * st <= n + lp + lp - dl * (k - 1) - 1) as Hyy.
      { pose proof (Nat.mul_div_le (n + lp + lp - dl * (k - 1) - 1) st). assert (yy <= (n + lp + lp - dl * (k - 1) - 1) / st) by lia. nia. }
      assert (xx * dl <= dl * (k - 1)) as Hxx by nia.
      assert (yy * st + xx * dl < n + lp + lp) as Hq by lia.
      split.
      - intros i Hi. apply (shown_lt m n lp lp (yy * st + xx * dl) i); try assumption.
        destruct m; cbn [pad_ok]; try reflexivity.
        + apply andb_true_intro. rewrite !Nat.ltb_lt. lia.
        + apply Nat.ltb_lt. lia.
        + apply andb_true_intro. rewrite !Nat.leb_le. lia.
      - destruct m; trivial. lia.
    Qed.

    Lemma conv_flip m eps eps' X X' pre pre' (K K' : list nat -> R) y :
      exact s -> fits m s ks stride dil pad pad -> reindexed sp s s' eps X X' pre pre' ->
      (forall x, valid ks x -> K' x = (eps' * K (sp_idx sp ks x))%R) ->
      valid (usize s') y ->
      sumR (map (fun x => (K' x * image_at m X' s' pre' (read_pos stride dil pad y x))%R) (indices ks)) =
      (eps * eps' * sumR (map (fun x => K x * image_at m X s pre (read_pos stride dil pad (sp_idx sp (usize s) y) x)) (indices ks)))%R.
    Proof.
      intros Hex Hf HX HK Hy. pose proof (fits_moved m Hf) as Hf'.
      rewrite <- (sumR_perm _ _ (Permutation_map (fun x => (K x * image_at m X s pre (read_pos stride dil pad (sp_idx sp (usize s) y) x))%R)
        (sp_idx_perm d sp Hok ks ks (repeat_length k d) (rep_shape k)))).
      rewrite map_map, <- sumR_scale. apply sumR_ext. intros x Hx. apply in_indices in Hx.
      rewrite (HK x Hx).
      rewrite (image_flip s s' Hs Hsh m eps X X' pre pre' _ HX (read_range m y x Hf' Hy Hx)).
      - rewrite read_flip; try assumption; [ring|].
        intros j Hj. destruct (Hf j) as [F1 _]; [unfold ks; rewrite repeat_length; assumption|].
        unfold ks, dil, pad in F1. rewrite !nth_rep in F1 by assumption. lia.
      - intros j Hj. destruct (Hf' j) as [_ F2]; [unfold ks; rewrite repeat_length; assumption|].
        unfold pad in F2. rewrite !nth_rep in F2 by assumption. destruct m; auto; left; try lia.
        destruct (Hf' j) as [F1 _]; [unfold ks; rewrite repeat_length; assumption|].
        unfold ks, dil, pad in F1. rewrite !nth_rep in F1 by assumption. set (T := dl * (k - 1)) in *. lia.
    Qed.
  End Conv.
End Flip.
