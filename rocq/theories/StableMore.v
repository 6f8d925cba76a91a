(** Proofs: gains depend on the input's shape only, and exist. *)
From Coq Require Import String ZArith Lra.
From Verif Require Import Prelude RMath Mat Repulse RepulseFacts Tensor TensorFacts Kernel KernelFacts Conv ConvSpec ConvFacts GConvFacts ConvInit ConvShift SepProduct SepConvFacts EquiKernel Regrid
  Layers LayersSpec LayersFacts NormFacts Public PublicFacts Network NetworkCond Prop_Conv Prop_Layers NetFacts LocalSpec LocalFacts StableSpec GeluFacts StableFacts.
Open Scope R_scope.

Lemma list_bound {A} (f : A -> R) (l : list A) : exists B, 0 <= B /\ forall a, In a l -> f a <= B.
Proof.
  induction l as [|a l (B & H0 & HB)]; [exists 0; split; [lra|intros a []]|]. exists (Rmax (f a) B).
  split; [eapply Rle_trans; [exact H0|apply Rmax_r]|]. intros b [<-|Hb]; [apply Rmax_l|]. eapply Rle_trans; [exact (HB b Hb)|apply Rmax_r].
Qed.
Lemma bound1 (f : nat -> R) n : exists B, 0 <= B /\ forall q, (q < n)%nat -> f q <= B.
Proof. destruct (list_bound f (seq 0 n)) as (B & H0 & HB). exists B. split; [exact H0|]. intros q Hq. apply HB, in_seq. lia. Qed.
Lemma bound2 (f : nat -> nat -> R) n m : exists B, 0 <= B /\ forall q g, (q < n)%nat -> (g < m)%nat -> f q g <= B.
Proof.
  destruct (list_bound (fun p => f (fst p) (snd p)) (list_prod (seq 0 n) (seq 0 m))) as (B & H0 & HB). exists B. split; [exact H0|]. intros q g Hq Hg.
  apply (HB (q, g)). apply in_prod; apply in_seq; lia.
Qed.

Lemma same_shape_close X X' : same_shape X X' -> exists e, 0 <= e /\ close e X X'.
Proof.
  intros (s & A & B). destruct (list_bound (fun i => Rabs (at_ X' i - at_ X i)) (indices s)) as (e & H0 & He). exists e. split; [exact H0|].
  exists s. split; [exact A|]. split; [exact B|]. intros i Hi. apply He, in_indices, Hi.
Qed.
Lemma close_same_shape e X X' : close e X X' -> same_shape X X'.
Proof. intros (s & A & B & _). exists s. auto. Qed.
Lemma same_shape_sym X X' : same_shape X X' -> same_shape X' X.
Proof. intros (s & A & B). exists s. auto. Qed.
Lemma same_shape_has X X' s : same_shape X X' -> has_shape X s -> has_shape X' s.
Proof. intros (s0 & A & B) H. rewrite (has_shape_inj _ _ _ H A). exact B. Qed.

Section Net.
  Context {G P : Type} {D : Dflt P} (fam : family) (d : nat) (mul : G -> G -> G) (Hd : (0 < d)%nat).

  Lemma lifting_gain_shape (M : gmodule G P) w X X1 o c : same_shape X X1 -> lifting_gain d M w X o c -> lifting_gain d M w X1 o c.
  Proof using.
    intros HS (cin & cout & ks & k & groups & stride & padding & dil & m & bias & W & N & sp & Hc & Ho & HK & HW & HX & Q).
    exists cin, cout, ks, k, groups, stride, padding, dil, m, bias, W, N, sp. repeat (split; [assumption|]). split; [exact (same_shape_has _ _ _ HS HX)|exact Q].
  Qed.
  Lemma gain_shape b rs X X1 H c : same_shape X X1 -> gain fam d mul b rs X H c -> gain fam d mul b rs X1 H c.
  Proof using.
    intros HS [H0 HG]. split; [exact H0|]. destruct b as [M w out|M wH w out|st|st| |slope|erf a]; try exact HG.
    - destruct HG as (cin & cout & ks & k & groups & stride & padding & dil & m & bias & W & N & sp & Hc & Ho & HK & HW & HX & Q).
      exists cin, cout, ks, k, groups, stride, padding, dil, m, bias, W, N, sp. repeat (split; [assumption|]). split; [exact (same_shape_has _ _ _ HS HX)|exact Q].
    - destruct HG as (cin & cout & ks & k & groups & stride & padding & dil & m & bias & WH & WS & N & sp & c1 & c2 & Hc & Ho & HK & HW1 & HW2 & HX & Q).
      exists cin, cout, ks, k, groups, stride, padding, dil, m, bias, WH, WS, N, sp, c1, c2. repeat (split; [assumption|]). split; [exact (same_shape_has _ _ _ HS HX)|exact Q].
    - destruct HS as (s & [A _] & [B _]). cbn [gain] in *. rewrite B. rewrite A in HG. exact HG.
    - destruct HS as (s & [A _] & [B _]). cbn [gain] in *. rewrite B. rewrite A in HG. exact HG.
  Qed.
  Lemma feature_shape X X1 : same_shape X X1 -> feature d X -> feature d X1.
  Proof using. intros HS (N & C & h & sp & L & HX). exists N, C, h, sp. split; [exact L|exact (same_shape_has _ _ _ HS HX)]. Qed.

  Lemma total_gain_shape prog : forall X X1 H c, same_shape X X1 -> feature d X -> total_gain fam d mul prog X H c -> total_gain fam d mul prog X1 H c.
  Proof using Hd.
    induction prog as [|[b rs] rest IH]; intros X X1 H c HS HF HG; cbn [total_gain] in *; [exact HG|].
    destruct HG as (c1 & c2 & -> & HG & HN). pose proof (gain_shape _ _ _ _ _ _ HS HG) as HG1. exists c1, c2. split; [reflexivity|]. split; [exact HG1|].
    intros Y1 H1 b1 E1. destruct (same_shape_close _ _ (same_shape_sym _ _ HS)) as (e & He & HA).
    destruct (step_stable fam d mul Hd b rs X1 X H c1 e Y1 H1 b1 HG1 (feature_shape _ _ HS HF) He HA E1) as (Y & b1' & E & A & F1).
    pose proof (close_same_shape _ _ _ A) as S1. apply (IH Y Y1 H1 c2 (same_shape_sym _ _ S1) (feature_shape _ _ S1 F1)). exact (HN Y H1 b1' E).
  Qed.

  Lemma lifting_gain_exists (M : gmodule G P) w X o : plain_lifting d M w X o -> exists c, 0 <= c /\ lifting_gain d M w X o c.
  Proof using.
    intros (cin & cout & ks & k & groups & stride & padding & dil & m & bias & W & N & sp & Hc & Ho & HK & HW & HX & Lsp).
    destruct (bound2 (lifting_row W (cin / groups) ks) cout (length o)) as (c & H0 & HB). exists c. split; [exact H0|].
    exists cin, cout, ks, k, groups, stride, padding, dil, m, bias, W, N, sp. repeat (split; [assumption|]). exact HB.
  Qed.
  Lemma gain_exists b rs X H : plain fam d mul b rs X H -> evaluated b -> exists c, gain fam d mul b rs X H c.
  Proof using.
    destruct b as [M w out|M wH w out|st|st| |slope|erf a]; cbn [plain evaluated]; intros HP HE.
    - destruct HP as (cin & cout & ks & k & groups & stride & padding & dil & m & bias & W & N & sp & Hc & Ho & HK & HW & HX & Lsp).
      destruct (bound2 (group_row W (cin / groups) (length H) ks) cout (length (out_grid fam mul M out rs H))) as (c & H0 & HB). exists c. split; [exact H0|].
      exists cin, cout, ks, k, groups, stride, padding, dil, m, bias, W, N, sp. repeat (split; [assumption|]). exact HB.
    - destruct HP as (cin & cout & ks & k & groups & stride & padding & dil & m & bias & WH & WS & N & sp & Hc & Ho & HK & HW1 & HW2 & HX & Lsp).
      destruct (bound2 (point_row WH cout (length (out_grid fam mul M out rs H)) (cin / groups) (length H) d) cout (length (out_grid fam mul M out rs H))) as (c1 & H1 & HB1).
      destruct (bound2 (spatial_row WS ks) cout (length (out_grid fam mul M out rs H))) as (c2 & H2 & HB2). exists (c1 * c2). split; [apply Rmult_le_pos; assumption|].
      exists cin, cout, ks, k, groups, stride, padding, dil, m, bias, WH, WS, N, sp, c1, c2. repeat (split; [assumption|]). split; [reflexivity|]. auto.
    - destruct (bound1 (fun q => Rabs (norm_factor st q)) (nth 1 (shape X) 0%nat)) as (c & H0 & HB). exists c. split; [exact H0|]. split; [exact HE|exact HB].
    - destruct (bound1 (fun q => Rabs (norm_factor st q)) (nth 1 (shape X) 0%nat)) as (c & H0 & HB). exists c. split; [exact H0|]. split; [exact HE|exact HB].
    - exists 1. split; lra.
    - exists (Rmax 1 (Rabs slope)). pose proof (Rmax_l 1 (Rabs slope)). pose proof (Rmax_r 1 (Rabs slope)). split; [lra|]. split; assumption.
    - exists 2. split; [lra|]. split; [lra|exact HE].
  Qed.
  Lemma total_gain_exists prog : forall X H, throughout fam d mul (plain fam d mul) prog X H -> Forall (fun p => evaluated (fst p)) prog -> exists c, 0 <= c /\ total_gain fam d mul prog X H c.
  Proof using.
    induction prog as [|[b rs] rest IH]; intros X H HP HE; cbn [total_gain throughout] in *; [exists 1; split; lra|].
    inversion HE as [|p l HE1 HE2]; subst. destruct HP as [HP HN]. destruct (gain_exists b rs X H HP HE1) as (c1 & HG).
    destruct (step fam d mul b rs X H) as [[[Y H1] b1]|] eqn:ES.
    - destruct (IH Y H1 (HN Y H1 b1 eq_refl) HE2) as (c2 & H2 & HG2). exists (c1 * c2). split; [apply Rmult_le_pos; [exact (proj1 HG)|exact H2]|]. exists c1, c2. split; [reflexivity|]. split; [exact HG|].
      intros Y' H' b' E'. injection E' as <- <- <-. exact HG2.
    - exists (c1 * 1). split; [rewrite Rmult_1_r; exact (proj1 HG)|]. exists c1, 1. split; [reflexivity|]. split; [exact HG|]. intros Y' H' b' E'. discriminate.
  Qed.
End Net.

(** Row sums of bounded weights. *)
Lemma sumR_const_bound {A} (f : A -> R) (l : list A) B : (forall a, In a l -> f a <= B) -> sumR (map f l) <= INR (length l) * B.
Proof.
  induction l as [|a l IH]; intros H; [simpl; lra|]. cbn [length]. rewrite S_INR. cbn [map sumR]. pose proof (H a (or_introl eq_refl)). pose proof (IH (fun b Hb => H b (or_intror Hb))).
  rewrite Rmult_plus_distr_r, Rmult_1_l, Rplus_comm. apply Rplus_le_compat; assumption.
Qed.
Lemma lifting_row_bound W n ks o g B : (forall c x, (c < n)%nat -> valid ks x -> Rabs (at_ W (o :: g :: c :: x)) <= B) -> lifting_row W n ks o g <= INR (n * prodn ks) * B.
Proof.
  intros H. unfold lifting_row. change total with sumR. rewrite mult_INR, Rmult_assoc. rewrite <- (seq_length n 0) at 2. apply sumR_const_bound. intros c Hc. apply in_seq in Hc.
  rewrite <- indices_length. apply sumR_const_bound. intros x Hx. apply in_indices in Hx. apply H; [lia|exact Hx].
Qed.
Lemma group_row_bound W n nin ks o g B : (forall c h x, (c < n)%nat -> (h < nin)%nat -> valid ks x -> Rabs (at_ W (o :: g :: c :: h :: x)) <= B) -> group_row W n nin ks o g <= INR (n * nin * prodn ks) * B.
Proof.
  intros H. unfold group_row. change total with sumR. rewrite !mult_INR, !Rmult_assoc. rewrite <- (seq_length n 0) at 2. apply sumR_const_bound. intros c Hc. apply in_seq in Hc.
  rewrite <- (seq_length nin 0) at 2. apply sumR_const_bound. intros h Hh. apply in_seq in Hh.
  rewrite <- indices_length. apply sumR_const_bound. intros x Hx. apply in_indices in Hx. apply H; [lia|lia|exact Hx].
Qed.
