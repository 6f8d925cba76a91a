(** Property theorems C74, continued: the outcome of every call of the tutorial's layers. *)
From Coq Require Import String ZArith.
From Verif Require Import Prelude RMath Mat Interp SO2 SO2Facts Tensor TensorFacts Functional FunctionalFacts Kernel KernelFacts GroupKernelFacts KernelMore Conv ConvSpec ConvInit Public
  AcceptFacts PublicFacts Prop_Linear AcceptSpec AnswerSpec AnswerFacts Tutorial TutorialFacts Prop_Tutorial.
Open Scope R_scope.

(** The tutorial's random grid is that of the library. *)
Theorem C74_tutorial_random_grid : forall u, tut_random_grid u = map (fun x => 2 * PI * x) u /\ tut_random_grid u = so2_random_grid u.
Proof. split; reflexivity. Qed.
Print Assumptions C74_tutorial_random_grid.

Lemma tut_regular top2 cin out s n groups : regular_kernel (tut_kernel top2 cin out s n groups) cin out [s; s] groups.
Proof.
  split; [|split; [|split; [|split; [|split]]]]; try reflexivity.
  - exists Ropp, tut_mul, tut_act, (Some (fun _ => 1)). constructor; [reflexivity|reflexivity|reflexivity|intros H; reflexivity].
  - apply (grid_R2_shape s).
Qed.

Lemma tut_answers top2 cin out s n groups : top2_ok top2 -> (2 <= n)%nat -> answers (fun _ => True) (tut_kernel top2 cin out s n groups).
Proof.
  intros Ht Hn S in_H out_H signal [L RR] _ _. rewrite tut_gdim in L. cbn [k_ops tut_kernel tut_ops op_sample_H k_grid_H]. unfold tut_grid_sample.
  assert (Hlen : List.length (tut_uniform_grid n) = n) by (rewrite tut_uniform; apply so2_uniform_grid_length). rewrite Hlen.
  destruct (Nat.ltb_spec n 2); [lia|].
  replace (List.length out_H * List.length in_H)%nat with (List.length (relative_elements (tut_kernel top2 cin out s n groups) in_H out_H)) by (destruct (tut_regular top2 cin out s n groups) as ((? & ? & ? & ? & Hops) & _); eapply relative_elements_length; exact Hops).
  generalize (relative_elements (tut_kernel top2 cin out s n groups) in_H out_H). intros qs. set (f := fun q : R => _).
  assert (F : forall q, exists r, f q = Ok r /\ List.length r = S).
  { intros q. unfold f. destruct (Ht (map (tut_dot q) (tut_uniform_grid n))) as (i & j & a & b & E & _ & Hi & Hj & _); [rewrite map_length; lia|].
    rewrite E. assert (i < n)%nat by (rewrite <- Hlen, <- (map_length (tut_dot q)); apply nth_error_Some; congruence).
    assert (j < n)%nat by (rewrite <- Hlen, <- (map_length (tut_dot q)); apply nth_error_Some; congruence).
    destruct (nth_error signal i) as [ri|] eqn:Ei; [|apply nth_error_None in Ei; lia]. destruct (nth_error signal j) as [rj|] eqn:Ej; [|apply nth_error_None in Ej; lia].
    cbn [of_option bind]. eexists. split; [reflexivity|]. apply nth_error_In, RR in Ei. apply nth_error_In, RR in Ej. rewrite AcceptFacts.map2_length; lia. }
  induction qs as [|q qs IH]; cbn [mapM].
  - exists []. split; [reflexivity|]. split; [reflexivity|]. intros r [].
  - destruct (F q) as (r & Er & Lr). destruct IH as (rs & Es & Ls & Ws). rewrite Er, Es. cbn [bind]. exists (r :: rs). split; [reflexivity|]. split; [cbn; congruence|].
    intros r' [<-|Hr]; auto.
Qed.

(** Every call of the tutorial's layers, for every configuration, input and grid of angles: it answers with the documented shape exactly if the image is large
    enough, and raises RuntimeError otherwise. The separable layer needs at least two rotations in its kernel. *)
Theorem C74_tutorial_layers_answer : forall top2 L cin out s n groups st padding dl m bias, top2_ok top2 ->
  constructed 2 L cin out [s; s] (tut_kernel top2 cin out s n groups) groups [st; st] padding [dl; dl] m bias ->
  (forall weight X N sp H, has_shape weight [out; cin / groups; s; s]%nat -> H <> [] -> has_shape X (N :: cin :: sp) -> List.length sp = 2%nat ->
     outcome_is (fits1 m 2 padding [s; s] [st; st] [dl; dl] sp) N out (List.length H) (size1 2 padding [s; s] [st; st] [dl; dl] sp) (lifting_forward L weight X H)) /\
  ((2 <= n)%nat -> forall weight_H weight X N sp in_H out_H, has_shape weight_H [n; out; cin / groups]%nat -> has_shape weight [out; 1; s; s]%nat -> out_H <> [] ->
     has_shape X (N :: cin :: List.length in_H :: sp) -> List.length sp = 2%nat ->
     outcome_is (fits2 m 2 padding [s; s] [st; st] [dl; dl] sp) N out (List.length out_H) (size2 m 2 padding [s; s] [st; st] [dl; dl] sp)
       (separable_forward L weight_H weight X in_H out_H)).
Proof.
  intros top2 L cin out s n groups st padding dl m bias Ht Hc.
  pose proof (tut_regular top2 cin out s n groups) as HK.
  assert (exists smp, op_sample_Rn (k_ops (tut_kernel top2 cin out s n groups)) = Ok smp) as [smp Hs] by (eexists; reflexivity).
  split.
  - intros weight X N sp H Hw HH HX Hsp. exact (lifting_total 2 L cin out [s; s] _ groups _ padding _ m bias Hc HK smp Hs weight H X N sp Hw HH HX Hsp).
  - intros Hn weight_H weight X N sp in_H out_H HwH Hw HH HX Hsp.
    refine (separable_total 2 L cin out [s; s] _ groups _ padding _ m bias Hc HK smp Hs (fun _ => True) (tut_answers top2 cin out s n groups Ht Hn) _ weight_H weight in_H out_H X N sp _ Hw HH _ _ HX Hsp).
    + rewrite tut_gdim. lia.
    + rewrite tut_gdim. exact HwH.
    + apply Forall_forall. auto.
    + apply Forall_forall. auto.
Qed.
Print Assumptions C74_tutorial_layers_answer.

(** Non-vacuity: the lifting layer of cell 22 on a 28 x 28 image answers with a 24 x 24 one. *)
Example tutorial_answers : exists L, tut_module a_top2 3 16 5 8 1 1 (PInt 0) 1 "zeros" None = Ok L /\
  forall weight X H, has_shape weight [16; 3; 5; 5]%nat -> H <> [] -> has_shape X [4; 3; 28; 28]%nat ->
    exists Y, lifting_forward L weight X H = Ok (Y, H) /\ has_shape Y [4; 16; List.length H; 24; 24]%nat.
Proof.
  destruct tutorial_module as (L & E & Hc & _). exists L. split; [exact E|]. intros weight X H Hw HH HX.
  destruct (C74_tutorial_layers_answer a_top2 L 3 16 5 8 1 1 (PInt 0) 1 Zeros None a_top2_ok Hc) as [A _].
  destruct (A weight X 4%nat [28; 28]%nat H Hw HH HX eq_refl) as [A1 _].
  destruct A1 as (Y & H' & EY & _ & SY).
  - intros [|[|j]] Hj; [cbn; split; [lia|exact I]..|cbn in Hj; lia].
  - assert (H' = H) by (pose proof (lifting_forward_grid _ _ _ _ _ _ EY); congruence). subst H'. exists Y. split; [exact EY|exact SY].
Qed.
