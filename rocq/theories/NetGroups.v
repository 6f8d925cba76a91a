(** Layers of networks: each public convolution class, moved and relisted. *)
From Coq Require Import String ZArith Permutation Classical_Prop.
From Verif Require Import Prelude RMath Mat Interp SO2 SO2Facts O2 O2Facts SO3 SO3Facts O3 O3Facts Repulse RepulseFacts Tensor TensorFacts SignedPerm Functional
  FunctionalFacts Kernel KernelFacts GroupKernelFacts KernelMore Conv ConvSpec ConvFacts ConvInit Equi EquiLayer EquiSpec EquiSpecFacts EquiKernel EquiGroups
  Layers LayersSpec LayersFacts RegridSpec Regrid Prop_Conv Prop_Equi Prop_Regrid Public PublicFacts Prop_Public Network NetworkSpec NetworkCond NetFacts.
Open Scope R_scope.

(** ** SE2 *)
Lemma ctor_lifting_SE2 T cin cout s groups st padding dl pmode permute bias mode pm mask n given grid M :
  grid = (match given with Some g => g | None => so2_uniform_grid n end) -> lifting_SE2 T cin cout s groups st padding dl pmode permute bias mode pm mask n given = Ok M -> usable 2 s st dl cin cout padding bias ->
  exists m, padmode_of pmode = Some m /\ kernel_grid M = grid /\ gm_permute M = permute /\
    constructed 2 (gm_layer M) cin cout [s; s] (lifting_kernel_SE2 T cin cout s (Z.to_nat groups) mode pm mask grid) (Z.to_nat groups) [st; st] padding [dl; dl] m bias.
Proof.
  intros Hgr EM HU. subst grid. destruct (C69_lifting_SE2 T cin cout s groups st padding dl pmode permute bias mode pm mask n given) as (A & B & Eg & _).
  destruct (classic (valid_config (GkInt (Z.of_nat n)) cin cout groups padding [st; st] pmode)) as [Hok|Hok]; [|destruct (B Hok) as (e & Ee & _); congruence].
  destruct (A Hok) as (L & E & Ek & Hc). rewrite EM in E. injection E as ->. destruct (Hc HU) as (m & Hm & Hcon). exists m. split; [assumption|].
  split; [unfold kernel_grid; cbn [gm_layer]; rewrite Ek; exact Eg|]. split; [reflexivity|]. exact Hcon.
Qed.
Lemma ctor_group_SE2 T cin cout s groups st padding dl pmode permute bias mode pm mask n gmode width given grid M :
  grid = (match given with Some g => g | None => so2_uniform_grid n end) -> group_SE2 T cin cout s groups st padding dl pmode permute bias mode pm mask n gmode width given = Ok M -> usable 2 s st dl cin cout padding bias ->
  exists k m, kernel_SE2 T cin cout s (Z.to_nat groups) gmode width mode pm mask grid = Ok k /\ padmode_of pmode = Some m /\ kernel_grid M = grid /\ gm_permute M = permute /\
    constructed 2 (gm_layer M) cin cout [s; s] k (Z.to_nat groups) [st; st] padding [dl; dl] m bias.
Proof.
  intros Hgr EM HU. subst grid. destruct (C69_group_SE2 T cin cout s groups st padding dl pmode permute bias mode pm mask n gmode width given) as (A & B & C). cbv zeta in A, B, C.
  match type of A with ?den -> _ => destruct (classic den) as [Hd|Hd]; [|rewrite (C Hd) in EM; discriminate] end.
  destruct (classic (valid_config (GkInt (Z.of_nat n)) cin cout groups padding [st; st] pmode)) as [Hok|Hok]; [|destruct (B Hd Hok) as (e & Ee & _); congruence].
  destruct (A Hd Hok) as (k & Hk & (L & E & Ek & Hc) & Eg & _). rewrite EM in E. injection E as ->. destruct (Hc HU) as (m & Hm & Hcon). exists k, m.
  split; [exact Hk|]. split; [assumption|]. split; [unfold kernel_grid; cbn [gm_layer]; rewrite Ek; exact Eg|]. split; [reflexivity|]. exact Hcon.
Qed.

Lemma conv_equi_SE2 (q : Z) sp M weight X H o : let G0 := (IZR q * (PI / 2)) in
  (forall rel X X', carried2 rel (so2_angle_to_matrix (IZR q * (PI / 2))) X X' <-> carried_sp 2 sp rel X X') ->
  ready_conv_SE2 M weight X -> o <> [] ->
  fwd_equi 2 so2_left_apply_angle G0 sp (full_forward (gm_layer M) weight) X H o.
Proof.
  intros G0 Hiff (T & cin & cout & s & groups & st & padding & dl & pmode & permute & bias & mode & pm & mask & n & gmode & width & given & grid & lp & N & n_in & h & w & Hgr & EM & HU & Hs & Hpad & Hw & HX & Hcov) Ho . 
  destruct (ctor_group_SE2 T cin cout s groups st padding dl pmode permute bias mode pm mask n gmode width given grid M Hgr EM HU) as (k & m & Hk & Hm & _ & _ & Hcon).
  apply fwd_equi_intro; [exact Ho|]. intros Y Z u u' Lu Lu' HM (N1 & C1 & HX1 & HZ) E.
  pose proof (proj1 HX1) as Q. rewrite (proj1 HX) in Q. injection Q as <- <- -> <-. clear HX1.
  destruct (len2 u' Lu') as (h1 & w1 & ->).
  assert (carried2 (fun _ v v' => v' = v) (so2_angle_to_matrix (IZR q * (PI / 2))) X Z) as HM2. { apply Hiff. exact HM. }
  destruct (C50_group_SE2 T (gm_layer M) k cin cout s (Z.to_nat groups) st padding dl m bias lp gmode width mode pm mask grid weight X Z Y N h w H o q Hk Hcon Hs Hpad Hw Ho HX Hcov HM2 E) as (Y1 & E1 & M1).
  exists Y1. split; [exact E1|]. split; [apply Hiff in M1; exact M1|].
  intros X' H' f fo o' Ho' HR EL ELi Hpf HRi HXX.
  assert (map (so2_left_apply_angle G0) o <> []) as Hno by (destruct o; [congruence|discriminate]).
  
  exact (C70_group_SE2 T (gm_layer M) k cin cout s (Z.to_nat groups) [st; st] padding [dl; dl] m bias gmode width mode pm mask grid weight Z X' Y1 N h1 w1 (map (so2_left_apply_angle G0) H) H' (map (so2_left_apply_angle G0) o) o' f fo Hk Hcon Hw Hno Ho' HR ELi Hpf HRi HZ HXX E1).
Qed.
Lemma separable_equi_SE2 (q : Z) sp M weight_H weight X H o : let G0 := (IZR q * (PI / 2)) in
  (forall rel X X', carried2 rel (so2_angle_to_matrix (IZR q * (PI / 2))) X X' <-> carried_sp 2 sp rel X X') ->
  ready_separable_SE2 M weight_H weight X -> o <> [] -> List.length o = List.length H ->
  fwd_equi 2 so2_left_apply_angle G0 sp (separable_forward (gm_layer M) weight_H weight) X H o.
Proof.
  intros G0 Hiff (T & cin & cout & s & groups & st & padding & dl & pmode & permute & bias & mode & pm & mask & n & gmode & width & given & grid & m & lp & N & n_in & h & w & Hgr & EM & HU & Hs & Hpm & Hpad & HwH & Hw & HX & Hcov1 & Hcov2) Ho Hlen . 
  destruct (ctor_group_SE2 T cin cout s groups st padding dl pmode permute bias mode pm mask n gmode width given grid M Hgr EM HU) as (k & m2 & Hk & Hm & _ & _ & Hcon). rewrite Hpm in Hm. injection Hm as <-.
  apply fwd_equi_intro; [exact Ho|]. intros Y Z u u' Lu Lu' HM (N1 & C1 & HX1 & HZ) E.
  pose proof (proj1 HX1) as Q. rewrite (proj1 HX) in Q. injection Q as <- <- -> <-. clear HX1.
  destruct (len2 u' Lu') as (h1 & w1 & ->).
  assert (carried2 (fun _ v v' => v' = v) (so2_angle_to_matrix (IZR q * (PI / 2))) X Z) as HM2. { apply Hiff. exact HM. }
  destruct (C50_separable_SE2 T (gm_layer M) k cin cout s (Z.to_nat groups) st padding dl m bias lp gmode width mode pm mask grid weight_H weight X Z Y N h w H o q Hk Hcon Hs Hpad HwH Hw Ho HX Hcov1 Hcov2 HM2 E) as (Y1 & E1 & M1).
  exists Y1. split; [exact E1|]. split; [apply Hiff in M1; exact M1|].
  intros X' H' f fo o' Ho' HR EL ELi Hpf HRi HXX.
  assert (map (so2_left_apply_angle G0) o <> []) as Hno by (destruct o; [congruence|discriminate]).
  assert (List.length (map (so2_left_apply_angle G0) o) = List.length (map (so2_left_apply_angle G0) H)) as Hlen1 by (rewrite !map_length; exact Hlen). assert (List.length o' = List.length H') as Hlen2 by congruence.
  exact (C70_separable_SE2 T (gm_layer M) k cin cout s (Z.to_nat groups) [st; st] padding [dl; dl] m bias gmode width mode pm mask grid weight_H weight Z X' Y1 N h1 w1 (map (so2_left_apply_angle G0) H) H' (map (so2_left_apply_angle G0) o) o' f fo Hk Hcon HwH Hw Hno HR ELi Hpf HRi Hlen1 Hlen2 HZ HXX E1).
Qed.
Lemma lifting_equi_SE2 (q : Z) sp M weight X X' o o' f Y : let G0 := (IZR q * (PI / 2)) in
  (forall rel X X', carried2 rel (so2_angle_to_matrix (IZR q * (PI / 2))) X X' <-> carried_sp 2 sp rel X X') ->
  ready_lifting_SE2 M weight X -> o <> [] -> moved2 (so2_angle_to_matrix (IZR q * (PI / 2))) X X' ->
  lifting_forward (gm_layer M) weight X o = Ok (Y, o) ->
  List.length o' = List.length o -> permutes (List.length o) f -> regrid f (map (so2_left_apply_angle G0) o) o' ->
  exists Y', lifting_forward (gm_layer M) weight X' o' = Ok (Y', o') /\ same_by 2 so2_left_apply_angle G0 sp f Y o Y' o'.
Proof.
  intros G0 Hiff (T & cin & cout & s & groups & st & padding & dl & pmode & permute & bias & mode & pm & mask & n & given & grid & lp & N & h & w & Hgr & EM & HU & Hs & Hpad & Hw & HX & Hcov) Ho HM E EL Hp HR.
  destruct (ctor_lifting_SE2 T cin cout s groups st padding dl pmode permute bias mode pm mask n given grid M Hgr EM HU) as (m & Hm & _ & _ & Hcon).
  destruct (C49_lifting_SE2 T (gm_layer M) cin cout s (Z.to_nat groups) st padding dl m bias lp mode pm mask grid weight X X' Y N h w o q Hcon Hs Hpad Hw Ho HX Hcov HM E) as (Y1 & E1 & M1).
  assert (carried_sp 2 sp eqrel Y Y1) as M2. { apply Hiff in M1. exact M1. }
  assert (exists h1 w1, has_shape X' (N :: cin :: [h1; w1])) as (h1 & w1 & HX2).
  { pose proof (proj1 (Hiff _ _ _) HM) as HM2. destruct (carried_sp_inv 2 sp _ X X' [N; cin] [h; w] HM2 HX eq_refl) as (s1 & HX2 & [Ls1 _] & _).
    destruct (len2 s1 Ls1) as (h1 & w1 & ->). exists h1, w1. exact HX2. }
  assert (map (so2_left_apply_angle G0) o <> []) as Hno by (destruct o; [congruence|discriminate]).
  assert (o' <> []) as Ho' by (destruct o'; [destruct o; [congruence|discriminate]|discriminate]).
  destruct (C70_lifting_SE2 T (gm_layer M) cin cout s (Z.to_nat groups) [st; st] padding [dl; dl] m bias mode pm mask grid weight X' Y1 N h1 w1 (map (so2_left_apply_angle G0) o) o' f
    Hcon Hw HX2 Hno Ho' HR E1) as (Y' & E' & R').
  exists Y'. split; [exact E'|]. rewrite map_length, EL in R'. destruct (turn_of_pair 2 sp f (List.length o) Y Y1 Y' M2 R' Hp) as (N2 & C2 & s2 & s2' & T2).
  exists N2, C2, s2, s2'. auto.
Qed.
Lemma ready_equi_SE2 (q : Z) sp b rs X H : let G0 := (IZR q * (PI / 2)) in
  (forall rel X X', carried2 rel (so2_angle_to_matrix (IZR q * (PI / 2))) X X' <-> carried_sp 2 sp rel X X') ->
  ready_SE2 b rs X H -> block_equi SEn 2 so2_left_apply_angle G0 sp b rs X H.
Proof.
  intros G0 Hiff HR. destruct b as [M w out|M wH w out|s|s| |slope|erf a]; cbn [ready_SE2 block_equi] in *; try exact I.
  - destruct HR as (A & B). apply conv_equi_SE2; assumption.
  - destruct HR as (A & B & C). apply separable_equi_SE2; assumption.
Qed.

(** ** SE3 *)
Lemma ctor_lifting_SE3 T cin cout s groups st padding dl pmode permute bias mode pm mask n given default grid M :
  pick_grid given default = Ok grid -> lifting_SE3 T cin cout s groups st padding dl pmode permute bias mode pm mask n given default = Ok M -> usable 3 s st dl cin cout padding bias ->
  exists m, padmode_of pmode = Some m /\ kernel_grid M = grid /\ gm_permute M = permute /\
    constructed 3 (gm_layer M) cin cout [s; s; s] (lifting_kernel_SE3 T cin cout s (Z.to_nat groups) mode pm mask grid) (Z.to_nat groups) [st; st; st] padding [dl; dl; dl] m bias.
Proof.
  intros Hgr EM HU. assert (given = Some grid \/ given = None /\ default = Ok grid) as Hg by (destruct given; cbn [pick_grid] in Hgr; [left; congruence|right; auto]). destruct (C69_lifting_SE3 T cin cout s groups st padding dl pmode permute bias mode pm mask n given default grid Hg) as (A & B & Eg & _).
  destruct (classic (valid_config (GkInt (Z.of_nat n)) cin cout groups padding [st; st; st] pmode)) as [Hok|Hok]; [|destruct (B Hok) as (e & Ee & _); congruence].
  destruct (A Hok) as (L & E & Ek & Hc). rewrite EM in E. injection E as ->. destruct (Hc HU) as (m & Hm & Hcon). exists m. split; [assumption|].
  split; [unfold kernel_grid; cbn [gm_layer]; rewrite Ek; exact Eg|]. split; [reflexivity|]. exact Hcon.
Qed.
Lemma ctor_group_SE3 T cin cout s groups st padding dl pmode permute bias mode pm mask n gmode width given default grid M :
  pick_grid given default = Ok grid -> group_SE3 T cin cout s groups st padding dl pmode permute bias mode pm mask n gmode width given default = Ok M -> usable 3 s st dl cin cout padding bias ->
  exists k m, kernel_SE3 T cin cout s (Z.to_nat groups) gmode width mode pm mask grid = Ok k /\ padmode_of pmode = Some m /\ kernel_grid M = grid /\ gm_permute M = permute /\
    constructed 3 (gm_layer M) cin cout [s; s; s] k (Z.to_nat groups) [st; st; st] padding [dl; dl; dl] m bias.
Proof.
  intros Hgr EM HU. assert (given = Some grid \/ given = None /\ default = Ok grid) as Hg by (destruct given; cbn [pick_grid] in Hgr; [left; congruence|right; auto]). destruct (C69_group_SE3 T cin cout s groups st padding dl pmode permute bias mode pm mask n gmode width given default grid Hg) as (A & B & C). cbv zeta in A, B, C.
  match type of A with ?den -> _ => destruct (classic den) as [Hd|Hd]; [|rewrite (C Hd) in EM; discriminate] end.
  destruct (classic (valid_config (GkInt (Z.of_nat n)) cin cout groups padding [st; st; st] pmode)) as [Hok|Hok]; [|destruct (B Hd Hok) as (e & Ee & _); congruence].
  destruct (A Hd Hok) as (k & Hk & (L & E & Ek & Hc) & Eg & _). rewrite EM in E. injection E as ->. destruct (Hc HU) as (m & Hm & Hcon). exists k, m.
  split; [exact Hk|]. split; [assumption|]. split; [unfold kernel_grid; cbn [gm_layer]; rewrite Ek; exact Eg|]. split; [reflexivity|]. exact Hcon.
Qed.

Lemma conv_equi_SE3 (g : M3) (Hsg : signed3 g) (Hdet : det3 g = 1) sp M weight X H o : let G0 := g in
  (forall rel X X', carried3 rel (g) X X' <-> carried_sp 3 sp rel X X') ->
  ready_conv_SE3 M weight X -> o <> [] ->
  fwd_equi 3 mul3 G0 sp (full_forward (gm_layer M) weight) X H o.
Proof.
  intros G0 Hiff (T & cin & cout & s & groups & st & padding & dl & pmode & permute & bias & mode & pm & mask & n & gmode & width & given & default & grid & lp & N & n_in & dd & h & w & Hgr & EM & HU & Hs & Hpad & Hw & HX & Hcov) Ho . 
  destruct (ctor_group_SE3 T cin cout s groups st padding dl pmode permute bias mode pm mask n gmode width given default grid M Hgr EM HU) as (k & m & Hk & Hm & _ & _ & Hcon).
  apply fwd_equi_intro; [exact Ho|]. intros Y Z u u' Lu Lu' HM (N1 & C1 & HX1 & HZ) E.
  pose proof (proj1 HX1) as Q. rewrite (proj1 HX) in Q. injection Q as <- <- -> <-. clear HX1.
  destruct (len3 u' Lu') as (d1 & h1 & w1 & ->).
  assert (carried3 (fun _ v v' => v' = v) (g) X Z) as HM2. { apply Hiff. exact HM. }
  destruct (C50_group_SE3 T (gm_layer M) k cin cout s (Z.to_nat groups) st padding dl m bias lp gmode width mode pm mask grid weight X Z Y N dd h w H o g Hk Hcon Hs Hpad Hw Ho HX Hcov Hsg Hdet HM2 E) as (Y1 & E1 & M1).
  exists Y1. split; [exact E1|]. split; [apply Hiff in M1; exact M1|].
  intros X' H' f fo o' Ho' HR EL ELi Hpf HRi HXX.
  assert (map (mul3 G0) o <> []) as Hno by (destruct o; [congruence|discriminate]).
  
  exact (C70_group_SE3 T (gm_layer M) k cin cout s (Z.to_nat groups) [st; st; st] padding [dl; dl; dl] m bias gmode width mode pm mask grid weight Z X' Y1 N d1 h1 w1 (map (mul3 G0) H) H' (map (mul3 G0) o) o' f fo Hk Hcon Hw Hno Ho' HR ELi Hpf HRi HZ HXX E1).
Qed.
Lemma separable_equi_SE3 (g : M3) (Hsg : signed3 g) (Hdet : det3 g = 1) sp M weight_H weight X H o : let G0 := g in
  (forall rel X X', carried3 rel (g) X X' <-> carried_sp 3 sp rel X X') ->
  ready_separable_SE3 M weight_H weight X -> o <> [] -> List.length o = List.length H ->
  fwd_equi 3 mul3 G0 sp (separable_forward (gm_layer M) weight_H weight) X H o.
Proof.
  intros G0 Hiff (T & cin & cout & s & groups & st & padding & dl & pmode & permute & bias & mode & pm & mask & n & gmode & width & given & default & grid & m & lp & N & n_in & dd & h & w & Hgr & EM & HU & Hs & Hpm & Hpad & HwH & Hw & HX & Hcov1 & Hcov2) Ho Hlen . 
  destruct (ctor_group_SE3 T cin cout s groups st padding dl pmode permute bias mode pm mask n gmode width given default grid M Hgr EM HU) as (k & m2 & Hk & Hm & _ & _ & Hcon). rewrite Hpm in Hm. injection Hm as <-.
  apply fwd_equi_intro; [exact Ho|]. intros Y Z u u' Lu Lu' HM (N1 & C1 & HX1 & HZ) E.
  pose proof (proj1 HX1) as Q. rewrite (proj1 HX) in Q. injection Q as <- <- -> <-. clear HX1.
  destruct (len3 u' Lu') as (d1 & h1 & w1 & ->).
  assert (carried3 (fun _ v v' => v' = v) (g) X Z) as HM2. { apply Hiff. exact HM. }
  destruct (C50_separable_SE3 T (gm_layer M) k cin cout s (Z.to_nat groups) st padding dl m bias lp gmode width mode pm mask grid weight_H weight X Z Y N dd h w H o g Hk Hcon Hs Hpad HwH Hw Ho HX Hcov1 Hcov2 Hsg Hdet HM2 E) as (Y1 & E1 & M1).
  exists Y1. split; [exact E1|]. split; [apply Hiff in M1; exact M1|].
  intros X' H' f fo o' Ho' HR EL ELi Hpf HRi HXX.
  assert (map (mul3 G0) o <> []) as Hno by (destruct o; [congruence|discriminate]).
  assert (List.length (map (mul3 G0) o) = List.length (map (mul3 G0) H)) as Hlen1 by (rewrite !map_length; exact Hlen). assert (List.length o' = List.length H') as Hlen2 by congruence.
  exact (C70_separable_SE3 T (gm_layer M) k cin cout s (Z.to_nat groups) [st; st; st] padding [dl; dl; dl] m bias gmode width mode pm mask grid weight_H weight Z X' Y1 N d1 h1 w1 (map (mul3 G0) H) H' (map (mul3 G0) o) o' f fo Hk Hcon HwH Hw Hno HR ELi Hpf HRi Hlen1 Hlen2 HZ HXX E1).
Qed.
Lemma lifting_equi_SE3 (g : M3) (Hsg : signed3 g) (Hdet : det3 g = 1) sp M weight X X' o o' f Y : let G0 := g in
  (forall rel X X', carried3 rel (g) X X' <-> carried_sp 3 sp rel X X') ->
  ready_lifting_SE3 M weight X -> o <> [] -> moved3 (g) X X' ->
  lifting_forward (gm_layer M) weight X o = Ok (Y, o) ->
  List.length o' = List.length o -> permutes (List.length o) f -> regrid f (map (mul3 G0) o) o' ->
  exists Y', lifting_forward (gm_layer M) weight X' o' = Ok (Y', o') /\ same_by 3 mul3 G0 sp f Y o Y' o'.
Proof.
  intros G0 Hiff (T & cin & cout & s & groups & st & padding & dl & pmode & permute & bias & mode & pm & mask & n & given & default & grid & lp & N & dd & h & w & Hgr & EM & HU & Hs & Hpad & Hw & HX & Hcov) Ho HM E EL Hp HR.
  destruct (ctor_lifting_SE3 T cin cout s groups st padding dl pmode permute bias mode pm mask n given default grid M Hgr EM HU) as (m & Hm & _ & _ & Hcon).
  destruct (C49_lifting_SE3 T (gm_layer M) cin cout s (Z.to_nat groups) st padding dl m bias lp mode pm mask grid weight X X' Y N dd h w o g Hcon Hs Hpad Hw Ho HX Hcov Hsg Hdet HM E) as (Y1 & E1 & M1).
  assert (carried_sp 3 sp eqrel Y Y1) as M2. { apply Hiff in M1. exact M1. }
  assert (exists d1 h1 w1, has_shape X' (N :: cin :: [d1; h1; w1])) as (d1 & h1 & w1 & HX2).
  { pose proof (proj1 (Hiff _ _ _) HM) as HM2. destruct (carried_sp_inv 3 sp _ X X' [N; cin] [dd; h; w] HM2 HX eq_refl) as (s1 & HX2 & [Ls1 _] & _).
    destruct (len3 s1 Ls1) as (d1 & h1 & w1 & ->). exists d1, h1, w1. exact HX2. }
  assert (map (mul3 G0) o <> []) as Hno by (destruct o; [congruence|discriminate]).
  assert (o' <> []) as Ho' by (destruct o'; [destruct o; [congruence|discriminate]|discriminate]).
  destruct (C70_lifting_SE3 T (gm_layer M) cin cout s (Z.to_nat groups) [st; st; st] padding [dl; dl; dl] m bias mode pm mask grid weight X' Y1 N d1 h1 w1 (map (mul3 G0) o) o' f
    Hcon Hw HX2 Hno Ho' HR E1) as (Y' & E' & R').
  exists Y'. split; [exact E'|]. rewrite map_length, EL in R'. destruct (turn_of_pair 3 sp f (List.length o) Y Y1 Y' M2 R' Hp) as (N2 & C2 & s2 & s2' & T2).
  exists N2, C2, s2, s2'. auto.
Qed.
Lemma ready_equi_SE3 (g : M3) (Hsg : signed3 g) (Hdet : det3 g = 1) sp b rs X H : let G0 := g in
  (forall rel X X', carried3 rel (g) X X' <-> carried_sp 3 sp rel X X') ->
  ready_SE3 b rs X H -> block_equi SEn 3 mul3 G0 sp b rs X H.
Proof.
  intros G0 Hiff HR. destruct b as [M w out|M wH w out|s|s| |slope|erf a]; cbn [ready_SE3 block_equi] in *; try exact I.
  - destruct HR as (A & B). apply conv_equi_SE3; assumption.
  - destruct HR as (A & B & C). apply separable_equi_SE3; assumption.
Qed.

(** ** E2 *)
Lemma ctor_lifting_E2 T cin cout s groups st padding dl pmode permute bias mode pm mask gks given grid M :
  grid = (match given with Some g => g | None => o2_uniform_grid (pair_rot gks) (pair_ref gks) end) -> lifting_E2 T cin cout s groups st padding dl pmode permute bias mode pm mask gks given = Ok M -> usable 2 s st dl cin cout padding bias ->
  exists m, padmode_of pmode = Some m /\ kernel_grid M = grid /\ gm_permute M = permute /\
    constructed 2 (gm_layer M) cin cout [s; s] (lifting_kernel_E2 T cin cout s (Z.to_nat groups) (pair_rot gks) (pair_ref gks) mode pm mask grid) (Z.to_nat groups) [st; st] padding [dl; dl] m bias.
Proof.
  intros Hgr EM HU. subst grid. destruct (C69_lifting_E2 T cin cout s groups st padding dl pmode permute bias mode pm mask gks given) as (A & B & Eg & _).
  destruct (classic (valid_config (pair_gks gks) cin cout groups padding [st; st] pmode)) as [Hok|Hok]; [|destruct (B Hok) as (e & Ee & _); congruence].
  destruct (A Hok) as (L & E & Ek & Hc). rewrite EM in E. injection E as ->. destruct (Hc HU) as (m & Hm & Hcon). exists m. split; [assumption|].
  split; [unfold kernel_grid; cbn [gm_layer]; rewrite Ek; exact Eg|]. split; [reflexivity|]. exact Hcon.
Qed.
Lemma ctor_group_E2 T cin cout s groups st padding dl pmode permute bias mode pm mask gks gmode rot ref given grid M :
  grid = (match given with Some g => g | None => o2_uniform_grid (pair_rot gks) (pair_ref gks) end) -> group_E2 T cin cout s groups st padding dl pmode permute bias mode pm mask gks gmode rot ref given = Ok M -> usable 2 s st dl cin cout padding bias ->
  exists k m, kernel_E2 T cin cout s (Z.to_nat groups) (pair_rot gks) (pair_ref gks) gmode rot ref mode pm mask grid = Ok k /\ padmode_of pmode = Some m /\ kernel_grid M = grid /\ gm_permute M = permute /\
    constructed 2 (gm_layer M) cin cout [s; s] k (Z.to_nat groups) [st; st] padding [dl; dl] m bias.
Proof.
  intros Hgr EM HU. subst grid. destruct (C69_group_E2 T cin cout s groups st padding dl pmode permute bias mode pm mask gks gmode rot ref given) as (A & B & C). cbv zeta in A, B, C.
  match type of A with ?den -> _ => destruct (classic den) as [Hd|Hd]; [|rewrite (C Hd) in EM; discriminate] end.
  destruct (classic (valid_config (pair_gks gks) cin cout groups padding [st; st] pmode)) as [Hok|Hok]; [|destruct (B Hd Hok) as (e & Ee & _); congruence].
  destruct (A Hd Hok) as (k & Hk & (L & E & Ek & Hc) & Eg & _). rewrite EM in E. injection E as ->. destruct (Hc HU) as (m & Hm & Hcon). exists k, m.
  split; [exact Hk|]. split; [assumption|]. split; [unfold kernel_grid; cbn [gm_layer]; rewrite Ek; exact Eg|]. split; [reflexivity|]. exact Hcon.
Qed.

Lemma conv_equi_E2 (q : Z) sp M weight X H o : let G0 := (mkO2 1 (IZR q * (PI / 2))) in
  (forall rel X X', carried2 rel (o2_acting_matrix (mkO2 1 (IZR q * (PI / 2)))) X X' <-> carried_sp 2 sp rel X X') ->
  ready_conv_E2 M weight X -> o <> [] -> Forall o2_wf (H ++ o) ->
  fwd_equi 2 o2_left_apply_angle G0 sp (full_forward (gm_layer M) weight) X H o.
Proof.
  intros G0 Hiff (T & cin & cout & s & groups & st & padding & dl & pmode & permute & bias & mode & pm & mask & gks & gmode & rot & ref & given & grid & lp & N & n_in & h & w & Hgr & EM & HU & Hs & Hpad & Hw & HX & Hcov) Ho Hwfs. apply Forall_app in Hwfs; destruct Hwfs as [Hwi Hwo]. 
  destruct (ctor_group_E2 T cin cout s groups st padding dl pmode permute bias mode pm mask gks gmode rot ref given grid M Hgr EM HU) as (k & m & Hk & Hm & _ & _ & Hcon).
  apply fwd_equi_intro; [exact Ho|]. intros Y Z u u' Lu Lu' HM (N1 & C1 & HX1 & HZ) E.
  pose proof (proj1 HX1) as Q. rewrite (proj1 HX) in Q. injection Q as <- <- -> <-. clear HX1.
  destruct (len2 u' Lu') as (h1 & w1 & ->).
  assert (carried2 (fun _ v v' => v' = 1 * v) (o2_acting_matrix (mkO2 1 (IZR q * (PI / 2)))) X Z) as HM2. { apply Hiff. revert HM. apply carried_sp_impl. unfold eqrel. intros pre v v' ->. ring. }
    assert (forall l, Forall o2_wf l -> Forall o2_wf (map (o2_left_apply_angle G0) l)) as Kwf.
    { intros l Hl. apply Forall_map. eapply Forall_impl; [|exact Hl]. intros a Ha. unfold o2_wf, o2_left_apply_angle, G0 in *. cbn [o2c]. destruct Ha as [->| ->]; [left|right]; ring. }
    pose proof (Kwf _ Hwi) as Hwi'. pose proof (Kwf _ Hwo) as Hwo'.
  destruct (C51_group_E2 T (gm_layer M) k cin cout s (Z.to_nat groups) st padding dl m bias lp (pair_rot gks) (pair_ref gks) gmode rot ref mode pm mask grid weight X Z Y N h w H o 1 q 1 Hk Hcon Hs Hpad Hw Ho Hwi Hwo HX Hcov (or_introl eq_refl) HM2 E) as (Y1 & E1 & M1).
  exists Y1. split; [exact E1|]. split; [apply Hiff in M1; revert M1; apply carried_sp_impl; unfold eqrel; intros pre v v' Q; lra|].
  intros X' H' f fo o' Ho' HR EL ELi Hpf HRi HXX.
  assert (map (o2_left_apply_angle G0) o <> []) as Hno by (destruct o; [congruence|discriminate]).
  
  exact (C70_group_E2 T (gm_layer M) k cin cout s (Z.to_nat groups) [st; st] padding [dl; dl] m bias (pair_rot gks) (pair_ref gks) gmode rot ref mode pm mask grid weight Z X' Y1 N h1 w1 (map (o2_left_apply_angle G0) H) H' (map (o2_left_apply_angle G0) o) o' f fo Hk Hcon Hw Hwi' Hwo' Hno Ho' HR ELi Hpf HRi HZ HXX E1).
Qed.
Lemma separable_equi_E2 (q : Z) sp M weight_H weight X H o : let G0 := (mkO2 1 (IZR q * (PI / 2))) in
  (forall rel X X', carried2 rel (o2_acting_matrix (mkO2 1 (IZR q * (PI / 2)))) X X' <-> carried_sp 2 sp rel X X') ->
  ready_separable_E2 M weight_H weight X -> o <> [] -> List.length o = List.length H -> Forall o2_wf (H ++ o) ->
  fwd_equi 2 o2_left_apply_angle G0 sp (separable_forward (gm_layer M) weight_H weight) X H o.
Proof.
  intros G0 Hiff (T & cin & cout & s & groups & st & padding & dl & pmode & permute & bias & mode & pm & mask & gks & gmode & rot & ref & given & grid & m & lp & N & n_in & h & w & Hgr & EM & HU & Hs & Hpm & Hpad & HwH & Hw & HX & Hcov1 & Hcov2) Ho Hlen Hwfs. apply Forall_app in Hwfs; destruct Hwfs as [Hwi Hwo]. 
  destruct (ctor_group_E2 T cin cout s groups st padding dl pmode permute bias mode pm mask gks gmode rot ref given grid M Hgr EM HU) as (k & m2 & Hk & Hm & _ & _ & Hcon). rewrite Hpm in Hm. injection Hm as <-.
  apply fwd_equi_intro; [exact Ho|]. intros Y Z u u' Lu Lu' HM (N1 & C1 & HX1 & HZ) E.
  pose proof (proj1 HX1) as Q. rewrite (proj1 HX) in Q. injection Q as <- <- -> <-. clear HX1.
  destruct (len2 u' Lu') as (h1 & w1 & ->).
  assert (carried2 (fun _ v v' => v' = 1 * v) (o2_acting_matrix (mkO2 1 (IZR q * (PI / 2)))) X Z) as HM2. { apply Hiff. revert HM. apply carried_sp_impl. unfold eqrel. intros pre v v' ->. ring. }
    assert (forall l, Forall o2_wf l -> Forall o2_wf (map (o2_left_apply_angle G0) l)) as Kwf.
    { intros l Hl. apply Forall_map. eapply Forall_impl; [|exact Hl]. intros a Ha. unfold o2_wf, o2_left_apply_angle, G0 in *. cbn [o2c]. destruct Ha as [->| ->]; [left|right]; ring. }
    pose proof (Kwf _ Hwi) as Hwi'. pose proof (Kwf _ Hwo) as Hwo'.
  destruct (C51_separable_E2 T (gm_layer M) k cin cout s (Z.to_nat groups) st padding dl m bias lp (pair_rot gks) (pair_ref gks) gmode rot ref mode pm mask grid weight_H weight X Z Y N h w H o 1 q 1 Hk Hcon Hs Hpad HwH Hw Ho Hwi Hwo HX Hcov1 Hcov2 (or_introl eq_refl) HM2 E) as (Y1 & E1 & M1).
  exists Y1. split; [exact E1|]. split; [apply Hiff in M1; revert M1; apply carried_sp_impl; unfold eqrel; intros pre v v' Q; lra|].
  intros X' H' f fo o' Ho' HR EL ELi Hpf HRi HXX.
  assert (map (o2_left_apply_angle G0) o <> []) as Hno by (destruct o; [congruence|discriminate]).
  assert (List.length (map (o2_left_apply_angle G0) o) = List.length (map (o2_left_apply_angle G0) H)) as Hlen1 by (rewrite !map_length; exact Hlen). assert (List.length o' = List.length H') as Hlen2 by congruence.
  exact (C70_separable_E2 T (gm_layer M) k cin cout s (Z.to_nat groups) [st; st] padding [dl; dl] m bias (pair_rot gks) (pair_ref gks) gmode rot ref mode pm mask grid weight_H weight Z X' Y1 N h1 w1 (map (o2_left_apply_angle G0) H) H' (map (o2_left_apply_angle G0) o) o' f fo Hk Hcon HwH Hw Hwi' Hwo' Hno HR ELi Hpf HRi Hlen1 Hlen2 HZ HXX E1).
Qed.
Lemma lifting_equi_E2 (q : Z) sp M weight X X' o o' f Y : let G0 := (mkO2 1 (IZR q * (PI / 2))) in
  (forall rel X X', carried2 rel (o2_acting_matrix (mkO2 1 (IZR q * (PI / 2)))) X X' <-> carried_sp 2 sp rel X X') ->
  ready_lifting_E2 M weight X -> o <> [] -> moved2 (o2_acting_matrix (mkO2 1 (IZR q * (PI / 2)))) X X' ->
  lifting_forward (gm_layer M) weight X o = Ok (Y, o) ->
  List.length o' = List.length o -> permutes (List.length o) f -> regrid f (map (o2_left_apply_angle G0) o) o' ->
  exists Y', lifting_forward (gm_layer M) weight X' o' = Ok (Y', o') /\ same_by 2 o2_left_apply_angle G0 sp f Y o Y' o'.
Proof.
  intros G0 Hiff (T & cin & cout & s & groups & st & padding & dl & pmode & permute & bias & mode & pm & mask & gks & given & grid & lp & N & h & w & Hgr & EM & HU & Hs & Hpad & Hw & HX & Hcov) Ho HM E EL Hp HR.
  destruct (ctor_lifting_E2 T cin cout s groups st padding dl pmode permute bias mode pm mask gks given grid M Hgr EM HU) as (m & Hm & _ & _ & Hcon).
  destruct (C51_lifting_E2 T (gm_layer M) cin cout s (Z.to_nat groups) st padding dl m bias lp (pair_rot gks) (pair_ref gks) mode pm mask grid weight X X' Y N h w o 1 q Hcon Hs Hpad Hw Ho HX Hcov (or_introl eq_refl) HM E) as (Y1 & E1 & M1).
  assert (carried_sp 2 sp eqrel Y Y1) as M2. { apply Hiff in M1. revert M1. apply carried_sp_impl. unfold eqrel. intros pre v v' Q. lra. }
  assert (exists h1 w1, has_shape X' (N :: cin :: [h1; w1])) as (h1 & w1 & HX2).
  { pose proof (proj1 (Hiff _ _ _) HM) as HM2. destruct (carried_sp_inv 2 sp _ X X' [N; cin] [h; w] HM2 HX eq_refl) as (s1 & HX2 & [Ls1 _] & _).
    destruct (len2 s1 Ls1) as (h1 & w1 & ->). exists h1, w1. exact HX2. }
  assert (map (o2_left_apply_angle G0) o <> []) as Hno by (destruct o; [congruence|discriminate]).
  assert (o' <> []) as Ho' by (destruct o'; [destruct o; [congruence|discriminate]|discriminate]).
  destruct (C70_lifting_E2 T (gm_layer M) cin cout s (Z.to_nat groups) [st; st] padding [dl; dl] m bias (pair_rot gks) (pair_ref gks) mode pm mask grid weight X' Y1 N h1 w1 (map (o2_left_apply_angle G0) o) o' f
    Hcon Hw HX2 Hno Ho' HR E1) as (Y' & E' & R').
  exists Y'. split; [exact E'|]. rewrite map_length, EL in R'. destruct (turn_of_pair 2 sp f (List.length o) Y Y1 Y' M2 R' Hp) as (N2 & C2 & s2 & s2' & T2).
  exists N2, C2, s2, s2'. auto.
Qed.
Lemma ready_equi_E2 (q : Z) sp b rs X H : let G0 := (mkO2 1 (IZR q * (PI / 2))) in
  (forall rel X X', carried2 rel (o2_acting_matrix (mkO2 1 (IZR q * (PI / 2)))) X X' <-> carried_sp 2 sp rel X X') ->
  ready_E2 b rs X H -> block_equi En 2 o2_left_apply_angle G0 sp b rs X H.
Proof.
  intros G0 Hiff HR. destruct b as [M w out|M wH w out|s|s| |slope|erf a]; cbn [ready_E2 block_equi] in *; try exact I.
  - destruct HR as (A & B & C). apply conv_equi_E2; assumption.
  - destruct HR as (A & B & C & D). apply separable_equi_E2; assumption.
Qed.

(** ** E3 *)
Lemma ctor_lifting_E3 T cin cout s groups st padding dl pmode permute bias mode pm mask gks given default grid M :
  pick_grid given default = Ok grid -> lifting_E3 T cin cout s groups st padding dl pmode permute bias mode pm mask gks given default = Ok M -> usable 3 s st dl cin cout padding bias ->
  exists m, padmode_of pmode = Some m /\ kernel_grid M = grid /\ gm_permute M = permute /\
    constructed 3 (gm_layer M) cin cout [s; s; s] (lifting_kernel_E3 T cin cout s (Z.to_nat groups) (pair_rot gks) (pair_ref gks) mode pm mask grid) (Z.to_nat groups) [st; st; st] padding [dl; dl; dl] m bias.
Proof.
  intros Hgr EM HU. assert (given = Some grid \/ given = None /\ default = Ok grid) as Hg by (destruct given; cbn [pick_grid] in Hgr; [left; congruence|right; auto]). destruct (C69_lifting_E3 T cin cout s groups st padding dl pmode permute bias mode pm mask gks given default grid Hg) as (A & B & Eg & _).
  destruct (classic (valid_config (pair_gks gks) cin cout groups padding [st; st; st] pmode)) as [Hok|Hok]; [|destruct (B Hok) as (e & Ee & _); congruence].
  destruct (A Hok) as (L & E & Ek & Hc). rewrite EM in E. injection E as ->. destruct (Hc HU) as (m & Hm & Hcon). exists m. split; [assumption|].
  split; [unfold kernel_grid; cbn [gm_layer]; rewrite Ek; exact Eg|]. split; [reflexivity|]. exact Hcon.
Qed.
Lemma ctor_group_E3 T cin cout s groups st padding dl pmode permute bias mode pm mask gks gmode rot ref given default grid M :
  pick_grid given default = Ok grid -> group_E3 T cin cout s groups st padding dl pmode permute bias mode pm mask gks gmode rot ref given default = Ok M -> usable 3 s st dl cin cout padding bias ->
  exists k m, kernel_E3 T cin cout s (Z.to_nat groups) (pair_rot gks) (pair_ref gks) gmode rot ref mode pm mask grid = Ok k /\ padmode_of pmode = Some m /\ kernel_grid M = grid /\ gm_permute M = permute /\
    constructed 3 (gm_layer M) cin cout [s; s; s] k (Z.to_nat groups) [st; st; st] padding [dl; dl; dl] m bias.
Proof.
  intros Hgr EM HU. assert (given = Some grid \/ given = None /\ default = Ok grid) as Hg by (destruct given; cbn [pick_grid] in Hgr; [left; congruence|right; auto]). destruct (C69_group_E3 T cin cout s groups st padding dl pmode permute bias mode pm mask gks gmode rot ref given default grid Hg) as (A & B & C). cbv zeta in A, B, C.
  match type of A with ?den -> _ => destruct (classic den) as [Hd|Hd]; [|rewrite (C Hd) in EM; discriminate] end.
  destruct (classic (valid_config (pair_gks gks) cin cout groups padding [st; st; st] pmode)) as [Hok|Hok]; [|destruct (B Hd Hok) as (e & Ee & _); congruence].
  destruct (A Hd Hok) as (k & Hk & (L & E & Ek & Hc) & Eg & _). rewrite EM in E. injection E as ->. destruct (Hc HU) as (m & Hm & Hcon). exists k, m.
  split; [exact Hk|]. split; [assumption|]. split; [unfold kernel_grid; cbn [gm_layer]; rewrite Ek; exact Eg|]. split; [reflexivity|]. exact Hcon.
Qed.

Lemma conv_equi_E3 (g : O3) (Hwf : o3_wf g) (Hc1 : o3c g = 1) (Hsg : signed3 (o3_as_matrix g)) sp M weight X H o : let G0 := g in
  (forall rel X X', carried3 rel (o3_as_matrix g) X X' <-> carried_sp 3 sp rel X X') ->
  ready_conv_E3 M weight X -> o <> [] -> Forall o3_wf (H ++ o) ->
  fwd_equi 3 o3_left_apply_O3 G0 sp (full_forward (gm_layer M) weight) X H o.
Proof.
  intros G0 Hiff (T & cin & cout & s & groups & st & padding & dl & pmode & permute & bias & mode & pm & mask & gks & gmode & rot & ref & given & default & grid & lp & N & n_in & dd & h & w & Hgr & EM & HU & Hs & Hpad & Hw & HX & Hcov) Ho Hwfs. apply Forall_app in Hwfs; destruct Hwfs as [Hwi Hwo]. 
  destruct (ctor_group_E3 T cin cout s groups st padding dl pmode permute bias mode pm mask gks gmode rot ref given default grid M Hgr EM HU) as (k & m & Hk & Hm & _ & _ & Hcon).
  apply fwd_equi_intro; [exact Ho|]. intros Y Z u u' Lu Lu' HM (N1 & C1 & HX1 & HZ) E.
  pose proof (proj1 HX1) as Q. rewrite (proj1 HX) in Q. injection Q as <- <- -> <-. clear HX1.
  destruct (len3 u' Lu') as (d1 & h1 & w1 & ->).
  assert (carried3 (fun _ v v' => v' = 1 * v) (o3_as_matrix g) X Z) as HM2. { apply Hiff. revert HM. apply carried_sp_impl. unfold eqrel. intros pre v v' ->. ring. }
    assert (forall l, Forall o3_wf l -> Forall o3_wf (map (o3_left_apply_O3 G0) l)) as Kwf.
    { intros l Hl. apply Forall_map. eapply Forall_impl; [|exact Hl]. intros a Ha. apply o3_product_wf; assumption. }
    pose proof (Kwf _ Hwi) as Hwi'. pose proof (Kwf _ Hwo) as Hwo'.
  destruct (C51_group_E3 T (gm_layer M) k cin cout s (Z.to_nat groups) st padding dl m bias lp (pair_rot gks) (pair_ref gks) gmode rot ref mode pm mask grid weight X Z Y N dd h w H o g 1 Hk Hcon Hs Hpad Hw Ho Hwi Hwo HX Hcov Hwf Hsg HM2 E) as (Y1 & E1 & M1).
  exists Y1. split; [exact E1|]. split; [apply Hiff in M1; revert M1; apply carried_sp_impl; unfold eqrel; intros pre v v' Q; rewrite Hc1 in Q; lra|].
  intros X' H' f fo o' Ho' HR EL ELi Hpf HRi HXX.
  assert (map (o3_left_apply_O3 G0) o <> []) as Hno by (destruct o; [congruence|discriminate]).
  
  exact (C70_group_E3 T (gm_layer M) k cin cout s (Z.to_nat groups) [st; st; st] padding [dl; dl; dl] m bias (pair_rot gks) (pair_ref gks) gmode rot ref mode pm mask grid weight Z X' Y1 N d1 h1 w1 (map (o3_left_apply_O3 G0) H) H' (map (o3_left_apply_O3 G0) o) o' f fo Hk Hcon Hw Hwi' Hwo' Hno Ho' HR ELi Hpf HRi HZ HXX E1).
Qed.
Lemma separable_equi_E3 (g : O3) (Hwf : o3_wf g) (Hc1 : o3c g = 1) (Hsg : signed3 (o3_as_matrix g)) sp M weight_H weight X H o : let G0 := g in
  (forall rel X X', carried3 rel (o3_as_matrix g) X X' <-> carried_sp 3 sp rel X X') ->
  ready_separable_E3 M weight_H weight X -> o <> [] -> List.length o = List.length H -> Forall o3_wf (H ++ o) ->
  fwd_equi 3 o3_left_apply_O3 G0 sp (separable_forward (gm_layer M) weight_H weight) X H o.
Proof.
  intros G0 Hiff (T & cin & cout & s & groups & st & padding & dl & pmode & permute & bias & mode & pm & mask & gks & gmode & rot & ref & given & default & grid & m & lp & N & n_in & dd & h & w & Hgr & EM & HU & Hs & Hpm & Hpad & HwH & Hw & HX & Hcov1 & Hcov2) Ho Hlen Hwfs. apply Forall_app in Hwfs; destruct Hwfs as [Hwi Hwo]. 
  destruct (ctor_group_E3 T cin cout s groups st padding dl pmode permute bias mode pm mask gks gmode rot ref given default grid M Hgr EM HU) as (k & m2 & Hk & Hm & _ & _ & Hcon). rewrite Hpm in Hm. injection Hm as <-.
  apply fwd_equi_intro; [exact Ho|]. intros Y Z u u' Lu Lu' HM (N1 & C1 & HX1 & HZ) E.
  pose proof (proj1 HX1) as Q. rewrite (proj1 HX) in Q. injection Q as <- <- -> <-. clear HX1.
  destruct (len3 u' Lu') as (d1 & h1 & w1 & ->).
  assert (carried3 (fun _ v v' => v' = 1 * v) (o3_as_matrix g) X Z) as HM2. { apply Hiff. revert HM. apply carried_sp_impl. unfold eqrel. intros pre v v' ->. ring. }
    assert (forall l, Forall o3_wf l -> Forall o3_wf (map (o3_left_apply_O3 G0) l)) as Kwf.
    { intros l Hl. apply Forall_map. eapply Forall_impl; [|exact Hl]. intros a Ha. apply o3_product_wf; assumption. }
    pose proof (Kwf _ Hwi) as Hwi'. pose proof (Kwf _ Hwo) as Hwo'.
  destruct (C51_separable_E3 T (gm_layer M) k cin cout s (Z.to_nat groups) st padding dl m bias lp (pair_rot gks) (pair_ref gks) gmode rot ref mode pm mask grid weight_H weight X Z Y N dd h w H o g 1 Hk Hcon Hs Hpad HwH Hw Ho Hwi Hwo HX Hcov1 Hcov2 Hwf Hsg HM2 E) as (Y1 & E1 & M1).
  exists Y1. split; [exact E1|]. split; [apply Hiff in M1; revert M1; apply carried_sp_impl; unfold eqrel; intros pre v v' Q; rewrite Hc1 in Q; lra|].
  intros X' H' f fo o' Ho' HR EL ELi Hpf HRi HXX.
  assert (map (o3_left_apply_O3 G0) o <> []) as Hno by (destruct o; [congruence|discriminate]).
  assert (List.length (map (o3_left_apply_O3 G0) o) = List.length (map (o3_left_apply_O3 G0) H)) as Hlen1 by (rewrite !map_length; exact Hlen). assert (List.length o' = List.length H') as Hlen2 by congruence.
  exact (C70_separable_E3 T (gm_layer M) k cin cout s (Z.to_nat groups) [st; st; st] padding [dl; dl; dl] m bias (pair_rot gks) (pair_ref gks) gmode rot ref mode pm mask grid weight_H weight Z X' Y1 N d1 h1 w1 (map (o3_left_apply_O3 G0) H) H' (map (o3_left_apply_O3 G0) o) o' f fo Hk Hcon HwH Hw Hwi' Hwo' Hno HR ELi Hpf HRi Hlen1 Hlen2 HZ HXX E1).
Qed.
Lemma lifting_equi_E3 (g : O3) (Hwf : o3_wf g) (Hc1 : o3c g = 1) (Hsg : signed3 (o3_as_matrix g)) sp M weight X X' o o' f Y : let G0 := g in
  (forall rel X X', carried3 rel (o3_as_matrix g) X X' <-> carried_sp 3 sp rel X X') ->
  ready_lifting_E3 M weight X -> o <> [] -> moved3 (o3_as_matrix g) X X' ->
  lifting_forward (gm_layer M) weight X o = Ok (Y, o) ->
  List.length o' = List.length o -> permutes (List.length o) f -> regrid f (map (o3_left_apply_O3 G0) o) o' ->
  exists Y', lifting_forward (gm_layer M) weight X' o' = Ok (Y', o') /\ same_by 3 o3_left_apply_O3 G0 sp f Y o Y' o'.
Proof.
  intros G0 Hiff (T & cin & cout & s & groups & st & padding & dl & pmode & permute & bias & mode & pm & mask & gks & given & default & grid & lp & N & dd & h & w & Hgr & EM & HU & Hs & Hpad & Hw & HX & Hcov) Ho HM E EL Hp HR.
  destruct (ctor_lifting_E3 T cin cout s groups st padding dl pmode permute bias mode pm mask gks given default grid M Hgr EM HU) as (m & Hm & _ & _ & Hcon).
  destruct (C51_lifting_E3 T (gm_layer M) cin cout s (Z.to_nat groups) st padding dl m bias lp (pair_rot gks) (pair_ref gks) mode pm mask grid weight X X' Y N dd h w o g Hcon Hs Hpad Hw Ho HX Hcov Hwf Hsg HM E) as (Y1 & E1 & M1).
  assert (carried_sp 3 sp eqrel Y Y1) as M2. { apply Hiff in M1. revert M1. apply carried_sp_impl. unfold eqrel. intros pre v v' Q. rewrite Hc1 in Q. lra. }
  assert (exists d1 h1 w1, has_shape X' (N :: cin :: [d1; h1; w1])) as (d1 & h1 & w1 & HX2).
  { pose proof (proj1 (Hiff _ _ _) HM) as HM2. destruct (carried_sp_inv 3 sp _ X X' [N; cin] [dd; h; w] HM2 HX eq_refl) as (s1 & HX2 & [Ls1 _] & _).
    destruct (len3 s1 Ls1) as (d1 & h1 & w1 & ->). exists d1, h1, w1. exact HX2. }
  assert (map (o3_left_apply_O3 G0) o <> []) as Hno by (destruct o; [congruence|discriminate]).
  assert (o' <> []) as Ho' by (destruct o'; [destruct o; [congruence|discriminate]|discriminate]).
  destruct (C70_lifting_E3 T (gm_layer M) cin cout s (Z.to_nat groups) [st; st; st] padding [dl; dl; dl] m bias (pair_rot gks) (pair_ref gks) mode pm mask grid weight X' Y1 N d1 h1 w1 (map (o3_left_apply_O3 G0) o) o' f
    Hcon Hw HX2 Hno Ho' HR E1) as (Y' & E' & R').
  exists Y'. split; [exact E'|]. rewrite map_length, EL in R'. destruct (turn_of_pair 3 sp f (List.length o) Y Y1 Y' M2 R' Hp) as (N2 & C2 & s2 & s2' & T2).
  exists N2, C2, s2, s2'. auto.
Qed.
Lemma ready_equi_E3 (g : O3) (Hwf : o3_wf g) (Hc1 : o3c g = 1) (Hsg : signed3 (o3_as_matrix g)) sp b rs X H : let G0 := g in
  (forall rel X X', carried3 rel (o3_as_matrix g) X X' <-> carried_sp 3 sp rel X X') ->
  ready_E3 b rs X H -> block_equi En 3 o3_left_apply_O3 G0 sp b rs X H.
Proof.
  intros G0 Hiff HR. destruct b as [M w out|M wH w out|s|s| |slope|erf a]; cbn [ready_E3 block_equi] in *; try exact I.
  - destruct HR as (A & B & C). apply conv_equi_E3; assumption.
  - destruct HR as (A & B & C & D). apply separable_equi_E3; assumption.
Qed.

