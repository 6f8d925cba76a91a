(** Specification of what the network theorems suppose: which output grids the convolutions use, how the random draws of two runs
    correspond, and what is required of each call.  [forall]-conditions only; proved facts are in NetFacts.v and NetGroups.v. *)
From Coq Require Import String ZArith Permutation.
From Verif Require Import Prelude RMath Mat Interp SO2 O2 O2Facts SO3 O3 O3Facts Tensor Functional Kernel KernelFacts Conv ConvSpec ConvInit Equi EquiLayer EquiSpec
  Layers Public PublicFacts Network.
Open Scope R_scope.

Section Cond.
  Context {G P : Type} {D : Dflt P} (fam : family) (d : nat) (mul : G -> G -> G) (g : G).

  (** Where the output grid of a convolution comes from. *)
  Definition base_grid (M : gmodule G P) (out : option (list G)) (H : list G) : list G :=
    or_else out (match fam with SEn => H | En => kernel_grid M end).
  Definition out_grid (M : gmodule G P) (out : option (list G)) (rs H : list G) : list G := permuted M mul rs (base_grid M out H).

  (** The draw r' of the second run for the draw r of the first. *)
  Definition partner_draw (M : gmodule G P) (out : option (list G)) (rs rs' : list G) : Prop :=
    let from_input := match out, fam with None, SEn => true | _, _ => false end in
    if gm_permute M then
      exists r r', rs = [r] /\ rs' = [r'] /\
        if from_input then forall x, mul r' (mul g x) = mul g (mul r x)
        else forall x, In x (base_grid M out []) -> mul r' x = mul g (mul r x)
    else if from_input then True else Permutation (map (mul g) (base_grid M out [])) (base_grid M out []).

  (** The same for the lifting convolution, whose grid never comes from the input. *)
  Definition partner_lifting (M : gmodule G P) (K : option (list G)) (rs rs' : list G) : Prop :=
    let grid := or_else K (kernel_grid M) in
    if gm_permute M then exists r r', rs = [r] /\ rs' = [r'] /\ forall x, In x grid -> mul r' x = mul g (mul r x)
    else Permutation (map (mul g) grid) grid.

  (** The same for any module. *)
  Definition partner (b : block G P) (rs rs' : list G) : Prop :=
    match b with
    | BConv M _ out | BSeparable M _ _ out => partner_draw M out rs rs'
    | _ => True
    end.

  (** Kinds of modules. *)
  Definition default_grid (b : block G P) : Prop := match b with BConv _ _ out | BSeparable _ _ _ out => out = None | _ => True end.
  Definition permuting (b : block G P) : Prop := match b with BConv M _ _ | BSeparable M _ _ _ => gm_permute M = true | _ => True end.
  Definition not_permuting (b : block G P) : Prop := match b with BConv M _ _ | BSeparable M _ _ _ => gm_permute M = false | _ => True end.

  (** Two runs of the same modules with corresponding draws. *)
  Definition partners (prog prog' : list (block G P * list G)) : Prop :=
    Forall2 (fun p p' => fst p' = fst p /\ partner (fst p) (snd p) (snd p')) prog prog'.

  (** A condition on every call made during a run. *)
  Fixpoint throughout (ok : block G P -> list G -> tensor R -> list G -> Prop) (prog : list (block G P * list G)) (X : tensor R) (H : list G) : Prop :=
    match prog with
    | [] => True
    | (b, rs) :: rest => ok b rs X H /\ forall Y H1 b1, step fam d mul b rs X H = Ok (Y, H1, b1) -> throughout ok rest Y H1
    end.


  (** The same during a run of a whole network. *)
  Definition network_ok (ok : block G P -> list G -> tensor R -> list G -> Prop) (M : gmodule G P) (weight : tensor R) (rs : list G) (K : option (list G))
    (prog : list (block G P * list G)) (X : tensor R) : Prop :=
    or_else K (kernel_grid M) <> [] /\ forall Y H, lifting_call M mul rs weight X K = Ok (Y, H) -> throughout ok prog Y H.
End Cond.

(** ** SE2 *)
(** What is required of a call: M came out of the class's constructor with positive sizes, a kernel of size at least 2, symmetric
    padding; parameters and input have the shapes the layer expects; the stride does not cut off part of the image. *)
Definition ready_lifting_SE2 (M : gmodule R V2) (weight X : tensor R) : Prop :=
  exists T cin cout s groups st padding dl pmode permute bias mode pm mask n given grid lp N h w,
    grid = (match given with Some g => g | None => so2_uniform_grid n end) /\ lifting_SE2 T cin cout s groups st padding dl pmode permute bias mode pm mask n given = Ok M /\ usable 2 s st dl cin cout padding bias /\ (2 <= s)%nat /\ padded_by 2 padding s dl lp /\
    has_shape weight [cout; cin / Z.to_nat groups; s; s]%nat /\ has_shape X (N :: cin :: [h; w]) /\ covered 2 s st dl lp [h; w].
Definition ready_conv_SE2 (M : gmodule R V2) (weight X : tensor R) : Prop :=
  exists T cin cout s groups st padding dl pmode permute bias mode pm mask n gmode width given grid lp N n_in h w,
    grid = (match given with Some g => g | None => so2_uniform_grid n end) /\ group_SE2 T cin cout s groups st padding dl pmode permute bias mode pm mask n gmode width given = Ok M /\ usable 2 s st dl cin cout padding bias /\ (2 <= s)%nat /\ padded_by 2 padding s dl lp /\
    has_shape weight [List.length grid; cout; cin / Z.to_nat groups; s; s]%nat /\ has_shape X (N :: cin :: n_in :: [h; w]) /\ covered 2 s st dl lp [h; w].
Definition ready_separable_SE2 (M : gmodule R V2) (weight_H weight X : tensor R) : Prop :=
  exists T cin cout s groups st padding dl pmode permute bias mode pm mask n gmode width given grid m lp N n_in h w,
    grid = (match given with Some g => g | None => so2_uniform_grid n end) /\ group_SE2 T cin cout s groups st padding dl pmode permute bias mode pm mask n gmode width given = Ok M /\ usable 2 s st dl cin cout padding bias /\ (2 <= s)%nat /\ padmode_of pmode = Some m /\ padded_by 2 padding s dl lp /\
    has_shape weight_H [List.length grid; cout; cin / Z.to_nat groups]%nat /\ has_shape weight [cout; 1; s; s]%nat /\
    has_shape X (N :: cin :: n_in :: [h; w]) /\ covered 2 1 st dl (first_pad m padding lp) [h; w] /\
    covered 2 s st dl lp (usize 2 1 st dl (first_pad m padding lp) [h; w]).
Definition ready_SE2 (b : block R V2) (rs : list R) (X : tensor R) (H : list R) : Prop :=
  match b with
  | BConv M w out => ready_conv_SE2 M w X /\ out_grid SEn so2_left_apply_angle M out rs H <> []
  | BSeparable M wH w out => ready_separable_SE2 M wH w X /\ out_grid SEn so2_left_apply_angle M out rs H <> [] /\
      List.length (out_grid SEn so2_left_apply_angle M out rs H) = List.length H
  | _ => True
  end.


(** ** SE3 *)
(** What is required of a call: M came out of the class's constructor with positive sizes, a kernel of size at least 2, symmetric
    padding; parameters and input have the shapes the layer expects; the stride does not cut off part of the image. *)
Definition ready_lifting_SE3 (M : gmodule M3 V3) (weight X : tensor R) : Prop :=
  exists T cin cout s groups st padding dl pmode permute bias mode pm mask n given default grid lp N dd h w,
    pick_grid given default = Ok grid /\ lifting_SE3 T cin cout s groups st padding dl pmode permute bias mode pm mask n given default = Ok M /\ usable 3 s st dl cin cout padding bias /\ (2 <= s)%nat /\ padded_by 3 padding s dl lp /\
    has_shape weight [cout; cin / Z.to_nat groups; s; s; s]%nat /\ has_shape X (N :: cin :: [dd; h; w]) /\ covered 3 s st dl lp [dd; h; w].
Definition ready_conv_SE3 (M : gmodule M3 V3) (weight X : tensor R) : Prop :=
  exists T cin cout s groups st padding dl pmode permute bias mode pm mask n gmode width given default grid lp N n_in dd h w,
    pick_grid given default = Ok grid /\ group_SE3 T cin cout s groups st padding dl pmode permute bias mode pm mask n gmode width given default = Ok M /\ usable 3 s st dl cin cout padding bias /\ (2 <= s)%nat /\ padded_by 3 padding s dl lp /\
    has_shape weight [List.length grid; cout; cin / Z.to_nat groups; s; s; s]%nat /\ has_shape X (N :: cin :: n_in :: [dd; h; w]) /\ covered 3 s st dl lp [dd; h; w].
Definition ready_separable_SE3 (M : gmodule M3 V3) (weight_H weight X : tensor R) : Prop :=
  exists T cin cout s groups st padding dl pmode permute bias mode pm mask n gmode width given default grid m lp N n_in dd h w,
    pick_grid given default = Ok grid /\ group_SE3 T cin cout s groups st padding dl pmode permute bias mode pm mask n gmode width given default = Ok M /\ usable 3 s st dl cin cout padding bias /\ (2 <= s)%nat /\ padmode_of pmode = Some m /\ padded_by 3 padding s dl lp /\
    has_shape weight_H [List.length grid; cout; cin / Z.to_nat groups]%nat /\ has_shape weight [cout; 1; s; s; s]%nat /\
    has_shape X (N :: cin :: n_in :: [dd; h; w]) /\ covered 3 1 st dl (first_pad m padding lp) [dd; h; w] /\
    covered 3 s st dl lp (usize 3 1 st dl (first_pad m padding lp) [dd; h; w]).
Definition ready_SE3 (b : block M3 V3) (rs : list M3) (X : tensor R) (H : list M3) : Prop :=
  match b with
  | BConv M w out => ready_conv_SE3 M w X /\ out_grid SEn mul3 M out rs H <> []
  | BSeparable M wH w out => ready_separable_SE3 M wH w X /\ out_grid SEn mul3 M out rs H <> [] /\
      List.length (out_grid SEn mul3 M out rs H) = List.length H
  | _ => True
  end.


(** ** E2 *)
(** What is required of a call: M came out of the class's constructor with positive sizes, a kernel of size at least 2, symmetric
    padding; parameters and input have the shapes the layer expects; the stride does not cut off part of the image. *)
Definition ready_lifting_E2 (M : gmodule O2 V2) (weight X : tensor R) : Prop :=
  exists T cin cout s groups st padding dl pmode permute bias mode pm mask gks given grid lp N h w,
    grid = (match given with Some g => g | None => o2_uniform_grid (pair_rot gks) (pair_ref gks) end) /\ lifting_E2 T cin cout s groups st padding dl pmode permute bias mode pm mask gks given = Ok M /\ usable 2 s st dl cin cout padding bias /\ (2 <= s)%nat /\ padded_by 2 padding s dl lp /\
    has_shape weight [cout; cin / Z.to_nat groups; s; s]%nat /\ has_shape X (N :: cin :: [h; w]) /\ covered 2 s st dl lp [h; w].
Definition ready_conv_E2 (M : gmodule O2 V2) (weight X : tensor R) : Prop :=
  exists T cin cout s groups st padding dl pmode permute bias mode pm mask gks gmode rot ref given grid lp N n_in h w,
    grid = (match given with Some g => g | None => o2_uniform_grid (pair_rot gks) (pair_ref gks) end) /\ group_E2 T cin cout s groups st padding dl pmode permute bias mode pm mask gks gmode rot ref given = Ok M /\ usable 2 s st dl cin cout padding bias /\ (2 <= s)%nat /\ padded_by 2 padding s dl lp /\
    has_shape weight [pair_rot gks + pair_ref gks; cout; cin / Z.to_nat groups; s; s]%nat /\ has_shape X (N :: cin :: n_in :: [h; w]) /\ covered 2 s st dl lp [h; w].
Definition ready_separable_E2 (M : gmodule O2 V2) (weight_H weight X : tensor R) : Prop :=
  exists T cin cout s groups st padding dl pmode permute bias mode pm mask gks gmode rot ref given grid m lp N n_in h w,
    grid = (match given with Some g => g | None => o2_uniform_grid (pair_rot gks) (pair_ref gks) end) /\ group_E2 T cin cout s groups st padding dl pmode permute bias mode pm mask gks gmode rot ref given = Ok M /\ usable 2 s st dl cin cout padding bias /\ (2 <= s)%nat /\ padmode_of pmode = Some m /\ padded_by 2 padding s dl lp /\
    has_shape weight_H [pair_rot gks + pair_ref gks; cout; cin / Z.to_nat groups]%nat /\ has_shape weight [cout; 1; s; s]%nat /\
    has_shape X (N :: cin :: n_in :: [h; w]) /\ covered 2 1 st dl (first_pad m padding lp) [h; w] /\
    covered 2 s st dl lp (usize 2 1 st dl (first_pad m padding lp) [h; w]).
Definition ready_E2 (b : block O2 V2) (rs : list O2) (X : tensor R) (H : list O2) : Prop :=
  match b with
  | BConv M w out => ready_conv_E2 M w X /\ out_grid En o2_left_apply_angle M out rs H <> [] /\ Forall o2_wf (H ++ out_grid En o2_left_apply_angle M out rs H)
  | BSeparable M wH w out => ready_separable_E2 M wH w X /\ out_grid En o2_left_apply_angle M out rs H <> [] /\
      List.length (out_grid En o2_left_apply_angle M out rs H) = List.length H /\ Forall o2_wf (H ++ out_grid En o2_left_apply_angle M out rs H)
  | _ => True
  end.


(** ** E3 *)
(** What is required of a call: M came out of the class's constructor with positive sizes, a kernel of size at least 2, symmetric
    padding; parameters and input have the shapes the layer expects; the stride does not cut off part of the image. *)
Definition ready_lifting_E3 (M : gmodule O3 V3) (weight X : tensor R) : Prop :=
  exists T cin cout s groups st padding dl pmode permute bias mode pm mask gks given default grid lp N dd h w,
    pick_grid given default = Ok grid /\ lifting_E3 T cin cout s groups st padding dl pmode permute bias mode pm mask gks given default = Ok M /\ usable 3 s st dl cin cout padding bias /\ (2 <= s)%nat /\ padded_by 3 padding s dl lp /\
    has_shape weight [cout; cin / Z.to_nat groups; s; s; s]%nat /\ has_shape X (N :: cin :: [dd; h; w]) /\ covered 3 s st dl lp [dd; h; w].
Definition ready_conv_E3 (M : gmodule O3 V3) (weight X : tensor R) : Prop :=
  exists T cin cout s groups st padding dl pmode permute bias mode pm mask gks gmode rot ref given default grid lp N n_in dd h w,
    pick_grid given default = Ok grid /\ group_E3 T cin cout s groups st padding dl pmode permute bias mode pm mask gks gmode rot ref given default = Ok M /\ usable 3 s st dl cin cout padding bias /\ (2 <= s)%nat /\ padded_by 3 padding s dl lp /\
    has_shape weight [pair_rot gks + pair_ref gks; cout; cin / Z.to_nat groups; s; s; s]%nat /\ has_shape X (N :: cin :: n_in :: [dd; h; w]) /\ covered 3 s st dl lp [dd; h; w].
Definition ready_separable_E3 (M : gmodule O3 V3) (weight_H weight X : tensor R) : Prop :=
  exists T cin cout s groups st padding dl pmode permute bias mode pm mask gks gmode rot ref given default grid m lp N n_in dd h w,
    pick_grid given default = Ok grid /\ group_E3 T cin cout s groups st padding dl pmode permute bias mode pm mask gks gmode rot ref given default = Ok M /\ usable 3 s st dl cin cout padding bias /\ (2 <= s)%nat /\ padmode_of pmode = Some m /\ padded_by 3 padding s dl lp /\
    has_shape weight_H [pair_rot gks + pair_ref gks; cout; cin / Z.to_nat groups]%nat /\ has_shape weight [cout; 1; s; s; s]%nat /\
    has_shape X (N :: cin :: n_in :: [dd; h; w]) /\ covered 3 1 st dl (first_pad m padding lp) [dd; h; w] /\
    covered 3 s st dl lp (usize 3 1 st dl (first_pad m padding lp) [dd; h; w]).
Definition ready_E3 (b : block O3 V3) (rs : list O3) (X : tensor R) (H : list O3) : Prop :=
  match b with
  | BConv M w out => ready_conv_E3 M w X /\ out_grid En o3_left_apply_O3 M out rs H <> [] /\ Forall o3_wf (H ++ out_grid En o3_left_apply_O3 M out rs H)
  | BSeparable M wH w out => ready_separable_E3 M wH w X /\ out_grid En o3_left_apply_O3 M out rs H <> [] /\
      List.length (out_grid En o3_left_apply_O3 M out rs H) = List.length H /\ Forall o3_wf (H ++ out_grid En o3_left_apply_O3 M out rs H)
  | _ => True
  end.

