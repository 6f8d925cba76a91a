(** What C94 claims of a class of layers: saving, loading and sharing.

    A program makes layers, loads files into them, updates their parameters, makes and overwrites tensors (Saving.v). A class of layers is
    given by its constructor, by what its forwards do with the output grid (fam, mul) and by the shape of its grids (edim, d). *)
From Coq Require Import String ZArith.
From Verif Require Import Prelude RMath Mat Interp SO2 O2 O3 Tensor Functional Kernel Conv Public Network Saving.
Open Scope R_scope.

Section Claims.
  Context {G P : Type} {D : Dflt P}.
  Context (fam : family) (mul : G -> G -> G) (edim d : nat) (make : kind -> sargs -> list G -> (list nat -> R) -> result (gmodule G P)).
  Definition program := list (@action G P).
  (** The memory and the layers after a program. *)
  Definition memory (acts : program) : heap := p_heap (execute edim d make acts).
  Definition layers (acts : program) : list object := p_layers (execute edim d make acts).
  (** The contents of a tensor. *)
  Definition contents (s : @heap G P) (l : nat) : gtens G P := nth l s (GGrid []).
  (** The grid the layer was constructed with. *)
  Definition built_with (y : @object G P) : list G := kernel_grid (o_attr y).

  (** A file of a layer, loaded into a layer made with the same arguments and a grid of the same length, in any other program: the load does not
      raise, every entry then holds the saved value, and, under a condition [same] on the two construction grids, every call gives the same
      result or error as on the saved layer. *)
  Definition restores (same : kind -> sargs -> list G -> list G -> Prop) : Prop := forall acts0 y0 acts y,
    In y0 (layers acts0) -> In y (layers acts) -> o_kind y = o_kind y0 -> o_args y = o_args y0 ->
    List.length (built_with y) = List.length (built_with y0) ->
    exists s', load edim d (memory acts) y (stored (memory acts0) y0) = (s', Ok tt) /\ stored s' y = stored (memory acts0) y0 /\
      (same (o_kind y) (o_args y) (built_with y) (built_with y0) ->
       forall rs X in_H H, answer fam mul s' y rs X in_H H = answer fam mul (memory acts0) y0 rs X in_H H).

  (** A layer restored from a file it was saved to earlier in the same program. *)
  Definition rolls_back : Prop := forall acts more y, In y (layers acts) ->
    exists s', load edim d (memory (acts ++ more)) y (stored (memory acts) y) = (s', Ok tt) /\ stored s' y = stored (memory acts) y /\
      forall rs X in_H H, answer fam mul s' y rs X in_H H = answer fam mul (memory acts) y rs X in_H H.

  (** Any file, well-formed or not: an entry of the layer whose name is in the file with the same shape takes the value of the file, even when
      the load raises; every other tensor is unchanged; the load raises (RuntimeError) exactly if an entry is missing or has another shape or
      the file has a name the layer does not have. *)
  Definition loads_entrywise : Prop := forall acts y f s' r, In y (layers acts) -> load edim d (memory acts) y f = (s', r) ->
    (forall k l, In (k, l) (dict y) -> contents s' l =
       match find_key k f with
       | Some t => if fits_into edim d (contents (memory acts) l) t then t else contents (memory acts) l
       | None => contents (memory acts) l
       end) /\
    (forall l, ~ In l (map snd (dict y)) -> contents s' l = contents (memory acts) l) /\
    (r = Ok tt \/ r = Err RuntimeError) /\
    (r = Ok tt <->
      (forall k l, In (k, l) (dict y) -> exists t, find_key k f = Some t /\
         same_sort (contents (memory acts) l) t = true /\ gshape edim d (contents (memory acts) l) = gshape edim d t) /\
      (forall k t, In (k, t) f -> In k (map fst (dict y)))).

  (** The action is not aimed at layer i and not at a tensor it uses; a load into another layer only if that has another grid tensor. *)
  Definition spares (w : @process G P) (a : @action G P) (i : nat) (y : @object G P) : Prop :=
    match a with
    | ALoad j _ => j <> i /\ forall y', nth_error (p_layers w) j = Some y' -> o_grid_H y' <> o_grid_H y
    | ATrain j _ => j <> i
    | AWrite l _ => ~ In l (map snd (dict y))
    | _ => True
    end.
  Definition isolates : Prop := forall acts a i y, nth_error (layers acts) i = Some y -> spares (execute edim d make acts) a i y ->
    nth_error (layers (acts ++ [a])) i = Some y /\ stored (memory (acts ++ [a])) y = stored (memory acts) y /\
    forall rs X in_H H, answer fam mul (memory (acts ++ [a])) y rs X in_H H = answer fam mul (memory acts) y rs X in_H H.

  (** A given grid is used itself; a default grid belongs to the layer alone; parameters, spatial grid and mask always do. *)
  Definition owns_its_tensors : Prop := forall acts kd A grid fH f fb s' y, construct make (memory acts) kd A grid fH f fb = (s', Ok y) ->
    (match grid with
     | inl l => o_grid_H y = l
     | inr g => contents s' (o_grid_H y) = GGrid g /\ forall y', In y' (layers acts) -> ~ In (o_grid_H y) (map snd (dict y'))
     end) /\
    (forall k l, In (k, l) (dict y) -> k <> "kernel.grid_H"%string -> (List.length (memory acts) <= l)%nat /\ forall y', In y' (layers acts) -> ~ In l (map snd (dict y'))) /\
    (forall l, (l < List.length (memory acts))%nat -> contents s' l = contents (memory acts) l).

  (** An in-place update of the parameters stores the new values (where shapes agree) and changes nothing else: grids and mask are not trained. *)
  Definition trains_parameters_only : Prop := forall acts i y new, nth_error (layers acts) i = Some y ->
    (forall k l, In (k, l) (dict y) -> contents (memory (acts ++ [ATrain i new])) l =
       if in_dec string_dec k ["bias"; "kernel.weight_H"; "kernel.weight"]%string
       then if fits_into edim d (contents (memory acts) l) (new k) then new k else contents (memory acts) l
       else contents (memory acts) l) /\
    (forall l, ~ In l (map snd (dict y)) -> contents (memory (acts ++ [ATrain i new])) l = contents (memory acts) l).

  (** Names and shapes in a file; n is the length of the grid, gd the number of group elements in the weights. *)
  Definition named_shapes (kd : kind) (A : sargs) (mask : bool) (n gd : nat) : list (string * list nat) :=
    let cin := (s_in A / Z.to_nat (s_groups A))%nat in
    let space := repeat (s_size A) d in
    (if s_bias A then [("bias"%string, s_out A :: repeat 1%nat (S d))] else []) ++
    (match kd with KSeparable => [("kernel.weight_H"%string, [gd; s_out A; cin])] | _ => [] end) ++
    [("kernel.weight"%string, match kd with
                              | KLifting => s_out A :: cin :: space
                              | KSeparable => s_out A :: 1%nat :: space
                              | KFull => gd :: s_out A :: cin :: space
                              end);
     ("kernel.grid_H"%string, [n; edim]); ("kernel.grid_Rn"%string, space ++ [d])] ++
    (if mask then [("kernel.mask"%string, space)] else []).
  Definition saves_these (has_mask : sargs -> bool) (gdim : sargs -> nat -> nat) : Prop := forall acts y, In y (layers acts) ->
    map (fun e => (fst e, gshape edim d (snd e))) (stored (memory acts) y) =
    named_shapes (o_kind y) (o_args y) (has_mask (o_args y)) (List.length (built_with y)) (gdim (o_args y) (List.length (built_with y))).

End Claims.
