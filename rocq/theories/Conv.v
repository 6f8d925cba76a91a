(** Model of gconv/gnn/modules/gconv.py: validation, padding, the two-stage and one-stage
    convolutions, and of the torch functions conv2d / conv3d / pad they call.

    Simplifications: channel counts, sizes, strides, dilations and paddings are natural numbers
    (torch rejects negative ones itself); tensors are contiguous, so reshape and view agree. *)
From Coq Require Import String ZArith.
From Verif Require Import Prelude RMath Mat Repulse Tensor Kernel.
Open Scope nat_scope.

(** A list over the axes 0..d-1. *)
(** Models the axes of conv_mode 2d / 3d, gconv.py:104-118. *)
Definition axes {A} (d : nat) (f : nat -> A) : list A := map f (seq 0 d).

(** ** torch.nn.functional.pad and conv2d / conv3d (library behaviour) *)

(** Models gconv.py:81: the valid padding modes. *)
Inductive padmode := Zeros | Reflect | Replicate | Circular.

(** Accepted amounts (l before, r after) on an axis of size n. *)
(** Models torch.nn.functional.pad as called at gconv.py:161-163, 178-180, and the zero padding of F.conv2d / F.conv3d at gconv.py:171-173, 188-190. *)
Definition pad_ok (m : padmode) (n l r : nat) : bool :=
  match m with
  | Zeros => true
  | Replicate => Nat.ltb 0 n
  | Reflect => Nat.ltb l n && Nat.ltb r n
  | Circular => Nat.leb l n && Nat.leb r n
  end.
(** Which entry of the axis the padded position q shows; None is a zero. *)
Definition pad_src (m : padmode) (n l q : nat) : option nat :=
  match m with
  | Zeros => if Nat.ltb q l then None else if Nat.ltb (q - l) n then Some (q - l) else None
  | Replicate => Some (if Nat.ltb q l then 0 else if Nat.ltb (q - l) n then q - l else n - 1)
  | Reflect => Some (if Nat.ltb q l then l - q else if Nat.ltb (q - l) n then q - l else 2 * (n - 1) - (q - l))
  | Circular => Some ((q + n - l) mod n)
  end.
Fixpoint sequence {A} (l : list (option A)) : option (list A) :=
  match l with
  | [] => Some []
  | None :: _ => None
  | Some x :: r => match sequence r with Some t => Some (x :: t) | None => None end
  end.
(** pads gives (before, after) per spatial axis. *)
Definition pad_index (m : padmode) (sp : list nat) (pads : list (nat * nat)) (q : list nat) : option (list nat) :=
  sequence (axes (length sp) (fun j => pad_src m (nth j sp 0) (fst (nth j pads (0, 0))) (nth j q 0))).
Definition pad_shape (sp : list nat) (pads : list (nat * nat)) : list nat :=
  axes (length sp) (fun j => nth j sp 0 + fst (nth j pads (0, 0)) + snd (nth j pads (0, 0))).
Definition pad_axes (m : padmode) (pads : list (nat * nat)) (input : tensor R) : result (tensor R) :=
  match shape input with
  | N :: C :: sp =>
    if Nat.eqb (length pads) (length sp)
       && forallb (fun j => pad_ok m (nth j sp 0) (fst (nth j pads (0, 0))) (snd (nth j pads (0, 0))))
                  (seq 0 (length sp))
    then Ok (build (N :: C :: pad_shape sp pads) (fun idx =>
           match pad_index m sp pads (skipn 2 idx) with
           | Some z => at_ input (nth 0 idx 0 :: nth 1 idx 0 :: z)
           | None => 0%R
           end))
    else Err RuntimeError
  | _ => Err RuntimeError
  end.
(** F.pad reads its flat argument from the last axis backwards: (l, r) of the last axis first. *)
(** Models gconv.py:161-163, 178-180: F.pad reads the list of gconv.py:120-138 last axis first. *)
Definition unflatten_pads (d : nat) (flat : list nat) : result (list (nat * nat)) :=
  if Nat.eqb (length flat) (2 * d)
  then Ok (axes d (fun j => (nth (2 * (d - 1 - j)) flat 0, nth (2 * (d - 1 - j) + 1) flat 0)))
  else Err RuntimeError.
Definition fpad (m : padmode) (flat : list nat) (input : tensor R) : result (tensor R) :=
  pads <- unflatten_pads (length (shape input) - 2) flat ;; pad_axes m pads input.

(** torch repeats a one-element stride / padding / dilation over all axes. *)
Definition expand_param (d : nat) (l : list nat) : list nat :=
  match l with [x] => repeat x d | _ => l end.

(** Output size of an axis: size a (already padded), kernel k, stride s, dilation t. *)
(** Models torch.nn.functional.conv2d / conv3d as called at gconv.py:160-173, 177-190. *)
Definition out_size (a k s t : nat) : nat := (a - (t * (k - 1) + 1)) / s + 1.
(** F.conv2d / F.conv3d without padding and bias: cross-correlation. *)
Definition conv_nd (stride dil : list nat) (groups : nat) (input weight : tensor R) : result (tensor R) :=
  match shape input, shape weight with
  | N :: C :: sp, Co :: Cg :: ks =>
    let d := length ks in
    let stride := expand_param d stride in
    let dil := expand_param d dil in
    if Nat.eqb (length sp) d && Nat.eqb (length stride) d && Nat.eqb (length dil) d
       && Nat.ltb 0 groups && Nat.eqb C (Cg * groups) && Nat.leb groups Co && Nat.eqb (Co mod groups) 0
       && forallb (fun j => Nat.ltb 0 (nth j stride 0) && Nat.ltb 0 (nth j dil 0) && Nat.ltb 0 (nth j ks 0)
                            && Nat.leb (nth j dil 0 * (nth j ks 0 - 1) + 1) (nth j sp 0)) (seq 0 d)
    then Ok (build (N :: Co :: axes d (fun j => out_size (nth j sp 0) (nth j ks 0) (nth j stride 0) (nth j dil 0)))
           (fun idx =>
              let n := nth 0 idx 0 in let o := nth 1 idx 0 in let y := skipn 2 idx in
              sumR (map (fun c => sumR (map (fun x =>
                (at_ weight (o :: c :: x) *
                 at_ input (n :: (o / (Co / groups) * Cg + c)%nat
                   :: axes d (fun j => (nth j y 0 * nth j stride 0 + nth j x 0 * nth j dil 0)%nat)))%R)
                (indices ks))) (seq 0 Cg))))
    else Err RuntimeError
  | _, _ => Err RuntimeError
  end.

(** x.unsqueeze(0), x.squeeze(0). *)
(** Models torch.nn.functional.conv2d / conv3d (gconv.py:160-190) on an input without batch axis. *)
Definition unsqueeze0 {E} (t : tensor E) : tensor E := mkT (1 :: shape t) (data t).
Definition squeeze0 {E} (t : tensor E) : tensor E := mkT (tl (shape t)) (data t).

(** ** GroupConvNd *)

(** group_kernel_size: int or tuple; padding: int, tuple or string. *)
(** Models gconv.py:47: group_kernel_size: int | tuple. *)
Inductive gk_arg := GkInt (i : Z) | GkTuple (l : list Z).
(** Models gconv.py:51: padding: tuple | str (an int at the public constructors). *)
Inductive padarg := PInt (p : nat) | PTuple (l : list nat) | PStr (s : string).
(** An int or tuple argument passed through _pair / _triple (torch.nn.modules.utils._ntuple). *)
Inductive intarg := AInt (i : nat) | ATuple (l : list nat).
Definition ntuple (d : nat) (a : intarg) : list nat :=
  match a with AInt i => repeat i d | ATuple l => l end.

(** Models gconv.py:81-87. *)
Definition padmode_of (s : string) : option padmode :=
  if String.eqb s "zeros" then Some Zeros
  else if String.eqb s "reflect" then Some Reflect
  else if String.eqb s "replicate" then Some Replicate
  else if String.eqb s "circular" then Some Circular else None.

(** Models gconv.py:59: the builtin sum. *)
Definition sumZ (l : list Z) : Z := fold_right Z.add 0%Z l.
(** gconv.py:57-88, in the order of the code. *)
Definition check_config (gks : gk_arg) (cin cout : nat) (groups : Z) (padding : padarg) (stride : list nat)
    (pm : string) : result unit :=
  if match gks with
     | GkTuple l => existsb (fun i => Z.ltb i 0) l || Z.leb (sumZ l) 0
     | GkInt _ => false
     end then Err ValueError
  else if Z.leb groups 0 then Err ValueError
  else if negb (Z.eqb (Z.modulo (Z.of_nat cin) groups) 0) then Err ValueError
  else if negb (Z.eqb (Z.modulo (Z.of_nat cout) groups) 0) then Err ValueError
  else if match padding with
          | PStr s => negb (String.eqb s "same" || String.eqb s "valid")
                      || (String.eqb s "same" && existsb (fun x => negb (Nat.eqb x 1)) stride)
          | _ => false
          end then Err ValueError
  else match padmode_of pm with None => Err ValueError | Some _ => Ok tt end.

(** l[i] = v. *)
(** Models gconv.py:131-134: assignment into the padding list. *)
Definition set_nth (i v : nat) (l : list nat) : list nat :=
  if Nat.ltb i (length l) then firstn i l ++ v :: skipn (S i) l else l.
(** gconv.py:123-134: the loop over zip(dilation, kernel_size, range(n-1, -1, -1)). *)
Fixpoint same_loop (dil ks is_ acc : list nat) : list nat :=
  match dil, ks, is_ with
  | d :: dil', k :: ks', i :: is' =>
    let total := d * (k - 1) in
    let left := total / 2 in
    same_loop dil' ks' is' (set_nth (2 * i + 1) (total - left) (set_nth (2 * i) left acc))
  | _, _, _ => acc
  end.
(** torch.nn.modules.utils._reverse_repeat_tuple(t, 2). *)
Definition reverse_repeat2 (t : list nat) : list nat := flat_map (fun x => [x; x]) (rev t).

(** gconv.py:98-113 self.padding after normalisation. *)
Inductive padset := PadTuple (l : list nat) | PadStr (s : string).

(** gconv.py:90-145: the attributes of a layer; the bias parameter is None without bias. *)
Record gconv (G P : Type) := {
  l_kernel : gkernel G P;
  l_in : nat; l_out : nat; l_ks : list nat; l_gks : gk_arg; l_groups : nat;
  l_stride : list nat; l_padding : padset; l_dil : list nat; l_mode : padmode;
  l_rev : list nat;                      (* _reversed_padding_repeated_twice *)
  l_bias : option (tensor R);
}.
Arguments l_kernel {G P}. Arguments l_in {G P}. Arguments l_out {G P}. Arguments l_ks {G P}. Arguments l_gks {G P}.
Arguments l_groups {G P}. Arguments l_stride {G P}. Arguments l_padding {G P}. Arguments l_dil {G P}.
Arguments l_mode {G P}. Arguments l_rev {G P}. Arguments l_bias {G P}.

(** gconv.py:120-138. *)
Definition reversed_padding (padding : padset) (dil ks : list nat) : list nat :=
  match padding with
  | PadStr s =>
    let zeros := repeat 0 (2 * length ks) in
    if String.eqb s "same" then same_loop dil ks (rev (seq 0 (length ks))) zeros else zeros
  | PadTuple l => reverse_repeat2 l
  end.

(** gconv.py:42-145 [GroupConvNd.__init__]; [bias] is the initial value of the bias parameter, of shape
    (out_channels, 1, 1, 1) or (out_channels, 1, 1, 1, 1) (see [reset_bias] below). *)
Definition gconv_init {G P} (conv_mode : string) (cin cout : nat) (ks : list nat) (gks : gk_arg)
    (kernel : gkernel G P) (groups : Z) (stride : list nat) (padding : padarg) (dil : list nat) (pm : string)
    (bias : option (tensor R)) : result (gconv G P) :=
  _ <- check_config gks cin cout groups padding stride pm ;;
  d <- (if String.eqb conv_mode "2d" then Ok 2 else if String.eqb conv_mode "3d" then Ok 3 else Err ValueError) ;;
  let pad := match padding with
             | PInt p => PadTuple (repeat p d)
             | PTuple l => PadTuple l
             | PStr s => PadStr s
             end in
  Ok {| l_kernel := kernel; l_in := cin; l_out := cout; l_ks := ks; l_gks := gks; l_groups := Z.to_nat groups;
        l_stride := stride; l_padding := pad; l_dil := dil;
        l_mode := match padmode_of pm with Some m => m | None => Zeros end;
        l_rev := reversed_padding pad dil (k_size kernel);
        l_bias := bias |}.
(** gconv.py:387-696: the 2d and 3d classes. *)
Definition gconv_init2 {G P} (cin cout : nat) (ks : intarg) (gks : gk_arg) (kernel : gkernel G P) (groups : Z)
    (stride : intarg) (padding : padarg) (dil : intarg) (pm : string) (bias : option (tensor R)) :=
  gconv_init "2d" cin cout (ntuple 2 ks) gks kernel groups (ntuple 2 stride) padding (ntuple 2 dil) pm bias.
Definition gconv_init3 {G P} (cin cout : nat) (ks : intarg) (gks : gk_arg) (kernel : gkernel G P) (groups : Z)
    (stride : intarg) (padding : padarg) (dil : intarg) (pm : string) (bias : option (tensor R)) :=
  gconv_init "3d" cin cout (ntuple 3 ks) gks kernel groups (ntuple 3 stride) padding (ntuple 3 dil) pm bias.

(** The padding conv2d / conv3d resolve from their padding argument; a string 'same' is resolved with the
    kernel size of the weight at hand. *)
(** Models gconv.py:171-173, 188-190: the padding argument of F.conv2d / F.conv3d. *)
Definition conv_pads (padding : padset) (dil ks : list nat) : list (nat * nat) :=
  let d := length ks in
  match padding with
  | PadTuple l => map (fun p => (p, p)) (expand_param d l)
  | PadStr s => axes d (fun j =>
      let total := nth j (expand_param d dil) 0 * (nth j ks 0 - 1) in
      if String.eqb s "same" then (total / 2, total - total / 2) else (0, 0))
  end.

Section Layer.
  Context {G P : Type} {D : Dflt P} (L : gconv G P).

  (** gconv.py:158-190 [_conv2d_forward], [_conv3d_forward] of an input with a batch axis. *)
  Definition conv_batched (input weight : tensor R) (groups : nat) : result (tensor R) :=
    match l_mode L with
    | Zeros => p <- pad_axes Zeros (conv_pads (l_padding L) (l_dil L) (skipn 2 (shape weight))) input ;;
               conv_nd (l_stride L) (l_dil L) groups p weight
    | m => p <- fpad m (l_rev L) input ;; conv_nd (l_stride L) (l_dil L) groups p weight
    end.
  (** gconv.py:158-190: F.conv2d / F.conv3d and F.pad also take an input with one axis less, as one item without
      batch axis, and return one item (circular F.pad: since torch 2.1). *)
  Definition conv_forward (input weight : tensor R) (groups : nat) : result (tensor R) :=
    if Nat.eqb (S (length (shape input))) (length (shape weight))
    then rmap squeeze0 (conv_batched (unsqueeze0 input) weight groups)
    else conv_batched input weight groups.

  (** "if self.bias is not None: input = input + self.bias". *)
  Definition add_bias (x : tensor R) : result (tensor R) :=
    match l_bias L with None => Ok x | Some b => bcast2 Rplus x b end.

  (** gconv.py:238-255 [GLiftingConvNd.forward]. *)
  Definition lifting_forward (weight : tensor R) (input : tensor R) (H : list G) : result (tensor R * list G) :=
    let N := nth 0 (shape input) 0 in
    w <- lifting_kernel_forward (l_kernel L) weight H ;;
    w <- view_lead ((l_in L / l_groups L) :: l_ks L) w ;;
    x <- conv_forward input w (l_groups L) ;;
    x <- view (N :: l_out L :: length H :: skipn 2 (shape x)) x ;;
    x <- add_bias x ;;
    Ok (x, H).

  (** gconv.py:361-384 [GConvNd.forward] with a full kernel (GKernel). *)
  Definition group_forward_with (kernel_forward : list G -> list G -> result (tensor R))
      (input : tensor R) (in_H out_H : list G) : result (tensor R * list G) :=
    match shape input with
    | N :: _ :: _ :: dims =>
      let num_in := length in_H in
      let num_out := length out_H in
      w <- kernel_forward in_H out_H ;;
      i <- view (N :: l_in L * num_in :: dims) input ;;
      w <- view (l_out L * num_out :: (l_in L / l_groups L) * num_in :: l_ks L) w ;;
      x <- conv_forward i w (l_groups L) ;;
      x <- view (N :: l_out L :: num_out :: skipn 2 (shape x)) x ;;
      x <- add_bias x ;;
      Ok (x, out_H)
    | _ => Err ValueError
    end.
  Definition full_forward (weight : tensor R) :=
    group_forward_with (full_kernel_forward (l_kernel L) weight).
  (** The same layer with a subgroup kernel (GSubgroupKernel). *)
  Definition subgroup_forward (weight : tensor R) :=
    group_forward_with (subgroup_kernel_forward (l_kernel L) weight).

  (** gconv.py:292-327 [GSeparableConvNd.forward]. *)
  Definition separable_forward (weight_H weight : tensor R) (input : tensor R) (in_H out_H : list G)
    : result (tensor R * list G) :=
    match shape input with
    | N :: _ :: _ :: dims =>
      let num_in := length in_H in
      let num_out := length out_H in
      ws <- separable_kernel_forward (l_kernel L) weight_H weight in_H out_H ;;
      i <- view (N :: l_in L * num_in :: dims) input ;;
      wh <- view (l_out L * num_out :: (l_in L / l_groups L) * num_in :: skipn 4 (shape (fst ws))) (fst ws) ;;
      x <- conv_forward i wh (l_groups L) ;;
      w <- view (l_out L * num_out :: 1 :: l_ks L) (snd ws) ;;
      x <- conv_forward x w (l_out L * num_out) ;;
      x <- view (N :: l_out L :: num_out :: skipn 2 (shape x)) x ;;
      x <- add_bias x ;;
      Ok (x, out_H)
    | _ => Err ValueError
    end.
End Layer.

(** ** Parameter initialisation *)

(** torch.nn.init._calculate_fan_in_and_fan_out (fan-in part). *)
Definition fan_in (s : list nat) : result nat :=
  match s with
  | _ :: c :: rest => Ok (c * prodn rest)
  | _ => Err ValueError
  end.
(** init.uniform_(t, a, b): every entry is drawn from [a, b); [u] are the unit draws, one per entry. *)
Definition uniform_fill (s : list nat) (a b : R) (u : nat -> R) : tensor R :=
  build s (fun idx => (a + (b - a) * u (ravel s idx))%R).
(** gconv.py:147-156 [reset_parameters], bias part: [kw] is the shape of kernel.weight, [old] the bias. *)
Definition reset_bias (kw : list nat) (old : option (tensor R)) (u : nat -> R) : result (option (tensor R)) :=
  match old with
  | None => Ok None
  | Some b =>
    f <- fan_in kw ;;
    if Nat.eqb f 0 then Ok (Some b)
    else let bound := (1 / sqrt (INR f))%R in
         Ok (Some (uniform_fill (shape b) (- bound) bound u))
  end.

(** init.kaiming_uniform_(w, a): leaky_relu gain, fan-in mode; a tensor with an empty axis is returned as it is. *)
(** Models torch.nn.init.kaiming_uniform_ / kaiming_normal_ as called at kernel.py:171-172, 253-255, 347-348, 436-437. *)
Definition kaiming_std (a : R) (fan : nat) : R := (sqrt (2 / (1 + a * a)) / sqrt (INR fan))%R.
Definition kaiming_uniform (a : R) (w : tensor R) (u : nat -> R) : result (tensor R) :=
  if existsb (Nat.eqb 0) (shape w) then Ok w
  else f <- fan_in (shape w) ;;
       let bound := (sqrt 3 * kaiming_std a f)%R in Ok (uniform_fill (shape w) (- bound) bound u).
(** init.kaiming_normal_(w, a); [z] are the standard normal draws. *)
Definition kaiming_normal (a : R) (w : tensor R) (z : nat -> R) : result (tensor R) :=
  if existsb (Nat.eqb 0) (shape w) then Ok w
  else f <- fan_in (shape w) ;; Ok (build (shape w) (fun idx => (kaiming_std a f * z (ravel (shape w) idx))%R)).
(** kernel.py:171-172, 253-255, 347-348, 436-437 [reset_parameters]. *)
Definition reset_lifting (w : tensor R) (z : nat -> R) := kaiming_normal (sqrt 5) w z.
Definition reset_group (w : tensor R) (u : nat -> R) := kaiming_uniform (sqrt 5) w u.
Definition reset_separable (weight_H weight : tensor R) (u v : nat -> R) : result (tensor R * tensor R) :=
  wh <- kaiming_uniform (sqrt 5) weight_H u ;; w <- kaiming_uniform (sqrt 5) weight v ;; Ok (wh, w).
