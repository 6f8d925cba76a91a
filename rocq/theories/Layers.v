(** Model of gconv/gnn/modules/pooling.py, normalization.py, activations.py and wrappers.py, and of the torch.nn base
    classes these derive from.

    Simplifications: entries are real numbers (no NaN or infinity: a mean over nothing, which torch makes NaN, and a maximum over a
    pooling window without any cell, which torch makes -inf, are left unspecified: 0 here); inplace=True of ReLU / LeakyReLU is not
    modelled; sizes are natural numbers. *)
From Coq Require Import String ZArith.
From Verif Require Import Prelude RMath Mat Repulse Tensor Kernel Conv.
Open Scope nat_scope.

(** ** Reductions (torch) *)
Definition maxR (l : list R) : R := match l with [] => 0%R | x :: r => fold_left Rmax r x end.
(** First position of the maximum. *)
Fixpoint argmax_from (best : R) (bi i : nat) (l : list R) : nat :=
  match l with
  | [] => bi
  | x :: r => if Rlt_dec best x then argmax_from x i (S i) r else argmax_from best bi (S i) r
  end.
Definition argmax (l : list R) : nat := match l with [] => 0 | x :: r => argmax_from x 0 1 r end.

#[global] Instance Dflt_nat : Dflt nat := 0.

(** Entrywise operation. *)
(** Models activations.py:5-17: an element-wise activation. *)
Definition ewise (f : R -> R) (t : tensor R) : tensor R := mkT (shape t) (map f (data t)).

(** Reduction along axis 2 (removed) by f applied to the entries in order. *)
(** Models pooling.py:30-31, 66-67: x.mean(dim=2), x.max(dim=2). *)
Definition reduce2 {E} (f : list R -> E) (N C n : nat) (rest : list nat) (t : tensor R) : tensor E :=
  build (N :: C :: rest) (fun idx =>
    f (map (fun e => at_ t (nth 0 idx 0 :: nth 1 idx 0 :: e :: skipn 2 idx)) (seq 0 n))).

(** What the pooling modules return: a tensor, or the (values, indices) pair torch.max returns when given a dim. *)
Inductive pooled := PTensor (t : tensor R) | PPair (values : tensor R) (indices : tensor nat).

(** x.mean(dim=2), x.max(dim=2): IndexError when there is no axis 2; max also when that axis is empty. *)
(** Models pooling.py:30-31, 66-67: x.mean(dim=2), x.max(dim=2). *)
Definition mean2 (x : tensor R) : result (tensor R) :=
  match shape x with
  | N :: C :: n :: rest => Ok (reduce2 meanR N C n rest x)
  | _ => Err IndexError
  end.
Definition max2 (x : tensor R) : result pooled :=
  match shape x with
  | N :: C :: n :: rest =>
    if Nat.eqb n 0 then Err IndexError
    else Ok (PPair (reduce2 maxR N C n rest x) (reduce2 argmax N C n rest x))
  | _ => Err IndexError
  end.
(** x.flatten(2, -1). *)
(** Models pooling.py:39-40, 75-76: x.flatten(2, -1). *)
Definition flatten2 {E} (x : tensor E) : result (tensor E) :=
  match shape x with
  | N :: C :: n :: rest => Ok (mkT [N; C; prodn (n :: rest)] (data x))
  | _ => Err IndexError
  end.
(** x.flatten(1, 2). *)
(** Models pooling.py:12-13, 21-22, 48-49, 57-58: x.flatten(1, 2). *)
Definition flatten12 {E} (x : tensor E) : result (tensor E) :=
  match shape x with
  | N :: C :: n :: rest => Ok (mkT (N :: C * n :: rest) (data x))
  | _ => Err IndexError
  end.
(** keepdim=True: the removed last axis comes back with size one. *)
(** Models pooling.py:39-40, 75-76: the reduction over the flattened axis. *)
Definition keepdim {E} (t : tensor E) : tensor E := mkT (shape t ++ [1]) (data t).

(** pooling.py:61-67 [GAvgGroupPool.forward]. *)
Definition g_avg_group_pool (x : tensor R) : result pooled := rmap PTensor (mean2 x).
(** pooling.py:25-31 [GMaxGroupPool.forward]. *)
Definition g_max_group_pool (x : tensor R) : result pooled := max2 x.
(** pooling.py:70-76 [GAvgGlobalPool.forward]. *)
Definition g_avg_global_pool (x : tensor R) : result pooled :=
  y <- flatten2 x ;; rmap (fun t => PTensor (keepdim t)) (mean2 y).
(** pooling.py:34-40 [GMaxGlobalPool.forward]. *)
Definition g_max_global_pool (x : tensor R) : result pooled :=
  y <- flatten2 x ;;
  rmap (fun p => match p with PPair v i => PPair (keepdim v) (keepdim i) | PTensor t => PTensor (keepdim t) end) (max2 y).

(** ** Spatial pooling (torch.nn.MaxPool, AvgPool, AdaptiveMaxPool, AdaptiveAvgPool) *)

(** One axis: output size, the positions a cell reads, and the number of positions it counts when padding is counted. *)
(** Models torch.nn.MaxPool2d/3d, AvgPool2d/3d and their adaptive forms, called through super().forward at pooling.py:12-13, 21-22, 48-49, 57-58, 84-85, 93-94, 102-103, 111-112. *)
Record paxis := mkPax { px_out : nat; px_win : nat -> list nat; px_full : nat -> nat }.

(** ATen pooling_output_shape on an axis of size a. *)
(** Models torch.nn.MaxPool2d/3d, AvgPool2d/3d and their adaptive forms, called through super().forward at pooling.py:12-13, 21-22, 48-49, 57-58, 84-85, 93-94, 102-103, 111-112. *)
Definition pool_out (a k s p t : nat) (ceil : bool) : Z :=
  let num := (Z.of_nat a + 2 * Z.of_nat p - Z.of_nat t * (Z.of_nat k - 1) - 1)%Z in
  let o := ((if ceil then num + Z.of_nat s - 1 else num) / Z.of_nat s + 1)%Z in
  if ceil && Z.geb ((o - 1) * Z.of_nat s) (Z.of_nat a + Z.of_nat p) then (o - 1)%Z else o.
Definition window_axis (a k s p t : nat) (ceil : bool) : option paxis :=
  if Nat.ltb 0 k && Nat.ltb 0 s && Nat.ltb 0 t && Nat.leb p (k / 2) && Z.leb 1 (pool_out a k s p t ceil)
  then Some (mkPax (Z.to_nat (pool_out a k s p t ceil))
    (fun i => filter (fun q => Nat.ltb q a)
       (map (fun j => i * s + j * t - p) (filter (fun j => Nat.leb p (i * s + j * t)) (seq 0 k))))
    (fun i => Nat.min (i * s + k) (a + 2 * p) - i * s))
  else None.
(** Adaptive pooling to size o: cell i reads floor(i a / o) .. ceil((i + 1) a / o) - 1. *)
Definition adaptive_axis (a o : nat) : paxis :=
  mkPax o (fun i => seq (i * a / o) (((i + 1) * a + o - 1) / o - i * a / o))
          (fun i => ((i + 1) * a + o - 1) / o - i * a / o).

(** Models torch.nn.MaxPool2d/3d, AvgPool2d/3d and their adaptive forms, called through super().forward at pooling.py:12-13, 21-22, 48-49, 57-58, 84-85, 93-94, 102-103, 111-112. *)
Fixpoint cart (ws : list (list nat)) : list (list nat) :=
  match ws with [] => [[]] | w :: r => flat_map (fun i => map (cons i) (cart r)) w end.

(** The modules and their constructor arguments; tuple arguments have one entry per axis. *)
(** Models torch.nn.MaxPool2d/3d, AvgPool2d/3d and their adaptive forms, called through super().forward at pooling.py:12-13, 21-22, 48-49, 57-58, 84-85, 93-94, 102-103, 111-112. *)
Inductive poolspec :=
| MaxPool (k s p t : list nat) (ceil : bool) (return_indices : bool)
| AvgPool (k s p : list nat) (ceil : bool) (count_include_pad : bool) (divisor_override : option nat)
| AdaptiveMax (o : list (option nat)) (return_indices : bool)
| AdaptiveAvg (o : list (option nat)).

(** Models torch.nn.MaxPool2d/3d, AvgPool2d/3d and their adaptive forms, called through super().forward at pooling.py:12-13, 21-22, 48-49, 57-58, 84-85, 93-94, 102-103, 111-112. *)
Definition all_some {A} (l : list (option A)) : option (list A) := sequence l.
Definition pool_axes (d : nat) (spec : poolspec) (sp : list nat) : option (list paxis) :=
  match spec with
  | MaxPool k s p t ceil _ =>
    if Nat.eqb (length k) d && Nat.eqb (length s) d && Nat.eqb (length p) d && Nat.eqb (length t) d
    then all_some (axes d (fun j => window_axis (nth j sp 0) (nth j k 0) (nth j s 0) (nth j p 0) (nth j t 0) ceil))
    else None
  | AvgPool k s p ceil _ dv =>
    if Nat.eqb (length k) d && Nat.eqb (length s) d && Nat.eqb (length p) d
       && negb (match dv with Some 0 => true | _ => false end)
    then all_some (axes d (fun j => window_axis (nth j sp 0) (nth j k 0) (nth j s 0) (nth j p 0) 1 ceil))
    else None
  | AdaptiveMax o _ | AdaptiveAvg o =>
    if Nat.eqb (length o) d
    then Some (axes d (fun j => adaptive_axis (nth j sp 0) (match nth j o None with Some v => v | None => nth j sp 0 end)))
    else None
  end.
(** Value of a cell from the entries it reads and the counted window size. *)
Definition pool_value (spec : poolspec) (l : list R) (full : nat) : R :=
  match spec with
  | MaxPool _ _ _ _ _ _ | AdaptiveMax _ _ => maxR l
  | AvgPool _ _ _ _ incl dv =>
    (sumR l / INR (match dv with Some v => v | None => if incl then full else length l end))%R
  | AdaptiveAvg _ => meanR l
  end.
(** The base class forward on a batched input (N, K, *sp); non-batch axes must not be empty. *)
Definition pool_batched (d : nat) (spec : poolspec) (x : tensor R) : result (tensor R) :=
  match shape x with
  | N :: K :: sp =>
    if Nat.eqb (length sp) d && negb (existsb (Nat.eqb 0) (K :: sp)) then
      match pool_axes d spec sp with
      | Some axs => Ok (build (N :: K :: map px_out axs) (fun idx =>
          let y := skipn 2 idx in
          pool_value spec
            (map (fun z => at_ x (nth 0 idx 0 :: nth 1 idx 0 :: z)) (cart (map2 px_win axs y)))
            (prodn (map2 px_full axs y))))
      | None => Err RuntimeError
      end
    else Err RuntimeError
  | _ => Err RuntimeError
  end.
(** The base classes also take one item without batch axis, (K, *sp) (K > 0). *)
Definition pool_forward (d : nat) (spec : poolspec) (x : tensor R) : result (tensor R) :=
  if Nat.eqb (length (shape x)) (S d) then rmap squeeze0 (pool_batched d spec (unsqueeze0 x))
  else pool_batched d spec x.
Definition returns_pair (spec : poolspec) : bool :=
  match spec with MaxPool _ _ _ _ _ r => r | AdaptiveMax _ r => r | _ => false end.
(** pooling.py:7-22, 43-58, 79-112: the spatial pools "super().forward(x.flatten(1, 2)).view( *x.shape[:3]), H" (d is 2 or 3).
    With return_indices=True the base class returns a tuple, which has no view. *)
Definition g_spatial_pool {G} (d : nat) (spec : poolspec) (x : tensor R) (H : list G) : result (tensor R * list G) :=
  f <- flatten12 x ;;
  y <- pool_forward d spec f ;;
  if returns_pair spec then Err AttributeError
  else v <- view (firstn 3 (shape x)) y ;; Ok (v, H).

(** ** Normalization (torch.nn) *)

(** Biased and unbiased variance. *)
(** Models torch.nn.BatchNorm2d/3d, InstanceNorm2d/3d, LayerNorm, called through super().forward at normalization.py:6-32. *)
Definition varR (l : list R) : R := (sumR (map (fun x => (x - meanR l) * (x - meanR l)) l) / INR (length l))%R.
Definition uvarR (l : list R) : R := (sumR (map (fun x => (x - meanR l) * (x - meanR l)) l) / INR (length l - 1))%R.
Definition normalized (x mean var eps : R) : R := ((x - mean) / sqrt (var + eps))%R.
Definition affine1 (w b : option (list R)) (c : nat) (v : R) : R :=
  let v := match w with Some l => (v * nth c l 0)%R | None => v end in
  match b with Some l => (v + nth c l 0)%R | None => v end.

(** State of a BatchNorm / InstanceNorm module; running statistics are None with track_running_stats=False. *)
(** Models torch.nn.BatchNorm2d/3d, InstanceNorm2d/3d, LayerNorm, called through super().forward at normalization.py:6-32. *)
Record norm_state := {
  nm_features : nat; nm_eps : R; nm_momentum : option R;
  nm_weight : option (list R); nm_bias : option (list R);
  nm_mean : option (list R); nm_var : option (list R);
  nm_count : nat;                                            (* num_batches_tracked *)
  nm_training : bool }.

(** Entries of channel c: over the batch and the rest; over the rest for one sample. *)
(** Models torch.nn.BatchNorm2d/3d, InstanceNorm2d/3d, LayerNorm, called through super().forward at normalization.py:6-32. *)
Definition channel_values (N : nat) (rest : list nat) (x : tensor R) (c : nat) : list R :=
  flat_map (fun n => map (fun y => at_ x (n :: c :: y)) (indices rest)) (seq 0 N).
Definition sample_values (rest : list nat) (x : tensor R) (n c : nat) : list R :=
  map (fun y => at_ x (n :: c :: y)) (indices rest).

(** running := (1 - f) running + f new. *)
(** Models torch.nn.BatchNorm2d/3d, InstanceNorm2d/3d, LayerNorm, called through super().forward at normalization.py:6-32. *)
Definition blend (f : R) (old new : list R) : list R := map2 (fun o v => ((1 - f) * o + f * v)%R) old new.

(** A parameter or running statistic that is present must have one entry per channel. *)
(** Models torch.nn.BatchNorm2d/3d, InstanceNorm2d/3d, LayerNorm, called through super().forward at normalization.py:6-32. *)
Definition fits_channels (o : option (list R)) (C : nat) : bool :=
  match o with Some l => Nat.eqb (length l) C | None => true end.
Definition check_channels (s : norm_state) (C : nat) : bool :=
  fits_channels (nm_weight s) C && fits_channels (nm_bias s) C && fits_channels (nm_mean s) C && fits_channels (nm_var s) C.

(** torch.nn.BatchNormNd.forward on an input of rank d + 2. *)
Definition batch_norm (d : nat) (s : norm_state) (x : tensor R) : result (tensor R * norm_state) :=
  match shape x with
  | N :: C :: rest =>
    if negb (Nat.eqb (length rest) d) then Err ValueError
    else
      let tracked := match nm_mean s with Some _ => true | None => false end in
      let count := if nm_training s && tracked then S (nm_count s) else nm_count s in
      let f := match nm_momentum s with Some m => m | None => (1 / INR count)%R end in
      let use_batch := nm_training s || negb tracked in
      if use_batch && Nat.eqb (N * prodn rest) 1 then Err ValueError
      else if negb (check_channels s C) then Err RuntimeError
      else
        let bmean := map (fun c => meanR (channel_values N rest x c)) (seq 0 C) in
        let bvar := map (fun c => varR (channel_values N rest x c)) (seq 0 C) in
        let ubvar := map (fun c => uvarR (channel_values N rest x c)) (seq 0 C) in
        let mean := if use_batch then bmean else match nm_mean s with Some l => l | None => [] end in
        let var := if use_batch then bvar else match nm_var s with Some l => l | None => [] end in
        let upd old new := if nm_training s then match old with Some l => Some (blend f l new) | None => None end else old in
        Ok (build (N :: C :: rest) (fun idx =>
              let c := nth 1 idx 0 in
              affine1 (nm_weight s) (nm_bias s) c (normalized (at_ x idx) (nth c mean 0%R) (nth c var 0%R) (nm_eps s))),
            {| nm_features := nm_features s; nm_eps := nm_eps s; nm_momentum := nm_momentum s; nm_weight := nm_weight s; nm_bias := nm_bias s;
               nm_mean := upd (nm_mean s) bmean; nm_var := upd (nm_var s) ubvar; nm_count := count; nm_training := nm_training s |})
  | _ => Err ValueError
  end.

(** torch.nn.InstanceNormNd on an input with batch axis, rank d + 2; with tracking the running statistics get the mean over the batch of
    the per-sample statistics. *)
Definition instance_batched (d : nat) (s : norm_state) (x : tensor R) : result (tensor R * norm_state) :=
  match shape x with
  | N :: C :: rest =>
    if negb (Nat.eqb (length rest) d) then Err ValueError
    else if negb (Nat.eqb C (nm_features s)) && match nm_weight s with Some _ => true | None => false end then Err ValueError
    else
      let tracked := match nm_mean s with Some _ => true | None => false end in
      let use_input := nm_training s || negb tracked in
      if use_input && Nat.eqb (prodn rest) 1 then Err ValueError
      else if negb (check_channels s C) then Err RuntimeError
      else
        let mean n c := if use_input then meanR (sample_values rest x n c)
                        else match nm_mean s with Some l => nth c l 0%R | None => 0%R end in
        let var n c := if use_input then varR (sample_values rest x n c)
                       else match nm_var s with Some l => nth c l 0%R | None => 0%R end in
        let f := match nm_momentum s with Some m => m | None => 0%R end in
        let bmean := map (fun c => meanR (map (fun n => meanR (sample_values rest x n c)) (seq 0 N))) (seq 0 C) in
        let ubvar := map (fun c => meanR (map (fun n => uvarR (sample_values rest x n c)) (seq 0 N))) (seq 0 C) in
        let upd old new := if use_input then match old with Some l => Some (blend f l new) | None => None end else old in
        Ok (build (N :: C :: rest) (fun idx =>
              let n := nth 0 idx 0 in let c := nth 1 idx 0 in
              affine1 (nm_weight s) (nm_bias s) c (normalized (at_ x idx) (mean n c) (var n c) (nm_eps s))),
            {| nm_features := nm_features s; nm_eps := nm_eps s; nm_momentum := nm_momentum s; nm_weight := nm_weight s; nm_bias := nm_bias s;
               nm_mean := upd (nm_mean s) bmean; nm_var := upd (nm_var s) ubvar; nm_count := nm_count s; nm_training := nm_training s |})
  | _ => Err ValueError
  end.

(** torch.nn.InstanceNormNd.forward: an input of rank d + 1 is one item without batch axis (since torch 1.11). *)
Definition instance_norm (d : nat) (s : norm_state) (x : tensor R) : result (tensor R * norm_state) :=
  if Nat.eqb (length (shape x)) (S d)
  then rmap (fun r => (squeeze0 (fst r), snd r)) (instance_batched d s (unsqueeze0 x))
  else instance_batched d s x.

(** normalization.py:6-15, 23-32: "N, C, _H, Z, *dims = x.shape; super().forward(x.view(N, C, _H * Z, *dims)).view(N, C, _H, Z, *dims), H".
    The unpacking raises ValueError below rank four. *)
Definition g_norm {G} (base : norm_state -> tensor R -> result (tensor R * norm_state)) (s : norm_state) (x : tensor R) (H : list G)
  : result (tensor R * list G * norm_state) :=
  match shape x with
  | N :: C :: n :: Z :: dims =>
    v <- view (N :: C :: n * Z :: dims) x ;;
    r <- base s v ;;
    y <- view (N :: C :: n :: Z :: dims) (fst r) ;;
    Ok (y, H, snd r)
  | _ => Err ValueError
  end.
Definition g_batch_norm {G} (d : nat) : norm_state -> tensor R -> list G -> result (tensor R * list G * norm_state) := g_norm (batch_norm d).
Definition g_instance_norm {G} (d : nat) : norm_state -> tensor R -> list G -> result (tensor R * list G * norm_state) := g_norm (instance_norm d).

(** torch.nn.LayerNorm over the trailing axes [ns] (normalized_shape); weight and bias have that shape. *)
Definition layer_norm (ns : list nat) (eps : R) (w b : option (tensor R)) (x : tensor R) : result (tensor R) :=
  let r := length (shape x) - length ns in
  let lead := firstn r (shape x) in
  if list_eq_dec Nat.eq_dec (skipn r (shape x)) ns then
    if match ns with [] => true | _ => false end then Err RuntimeError
    else Ok (build (shape x) (fun idx =>
      let pre := firstn r idx in let z := skipn r idx in
      let vals := slice x ns pre in
      let v := normalized (at_ x idx) (meanR vals) (varR vals) eps in
      let v := match w with Some t => (v * at_ t z)%R | None => v end in
      match b with Some t => (v + at_ t z)%R | None => v end))
  else Err RuntimeError.
(** normalization.py:18-20 [GLayerNorm.forward]. *)
Definition g_layer_norm {G} (ns : list nat) (eps : R) (w b : option (tensor R)) (x : tensor R) (H : list G) : result (tensor R * list G) :=
  y <- layer_norm ns eps w b x ;; Ok (y, H).

(** ** Activations *)
(** Models activations.py:5-8, 15-17. *)
Definition relu (x : R) : R := Rmax x 0.
Definition leaky_relu (slope x : R) : R := if Rlt_dec 0 x then x else (slope * x)%R.
(** torch.nn.GELU(approximate): the error function is not in the Coq library and is a parameter. *)
Definition gelu_exact (erf : R -> R) (x : R) : R := (x * ((1 + erf (x / sqrt 2)) / 2))%R.
Definition gelu_tanh (x : R) : R := (x / 2 * (1 + tanh (sqrt (2 / PI) * (x + 44715 / 1000000 * x ^ 3))))%R.
Definition gelu (erf : R -> R) (approximate : string) : result (R -> R) :=
  if String.eqb approximate "none" then Ok (gelu_exact erf)
  else if String.eqb approximate "tanh" then Ok gelu_tanh else Err RuntimeError.
(** activations.py:5-17 [GReLU.forward], [GGELU.forward], [GLeakyReLU.forward]. *)
Definition g_relu {G} (x : tensor R) (H : list G) : result (tensor R * list G) := Ok (ewise relu x, H).
Definition g_gelu {G} (erf : R -> R) (approximate : string) (x : tensor R) (H : list G) : result (tensor R * list G) :=
  f <- gelu erf approximate ;; Ok (ewise f x, H).
Definition g_leaky_relu {G} (slope : R) (x : tensor R) (H : list G) : result (tensor R * list G) := Ok (ewise (leaky_relu slope) x, H).

(** ** nn.Module attribute protocol and GWrap *)

(** Values that can be assigned: a module, or another callable; both can be applied to a tensor. *)
(** Models wrappers.py:5-19 and torch.nn.Module.__setattr__ / __call__. *)
Inductive callable := CModule (f : tensor R -> result (tensor R)) | CFunction (f : tensor R -> result (tensor R)).
Definition call_target (c : callable) := match c with CModule f => f | CFunction f => f end.

(** The instance dictionary: _modules, hooks etc. exist only after Module.__init__. *)
(** Models wrappers.py:5-19 and torch.nn.Module.__setattr__ / __call__. *)
Record module_obj := { mo_init : bool; mo_modules : list (string * callable); mo_dict : list (string * callable) }.
(** object.__new__. *)
Definition module_new : module_obj := {| mo_init := false; mo_modules := []; mo_dict := [] |}.
(** torch.nn.Module.__init__ (keeps what is already in __dict__). *)
Definition module_init (o : module_obj) : module_obj := {| mo_init := true; mo_modules := []; mo_dict := mo_dict o |}.
(** torch.nn.Module.__setattr__: assigning a module needs _modules ("cannot assign module before Module.__init__() call"). *)
Definition module_setattr (name : string) (v : callable) (o : module_obj) : result module_obj :=
  match v with
  | CModule _ => if mo_init o then Ok {| mo_init := true; mo_modules := (name, v) :: mo_modules o; mo_dict := mo_dict o |}
                 else Err AttributeError
  | CFunction _ => Ok {| mo_init := mo_init o; mo_modules := mo_modules o; mo_dict := (name, v) :: mo_dict o |}
  end.
(** Attribute lookup: __dict__ first, then __getattr__ over _modules. *)
Fixpoint assoc (name : string) (l : list (string * callable)) : option callable :=
  match l with [] => None | (k, v) :: r => if String.eqb k name then Some v else assoc name r end.
Definition module_getattr (name : string) (o : module_obj) : result callable :=
  match assoc name (mo_dict o) with
  | Some v => Ok v
  | None => match assoc name (mo_modules o) with Some v => Ok v | None => Err AttributeError end
  end.
(** wrappers.py:6-16 [GWrap.__init__]: there is no super().__init__() call. *)
Definition gwrap_init (m : callable) : result module_obj := module_setattr "module" m module_new.
(** wrappers.py:18-19 [GWrap.forward]. *)
Definition gwrap_forward {G} (o : module_obj) (x : tensor R) (H : list G) : result (tensor R * list G) :=
  m <- module_getattr "module" o ;; y <- call_target m x ;; Ok (y, H).
(** torch.nn.Module.__call__ looks up the hooks (AttributeError before __init__) and then calls forward. *)
Definition module_call {A} (o : module_obj) (forward : result A) : result A :=
  if mo_init o then forward else Err AttributeError.
Definition gwrap_call {G} (o : module_obj) (x : tensor R) (H : list G) : result (tensor R * list G) :=
  module_call o (gwrap_forward o x H).
