(** Model of the printed form of layers and kernels: extra_repr of gconv/gnn/modules/gconv.py and gconv/gnn/kernels/kernel.py.

    Simplification: the values in the dictionaries sample_H_kwargs and sample_Rn_kwargs are given as already printed text (they hold
    floats and tensors). *)
From Coq Require Import String Ascii ZArith Decimal DecimalString.
From Verif Require Import Prelude RMath Tensor Kernel Conv.
Open Scope string_scope.

(** str(n) of a Python int (gconv.py:193, 199). *)
Definition py_nat (n : nat) : string := NilZero.string_of_uint (Nat.to_uint n).
Definition py_int (z : Z) : string := if (z <? 0)%Z then "-" ++ py_nat (Z.to_nat (- z)) else py_nat (Z.to_nat z).
(** str of a tuple: "(a, b)", with a comma after a single element (gconv.py:193-197). *)
Fixpoint py_items {A} (p : A -> string) (x : A) (l : list A) : string :=
  match l with [] => p x | y :: r => p x ++ ", " ++ py_items p y r end.
Definition py_tuple {A} (p : A -> string) (l : list A) : string :=
  match l with
  | [] => "()"
  | [x] => "(" ++ p x ++ ",)"
  | x :: r => "(" ++ py_items p x r ++ ")"
  end.
(** gconv.py:193: group_kernel_size is an int or a tuple. *)
Definition py_gks (g : gk_arg) : string := match g with GkInt z => py_int z | GkTuple l => py_tuple py_int l end.
(** gconv.py:81-88: the accepted names. *)
Definition mode_name (m : padmode) : string :=
  match m with Zeros => "zeros" | Reflect => "reflect" | Replicate => "replicate" | Circular => "circular" end.

(** gconv.py:192-204 [GroupConvNd.extra_repr]. *)
Definition gconv_repr {G P} (L : gconv G P) : string :=
  py_nat (l_in L) ++ ", " ++ py_nat (l_out L) ++ ", kernel_size=" ++ py_tuple py_nat (l_ks L) ++
  ", group_kernel_size=" ++ py_gks (l_gks L) ++ ", stride=" ++ py_tuple py_nat (l_stride L) ++
  match l_padding L with
  | PadTuple l => if list_eq_dec Nat.eq_dec l (repeat 0 (length l)) then "" else ", padding=" ++ py_tuple py_nat l
  | PadStr s => ", padding=" ++ s
  end ++
  (if list_eq_dec Nat.eq_dec (l_dil L) (repeat 1 (length (l_dil L))) then "" else ", dilation=" ++ py_tuple py_nat (l_dil L)) ++
  (if Nat.eqb (l_groups L) 1 then "" else ", groups=" ++ py_nat (l_groups L)) ++
  (match l_bias L with None => ", bias=False" | Some _ => "" end) ++
  (match l_mode L with Zeros => "" | m => ", padding_mode=" ++ mode_name m end).

(** str of a dict with string keys; values as printed text (kernel.py:118-121). *)
Fixpoint py_pairs (k v : string) (l : list (string * string)) : string :=
  match l with
  | [] => "'" ++ k ++ "': " ++ v
  | (k', v') :: r => "'" ++ k ++ "': " ++ v ++ ", " ++ py_pairs k' v' r
  end.
Definition py_dict (l : list (string * string)) : string := match l with [] => "{}" | (k, v) :: r => "{" ++ py_pairs k v r ++ "}" end.
(** kernel.py:116-122 [GroupKernel.extra_repr]. *)
Definition kernel_repr {G P} (k : gkernel G P) (kwargs_H kwargs_Rn : list (string * string)) : string :=
  "mask=" ++ (match k_mask k with Some _ => "True" | None => "False" end) ++
  (match kwargs_H with [] => "" | _ => ", sample_H_kwargs=" ++ py_dict kwargs_H end) ++
  (match kwargs_Rn with [] => "" | _ => ", sample_Rn_kwargs=" ++ py_dict kwargs_Rn end).
