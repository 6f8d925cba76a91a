(** The certificates of the default SE(3) and E(3) grids, evaluated by the kernel. *)
From Coq Require Import ZArith List.
From Verif Require Import RbfCert RbfHints.
Lemma run_dist : forallb (fun n => certify_dist n (dist_hint n)) (seq 2 23) = true.
Proof. vm_cast_no_check (eq_refl true). Qed.
Lemma run_SE3 : forallb (fun n => certify_SE3 60 n (dist_hint n) (inverse_SE3 n)) (seq 2 23) = true.
Proof. vm_cast_no_check (eq_refl true). Qed.
Lemma run_E3 : forallb (fun n => certify_E3 60 n (dist_hint n) (flat_hint n) (inverse_E3 n)) (seq 2 23) = true.
Proof. vm_cast_no_check (eq_refl true). Qed.
