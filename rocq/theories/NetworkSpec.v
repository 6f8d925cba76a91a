(** Specification: when two pairs (feature maps, group elements) show the same thing up to a symmetry. Independent of the model. *)
From Verif Require Import Prelude RMath Tensor KernelFacts LayersSpec RegridSpec.
Open Scope nat_scope.

(** The features X, of shape (N, C, |H|, *s) with d spatial axes, live on the group elements H, and X' on H'.  H' lists the elements act h, h in H, in
    some order, and the feature map of X' at act h is the one of X at h, moved by mv. *)
Definition same_up_to {G} (d : nat) (mv : tensor R -> tensor R -> Prop) (act : G -> G) (X : tensor R) (H : list G) (X' : tensor R) (H' : list G) : Prop :=
  exists f Z N C s s',
    has_shape X (N :: C :: length H :: s) /\ has_shape X' (N :: C :: length H' :: s') /\
    length s = d /\ length H' = length H /\ permutes (length H) f /\ regrid f (map act H) H' /\
    mv X Z /\ regrouped d f (length H) (length H') Z X'.
