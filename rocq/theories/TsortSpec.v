(** Specification of a stable sort, independent of the algorithm. *)
From Verif Require Import Base Arr.

Section Spec.
  Context {A : Type} (cmp : A -> A -> Z).
  (** Elements that compare equal keep their relative order: for every probe [x],
      the subsequence of elements equal to [x] is the same list in both. *)
  Definition stable (l l' : list A) : Prop :=
    forall x, filter (fun y => cmp x y =? 0) l' = filter (fun y => cmp x y =? 0) l.

  Definition is_stable_sort (l l' : list A) : Prop :=
    sorted cmp l' /\ Permutation l l' /\ stable l l'.
End Spec.
