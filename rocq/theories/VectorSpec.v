(** What a user of a vector relies on, stated on plain lists. *)
From Verif Require Import Base Arr TsortSpec.

(** The answer of a search for a key ([cmp e] compares the key with [e]). *)
Definition search_answer {A} (l : list A) (cmp : A -> Z) (found : bool) (pos : nat) : Prop :=
  if found
  then exists e, nth_error l pos = Some e /\ cmp e = 0
  else (pos <= length l)%nat /\
       (forall i e, (i < pos)%nat -> nth_error l i = Some e -> 0 < cmp e) /\
       (forall i e, (pos <= i)%nat -> nth_error l i = Some e -> cmp e < 0).

(** The list is ordered with respect to the key: first the elements below the key,
    then the equal ones, then those above it. *)
Definition ordered_for {A} (l : list A) (cmp : A -> Z) : Prop :=
  forall i j x y, (i < j)%nat -> nth_error l i = Some x -> nth_error l j = Some y ->
    (cmp x <= 0 -> cmp y <= 0) /\ (cmp x < 0 -> cmp y < 0).

(** Operations on a vector and what each may do to the sequence of elements. *)
Inductive vop (A : Type) : Type :=
| OInsert (x : A)
| OInsertSorted (x : A) (on_dup : option (A -> A -> Z))
| OSort
| OSearch (key : A)
| ORemove (i : nat)
| OPop
| OUniq
| ORemoveMatching (p : A -> bool)
| OClear
| ORemoveRange (i n : nat).
Arguments OInsert {A}. Arguments OInsertSorted {A}. Arguments OSort {A}. Arguments OSearch {A}.
Arguments ORemove {A}. Arguments OPop {A}. Arguments OUniq {A}. Arguments ORemoveMatching {A}.
Arguments OClear {A}. Arguments ORemoveRange {A}.

Section S.
  Context {A : Type} (cmp : A -> A -> Z).
  (** Permuting is allowed only where sorting is: the new sequence is a stable sort of
      the old one, or the old one itself. *)
  Definition maybe_sorted (l l' : list A) : Prop := l' = l \/ is_stable_sort cmp l l'.

  Definition step_spec (o : vop A) (l l' : list A) : Prop :=
    match o with
    | OInsert x => l' = l ++ [x]
    | OInsertSorted x d =>
        exists l1, maybe_sorted l l1 /\ sorted cmp l1 /\
          ((sorted cmp l' /\ exists a b, l1 = a ++ b /\ l' = a ++ x :: b) \/
           (l' = l1 /\ exists f old, d = Some f /\ In old l /\ cmp x old = 0 /\ f old x < 0))
    | OSort => sorted cmp l' /\ maybe_sorted l l'
    | OSearch k =>
        sorted cmp l' /\ maybe_sorted l l'
    | ORemove i => (exists a x b, l = a ++ x :: b /\ length a = i /\ l' = a ++ b) \/ (length l <= i /\ l' = l)%nat
    | OPop => (exists x, l = l' ++ [x]) \/ (l = [] /\ l' = [])
    | OUniq =>
        (length l <= 1 /\ l' = l)%nat \/
        (sorted cmp l' /\
         forall x, In x l -> exists e, filter (fun y => cmp x y =? 0) l' = [e] /\
                                       exists pre, filter (fun y => cmp x y =? 0) l = pre ++ [e])
         /\ incl l' l
    | ORemoveMatching p => l' = filter (fun x => negb (p x)) l
    | OClear => l' = []
    | ORemoveRange i n =>
        (exists a b c, l = a ++ b ++ c /\ length a = i /\ length b = n /\ (0 < n)%nat /\ l' = a ++ c) \/
        ((n = 0 \/ length l < i + n)%nat /\ l' = l)
    end.
End S.
