(** Specification of ancestry, merge bases and ahead/behind, independent of the model. *)
From Verif Require Import Base.

Section Hist.
  Context (parents : nat -> list nat).

  (** [reach c a]: commit [a] is [c] or an ancestor of [c]. *)
  Inductive reach : nat -> nat -> Prop :=
  | reach_refl c : reach c c
  | reach_step c p a : In p (parents c) -> reach p a -> reach c a.

  (** No commit is its own proper ancestor. *)
  Definition acyclic : Prop := forall c p, In p (parents c) -> ~ reach p c.

  (** Reachable from [one] and from at least one of [twos]. *)
  Definition common (one : nat) (twos : list nat) (x : nat) : Prop :=
    reach one x /\ exists two, In two twos /\ reach two x.

  (** A common ancestor that is no proper ancestor of another common ancestor. *)
  Definition best_common (one : nat) (twos : list nat) (m : nat) : Prop :=
    common one twos m /\ forall c, common one twos c -> reach c m -> c = m.

  (** [V] lists the whole (finite) history of the given commits. *)
  Definition history (V : list nat) (tips : list nat) : Prop :=
    (forall x, In x tips -> In x V) /\ (forall x p, In x V -> In p (parents x) -> In p V).
End Hist.

(** Newest first. *)
Fixpoint newest_first (time : nat -> Z) (l : list nat) : Prop :=
  match l with [] => True | x :: r => (forall y, In y r -> time y <= time x) /\ newest_first time r end.

(** [n] is the number of commits with property [P]. *)
Definition count_of (P : nat -> Prop) (n : Z) : Prop :=
  exists l, NoDup l /\ (forall x, In x l <-> P x) /\ Z.of_nat (length l) = n.
