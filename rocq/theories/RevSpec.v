(** What a revision walk should list, independent of the model. *)
From Verif Require Import Base GraphSpec.

(** Reachable from a pushed commit, and from no hidden one. *)
Definition visible (parents : nat -> list nat) (pushes hides : list nat) (x : nat) : Prop :=
  (exists p, In p pushes /\ reach parents p x) /\ ~ (exists h, In h hides /\ reach parents h x).

(** No commit comes before one of its children. *)
Fixpoint children_first (parents : nat -> list nat) (l : list nat) : Prop :=
  match l with [] => True | x :: r => (forall c, In c r -> ~ In x (parents c)) /\ children_first parents r end.

(** The parents a walk follows when asked for first parents only and/or given a
    callback naming commits to hide. *)
Definition followed (parents : nat -> list nat) (first : bool) (hide : nat -> bool) (c : nat) : list nat :=
  let l := filter (fun p => negb (hide p)) (parents c) in if first then firstn 1 l else l.

(** Every commit is at least as recent as its parents; strictly more recent. *)
Definition dates_ordered (parents : nat -> list nat) (time : nat -> Z) : Prop :=
  forall c p, In p (parents c) -> time p <= time c.
Definition dates_strict (parents : nat -> list nat) (time : nat -> Z) : Prop :=
  forall c p, In p (parents c) -> time p < time c.

(** The number of times [x] is named as a parent in the commits of [l]. *)
Fixpoint child_edges (parents : nat -> list nat) (l : list nat) (x : nat) : Z :=
  match l with
  | [] => 0
  | c :: r => Z.of_nat (length (filter (Nat.eqb x) (parents c))) + child_edges parents r x
  end.
