(** Finite maps as association lists without duplicate keys. *)
From Verif Require Import Base.

Section S.
  Context {K V : Type} (eqk : K -> K -> bool).
  Definition fmap := list (K * V).
  Fixpoint fget (m : fmap) (k : K) : option V :=
    match m with [] => None | (k', v) :: r => if eqk k' k then Some v else fget r k end.
  Definition fdel (m : fmap) (k : K) : fmap := filter (fun e => negb (eqk (fst e) k)) m.
  Definition fput (m : fmap) (k : K) (v : V) : fmap := (k, v) :: fdel m k.

  Inductive hop : Type := HPut (k : K) (v : V) | HGet (k : K) | HContains (k : K) | HRemove (k : K) | HClear | HSize.
  Inductive hans : Type := RUnit | RVal (v : option V) | RBool (b : bool) | RNat (n : nat).

  Definition fstep (m : fmap) (o : hop) : fmap * hans :=
    match o with
    | HPut k v => (fput m k v, RUnit)
    | HGet k => (m, RVal (fget m k))
    | HContains k => (m, RBool (match fget m k with Some _ => true | None => false end))
    | HRemove k => (fdel m k, RBool (match fget m k with Some _ => true | None => false end))
    | HClear => ([], RUnit)
    | HSize => (m, RNat (length m))
    end.
  Fixpoint frun (m : fmap) (ops : list hop) : fmap * list hans :=
    match ops with
    | [] => (m, [])
    | o :: r => let (m1, a) := fstep m o in let (m2, l) := frun m1 r in (m2, a :: l)
    end.
End S.
Arguments fmap : clear implicits.
Arguments hop : clear implicits.
Arguments hans : clear implicits.
