(** Tree objects: their bytes, canonical order, and the set of entries a builder holds. *)
From Verif Require Import Base Str CStr IntSpec.
From Coq Require Export Sorted.

(** An entry as the user gives or sees it: mode, name, id. *)
Definition isdir (m : Z) : Prop := Z.land m 61440 = 16384.   (* 0170000, 0040000 *)
Definition isdirb (m : Z) : bool := Z.land m 61440 =? 16384.

(** git's order: names compared as bytes, directories as if their name ended in "/". *)
Definition sort_key (m : Z) (name : list Z) : list Z := name ++ (if isdirb m then bs "/" else []).

(** The octal text of a number, without leading zeros. *)
Definition octal_text (n : Z) (t : list Z) : Prop := digits 8 t n /\ (hd 0 t <> ch "0" \/ t = bs "0").

Definition entry_bytes (m : Z) (name oid : list Z) (b : list Z) : Prop :=
  exists t, octal_text m t /\ b = t ++ bs " " ++ name ++ [0] ++ oid.

(** What the parser accepts for one entry of a tree whose ids have [sz] bytes: the mode as
    an octal numeral (not preceded by space; leading zeros and a sign are tolerated). *)
Definition entry_text (sz : nat) (b : list Z) (m : Z) (name oid : list Z) : Prop :=
  exists t, b = t ++ bs " " ++ name ++ [0] ++ oid /\ (exists c r, t = c :: r /\ ~ space c) /\
    numeral 8 (t ++ bs " ") m (bs " ") /\ 0 <= m <= 65535 /\
    ~ In 0 name /\ 1 <= Z.of_nat (length name) <= 65535 /\ length oid = sz.

(** The user's view of a builder: which name maps to which mode and id. *)
Definition entries_map : Type := list Z -> option (Z * list Z).
Definition mempty : entries_map := fun _ => None.
Definition mset (S : entries_map) (n : list Z) (v : option (Z * list Z)) : entries_map :=
  fun k => if leqb k n then v else S k.
Inductive bop : Type :=
| BInsert (name oid : list Z) (mode : Z)
| BRemove (name : list Z)
| BGet (name : list Z)
| BFilter (p : Z -> list Z -> list Z -> bool)      (* true: remove the entry *)
| BClear.
Inductive bans : Type := ACode (c : Z) | AEntry (e : option (Z * list Z)).
(** [ok] is the validity check of an insertion. *)
Definition bspec (ok : list Z -> list Z -> Z -> bool) (S : entries_map) (o : bop) : entries_map * bans :=
  match o with
  | BInsert n oid m => if ok n oid m then (mset S n (Some (m, oid)), ACode 0) else (S, ACode (-1))
  | BRemove n => match S n with None => (S, ACode (-1)) | Some _ => (mset S n None, ACode 0) end
  | BGet n => (S, AEntry (S n))
  | BFilter p => (fun n => match S n with Some (m, oid) => if p m n oid then None else Some (m, oid) | None => None end, ACode 0)
  | BClear => (mempty, ACode 0)
  end.
Fixpoint brun_spec ok (S : entries_map) (ops : list bop) : entries_map * list bans :=
  match ops with
  | [] => (S, [])
  | o :: r => let (S1, a) := bspec ok S o in let (S2, l) := brun_spec ok S1 r in (S2, a :: l)
  end.

(** Walking a path: components separated by "/", each but the last a directory; a final
    "/" demands that the last is a directory. [get] gives an entry of the tree with an id
    (the root is [None]). *)
Inductive walks {T : Type} (get : T -> list Z -> Z -> list Z -> Prop) (open : list Z -> option T) : T -> list Z -> Z -> list Z -> list Z -> Prop :=
| WLast t n m oid : n <> [] -> ~ In (ch "/") n -> get t n m oid -> walks get open t n m n oid
| WSlash t n m oid : n <> [] -> ~ In (ch "/") n -> get t n m oid -> isdir m -> walks get open t (n ++ bs "/") m n oid
| WDown t n m oid t' p m' n' oid' : n <> [] -> ~ In (ch "/") n -> get t n m oid -> isdir m -> open oid = Some t' ->
    p <> [] -> walks get open t' p m' n' oid' -> walks get open t (n ++ bs "/" ++ p) m' n' oid'.
