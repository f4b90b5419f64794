(** What it means that a tree object stands for a set of files. *)
From Verif Require Import Base Str CStr IndexModel TreeModel TreeSpec.

Section Spec.
(** The tree objects that can be read, by id. *)
Context (open : list Z -> option (list tentry)).
(** The files of a tree, with their paths. *)
Inductive holds : list tentry -> list Z -> Z -> list Z -> Prop :=
| h_file es m n o : In (mkte m n o) es -> ~ isdir m -> holds es n m o
| h_below es m n o sub p m' o' : In (mkte m n o) es -> isdir m -> open o = Some sub -> holds sub p m' o' -> holds es (n ++ bs "/" ++ p) m' o'.
(** A tree in git's order with proper names, all of whose subtrees exist, are such, and are not empty. *)
Definition sorted_tree (es : list tentry) : Prop := forall i j a b, (i < j)%nat -> nth_error es i = Some a -> nth_error es j = Some b ->
  lex (sort_key (te_attr a) (te_name a)) (sort_key (te_attr b) (te_name b)) = Lt.
Inductive whole : list tentry -> Prop :=
| whole_intro es : sorted_tree es -> NoDup (map te_name es) ->
    (forall m n o, In (mkte m n o) es -> n <> [] /\ ~ In (ch "/") n) ->
    (forall m n o, In (mkte m n o) es -> isdir m -> m = 16384 /\ exists sub, open o = Some sub /\ whole sub /\ exists p m' o', holds sub p m' o') ->
    whole es.
End Spec.
(** The paths an index accepts: parts separated by single slashes. *)
Definition plain (p : list Z) : Prop := cstr p /\ Forall (fun c => c <> []) (split 47 p) /\ Z.of_nat (length p) <= 65535.
