(** What the extensions of an index file hold. *)
From Verif Require Import Base Str WtreeModel IxextModel.

Definition nonul (s : list Z) : Prop := ~ In 0 s.

(** *** Tree caches: a directory has a name, a number of files below it or -1 when it is not known,
    an id and directories below it.  [lo] is the least number allowed. *)
Inductive cache_from (lo : Z) (osz : nat) : tcache -> Prop :=
| cache_node name count oid kids :
    nonul name -> lo <= count < 2 ^ 31 -> length oid = osz -> Z.of_nat (length kids) < 2 ^ 31 ->
    Forall (cache_from lo osz) kids -> cache_from lo osz (TC name count oid kids).
Definition cache_ok : nat -> tcache -> Prop := cache_from (-1).
(** Equal, except for the ids of directories with unknown contents. *)
Inductive same_cache : tcache -> tcache -> Prop :=
| same_node name count oid oid' kids kids' :
    (0 <= count -> oid = oid') -> Forall2 same_cache kids kids' ->
    same_cache (TC name count oid kids) (TC name count oid' kids').
(** The number of directories, and the longest chain of directories inside each other. *)
Fixpoint dirs (t : tcache) : nat := let '(TC _ _ _ kids) := t in S (list_sum (map dirs kids)).
Fixpoint nesting (t : tcache) : nat := let '(TC _ _ _ kids) := t in S (list_max (map nesting kids)).

(** *** Resolve-undo entries: a path and for ancestor, ours and theirs a mode and, unless that is
    zero, an id. *)
Definition reuc_ok (osz : nat) (r : reuc) : Prop :=
  nonul (ru_path r) /\ length (ru_modes r) = 3%nat /\ Forall (fun m => 0 <= m < 2 ^ 32) (ru_modes r) /\
  length (ru_oids r) = 3%nat /\ Forall (fun o => length o = osz) (ru_oids r).
Definition same_reuc (r r' : reuc) : Prop :=
  ru_path r = ru_path r' /\ ru_modes r = ru_modes r' /\
  forall i m, nth_error (ru_modes r) i = Some m -> m <> 0 -> nth_error (ru_oids r) i = nth_error (ru_oids r') i.
Definition some_mode (r : reuc) : Prop := Exists (fun m => m <> 0) (ru_modes r).

(** *** Names of conflicts. *)
Definition opt_ok (o : option (list Z)) : Prop := match o with Some n => nonul n /\ n <> [] | None => True end.
Definition cname_ok (c : cname) : Prop := opt_ok (fst (fst c)) /\ opt_ok (snd (fst c)) /\ opt_ok (snd c).
(** The last entry, if there is one, has an id. *)
Definition last_has_mode (l : list reuc) : Prop := forall pre r, l = pre ++ [r] -> some_mode r.
