(** What a tree contains. *)
From Verif Require Import Base CStr Str TreeIterModel.
Local Open Scope Z_scope.

(** [contains st es ns e]: below a tree with entries [es], following the names [ns], there is the entry [e]. *)
Inductive contains (st : store) : list tentry -> list (list Z) -> tentry -> Prop :=
| here es e : In e es -> contains st es [t_name e] e
| below es d sub ns e : In d es -> is_tree d = true -> st (t_id d) = Some sub -> contains st sub ns e -> contains st es (t_name d :: ns) e.
(** All trees below are there and the nesting is finite. *)
Inductive complete (st : store) : list tentry -> Prop :=
| complete_intro es : (forall d, In d es -> is_tree d = true -> exists sub, st (t_id d) = Some sub /\ complete st sub) -> complete st es.
(** Git's order of the entries of a tree: by name, directories as if their name ended in a slash. *)
Definition key (e : tentry) : list Z := if is_tree e then t_name e ++ bs "/" else t_name e.
Definition good_name (n : list Z) : Prop := n <> [] /\ ~ In 0 n /\ ~ In 47 n.
Definition canonical (es : list tentry) : Prop :=
  (forall e, In e es -> good_name (t_name e)) /\
  (forall i j a b, (i < j)%nat -> nth_error es i = Some a -> nth_error es j = Some b -> lex (key a) (key b) = Lt).
Definition all_canonical (st : store) (root : list tentry) : Prop :=
  canonical root /\ forall id es, st id = Some es -> canonical es.

(** The full path; directories end in a slash. *)
Fixpoint slashed (ns : list (list Z)) : list Z := match ns with [] => [] | [n] => n | n :: r => n ++ bs "/" ++ slashed r end.
Definition full_path (ns : list (list Z)) (e : tentry) : list Z := slashed ns ++ (if is_tree e then bs "/" else []).
Definition entry_at (ns : list (list Z)) (e : tentry) : yielded := mkyield (full_path ns e) (t_mode e) (t_id e).

(** Order of the entries yielded. *)
Definition in_order (l : list yielded) : Prop :=
  forall i j a b, (i < j)%nat -> nth_error l i = Some a -> nth_error l j = Some b -> lex (y_path a) (y_path b) = Lt.

(** A file is selected by a listed path when it is that path or inside it
    (a listed path with a slash at its end selects only what is inside). *)
Definition selects (p x : list Z) : Prop := x = p \/ (exists r, x = p ++ r /\ exists q, p = q ++ bs "/") \/ exists r, x = p ++ bs "/" ++ r.
