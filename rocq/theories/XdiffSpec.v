(** What a line diff is to say about two texts. *)
From Verif Require Import Base CStr Str ApplyModel ApplySpec XdiffModel.
Local Open Scope Z_scope.

(** [shows ls pre post]: the lines of a hunk, as they are given to the caller, show [pre] being replaced
    by [post]: a line without a newline is followed by a note that there is none. *)
Definition complete (l : list Z) : Prop := exists a, l = a ++ [10].
Inductive shows : list pline -> list (list Z) -> list (list Z) -> Prop :=
| sh_nil : shows [] [] []
| sh_ctx c r a b : complete c -> shows r a b -> shows (mkline Context c :: r) (c :: a) (c :: b)
| sh_del c r a b : complete c -> shows r a b -> shows (mkline Deletion c :: r) (c :: a) b
| sh_add c r a b : complete c -> shows r a b -> shows (mkline Addition c :: r) a (c :: b)
| sh_ctx_end c r a b : ~ complete c -> shows r a b -> shows (mkline Context c :: mkline Eofnl no_newline :: r) (c :: a) (c :: b)
| sh_del_end c r a b : ~ complete c -> shows r a b -> shows (mkline Deletion c :: mkline Eofnl no_newline :: r) (c :: a) b
| sh_add_end c r a b : ~ complete c -> shows r a b -> shows (mkline Addition c :: mkline Eofnl no_newline :: r) a (c :: b).
Definition one_if {A} (l : list A) : Z := match l with [] => 0 | _ => 1 end.
(** [reports o n hs cs]: the hunks report the changes, each with its lines, their numbers and where they
    start in the old and in the new text -- counted from 1; the line before, if there are none.  [o]
    and [n]: how many lines of the texts come before. *)
Inductive reports : nat -> nat -> list dhunk -> list change -> Prop :=
| r_nil o n : reports o n [] []
| r_cons o n h hs c cs :
    shows (d_lines h) (del c) (add c) ->
    old_start h = Z.of_nat (o + length (keep c)) + one_if (del c) -> old_lines h = Z.of_nat (length (del c)) ->
    new_start h = Z.of_nat (n + length (keep c)) + one_if (add c) -> new_lines h = Z.of_nat (length (add c)) ->
    reports (o + length (keep c) + length (del c)) (n + length (keep c) + length (add c)) hs cs -> reports o n (h :: hs) (c :: cs).
(** [numbered ls q o n]: each line has its numbers; [o] and [n]: those of the next line of each text. *)
Inductive numbered : list pline -> list (Z * Z) -> Z -> Z -> Prop :=
| n_nil o n : numbered [] [] o n
| n_ctx c r q o n : numbered r q (o + 1) (n + 1) -> numbered (mkline Context c :: r) ((o, n) :: q) o n
| n_del c r q o n : numbered r q (o + 1) n -> numbered (mkline Deletion c :: r) ((o, -1) :: q) o n
| n_add c r q o n : numbered r q o (n + 1) -> numbered (mkline Addition c :: r) ((-1, n) :: q) o n
| n_eof c r x q o n : numbered r q o n -> numbered (mkline Eofnl c :: r) (x :: q) o n.
Inductive all_numbered : nat -> nat -> list dhunk -> list change -> Prop :=
| an_nil o n : all_numbered o n [] []
| an_cons o n h hs c cs : numbered (d_lines h) (line_numbers h) (Z.of_nat (o + length (keep c)) + 1) (Z.of_nat (n + length (keep c)) + 1) ->
    all_numbered (o + length (keep c) + length (del c)) (n + length (keep c) + length (add c)) hs cs -> all_numbered o n (h :: hs) (c :: cs).
(** A hunk as git_apply gets it. *)
Definition to_apply (h : dhunk) : hunk := mkhunk (new_start h) (old_lines h) (new_lines h) (d_lines h).
(** Context.  A hunk's lines are [ctx] lines of context (fewer only at the start of the texts),
    a part that starts and ends with a change, and [ctx] lines of context (fewer only at the end). *)
Definition is_change (l : pline) : Prop := l_origin l = Deletion \/ l_origin l = Addition.
Definition starts_changed (ls : list pline) : Prop := exists l r, ls = l :: r /\ is_change l.
Definition ends_changed (ls : list pline) : Prop := exists r l, is_change l /\ (ls = r ++ [l] \/ ls = r ++ [l; mkline Eofnl no_newline]).
Definition surrounded (ctx : nat) (h : dhunk) (c : change) (at_start at_end : Prop) : Prop :=
  exists P M Q p u v q, d_lines h = P ++ M ++ Q /\ shows P p p /\ shows M u v /\ shows Q q q /\ Forall (fun l => ~ is_change l) (P ++ Q) /\
    starts_changed M /\ ends_changed M /\ del c = p ++ u ++ q /\ add c = p ++ v ++ q /\
    (length p = ctx \/ (length p < ctx /\ at_start))%nat /\ (length q = ctx \/ (length q < ctx /\ at_end))%nat.
(** ... and between two hunks more than [inter] lines are left out. *)
Inductive spaced (ctx inter : nat) : bool -> list dhunk -> list change -> list (list Z) -> Prop :=
| sp_nil f tail : spaced ctx inter f [] [] tail
| sp_cons f h hs c cs tail : surrounded ctx h c (f = true /\ keep c = []) (hs = [] /\ tail = []) -> (f = false -> (inter < length (keep c))%nat) ->
    spaced ctx inter false hs cs tail -> spaced ctx inter f (h :: hs) (c :: cs) tail.
