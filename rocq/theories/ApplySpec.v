(** Unified diffs. *)
From Verif Require Import Base CStr Str ApplyModel.
Local Open Scope Z_scope.

(** [lines_of s ls]: the lines of a text, newlines included; only the last may lack one. *)
Inductive lines_of : list Z -> list (list Z) -> Prop :=
| lines_nil : lines_of [] []
| lines_last a : a <> [] -> ~ In 10 a -> lines_of a [a]
| lines_cons a s ls : ~ In 10 a -> lines_of s ls -> lines_of (a ++ [10] ++ s) ((a ++ [10]) :: ls).

(** [unified ls pre post]: the lines of a hunk describe replacing [pre] by [post]; a marker
    ("\ No newline at end of file") says that the line before it has no newline. *)
Definition unmarked (r : list pline) : Prop := forall m r', r <> mkline Eofnl m :: r'.
Inductive unified : list pline -> list (list Z) -> list (list Z) -> Prop :=
| u_nil : unified [] [] []
| u_ctx c r a b : unmarked r -> unified r a b -> unified (mkline Context c :: r) (c :: a) (c :: b)
| u_del c r a b : unmarked r -> unified r a b -> unified (mkline Deletion c :: r) (c :: a) b
| u_add c r a b : unmarked r -> unified r a b -> unified (mkline Addition c :: r) a (c :: b)
| u_ctx_end c m r a b : unified r a b -> unified (mkline Context (c ++ [10]) :: mkline Eofnl m :: r) (c :: a) (c :: b)
| u_del_end c m r a b : unified r a b -> unified (mkline Deletion (c ++ [10]) :: mkline Eofnl m :: r) (c :: a) b
| u_add_end c m r a b : unified r a b -> unified (mkline Addition (c ++ [10]) :: mkline Eofnl m :: r) a (c :: b).

(** A difference between two texts: after each run of unchanged lines a run of lines is replaced. *)
Record change := mkchange { keep : list (list Z); del : list (list Z); add : list (list Z) }.
Definition before (cs : list change) (tail : list (list Z)) : list (list Z) := concat (map (fun c => keep c ++ del c) cs) ++ tail.
Definition after (cs : list change) (tail : list (list Z)) : list (list Z) := concat (map (fun c => keep c ++ add c) cs) ++ tail.
(** Only the changes for which [pick] says so are made. *)
Definition some_after (pick : list bool) (cs : list change) (tail : list (list Z)) : list (list Z) :=
  concat (map (fun bc : bool * change => keep (snd bc) ++ (if fst bc then add (snd bc) else del (snd bc))) (combine pick cs)) ++ tail.
(** [describes n hs cs]: the hunks describe the changes, as git prints them: the header has the
    number of lines of each side and the first line in the new text, counted from 1 -- or, when the
    hunk has no lines in the new text, the line before.  [n] is the number of new lines so far. *)
Inductive describes : nat -> list hunk -> list change -> Prop :=
| d_nil n : describes n [] []
| d_cons n h hs c cs :
    unified (h_lines h) (del c) (add c) -> h_old_lines h = Z.of_nat (length (del c)) -> h_new_lines h = Z.of_nat (length (add c)) ->
    h_new_start h = Z.of_nat (n + length (keep c)) + (match add c with [] => 0 | _ => 1 end) ->
    describes (n + length (keep c) + length (add c)) hs cs -> describes n (h :: hs) (c :: cs).
(** Each hunk has a line in the new text, or is the first one and at the start of it (so is every
    hunk of a diff with context lines). *)
Definition with_context (cs : list change) : Prop :=
  match cs with
  | [] => True
  | c :: r => (add c = [] -> keep c = []) /\ Forall (fun c => add c <> []) r
  end.

(** [rewritten h image image']: the lines the hunk deletes were at its place, and are replaced. A hunk
    that deletes nothing and is beyond the end adds its lines at the end. *)
Definition rewritten (h : hunk) (image image' : list (list Z)) : Prop :=
  exists pre post A B, unified (h_lines h) pre post /\ image = A ++ pre ++ B /\ image' = A ++ post ++ B /\
    (Z.of_nat (length A) = Z.max 0 (h_new_start h - 1) \/ (pre = [] /\ B = [] /\ Z.of_nat (length A) <= h_new_start h - 1)).
