(** What a commit and a tag made from parts have to give back, and what the first paragraph of a
    message is, independently of the model's loops. *)
From Verif Require Import Base Str.
Local Open Scope Z_scope.

(** Lines with their newlines. *)
Definition text (lines : list (list Z)) : list Z := concat (map (fun l => l ++ [10]) lines).
(** Header lines: not empty and without newline. *)
Definition header_lines (lines : list (list Z)) : Prop := forall l, In l lines -> l <> [] /\ ~ In 10 l.

(** White space: blank, tab, newline, vertical tab, form feed, carriage return. *)
Definition space (c : Z) : Prop := c = 32 \/ 9 <= c <= 13.
Definition blank_line (l : list Z) : Prop := Forall space l /\ ~ In 10 l.

(** [p] is the first paragraph of [m]: up to a newline that is followed by a blank line or nothing. *)
Definition ends_here (r : list Z) : Prop := exists l t, r = l ++ t /\ blank_line l /\ (t = [] \/ exists u, t = 10 :: u).
Definition first_paragraph (m p : list Z) : Prop :=
  (exists r, m = p ++ r /\ (r = [] \/ exists r', r = 10 :: r' /\ ends_here r')) /\
  (forall a b, m = a ++ 10 :: b -> ends_here b -> (length p <= length a)%nat).

(** Joining the lines of a paragraph: white space with a newline in it becomes one blank, other
    white space stays, white space at the end goes. *)
Inductive joins : list Z -> list Z -> Prop :=
| joins_end ws : Forall space ws -> joins ws []
| joins_char c p s : ~ space c -> joins p s -> joins (c :: p) (c :: s)
| joins_gap ws c p s : ws <> [] -> Forall space ws -> ~ In 10 ws -> ~ space c -> joins (c :: p) s -> joins (ws ++ c :: p) (ws ++ s)
| joins_line ws c p s : Forall space ws -> In 10 ws -> ~ space c -> joins (c :: p) s -> joins (ws ++ c :: p) (32 :: s).

(** The text apart from white space. *)
Definition spaceb (c : Z) : bool := (c =? 32) || ((9 <=? c) && (c <=? 13)).
Definition words (s : list Z) : list Z := filter (fun c => negb (spaceb c)) s.
