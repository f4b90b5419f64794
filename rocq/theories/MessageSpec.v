(** What a clean message is, independently of the code. *)
From Verif Require Import Base Str.

Definition blank_char (c : Z) : Prop := c = 32 \/ 9 <= c <= 13.
Definition blank_charb (c : Z) : bool := (c =? 32) || ((9 <=? c) && (c <=? 13)).

(** A line without its trailing blanks. *)
Definition chomped (l t : list Z) : Prop :=
  exists sp, l = t ++ sp /\ Forall blank_char sp /\ (forall u c, t = u ++ [c] -> ~ blank_char c).

(** The lines of a text. *)
Definition lines (m : list Z) : list (list Z) := split 10 m.

(** Comment lines: those whose first character (counting the newline) is the
    comment character. *)
Definition is_comment (comment : Z) (l : list Z) : Prop := hd 10 l = comment.

(** Paragraphs: the maximal runs of non-empty lines. *)
Fixpoint paragraphs (ls : list (list Z)) : list (list (list Z)) :=
  match ls with
  | [] => []
  | [] :: r => paragraphs r
  | l :: r =>
      match r with
      | [] => [[l]]
      | [] :: _ => [l] :: paragraphs r
      | _ => match paragraphs r with p :: ps => (l :: p) :: ps | [] => [[l]] end
      end
  end.

(** Text: each line ended by a newline, an empty line between paragraphs. *)
Definition para_text (p : list (list Z)) : list Z := concat (map (fun l => l ++ [10]) p).
Fixpoint text (ps : list (list (list Z))) : list Z :=
  match ps with
  | [] => []
  | [p] => para_text p
  | p :: r => para_text p ++ [10] ++ text r
  end.

(** The lines that survive, when comments are to be stripped. *)
Definition kept (strip : bool) (comment : Z) (ls : list (list Z)) : list (list Z) :=
  filter (fun l => negb (strip && (hd 10 l =? comment))) ls.
Definition nonempty (ls : list (list Z)) : list (list Z) :=
  filter (fun l => match l with [] => false | _ => true end) ls.
