(** Model of src/libgit2/message.c: git_message_prettify.

    The message is the C string [m] (no NUL inside); the output buffer starts
    empty (git_buf_sanitize, buf.c:11-22).  The counter of consecutive empty
    lines is only compared with zero and is kept as a natural number (in the
    code an int: more than 2^31 empty lines are outside the model).  Failing
    allocations are not modelled. *)
From Verif Require Import Base Str CodecModel.

(** line_length_without_trailing_spaces, message.c:12-22: the line cut to that
    length.  Written from the end of the line, like the loop. *)
Fixpoint drop_spaces (rev_line : list Z) : list Z :=
  match rev_line with
  | [] => []
  | c :: r => if isspace c then drop_spaces r else rev_line
  end.
Definition rtrimmed (line : list Z) : list Z := rev (drop_spaces (rev line)).

(** message.c:38-44: the line at the start of [s], with its newline, and the rest. *)
Fixpoint take_line (s : list Z) : list Z * list Z :=
  match s with
  | [] => ([], [])
  | c :: r => if c =? 10 then ([c], r) else let '(l, t) := take_line r in (c :: l, t)
  end.

(** git_message__prettify, message.c:26-65: the loop. *)
Fixpoint prettify_loop (fuel : nat) (s : list Z) (strip : bool) (comment : Z)
    (empties : nat) (out : list Z) : res (list Z) :=
  match fuel with
  | O => NoFuel
  | S f =>
      match s with
      | [] => Ok out
      | c :: _ =>
          let '(line, rest) := take_line s in
          if strip && (c =? comment) then prettify_loop f rest strip comment empties out
          else
            match rtrimmed line with
            | [] => prettify_loop f rest strip comment (S empties) out
            | t =>
                let sep := if (0 <? empties)%nat && (0 <? length out)%nat then [10] else [] in
                prettify_loop f rest strip comment 0 (out ++ sep ++ t ++ [10])
            end
      end
  end.
Definition prettify (m : list Z) (strip : bool) (comment : Z) : res (list Z) :=
  prettify_loop (S (length m)) m strip comment 0 [].
