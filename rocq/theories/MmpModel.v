(** Reading a mailmap file (mailmap.c, parse.c).  The parse context is its current line and the text
    behind that line. *)
From Verif Require Import Base CStr Str WildModel MmapModel MmapSpec.

(** git_parse_advance_ws, parse.c:65-79 *)
Fixpoint adv_ws (s : list Z) : list Z :=
  match s with c :: r => if negb (c =? 10) && isspace c then adv_ws r else s | [] => [] end.
(** git_parse_peek with GIT_PARSE_PEEK_SKIP_WHITESPACE, parse.c:118-138 *)
Fixpoint peek (s : list Z) : option Z :=
  match s with [] => None | c :: r => if isspace c then peek r else Some c end.
(** is_eol, mailmap.c:70-75 *)
Definition is_eol (s : list Z) : bool := match peek s with None => true | Some c => c =? 35 end.
(** advance_until, mailmap.c:77-90 *)
Fixpoint until (needle : Z) (s : list Z) : option (list Z * list Z) :=
  match s with
  | [] => None
  | c :: r =>
    if c =? 35 then None
    else if c =? needle then Some ([], r)
    else match until needle r with Some (a, b) => Some (c :: a, b) | None => None end
  end.
(** git_str_rtrim, str.c:869-880: from the end. *)
Fixpoint drop_ws (s : list Z) : list Z := match s with c :: r => if isspace c then drop_ws r else s | [] => [] end.
Definition rtrim (s : list Z) : list Z := rev (drop_ws (rev s)).
(** parse_mailmap_entry, mailmap.c:98-149: the entry and what is left of the line.  (git_str_clear and
    git_str_attach_notowned, str.c:658-670, give an empty string for a length of 0.) *)
Definition parse_entry (s : list Z) : option (madd * list Z) :=
  let s := adv_ws s in
  if is_eol s then None
  else
    match until 60 s with
    | None => None
    | Some (n1, s) =>
      match until 62 s with
      | None => None
      | Some (e1, s) =>
        if is_eol s then Some (mkadd (Some (rtrim n1)) (Some []) (Some []) e1, s)
        else
          match until 60 (adv_ws s) with
          | None => None
          | Some (n2, s) =>
            match until 62 s with
            | None => None
            | Some (e2, s) => if is_eol s then Some (mkadd (Some (rtrim n1)) (Some e1) (Some (rtrim n2)) e2, s) else None
            end
          end
      end
    end.
(** git__linenlen, util.c:324-328: the line with its newline, and the rest. *)
Fixpoint cut_line (s : list Z) : list Z * list Z :=
  match s with
  | [] => ([], [])
  | c :: r => if c =? 10 then ([c], r) else let '(a, b) := cut_line r in (c :: a, b)
  end.
(** One round of the loop of mailmap_add_buffer, mailmap.c:248-266, with git_parse_advance_line
    (parse.c:35-41) for the lines that are no entry; [k] is the rest of the loop. *)
Definition mm_buf_round (k : list mment -> list Z -> list Z -> res (list mment)) (mm : list mment) (cur rest : list Z) : res (list mment) :=
  match parse_entry cur with
  | None => let '(cur, rest) := cut_line rest in k mm cur rest
  | Some (a, cur) =>
    do mm <- mm_add mm (a_rname a) (a_remail a) (a_name a) (a_email a) ;;
    k mm cur rest
  end.
Fixpoint mm_buf_loop (fuel : nat) (mm : list mment) (cur rest : list Z) : res (list mment) :=
  match fuel with
  | O => NoFuel
  | S f =>
    match cur, rest with
    | [], [] => Ok mm
    | _, _ => mm_buf_round (mm_buf_loop f) mm cur rest
    end
  end.
(** git_mailmap_from_buffer (mailmap.c:275-287) and mailmap_add_buffer (mailmap.c:230-273). *)
Definition mm_from_buffer (text : list Z) : res (list mment) :=
  if existsb (Z.eqb 0) text then Err (-1)
  else let '(cur, rest) := cut_line text in mm_buf_loop (2 * length text + 3) [] cur rest.
