(** Model of configuration file parsing and rewriting:
    src/libgit2/config_parse.c, config_file.c and the name check of config.c.

    The parse context (src/libgit2/parse.c) is represented by the current line
    and the list of following lines: ctx->line and ctx->line_len always delimit
    the text up to and including the next newline (git__linenlen,
    util.c:324-328), so advancing to the next line is taking the next list
    element.  Callbacks do not influence parsing; the parser therefore yields
    the list of callback events, and the writer is a fold over it. *)
From Verif Require Import Base Str WildModel.

(** The lines of a buffer, each with its newline (git__linenlen). *)
Fixpoint lines (s : list Z) : list (list Z) :=
  match s with
  | [] => []
  | c :: r =>
      if c =? 10 then [c] :: lines r
      else match lines r with
           | [] => [[c]]
           | l :: ls => (c :: l) :: ls
           end
  end.

(** git__strndup of a line: up to a NUL. *)
Fixpoint strz (s : list Z) : list Z :=
  match s with [] => [] | c :: r => if c =? 0 then [] else c :: strz r end.

(** git_parse_advance_ws, parse.c:67-81. *)
Fixpoint advance_ws (l : list Z) : list Z :=
  match l with c :: r => if negb (c =? 10) && isspace c then advance_ws r else l | [] => [] end.

(** git_parse_peek, parse.c:121-143, with and without
    GIT_PARSE_PEEK_SKIP_WHITESPACE. *)
Fixpoint peek_ws (l : list Z) : option Z :=
  match l with [] => None | c :: r => if isspace c then peek_ws r else Some c end.
Definition peek (l : list Z) : option Z := match l with [] => None | c :: _ => Some c end.

(** Trailing white space removed. *)
Fixpoint rtrim (s : list Z) : list Z :=
  match s with
  | [] => []
  | c :: r => match rtrim r with [] => if isspace c then [] else [c] | t => c :: t end
  end.

(** strip_comments, config_parse.c:33-62: the shortened line and the quote
    count.  Counters are unbounded here. *)
Fixpoint strip_loop (prev : option Z) (qc bc : nat) (l : list Z) : list Z * nat :=
  match l with
  | [] => ([], qc)
  | c :: r =>
      let qc := if (c =? 34) && (match prev with None => true | Some p => negb (p =? 92) end) then S qc else qc in
      if ((c =? 59) || (c =? 35)) && Nat.even qc && Nat.even bc then ([], qc)
      else let (k, q) := strip_loop (Some c) qc (if c =? 92 then S bc else O) r in (c :: k, q)
  end.
Definition strip_comments (line : list Z) (in_quotes : nat) : list Z * nat :=
  let (k, q) := strip_loop None in_quotes 0 line in (rtrim k, q).

(** git_config_escapes and git_config_escaped, config_parse.c:12-13. *)
Definition escapes : list (Z * Z) := [(110, 10); (116, 9); (98, 8); (34, 34); (92, 92)].
Definition unescape1 (c : Z) : option Z :=
  option_map snd (find (fun p => fst p =? c) escapes).
Definition escape1 (c : Z) : option Z :=
  option_map fst (find (fun p => snd p =? c) escapes).

(** unescape_line, config_parse.c:283-327: the text and is_multi; the count
    kept through [quote_count] is overwritten by the callers and left out. *)
Fixpoint unescape (l : list Z) : res (list Z * bool) :=
  match l with
  | [] => Ok ([], false)
  | c :: r =>
      if c =? 34 then unescape r
      else if negb (c =? 92) then do (v, m) <- unescape r ;; Ok (c :: v, m)
      else match r with
           | [] => Ok ([], true)
           | e :: r' => match unescape1 e with
                        | Some d => do (v, m) <- unescape r' ;; Ok (d :: v, m)
                        | None => Err (-1)
                        end
           end
  end.

(** parse_multiline_variable, config_parse.c:329-382: the appended text,
    whether it stopped at the end of the file, the lines consumed and the lines
    after them. *)
Fixpoint parse_multi (inq : nat) (more : list (list Z)) : res (list Z * bool * (list (list Z) * list (list Z))) :=
  match more with
  | [] => Ok ([], true, ([], []))
  | l :: ls =>
      match strz l with
      | [] => Ok ([], false, ([l], ls))
      | line =>
          let (s, q) := strip_comments line inq in
          match s with
          | [] => do (v, eof, (used, rest)) <- parse_multi q ls ;; Ok (v, eof, (l :: used, rest))
          | _ =>
              do (v, multi) <- unescape s ;;
              if (multi : bool) then
                do (v', eof, (used, rest)) <- parse_multi q ls ;; Ok (v ++ v', eof, (l :: used, rest))
              else Ok (v, false, ([l], ls))
          end
      end
  end.

(** config_keychar and is_namechar, config_parse.c:28-31 and 384-387. *)
Definition keychar (c : Z) : bool := isalnum c || (c =? 45).

Fixpoint span (f : Z -> bool) (l : list Z) : list Z * list Z :=
  match l with c :: r => if f c then let (a, b) := span f r in (c :: a, b) else ([], l) | [] => ([], []) end.

(** parse_name, config_parse.c:389-421: name, and the text after '='. *)
Definition parse_name (line : list Z) : res (list Z * option (list Z)) :=
  let (name, r) := span keychar line in
  match name with
  | [] => Err (-1)
  | _ => match snd (span isspace r) with
         | [] => Ok (name, None)
         | c :: t => if c =? 61 then Ok (name, Some t) else Err (-1)
         end
  end.

(** parse_variable, config_parse.c:423-478: name, value, end-of-file flag,
    continuation lines consumed and remaining lines. *)
Definition parse_variable (line : list Z) (more : list (list Z)) : res (list Z * option (list Z) * bool * (list (list Z) * list (list Z))) :=
  let (s, q) := strip_comments (strz (advance_ws line)) 0 in
  do (name, vs) <- parse_name s ;;
  match vs with
  | None => Ok (name, None, false, ([], more))
  | Some t =>
      do (v, multi) <- unescape (snd (span isspace t)) ;;
      if (multi : bool) then
        do (v', eof, (used, rest)) <- parse_multi (if Nat.even q then 0 else 1) more ;;
        Ok (name, Some (v ++ v'), eof, (used, rest))
      else Ok (name, Some v, false, ([], more))
  end.

(** Index of the last occurrence (strrchr). *)
Fixpoint last_index (c : Z) (l : list Z) : option nat :=
  match l with
  | [] => None
  | x :: r => match last_index c r with
              | Some n => Some (S n)
              | None => if x =? c then Some O else None
              end
  end.

(** The loop of parse_subsection_header, config_parse.c:105-145: [u] is the
    text at line + rpos, [idx] counts from after the first quote, [last] is the
    index of the last quote.  Result: subsection and bytes consumed up to and
    including "]". *)
Fixpoint sub_loop (u : list Z) (idx last : nat) : res (list Z * nat) :=
  let fin w idx := match w with
                   | a :: b :: _ => if (a =? 34) && (b =? 93) then Ok ([], (idx + 2)%nat) else Err (-1)
                   | _ => Err (-1)
                   end in
  match u with
  | [] => Err (-1)
  | c :: r =>
      if c =? 34 then fin u idx
      else if c =? 92 then
        match r with
        | [] => Err (-1)
        | d :: r' =>
            do (b, n) <- (if (idx + 2 <? last)%nat then sub_loop r' (idx + 2) last else fin r' (idx + 2)%nat) ;; Ok (d :: b, n)
        end
      else do (b, n) <- (if (idx + 1 <? last)%nat then sub_loop r (idx + 1) last else fin r (idx + 1)%nat) ;; Ok (c :: b, n)
  end.

(** parse_subsection_header, config_parse.c:65-156, on the text after the
    first white space: full section name and bytes consumed.  INT_MAX and
    allocation checks are left out. *)
Definition parse_subsection (base t : list Z) : res (list Z * nat) :=
  let (ws, u) := span isspace t in
  match u with
  | q :: u' =>
      if q =? 34 then
        match last_index 34 u' with
        | None => Err (-1)
        | Some last => do (b, n) <- sub_loop u' 0 last ;; Ok (base ++ 46 :: b, (length ws + 1 + n)%nat)
        end
      else Err (-1)
  | [] => Err (-1)
  end.

(** The loop of parse_section_header, config_parse.c:193-214: [t] starts at the
    character in c.  Result: section name and bytes consumed including "]". *)
Fixpoint header_loop (t : list Z) (name : list Z) : res (list Z * nat) :=
  match t with
  | [] => Err (-1)
  | c :: r =>
      if isspace c then do (s, n) <- parse_subsection name r ;; Ok (s, S n)
      else if negb (keychar c) && negb (c =? 46) then Err (-1)
      else
        let name := name ++ [tolower c] in
        match r with
        | x :: _ => if x =? 93 then Ok (name, 2%nat) else do (s, n) <- header_loop r name ;; Ok (s, S n)
        | [] => Err (-1)
        end
  end.

(** parse_section_header, config_parse.c:158-227: section name and the rest of
    the line. *)
Definition parse_section_header (line : list Z) : res (list Z * list Z) :=
  let l1 := advance_ws line in
  let text := strz l1 in
  match last_index 93 text with
  | None => Err (-1)
  | Some _ =>
      match text with
      | o :: t => if o =? 91 then do (s, n) <- header_loop t [] ;; Ok (s, skipn (1 + n) l1) else Err (-1)
      | [] => Err (-1)
      end
  end.

(** The callbacks of git_config_parse.  The text of each is what line and
    line_len delimit; [same] marks events found on the line of a section header
    (the restart of config_parse.c:538-546); [eof] a value whose last
    continuation line was missing. *)
Inductive event :=
| ESection (same : bool) (name text : list Z)
| EComment (same : bool) (text : list Z)
| EVar (same : bool) (section : option (list Z)) (name : list Z) (value : option (list Z)) (eof : bool) (text : list Z).

(** git_config_parse, config_parse.c:491-581 (the loop of 507-571): events and the
    section current at the end.  Result codes of the callbacks are not
    modelled. *)
Fixpoint parse_loop (fuel : nat) (same : bool) (cur : option (list Z)) (line : list Z) (more : list (list Z)) : res (list event * option (list Z)) :=
  match fuel with
  | O => NoFuel
  | S f =>
      let next cur more := match more with [] => Ok ([], cur) | l :: ls => parse_loop f false cur l ls end in
      match (match peek_ws line with Some c => Some c | None => peek line end) with
      | None => next cur more
      | Some c =>
          if c =? 91 then
            do (name, rest) <- parse_section_header line ;;
            do (evs, e) <- (match peek_ws rest with
                            | Some _ => parse_loop f true (Some name) rest more
                            | None => next (Some name) more
                            end) ;;
            Ok (ESection same name line :: evs, e)
          else if (c =? 10) || (c =? 13) || (c =? 32) || (c =? 9) || (c =? 59) || (c =? 35) then
            do (evs, e) <- next cur more ;; Ok (EComment same line :: evs, e)
          else
            do (name, value, eof, (used, rest)) <- parse_variable line more ;;
            do (evs, e) <- next cur rest ;;
            Ok (EVar same cur name value eof (line ++ concat used) :: evs, e)
      end
  end.

(** skip_bom, config_parse.c:229-242. *)
Definition skip_bom (data : list Z) : list Z :=
  match data with
  | a :: b :: c :: r => if (a =? 239) && (b =? 187) && (c =? 191) then r else data
  | _ => data
  end.

Definition config_parse (data : list Z) : res (list event * option (list Z)) :=
  match lines (skip_bom data) with
  | [] => Ok ([], None)
  | l :: ls => parse_loop (S (length data)) false None l ls
  end.

(** *** Reading *)

(** read_on_variable, config_file.c:764-833: the entry added (the name in lower
    case, after the section).  Includes are not followed. *)
Definition entry : Type := list Z * option (list Z).
Definition entry_of (e : event) : list entry :=
  match e with
  | EVar _ cur name value _ _ =>
      [((match cur with Some s => s ++ [46] | None => [] end) ++ map tolower name, value)]
  | _ => []
  end.

(** config_file_read_buffer, config_file.c:835-873. *)
Definition config_read (data : list Z) : res (list entry) :=
  match data with
  | [] => Ok []
  | c :: _ => if c =? 0 then Ok [] else do (evs, _) <- config_parse data ;; Ok (flat_map entry_of evs)
  end.

(** *** Writing *)

(** escape_value, config_file.c:533-562. *)
Fixpoint escape_value (s : list Z) : list Z :=
  match s with
  | [] => []
  | c :: r => match escape1 c with Some e => 92 :: e :: escape_value r | None => c :: escape_value r end
  end.

(** quotes_for_value, config_file.c:937-956. *)
Definition quotes_for_value (v : list Z) : list Z :=
  match v with
  | [] => [34]
  | c :: _ =>
      if c =? 32 then [34]
      else if existsb (fun x => (x =? 59) || (x =? 35)) v then [34]
      else if last v 0 =? 32 then [34] else []
  end.

(** write_section, config_file.c:907-935. *)
Fixpoint strchr_split (c : Z) (s : list Z) : option (list Z * list Z) :=
  match s with
  | [] => None
  | x :: r => if x =? c then Some ([], r) else match strchr_split c r with Some (a, b) => Some (x :: a, b) | None => None end
  end.
Definition write_section (key : list Z) : list Z :=
  91 :: (match strchr_split 46 key with
         | None => key
         | Some (a, b) => a ++ [32; 34] ++ escape_value b ++ [34]
         end) ++ [93; 10].

(** write_line_to, config_file.c:968-976. *)
Definition write_line_to (buf l : list Z) : list Z :=
  buf ++ l ++ (match l with [] => [] | _ => if last l 0 =? 10 then [] else [10] end).

(** struct write_data, config_file.c:955-966; [preg] is the compiled
    expression, as the predicate it computes. *)
Record wkey := { k_osection : list Z; k_section : list Z; k_oname : list Z; k_name : list Z; k_preg : option (list Z -> bool) }.
Record wstate := { w_buf : list Z; w_com : list Z; w_in : bool; w_val : option (list Z); w_rep : bool }.

(** write_value, config_file.c:983-1000. *)
Definition write_value (k : wkey) (w : wstate) (v : list Z) : wstate :=
  let q := quotes_for_value v in
  {| w_buf := w_buf w ++ 9 :: k_oname k ++ [32; 61; 32] ++ q ++ v ++ q ++ [10]; w_com := w_com w; w_in := w_in w;
     w_val := match k_preg k with None => None | Some _ => Some v end; w_rep := w_rep w |}.

Definition flush (w : wstate) : wstate :=
  {| w_buf := w_buf w ++ w_com w; w_com := []; w_in := w_in w; w_val := w_val w; w_rep := w_rep w |}.
Definition put_line (w : wstate) (l : list Z) : wstate :=
  {| w_buf := write_line_to (w_buf w) l; w_com := w_com w; w_in := w_in w; w_val := w_val w; w_rep := w_rep w |}.

(** strcasecmp of two names. *)
Definition case_eq (a b : list Z) : bool := leqb (map tolower a) (map tolower b).

(** write_on_section, config_file.c:1002-1036; write_on_comment, 1086-1094;
    write_on_variable, 1038-1084.  A valueless variable matched against an
    expression is strlen(NULL). *)
Definition write_event (k : wkey) (w : wstate) (e : event) : res wstate :=
  match e with
  | ESection _ name text =>
      let w := match k_preg k, w_val w with
               | None, Some v => if w_in w then write_value k w v else w
               | _, _ => w
               end in
      let w := {| w_buf := w_buf w; w_com := w_com w; w_in := leqb name (k_section k); w_val := w_val w; w_rep := w_rep w |} in
      Ok (put_line (flush w) text)
  | EComment _ text =>
      Ok {| w_buf := w_buf w; w_com := write_line_to (w_com w) text; w_in := w_in w; w_val := w_val w; w_rep := w_rep w |}
  | EVar _ _ name value _ text =>
      let w := flush w in
      do m <- (if w_in w && case_eq (k_name k) name then
                 match k_preg k with
                 | None => Ok true
                 | Some f => match value with Some v => Ok (f v) | None => UB end
                 end
               else Ok false) ;;
      if (m : bool) then
        let w := {| w_buf := w_buf w; w_com := w_com w; w_in := w_in w; w_val := w_val w; w_rep := true |} in
        match w_val w with None => Ok w | Some v => Ok (write_value k w v) end
      else Ok (put_line w text)
  end.

Fixpoint write_events (k : wkey) (w : wstate) (evs : list event) : res wstate :=
  match evs with [] => Ok w | e :: r => do w' <- write_event k w e ;; write_events k w' r end.

(** write_on_eof, config_file.c:1096-1125. *)
Definition write_eof (k : wkey) (w : wstate) (cur : option (list Z)) : wstate :=
  let w := flush w in
  match w_val w with
  | Some v =>
      if (match k_preg k with None => true | Some _ => false end) || negb (w_rep w) then
        let w := match cur with
                 | Some s => if leqb s (k_section k) then w else
                     {| w_buf := w_buf w ++ write_section (k_osection k); w_com := w_com w; w_in := w_in w; w_val := w_val w; w_rep := w_rep w |}
                 | None => {| w_buf := w_buf w ++ write_section (k_osection k); w_com := w_com w; w_in := w_in w; w_val := w_val w; w_rep := w_rep w |}
                 end in
        write_value k w v
      else w
  | None => w
  end.

(** strrchr at the last dot. *)
Definition split_last (key : list Z) : option (list Z * list Z) :=
  match last_index 46 key with Some n => Some (firstn n key, skipn (S n) key) | None => None end.

(** config_file_write, config_file.c:1130-1211, from the old contents to the
    new; files and locks are those of the filebuf model. *)
Definition config_file_write (data : list Z) (orig_key key : list Z) (preg : option (list Z -> bool)) (value : option (list Z)) : res (list Z) :=
  match split_last key, split_last orig_key with
  | Some (section, name), Some (osection, oname) =>
      do (evs, cur) <- config_parse data ;;
      let k := {| k_osection := osection; k_section := section; k_oname := oname; k_name := name; k_preg := preg |} in
      do w <- write_events k {| w_buf := []; w_com := []; w_in := false; w_val := value; w_rep := false |} evs ;;
      Ok (w_buf (write_eof k w cur))
  | _, _ => UB
  end.

(** normalize_section, config.c:1517-1538, on the whole of [s]. *)
Definition section_ok (s : list Z) : bool :=
  match s with
  | [] => false
  | c :: r => isalnum c && forallb keychar r
  end.

(** git_config__normalize_name, config.c:1542-1575. *)
Definition normalize_name (name : list Z) : option (list Z) :=
  match strchr_split 46 name, split_last name with
  | Some (a, _), Some (sec, b) =>
      if negb (leqb a []) && negb (leqb b []) && section_ok a && section_ok b then
        let middle := skipn (length a) sec in
        if existsb (Z.eqb 10) middle then None
        else Some (map tolower a ++ middle ++ 46 :: map tolower b)
      else None
  | _, _ => None
  end.

(** config_file_set, config_file.c:294-334.  The comparison with the existing
    value is on the entries read from this file. *)
Definition lookup (key : list Z) (es : list entry) : list (option (list Z)) :=
  map snd (filter (fun e => leqb (fst e) key) es).
Definition config_set (data name value : list Z) : res (list Z) :=
  match normalize_name name with
  | None => Err (-12)
  | Some key =>
      do es <- config_read data ;;
      match lookup key es with
      | _ :: _ :: _ => Err (-1)
      | [Some v] => if leqb v value then Ok data else config_file_write data name key None (Some (escape_value value))
      | _ => config_file_write data name key None (Some (escape_value value))
      end
  end.

(** config_file_delete, config_file.c:392-420. *)
Definition config_delete (data name : list Z) : res (list Z) :=
  match normalize_name name with
  | None => Err (-12)
  | Some key =>
      do es <- config_read data ;;
      match lookup key es with
      | [] => Err (-3)
      | [_] => config_file_write data name key None None
      | _ => Err (-1)
      end
  end.

(** config_file_set_multivar, config_file.c:365-390: the value is passed on
    unescaped. *)
Definition config_set_multivar (data name : list Z) (preg : list Z -> bool) (value : list Z) : res (list Z) :=
  match normalize_name name with
  | None => Err (-12)
  | Some key => config_file_write data name key (Some preg) (Some value)
  end.

(** config_file_delete_multivar, config_file.c:422-454. *)
Definition config_delete_multivar (data name : list Z) (preg : list Z -> bool) : res (list Z) :=
  match normalize_name name with
  | None => Err (-12)
  | Some key =>
      do es <- config_read data ;;
      match lookup key es with
      | [] => Err (-3)
      | _ => config_file_write data name key (Some preg) None
      end
  end.
