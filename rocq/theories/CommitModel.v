(** Commit and tag objects: src/libgit2/commit.c, tag.c and the id headers of object.c. A buffer is
    the list of its bytes; a C string is its bytes before the NUL. Ids are lists of [size] bytes. *)
From Verif Require Import Base Str OidModel SigModel.
Local Open Scope Z_scope.

Definition NOTFOUND : Z := -3.
Definition EMODIFIED : Z := -15.

(** git_object__write_oid_header, object.c:673-692 *)
Definition write_oid_header (size : nat) (header id : list Z) : res (list Z) :=
  do t <- oid_fmt size id ;; Ok (header ++ t ++ [10]).

(** git_object__parse_oid_header, object.c:644-671: [None] for -1, else the id and what follows. *)
Definition parse_oid_header (size : nat) (buf header : list Z) : res (option (list Z * list Z)) :=
  let n := (length header + 2 * size)%nat in
  if (length buf <? n + 1)%nat then Ok None
  else if negb (prefixb header buf) then Ok None
  else if negb (nth n buf 0 =? 10) then Ok None
  else match oid_from_prefix size (skipn (length header) buf) (2 * size) with
       | Ok id => Ok (Some (id, skipn (n + 1) buf))
       | Err _ => Ok None
       | UB => UB
       | NoFuel => NoFuel
       end.

(** struct git_commit, commit.h:18-32, what commit_parse fills in *)
Record commit := mkcommit {
  c_tree : list Z; c_parents : list (list Z); c_author : sig; c_committer : sig;
  c_encoding : option (list Z); c_header : list Z; c_message : list Z }.

(** git_commit__create_buffer_internal, commit.c:45-84 *)
Fixpoint write_parents (size : nat) (ps : list (list Z)) : res (list Z) :=
  match ps with
  | [] => Ok []
  | p :: r => do h <- write_oid_header size (bs "parent ") p ;; do t <- write_parents size r ;; Ok (h ++ t)
  end.
Definition create_buffer (size : nat) (author committer : sig) (encoding : option (list Z)) (message tree : list Z)
    (parents : list (list Z)) : res (list Z) :=
  do h <- write_oid_header size (bs "tree ") tree ;;
  do p <- write_parents size parents ;;
  do a <- writebuf (bs "author ") author ;;
  do c <- writebuf (bs "committer ") committer ;;
  let e := match encoding with Some e => bs "encoding " ++ e ++ [10] | None => [] end in
  Ok (h ++ p ++ a ++ c ++ e ++ [10] ++ message).

(** The loop over the parents, commit.c:425-433 *)
Fixpoint parse_parents (fuel size : nat) (buf : list Z) : res (list (list Z) * list Z) :=
  match fuel with
  | O => NoFuel
  | S f =>
    do o <- parse_oid_header size buf (bs "parent ") ;;
    match o with
    | None => Ok ([], buf)
    | Some (id, rest) => do (ps, b) <- parse_parents f size rest ;; Ok (id :: ps, b)
    end
  end.

(** The loop over further author lines, commit.c:444-450 *)
Fixpoint skip_authors (fuel : nat) (buf : list Z) : res (list Z) :=
  match fuel with
  | O => NoFuel
  | S f =>
    if prefixb (bs "author ") buf
    then do (_, rest) <- sig_parse buf (Some (bs "author ")) 10 ;; skip_authors f rest
    else Ok buf
  end.

(** The additional headers, commit.c:463-481, up to the empty line: the encoding and what follows the
    header. The byte before [buf] is always a newline here: the signature parser and this loop stop
    behind one. *)
Fixpoint parse_headers (fuel : nat) (buf : list Z) (enc : option (list Z)) : res (option (list Z) * list Z) :=
  match fuel with
  | O => NoFuel
  | S f =>
    match buf with
    | [] => Ok (enc, [])
    | c :: _ =>
      if c =? 10 then Ok (enc, buf)
      else
        let eol := match memchr buf 10 with Some i => i | None => length buf end in
        let enc := if prefixb (bs "encoding ") buf then Some (cut0 (skipn 9 (firstn eol buf))) else enc in
        parse_headers f (skipn (eol + 1) buf) enc
    end
  end.

(** commit_parse, commit.c:390-508, without and with GIT_COMMIT_PARSE_QUICK. *)
Definition commit_parse (size : nat) (data : list Z) : res commit :=
  let fuel := S (length data) in
  do o <- parse_oid_header size data (bs "tree ") ;;
  match o with
  | None => Err EINVALID
  | Some (tree, b1) =>
    do (ps, b2) <- parse_parents fuel size b1 ;;
    do (a, b3) <- sig_parse b2 (Some (bs "author ")) 10 ;;
    do b4 <- skip_authors fuel b3 ;;
    do (c, b5) <- sig_parse b4 (Some (bs "committer ")) 10 ;;
    do (enc, b6) <- parse_headers fuel b5 None ;;
    let header_len := (length data - length b6)%nat in
    Ok (mkcommit tree ps a c enc (cut0 (firstn header_len data)) (cut0 (skipn (header_len + 1) data)))
  end.
Definition commit_parse_quick (size : nat) (data : list Z) : res (list (list Z) * sig) :=
  let fuel := S (length data) in
  if (length data <? 5 + 2 * size + 1)%nat then Err EINVALID
  else
    do (ps, b2) <- parse_parents fuel size (skipn (5 + 2 * size + 1) data) ;;
    do b4 <- skip_authors fuel b2 ;;
    do (c, _) <- sig_parse b4 (Some (bs "committer ")) 10 ;;
    Ok (ps, c).

(** git_commit_message, commit.c:591-604 *)
Fixpoint skip_newlines (s : list Z) : list Z :=
  match s with c :: r => if c =? 10 then skip_newlines r else s | [] => [] end.
Definition commit_message (c : commit) : list Z := skip_newlines (c_message c).

(** git__isspace and git__isspace_nonlf, src/util/ctype_compat.h / util.h *)
Definition isspace (c : Z) : bool := (c =? 32) || ((9 <=? c) && (c <=? 13)).
Definition isspace_nonlf (c : Z) : bool := isspace c && negb (c =? 10).
Fixpoint skip_blank (s : list Z) : list Z :=
  match s with c :: r => if isspace_nonlf c then skip_blank r else s | [] => [] end.

(** git_commit_summary, commit.c:606-659. [sp] are the bytes from [space] to [msg]. *)
Definition para_end (r : list Z) : bool :=
  match r with [] => true | c :: _ =>
    (c =? 10) || match skip_blank r with [] => true | d :: _ => d =? 10 end
  end.
Fixpoint summary_loop (msg sp : list Z) (nl : bool) (out : list Z) : list Z :=
  match msg with
  | [] => out
  | c :: r =>
    if (c =? 10) && para_end r then out
    else if isspace c then summary_loop r (sp ++ [c]) (nl || (c =? 10)) out
    else summary_loop r [] false
           (out ++ match sp with [] => [] | _ => if nl then [32] else sp end ++ [c])
  end.
Definition summary (message : list Z) : list Z := summary_loop (skip_newlines message) [] false [].

(** git_commit_body, commit.c:661-686; [None] for NULL *)
Fixpoint body_start (msg : list Z) : list Z :=
  match msg with
  | [] => []
  | c :: r => if (c =? 10) && match r with [] => true | d :: _ => d =? 10 end then msg else body_start r
  end.
Fixpoint skip_space (s : list Z) : list Z :=
  match s with c :: r => if isspace c then skip_space r else s | [] => [] end.
Definition body (message : list Z) : option (list Z) :=
  match skip_space (body_start (skip_newlines message)) with
  | [] => None
  | m => Some (rev (skip_space (rev m)))
  end.

(** git_commit__header_field, commit.c:755-816, on the C string [buf]. *)
Fixpoint continuation (fuel : nat) (acc rest : list Z) : res (list Z * list Z) :=
  match fuel with
  | O => NoFuel
  | S f =>
    match rest with
    | c :: r =>
      if c =? 32 then
        match memchr r 10 with
        | None => Err (-1)
        | Some j => continuation f (acc ++ [10] ++ firstn j r) (skipn (j + 1) r)
        end
      else Ok (acc, rest)
    | [] => Ok (acc, rest)
    end
  end.
Fixpoint header_field (fuel : nat) (field buf : list Z) : res (list Z) :=
  match fuel with
  | O => NoFuel
  | S f =>
    match memchr buf 10 with
    | None => Err NOTFOUND
    | Some eol =>
      if nth 0 buf 0 =? 32 then header_field f field (skipn (eol + 1) buf)
      else if negb (prefixb field buf) then header_field f field (skipn (eol + 1) buf)
      else if negb (nth (length field) buf 0 =? 32) then header_field f field (skipn (eol + 1) buf)
      else
        do (v, _) <- continuation (S (length buf)) (firstn (eol - (length field + 1)) (skipn (length field + 1) buf)) (skipn (eol + 1) buf) ;;
        Ok v
    end
  end.

(** git_commit__extract_signature, commit.c:838-935, on the C string of the object's data: the
    signature and the signed data ([sd] is what has been put there so far). *)
Fixpoint extract_signature (fuel : nat) (field buf sd : list Z) : res (list Z * list Z) :=
  match fuel with
  | O => NoFuel
  | S f =>
    match memchr buf 10 with
    | None => Err NOTFOUND
    | Some i =>
      if (length buf =? i + 1)%nat then Err NOTFOUND
      else if negb (prefixb field buf) then extract_signature f field (skipn (i + 1) buf) (sd ++ firstn (i + 1) buf)
      else
        let h := skipn (length field) buf in
        match h with
        | c :: h1 =>
          if negb (c =? 32) then extract_signature f field h sd
          else match memchr h1 10 with
               | None => Err (-1)
               | Some eol =>
                 do (s, rest) <- continuation (S (length buf)) (firstn eol h1) (skipn (eol + 1) h1) ;;
                 Ok (s, sd ++ rest)
               end
        | [] => extract_signature f field h sd
        end
    end
  end.

(** git_commit_extract_signature, commit.c:818-861: the field, and the object's data as a C string. *)
Definition extract (field : option (list Z)) (data : list Z) : res (list Z * list Z) :=
  extract_signature (S (length data)) (match field with Some f => f | None => bs "gpgsig" end) (cut0 data) [].

(** format_header_field, commit.c:986-1008 *)
Fixpoint put_lines (s : list Z) : list Z :=
  match s with [] => [] | c :: r => if c =? 10 then [10; 32] ++ put_lines r else c :: put_lines r end.
Definition format_header_field (field content : list Z) : list Z := field ++ [32] ++ put_lines content ++ [10].

(** strstr(s, "\n\n"): the position *)
Fixpoint strstr_nn (s : list Z) : option nat :=
  match s with
  | [] => None
  | c :: r => if (c =? 10) && (match r with d :: _ => d =? 10 | [] => false end) then Some O else option_map S (strstr_nn r)
  end.

(** git_commit_create_with_signature, commit.c:1018-1083: the buffer given to git_odb_write.
    [valid] is validate_tree_and_parents. *)
Definition create_with_signature (size : nat) (valid : commit -> bool) (content : list Z) (signature : option (list Z))
    (field : option (list Z)) : res (list Z) :=
  match commit_parse size content with
  | UB => UB
  | NoFuel => NoFuel
  | Err _ => Err (-1)
  | Ok c =>
    if negb (valid c) then Err (-1)
    else match strstr_nn content with
         | None => Err (-1)
         | Some i =>
           let s := match signature with
                    | Some s => format_header_field (match field with Some f => f | None => bs "gpgsig" end) s
                    | None => []
                    end in
           Ok (firstn (i + 1) content ++ s ++ skipn (i + 1) content)
         end
  end.

(** struct git_tag, tag.h; the types are GIT_OBJECT_COMMIT .. GIT_OBJECT_TAG = 1 .. 4 *)
Record tag := mktag { t_target : list Z; t_type : Z; t_name : list Z; t_tagger : option sig; t_message : option (list Z) }.

(** object_type.c git_object_type2string *)
Definition type_name (t : Z) : list Z :=
  if t =? 1 then bs "commit" else if t =? 2 then bs "tree" else if t =? 3 then bs "blob" else bs "tag".

(** write_tag_annotation, tag.c:224-258: the buffer *)
Definition tag_buffer (size : nat) (name target : list Z) (type : Z) (tagger : sig) (message : list Z) : res (list Z) :=
  do h <- write_oid_header size (bs "object ") target ;;
  do t <- writebuf (bs "tagger ") tagger ;;
  Ok (h ++ bs "type " ++ type_name type ++ [10] ++ bs "tag " ++ name ++ [10] ++ t ++ [10] ++ message).

(** The loop over tag_types, tag.c:95-106: [None] too short, [Some (0, _)] no such type. *)
Fixpoint parse_type (ts : list Z) (buf : list Z) : option (Z * list Z) :=
  match ts with
  | [] => Some (0, buf)
  | t :: r =>
    let n := type_name t ++ [10] in
    if (length buf <=? length n)%nat then None
    else if prefixb n buf then Some (t, skipn (length n) buf)
    else parse_type r buf
  end.

(** tag_parse, tag.c:68-166. tag_error returns GIT_EINVALID; name and message are C strings. *)
Definition tag_parse (size : nat) (buf : list Z) : res tag :=
  do o <- parse_oid_header size buf (bs "object ") ;;
  match o with
  | None => Err EINVALID
  | Some (target, b1) =>
    if (length b1 <=? 5)%nat then Err EINVALID
    else if negb (prefixb (bs "type ") b1) then Err EINVALID
    else
      match parse_type [1; 2; 3; 4] (skipn 5 b1) with
      | None => Err EINVALID
      | Some (type, b2) =>
        if type =? 0 then Err EINVALID
        else if (length b2 <=? 4)%nat then Err EINVALID
        else if negb (prefixb (bs "tag ") b2) then Err EINVALID
        else
          let b3 := skipn 4 b2 in
          match memchr b3 10 with
          | None => Err EINVALID
          | Some i =>
            let name := cut0 (firstn i b3) in
            let b4 := skipn (i + 1) b3 in
            do (tagger, b5) <- (if match b4 with [] => false | c :: _ => negb (c =? 10) end
                                then do (s, r) <- sig_parse b4 (Some (bs "tagger ")) 10 ;; Ok (Some s, r)
                                else Ok (None, b4)) ;;
            match b5 with
            | [] => Ok (mktag target type name tagger None)
            | c :: r =>
              if c =? 10 then Ok (mktag target type name tagger (Some (cut0 r)))
              else match strstr_nn b5 with
                   | None => Err EINVALID
                   | Some j => Ok (mktag target type name tagger (Some (cut0 (skipn (j + 2) b5))))
                   end
            end
          end
      end
  end.

(** The object store and the one reference a commit creation looks at. *)
Record repo := mkrepo { r_objects : list (list Z); r_ref : option (list Z) }.

(** git_commit__create_internal, commit.c:126-182. [hash] names objects, [parents_ok] is the validation
    of tree and parents; [odb], [fresh], [writes] tell which of git_repository_odb__weakptr,
    git_odb__freshen and git_odb_write succeed. The reference is updated by compare and swap
    (git_reference__update_for_commit, refs.c:1169-1207, which first looks the new commit up). *)
Definition create_internal (hash : list Z -> list Z) (buffer : list Z) (parents : list (list Z)) (parents_ok odb fresh writes update : bool)
    (r : repo) : Z * repo :=
  let current := if update then r_ref r else None in
  if negb parents_ok then (-1, r)
  else if match current with
          | Some id => match parents with [] => true | p :: _ => negb (leqb id p) end
          | None => false
          end then (EMODIFIED, r)
  else if negb odb then (0, r)
  else if negb fresh then (0, r)
  else if negb writes then (0, r)
  else
    let id := hash buffer in
    let r := mkrepo (id :: r_objects r) (r_ref r) in
    if update then (0, mkrepo (r_objects r) (Some id)) else (0, r).
