(** FETCH_HEAD (fetchhead.c): writing it and reading it.  Strings hold no NUL; the file system and
    allocations do not fail; the names of refs and the urls are given (refs whose name or url is NULL
    are outside). *)
From Verif Require Import Base Arr CStr Str SigModel OidModel RefnameModel VectorModel.

(** git_fetchhead_ref, fetchhead.h:14-19 *)
Record fhref := mkfh { fh_oid : list Z; fh_merge : bool; fh_name : list Z; fh_url : list Z }.
(** git_fetchhead_ref_cmp, fetchhead.c:20-39, for refs with names (strcmp as [lex]). *)
Definition fh_cmp (a b : fhref) : Z :=
  if fh_merge a && negb (fh_merge b) then -1
  else if fh_merge b && negb (fh_merge a) then 1
  else match lex (fh_name a) (fh_name b) with Lt => -1 | Eq => 0 | Gt => 1 end.

Definition heads : list Z := bs "refs/heads/".   (* GIT_REFS_HEADS_DIR *)
Definition tags : list Z := bs "refs/tags/".     (* GIT_REFS_TAGS_DIR *)
(** fetchhead_ref_write, fetchhead.c:98-137 *)
Definition fh_line (size : nat) (r : fhref) : res (list Z) :=
  do o <- oid_tostr size (2 * size + 1) (fh_oid r) ;;
  let oid := cut0 o in
  let n := fh_name r in
  if negb (prefixb heads n) && negb (prefixb tags n) && leqb n (bs "HEAD") then
    Ok (oid ++ [9; 9] ++ fh_url r ++ [10])
  else
    let '(type, name) :=
      if prefixb heads n then (bs "branch ", skipn (length heads) n)
      else if prefixb tags n then (bs "tag ", skipn (length tags) n)
      else ([], n) in
    Ok (oid ++ [9] ++ (if fh_merge r then [] else bs "not-for-merge") ++ [9] ++ type ++ [39] ++ name ++ bs "' of " ++ fh_url r ++ [10]).
Fixpoint fh_lines (size : nat) (l : list fhref) : res (list Z) :=
  match l with
  | [] => Ok []
  | r :: l => do a <- fh_line size r ;; do b <- fh_lines size l ;; Ok (a ++ b)
  end.
(** git_fetchhead_write, fetchhead.c:139-167: [old] is the file before (GIT_FILEBUF_APPEND). *)
Definition fh_write (size : nat) (old : list Z) (refs : list fhref) : res (list Z) :=
  do v <- vsort fh_cmp (mkvec refs false) ;;
  do t <- fh_lines size (items v) ;;
  Ok (old ++ t).

(** *** Reading *)
(** git__strsep with one separator, util.c:307-322: the token and the rest, or nothing. *)
Fixpoint strsep (c : Z) (s : list Z) : option (list Z * list Z) :=
  match s with
  | [] => None
  | x :: r => if x =? c then Some ([], r) else match strsep c r with Some (a, b) => Some (x :: a, b) | None => None end
  end.
(** strstr: what stands before the first occurrence, and the rest from it on. *)
Fixpoint strstr (p s : list Z) : option (list Z * list Z) :=
  if prefixb p s then Some ([], s)
  else match s with
       | [] => None
       | x :: r => match strstr p r with Some (a, b) => Some (x :: a, b) | None => None end
       end.
(** What the callback of git_repository_fetchhead_foreach gets. *)
Record fhev := mkev { ev_name : option (list Z); ev_url : option (list Z); ev_oid : list Z; ev_merge : bool }.
(** fetchhead_ref_parse, fetchhead.c:169-266.  [prev] is what [*is_merge] holds before. *)
Definition fh_parse (size : nat) (prev : bool) (line : list Z) : res fhev :=
  match line with
  | [] => Err (-1)
  | _ :: _ =>
    let '(oid_str, line, m) := match strsep 9 line with None => (line, [], true) | Some (a, b) => (a, b, prev) end in
    if negb (length oid_str =? 2 * size)%nat then Err (-1)
    else
      do oid <- oid_from_string size (oid_str ++ [0]) ;;
      match line with
      | [] => Ok (mkev None None oid m)
      | _ :: _ =>
        match strsep 9 line with
        | None => Err (-1)
        | Some (ms, desc) =>
          if negb (leqb ms [] || leqb ms (bs "not-for-merge")) then Err (-1)
          else
            let m := leqb ms [] in
            let '(type, name) :=
              if prefixb (bs "branch '") desc then (heads, Some (skipn 8 desc))
              else if prefixb (bs "tag '") desc then (tags, Some (skipn 5 desc))
              else if prefixb (bs "'") desc then ([], Some (skipn 1 desc))
              else ([], None) in
            match name with
            | None => Ok (mkev None (Some desc) oid m)
            | Some name =>
              match strstr (bs "' ") name with
              | None => Err (-1)
              | Some (n, d) =>
                if negb (prefixb (bs "' of ") d) then Err (-1)
                else
                  let full := joinpath type n in
                  Ok (mkev (if leqb full [] then None else Some full) (Some (skipn 5 d)) oid m)
              end
            end
        end
      end
  end.
(** One round of the loop of git_repository_fetchhead_foreach, fetchhead.c:295-318: [k] is the rest of
    the loop.  [cb] is the callback's answer.  The calls of the callback and the result. *)
Definition fh_round (size : nat) (cb : fhev -> Z) (prev : bool) (l : list Z) (k : bool -> res (list fhev * Z)) : res (list fhev * Z) :=
  match fh_parse size prev l with
  | Ok ev =>
      if cb ev =? 0 then do r <- k (ev_merge ev) ;; Ok (ev :: fst r, snd r)
      else Ok ([ev], cb ev)
  | Err e => Ok ([], e)
  | UB => UB
  | NoFuel => NoFuel
  end.
(** The loop, fetchhead.c:295-324: the file cut at its newlines (the last piece is not ended by one). *)
Fixpoint fh_loop (size : nat) (cb : fhev -> Z) (prev : bool) (pieces : list (list Z)) : res (list fhev * Z) :=
  match pieces with
  | [] => UB
  | [l] => Ok ([], if leqb l [] then 0 else -1)
  | l :: more => fh_round size cb prev l (fun m => fh_loop size cb m more)
  end.
(** git_repository_fetchhead_foreach, fetchhead.c:268-332; the file is used up to its first NUL. *)
Definition fh_foreach (size : nat) (cb : fhev -> Z) (file : list Z) : res (list fhev * Z) :=
  fh_loop size cb false (split 10 (cut0 file)).
