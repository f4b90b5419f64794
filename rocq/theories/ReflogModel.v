(** Reflogs: src/libgit2/reflog.c and the file format in src/libgit2/refdb_fs.c. *)
From Verif Require Import Base Str IntModel OidModel SigModel.
Local Open Scope Z_scope.

(** struct git_reflog_entry, reflog.h:19-26; no message is NULL. *)
Record entry := mkentry { e_old : list Z; e_new : list Z; e_sig : sig; e_msg : option (list Z) }.

(** git_reflog_entry_byindex, reflog.c:152-163, with reflog_inverse_index (reflog.h:35-38): the
    vector holds the oldest entry first. *)
Definition byindex (log : list entry) (idx : nat) : option entry :=
  if (length log <=? idx)%nat then None else nth_error log (length log - 1 - idx).

(** git_reflog_append, reflog.c:73-119: allocation failures are not modelled; the copied
    signature is the given one. *)
Definition append (size : nat) (log : list entry) (new : list Z) (who : sig) (msg : option (list Z)) : list entry :=
  let m := option_map (map (fun c => if c =? 10 then 32 else c)) msg in
  let old := match byindex log 0 with None => repeat 0 size | Some p => e_new p end in
  log ++ [mkentry old new who m].

(** Removing from, and storing the old id into, the vector. *)
Definition remove_at (log : list entry) (i : nat) : list entry := firstn i log ++ skipn (S i) log.
Definition set_old (log : list entry) (i : nat) (id : list Z) : list entry :=
  match nth_error log i with
  | Some e => firstn i log ++ mkentry id (e_new e) (e_sig e) (e_msg e) :: skipn (S i) log
  | None => log
  end.

(** git_reflog_drop, reflog.c:189-234.  A missing entry behind [byindex] would be a null
    dereference. *)
Definition drop (size : nat) (log : list entry) (idx : nat) (rewrite_previous : bool) : res (list entry) :=
  let n := length log in
  match byindex log idx with
  | None => Err (-3)
  | Some _ =>
      let log1 := remove_at log (n - 1 - idx) in
      if negb rewrite_previous then Ok log1
      else if (idx =? 0)%nat then Ok log1
      else if (n =? 1)%nat then Ok log1
      else
        match byindex log1 (idx - 1) with
        | None => UB
        | Some _ =>
            let at_ := (length log1 - 1 - (idx - 1))%nat in
            if (idx =? n - 1)%nat then Ok (set_old log1 at_ (repeat 0 size))
            else match byindex log1 idx with
                 | None => UB
                 | Some p => Ok (set_old log1 at_ (e_new p))
                 end
        end
  end.

(** git_str_rtrim, src/util/str.c:869-880. *)
Fixpoint drop_space (s : list Z) : list Z := match s with c :: r => if isspc c then drop_space r else s | [] => [] end.
Definition str_rtrim (s : list Z) : list Z := rev (drop_space (rev s)).

(** The first [n] bytes of [s] with newlines replaced by blanks, refdb_fs.c:2204-2206. *)
Fixpoint despace (n : nat) (s : list Z) : list Z :=
  match n, s with
  | S n', c :: r => (if c =? 10 then 32 else c) :: despace n' r
  | _, _ => s
  end.

(** git_oid_tostr into a buffer of GIT_OID_MAX_HEXSIZE + 1 bytes (here for ids up to 32
    bytes), and what a C string function sees of it. *)
Definition id_text (size : nat) (id : list Z) : res (list Z) := do t <- oid_tostr size (2 * 32 + 1) id ;; Ok (cut0 t).

(** serialize_reflog_entry, refdb_fs.c:2173-2213. *)
Definition serialize (size : nat) (old new : list Z) (who : sig) (msg : option (list Z)) : res (list Z) :=
  do t1 <- id_text size old ;;
  do t2 <- id_text size new ;;
  do w <- writebuf [32] who ;;
  let buf := str_rtrim (t1 ++ [32] ++ t2 ++ w) in
  let buf :=
    match msg with
    | None => buf
    | Some m =>
        let buf := buf ++ [9] ++ m in
        str_rtrim (despace (length buf - 2) buf)
    end in
  Ok (buf ++ [10]).

(** The body of refdb_reflog_fs__write, refdb_fs.c:2262-2268: what the lock file holds. *)
Fixpoint write_log (size : nat) (log : list entry) : res (list Z) :=
  match log with
  | [] => Ok []
  | e :: r =>
      do a <- serialize size (e_old e) (e_new e) (e_sig e) (e_msg e) ;;
      do b <- write_log size r ;;
      Ok (a ++ b)
  end.

(** The inner while of reflog_parse, refdb_fs.c:2031-2032: the text up to a tab, a
    newline or the end of the line, and what is left of the line. *)
Fixpoint until_tab (ln : list Z) : list Z * list Z :=
  match ln with
  | [] => ([], [])
  | c :: r => if (c =? 9) || (c =? 10) then ([], ln) else let '(a, b) := until_tab r in (c :: a, b)
  end.

(** git_parse_advance_oid, src/libgit2/parse.c:93-105 (all of it within the line). *)
Definition advance_oid (size : nat) (ln : list Z) : res (option (list Z * list Z)) :=
  if (length ln <? 2 * size)%nat then Ok None
  else match oid_from_prefix size ln (2 * size) with
       | Ok id => Ok (Some (id, skipn (2 * size) ln))
       | Err _ => Ok None
       | UB => UB
       | NoFuel => NoFuel
       end.

(** One round of reflog_parse's loop, refdb_fs.c:2013-2056, on one line with its newline:
    an entry, or none (the label next).  The byte before an empty rest is the tab. *)
Definition parse_line (size : nat) (ln : list Z) : res (option entry) :=
  do o1 <- advance_oid size ln ;;
  match o1 with
  | None => Ok None
  | Some (old, l1) =>
      match l1 with
      | [] => Ok None
      | b :: l2 =>
          if negb (b =? 32) then Ok None else
          do o2 <- advance_oid size l2 ;;
          match o2 with
          | None => Ok None
          | Some (new, l3) =>
              let '(sg, l4) := until_tab l3 in
              match sig_parse sg None 0 with
              | Ok (s, _) =>
                  Ok (Some (mkentry old new s
                    (match l4 with
                     | [] => None
                     | c :: l5 =>
                         if c =? 9
                         then Some (cut0 (match rev l5 with x :: y => if x =? 10 then rev y else l5 | [] => l5 end))
                         else None
                     end)))
              | Err _ => Ok None
              | UB => UB
              | NoFuel => NoFuel
              end
          end
      end
  end.

(** git__linenlen, src/util/util.c:324-328. *)
Definition linenlen (buf : list Z) : nat := match memchr buf 10 with Some i => S i | None => length buf end.

(** reflog_parse, refdb_fs.c:2006-2060, with git_parse_advance_line (parse.c:35-41). *)
Fixpoint reflog_parse (fuel : nat) (size : nat) (buf : list Z) : res (list entry) :=
  match buf with
  | [] => Ok []
  | _ =>
      match fuel with
      | O => NoFuel
      | S f =>
          let n := linenlen buf in
          do e <- parse_line size (firstn n buf) ;;
          do r <- reflog_parse f size (skipn n buf) ;;
          Ok (match e with Some x => x :: r | None => r end)
      end
  end.
Definition read_log (size : nat) (buf : list Z) : res (list entry) := reflog_parse (length buf) size buf.
