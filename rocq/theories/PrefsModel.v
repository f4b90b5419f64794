(** References packed into one file, src/libgit2/refdb_fs.c: reading the file, finding one reference in it by
    bisection, writing it, packing the loose references into it, deleting from it.  One repository, no
    worktrees, nobody else changing files meanwhile (C30 and C31 have the concurrent part); the cached parse
    of an unchanged file is left out.  [size] is the number of bytes of an id.  A NUL-terminated buffer is the
    bytes with a 0 behind them; reading beyond it is undefined behaviour. *)
From Verif Require Import Base Str CStr CodecModel OidModel.

Definition NL : Z := 10.
Definition CR : Z := 13.
Definition SP : Z := 32.
Definition CARET : Z := 94.
Definition HASH : Z := 35.

(** struct packref, refdb_fs.c:39-44 of which [flags] is three bits (27-32). *)
Record pref := mkpr { r_name : list Z; r_oid : list Z; r_peel : list Z; r_has : bool; r_cannot : bool; r_loose : bool }.
Inductive peeling := PNone | PStandard | PFull.

Definition first (s : list Z) : res Z := match s with [] => UB | c :: _ => Ok c end.
(** strchr(s, '\n'): the bytes before and after it. *)
Fixpoint strnl (s : list Z) : res (option (list Z * list Z)) :=
  match s with
  | [] => UB
  | c :: r => if c =? NL then Ok (Some ([], r)) else if c =? 0 then Ok None else do x <- strnl r ;; Ok (option_map (fun p => (c :: fst p, snd p)) x)
  end.
(** The first newline among the first [n] bytes (memchr) and the last one (git__memrchr, util.c). *)
Fixpoint find_nl (l : list Z) (n : nat) : option nat :=
  match n, l with
  | S n, c :: r => if c =? NL then Some O else option_map S (find_nl r n)
  | _, _ => None
  end.
Fixpoint rfind_nl (l : list Z) (n : nat) : option nat :=
  match n, l with
  | S n, c :: r => match rfind_nl r n with Some i => Some (S i) | None => if c =? NL then Some O else None end
  | _, _ => None
  end.
Definition memchr (d : list Z) (p n : nat) : res (option nat) :=
  if (length d <? p + n)%nat then UB else Ok (option_map (fun i => (p + i)%nat) (find_nl (skipn p d) n)).
Definition memrchr (d : list Z) (p n : nat) : res (option nat) :=
  if (length d <? p + n)%nat then UB else Ok (option_map (fun i => (p + i)%nat) (rfind_nl (skipn p d) n)).
(** git__memmem. *)
Fixpoint infixb (p s : list Z) : bool := prefixb p s || match s with [] => false | _ :: r => infixb p r end.

(** packed_set_peeling_mode, refdb_fs.c:463-495: the mode, the new [sorted] (unchanged without the header) and
    the offset after the header; None for NULL. *)
Definition traits : list Z := bs "# pack-refs with:".
Definition peeling_mode (data : list Z) (sorted : bool) : peeling * bool * option nat :=
  if prefixb traits data
  then
    let rest := skipn (length traits) data in
    match find_nl rest (length rest) with
    | None => (PNone, sorted, None)
    | Some i =>
        let line := firstn i rest in
        ((if infixb (bs " fully-peeled ") line then PFull else if infixb (bs " peeled ") line then PStandard else PNone),
         infixb (bs " sorted ") line, Some (length traits + S i)%nat)
    end
  else (PNone, sorted, Some O).

(** git_sortedcache_upsert, sortedcache.c:285-324: an entry of this name is found or made (all zero). *)
Fixpoint upsert (size : nat) (l : list pref) (name : list Z) (g : pref -> pref) : list pref :=
  match l with
  | [] => [g (mkpr name (repeat 0 size) (repeat 0 size) false false false)]
  | r :: l => if leqb (r_name r) name then g r :: l else r :: upsert size l name g
  end.

(** packed_reload, refdb_fs.c:113-216: comment lines, then the records. *)
Fixpoint skip_comments (fuel : nat) (s : list Z) : res (list Z) :=
  match fuel with
  | O => NoFuel
  | S n =>
      if (1 <? length s)%nat
      then do c <- first s ;;
           if c =? HASH then do e <- strnl s ;; match e with None => Err (-1) | Some (_, r) => skip_comments n r end else Ok s
      else Ok s
  end.
(** eol[-1] == '\r' *)
Definition strip_cr (line : list Z) : list Z := if last line SP =? CR then removelast line else line.
Definition tags_dir : list Z := bs "refs/tags/".
Fixpoint read_refs (size fuel : nat) (mode : peeling) (s : list Z) (cache : list pref) : res (list pref) :=
  match fuel with
  | O => NoFuel
  | S n =>
      if (1 <? length s)%nat
      then
        do oid <- oid_from_prefix size s (2 * size) ;;
        let s := skipn (2 * size) s in
        do c <- first s ;;
        if negb (c =? SP) then Err (-1)
        else
          do e <- strnl (tl s) ;;
          match e with
          | None => Err (-1)
          | Some (line, s) =>
              let name := strip_cr line in
              let cache := upsert size cache name (fun r => mkpr (r_name r) oid (r_peel r) (r_has r) (r_cannot r) (r_loose r)) in
              do c <- first s ;;
              if c =? CARET
              then
                do peel <- oid_from_prefix size (tl s) (2 * size) ;;
                let s := skipn (S (2 * size)) s in
                do s <- (if (1 <? length s)%nat then do e <- strnl s ;; match e with None => Err (-1) | Some (_, r) => Ok r end else Ok s) ;;
                read_refs size n mode s (upsert size cache name (fun r => mkpr (r_name r) (r_oid r) peel true (r_cannot r) (r_loose r)))
              else
                let cannot := match mode with PFull => true | PStandard => prefixb tags_dir name | PNone => false end in
                read_refs size n mode s (if cannot then upsert size cache name (fun r => mkpr (r_name r) (r_oid r) (r_peel r) (r_has r) true (r_loose r)) else cache)
          end
      else Ok cache
  end.
Definition reload (size : nat) (data : list Z) (sorted : bool) : res (list pref * bool) :=
  let '(mode, sorted, o) := peeling_mode data sorted in
  match o with
  | None => Err (-1)
  | Some p =>
      let s := skipn p (data ++ [0]) in
      do s <- skip_comments (S (length s)) s ;;
      do l <- read_refs size (S (length s)) mode s [] ;;
      Ok (l, sorted)
  end.

(** *** Finding one reference *)
(** start_of_record, refdb_fs.c:589-603, and end_of_record, 610-624; pointers are offsets. *)
Fixpoint start_of_record (fuel : nat) (d : list Z) (buf nl : nat) : res nat :=
  match fuel with
  | O => NoFuel
  | S n =>
      do x <- memrchr d buf (nl - buf) ;;
      match x with
      | None => Ok buf
      | Some q => do c <- rd d (S q) ;; if (c =? CARET) && (buf <? q)%nat then start_of_record n d buf (q - 1) else Ok (S q)
      end
  end.
Fixpoint end_of_record (fuel : nat) (d : list Z) (p e : nat) : res nat :=
  match fuel with
  | O => NoFuel
  | S n =>
      do x <- memchr d p (e - p) ;;
      match x with
      | None => Ok e
      | Some q =>
          do again <- (if (S q <? e)%nat then do c <- rd d (S q) ;; Ok (c =? CARET) else Ok false) ;;
          if again : bool then end_of_record n d (S (S q)) e else Ok (S q)
      end
  end.
(** cmp_record_to_refname, refdb_fs.c:626-654; data_end is the offset of the end of the data. *)
Definition cmp_record (size : nat) (d : list Z) (rec : nat) (name : list Z) : res Z :=
  let left := (length d - rec)%nat in
  if (left <? 2 * size + 3)%nat then Ok (-1)
  else
    let rec := (rec + 2 * size + 1)%nat in
    let left := (left - (2 * size + 1))%nat in
    do e <- memchr d rec left ;;
    let left := match e with Some q => (q - rec)%nat | None => left end in
    do c <- memcmp (skipn rec d) name (Nat.min (length name) left) ;;
    if (c =? 0) && negb (left =? length name)%nat then Ok (if (length name <? left)%nat then 1 else -1) else Ok c.
(** packed_lookup, refdb_fs.c:684-762: ids and peeled ids; -3 is GIT_ENOTFOUND. *)
Fixpoint skip_hash (fuel : nat) (d : list Z) (left : nat) : res nat :=
  match fuel with
  | O => NoFuel
  | S n =>
      if (left <? length d)%nat
      then do c <- rd d left ;;
           if c =? HASH then do x <- memchr d left (length d - left) ;; match x with None => Err (-1) | Some q => skip_hash n d (S q) end else Ok left
      else Ok left
  end.
(** git_reference_target_peel, refs.c:350-358: a peeled id of zeros is none. *)
Definition peel_of (p : list Z) : option (list Z) := if oid_is_zero p then None else Some p.
Fixpoint bisect (size fuel : nat) (d : list Z) (name : list Z) (left right : nat) : res (list Z * option (list Z)) :=
  match fuel with
  | O => NoFuel
  | S n =>
      if (left <? right)%nat
      then
        let mid := (left + (right - left) / 2)%nat in
        do rec <- start_of_record (S mid) d left mid ;;
        do c <- cmp_record size d rec name ;;
        if c <? 0 then do l <- end_of_record (S right) d mid right ;; bisect size n d name l right
        else if 0 <? c then bisect size n d name left rec
        else
          if (length d - rec <? 2 * size)%nat then Err (-1)
          else
            do oid <- oid_from_prefix size (skipn rec d) (2 * size) ;;
            let rec := (rec + 2 * size + 1)%nat in
            do e <- memchr d rec (length d - rec) ;;
            match e with
            | None => Err (-1)
            | Some eol =>
                if (S eol <? length d)%nat
                then do c <- rd d (S eol) ;;
                     if c =? CARET
                     then if (length d - S (S eol) <? 2 * size)%nat then Err (-1)
                          else do peel <- oid_from_prefix size (skipn (S (S eol)) d) (2 * size) ;; Ok (oid, peel_of peel)
                     else Ok (oid, None)
                else Ok (oid, None)
            end
      else Err (-3)
  end.
(** packed_unsorted_lookup, refdb_fs.c:656-682. *)
Definition unsorted_lookup (size : nat) (data : list Z) (name : list Z) : res (list Z * option (list Z)) :=
  do x <- reload size data false ;;
  match find (fun r => leqb (r_name r) name) (fst x) with
  | None => Err (-3)
  | Some r => Ok (r_oid r, peel_of (r_peel r))
  end.
(** The result, and [backend->sorted] afterwards (packed_map_check, refdb_fs.c:511-580). *)
Definition packed_lookup (size : nat) (data : list Z) (sorted : bool) (name : list Z) : res (list Z * option (list Z)) * bool :=
  let '(_, sorted, _) := match data with [] => (PNone, sorted, None) | _ => peeling_mode data sorted end in
  (if sorted
   then do l0 <- skip_hash (S (length data)) data 0 ;; bisect size (S (length data)) data name l0 (length data)
   else unsorted_lookup size data name, sorted).

(** *** Writing *)
Definition header : list Z := bs "# pack-refs with: peeled fully-peeled sorted ".
(** packed_write_ref, refdb_fs.c:1308-1336. *)
Definition write_ref (size : nat) (r : pref) : res (list Z) :=
  do oid <- oid_fmt size (r_oid r) ;;
  if r_has r then do peel <- oid_fmt size (r_peel r) ;; Ok (oid ++ SP :: r_name r ++ NL :: CARET :: peel ++ [NL]) else Ok (oid ++ SP :: r_name r ++ [NL]).
(** packed_find_peel, refdb_fs.c:1267-1303: [odb] says what kind of object an id is: missing, a tag of another
    object, or something else. *)
Inductive obj := OMissing | OTag (target : list Z) | OOther.
Definition find_peel (odb : list Z -> obj) (r : pref) : res pref :=
  if r_has r || r_cannot r then Ok r
  else match odb (r_oid r) with
       | OMissing => Err (-1)
       | OTag t => Ok (mkpr (r_name r) (r_oid r) t true (r_cannot r) (r_loose r))
       | OOther => Ok r
       end.
(** The entries in the order of their names (packref_cmp is strcmp): git_sortedcache_entry sorts the vector
    (git_vector_sort, C06); the result of sorting distinct names does not depend on how. *)
Definition before (a b : pref) : bool := match lex (r_name a) (r_name b) with Gt => false | _ => true end.
Fixpoint insert_ref (r : pref) (l : list pref) : list pref :=
  match l with
  | [] => [r]
  | x :: l' => if before r x then r :: l else x :: insert_ref r l'
  end.
Definition sort_refs (l : list pref) : list pref := fold_right insert_ref [] l.
Fixpoint write_all (size : nat) (odb : list Z -> obj) (l : list pref) : res (list Z) :=
  match l with
  | [] => Ok []
  | r :: l => do r <- find_peel odb r ;; do t <- write_ref size r ;; do rest <- write_all size odb l ;; Ok (t ++ rest)
  end.
(** packed_write, refdb_fs.c:1412-1481, up to the commit of the file. *)
Definition packed_write (size : nat) (odb : list Z -> obj) (cache : list pref) : res (list Z) :=
  do t <- write_all size odb (sort_refs cache) ;; Ok (header ++ NL :: t).

(** *** Loose references *)
Definition symref : list Z := bs "ref: ".
Inductive target := TOid (oid : list Z) | TSym (name : list Z).
(** loose_parse_oid, refdb_fs.c:218-242. *)
Definition loose_oid (size : nat) (content : list Z) : res (list Z) :=
  if (length content <? 2 * size)%nat then Err (-1)
  else
    do oid <- oid_from_prefix size (content ++ [0]) (2 * size) ;;
    do c <- rd (content ++ [0]) (2 * size) ;;
    if (c =? 0) || isspace c then Ok oid else Err (-1).
(** The C string at the beginning of a buffer. *)
Fixpoint cstring (s : list Z) : list Z := match s with [] => [] | c :: r => if c =? 0 then [] else c :: cstring r end.
(** loose_lookup, refdb_fs.c:417-455, of a file with this content; loose_parse_symbolic, 381-401. *)
Definition loose_lookup (size : nat) (content : list Z) : res target :=
  if prefixb symref content
  then let t := rtrim content in if (length t <? length symref + 1)%nat then Err (-1) else Ok (TSym (cstring (skipn (length symref) t)))
  else do oid <- loose_oid size content ;; Ok (TOid oid).
(** loose_commit, refdb_fs.c:1188-1205. *)
Definition loose_text (size : nat) (t : target) : res (list Z) :=
  match t with TOid o => do h <- oid_fmt size o ;; Ok (h ++ [NL]) | TSym n => Ok (symref ++ n ++ [NL]) end.

(** A repository: the loose files below refs/ (names with their directories) and the packed-refs file; no
    file is like an empty one. *)
Record refs := mkrefs { loose : list (list Z * list Z); packed : list Z }.
Definition file_of (l : list (list Z * list Z)) (name : list Z) : option (list Z) := option_map snd (find (fun e => leqb (fst e) name) l).
(** refdb_fs_backend__lookup, refdb_fs.c:764-785, with a new backend. *)
Definition lookup (size : nat) (st : refs) (name : list Z) : res (target * option (list Z)) :=
  match file_of (loose st) name with
  | Some content => do t <- loose_lookup size content ;; Ok (t, None)
  | None => do x <- fst (packed_lookup size (packed st) false name) ;; Ok (TOid (fst x), snd x)
  end.
(** loose_lookup_to_packfile, refdb_fs.c:255-293, and _dirent_loose_load, 295-318. *)
Definition lock_suffix (name : list Z) : bool := prefixb (rev (bs ".lock")) (rev name).
Fixpoint load_loose (size : nat) (l : list (list Z * list Z)) (cache : list pref) : res (list pref) :=
  match l with
  | [] => Ok cache
  | (name, content) :: l =>
      if lock_suffix name || prefixb symref content then load_loose size l cache
      else do oid <- loose_oid size content ;; load_loose size l (upsert size cache name (fun r => mkpr (r_name r) oid (r_peel r) false false true))
  end.
(** packed_remove_loose, refdb_fs.c:1348-1407; [busy] names are locked by somebody else. *)
Definition removable (size : nat) (busy : list Z -> bool) (cache : list pref) (e : list Z * list Z) : bool :=
  existsb (fun r => leqb (r_name r) (fst e) && r_loose r && negb (busy (r_name r)) && negb (prefixb symref (snd e)) && match loose_oid size (snd e) with Ok o => leqb o (r_oid r) | _ => false end) cache.
(** refdb_fs_backend__compress, refdb_fs.c:1897-1910. *)
Definition compress (size : nat) (odb : list Z -> obj) (busy : list Z -> bool) (st : refs) : res refs :=
  do x <- reload size (packed st) false ;;
  do cache <- load_loose size (loose st) (fst x) ;;
  do text <- packed_write size odb cache ;;
  Ok (mkrefs (filter (fun e => negb (removable size busy cache e)) (loose st)) text).
(** packed_delete, refdb_fs.c:1483-1510: the packed file without this name, if it was in it. *)
Definition packed_delete (size : nat) (odb : list Z -> obj) (st : refs) (name : list Z) : res refs :=
  do x <- reload size (packed st) false ;;
  if existsb (fun r => leqb (r_name r) name) (fst x)
  then do text <- packed_write size odb (filter (fun r => negb (leqb (r_name r) name)) (fst x)) ;; Ok (mkrefs (loose st) text)
  else Ok st.
