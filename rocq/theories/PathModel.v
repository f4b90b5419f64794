(** Model of the path checks of src/libgit2/path.c and
    src/util/fs_path.c (POSIX build).  A [char *] is the list of bytes readable
    from it (a path is followed by its terminating NUL); a read beyond the list
    is [UB].  Flags are bit sets as in C; the configuration is reduced to the two
    settings the code reads. *)
From Verif Require Import Base Str WildModel Utf8Model.

(** Bits of the flag words, fs_path.h:617-626 and path.h:16-19. *)
Definition F_EMPTY : Z := 0.
Definition F_TRAVERSAL : Z := 1.
Definition F_SLASH : Z := 2.
Definition F_BACKSLASH : Z := 3.
Definition F_TRAILING_DOT : Z := 4.
Definition F_TRAILING_SPACE : Z := 5.
Definition F_TRAILING_COLON : Z := 6.
Definition F_DOS_PATHS : Z := 7.
Definition F_NT_CHARS : Z := 8.
Definition F_LONG_PATHS : Z := 9.
Definition F_DOT_GIT : Z := 10.
Definition F_LITERAL : Z := 11.
Definition F_HFS : Z := 12.
Definition F_NTFS : Z := 13.
Definition has (flags bit : Z) : bool := Z.testbit flags bit.

(** GIT_PATH_REJECT_WORKDIR_DEFAULTS and GIT_PATH_REJECT_INDEX_DEFAULTS,
    path.h:21-27 with fs_path.h:644-646 (POSIX); the flags of valid_entry_name,
    tree.c:60-63. *)
Definition WORKDIR_DEFAULTS : Z := 1 + 2 + 1024.
Definition INDEX_DEFAULTS : Z := 2 + 1024.
Definition TREE_FLAGS : Z := 2 + 1024 + 4.

(** tolower of git__tolower, ctype_compat.h:59: the argument is converted to
    unsigned char first. *)
Definition gtolower (c : Z) : Z := tolower (c mod 256).

(** Equality under strncasecmp / git__strncasecmp (util.c:191-212). *)
Fixpoint ncase_eq (a b : list Z) (n : nat) {struct n} : res bool :=
  match n with
  | O => Ok true
  | S n' =>
      match a, b with
      | x :: a', y :: b' =>
          if tolower x =? tolower y then (if x =? 0 then Ok true else ncase_eq a' b' n') else Ok false
      | _, _ => UB
      end
  end.

(** The ignored code points of path.c:31-48. *)
Definition hfs_ignored (u : Z) : bool :=
  (u =? 8204) || (u =? 8205) || (u =? 8206) || (u =? 8207) || (u =? 8234) || (u =? 8235) || (u =? 8236) || (u =? 8237) || (u =? 8238) ||
  (u =? 8298) || (u =? 8299) || (u =? 8300) || (u =? 8301) || (u =? 8302) || (u =? 8303) || (u =? 65279).

(** next_hfs_char, path.c:20-60: the character and the advanced pointer and
    length. *)
Fixpoint next_hfs_char (fuel : nat) (mem : list Z) (len : nat) : res (Z * (list Z * nat)) :=
  match fuel with
  | O => NoFuel
  | S f =>
      if (len =? 0)%nat then Ok (0, (mem, len))
      else
        do (n, u) <- iterate mem len ;;
        if n <? 0 then Ok (-1, (mem, len))
        else
          let mem' := skipn (Z.to_nat n) mem in
          let len' := (len - Z.to_nat n)%nat in
          if hfs_ignored u then next_hfs_char f mem' len' else Ok (gtolower u, (mem', len'))
  end.

(** The loop of path.c:73-77; [char c] keeps the low byte. *)
Fixpoint hfs_needle (mem : list Z) (len : nat) (needle : list Z) : res bool :=
  match needle with
  | [] => do (c, _) <- next_hfs_char (S len) mem len ;; Ok (negb (c =? 0))
  | x :: needle' =>
      do (c, (mem', len')) <- next_hfs_char (S len) mem len ;;
      if c mod 256 =? x then hfs_needle mem' len' needle' else Ok true
  end.

(** validate_dotgit_hfs_generic, path.c:62-83. *)
Definition dotgit_hfs_generic (mem : list Z) (len : nat) (needle : list Z) : res bool :=
  do (c, (mem', len')) <- next_hfs_char (S len) mem len ;;
  if c =? 46 then hfs_needle mem' len' needle else Ok true.

(** git_repository__reserved_names_win32, repository.c:83-87 (on POSIX,
    git_repository__reserved_names gives the same list, repository.c:1822-1838). *)
Definition reserved_names : list (list Z) := [bs ".git"; bs "GIT~1"].

(** path.c:102-110: the length of the first reserved name the component
    starts with, 0 if none. *)
Fixpoint reserved_start (mem : list Z) (len : nat) (names : list (list Z)) : res nat :=
  match names with
  | [] => Ok 0%nat
  | r :: rest =>
      if (length r <=? len)%nat then
        do e <- ncase_eq mem r (length r) ;;
        if e then Ok (length r) else reserved_start mem len rest
      else reserved_start mem len rest
  end.

(** The loop of path.c:124-127: a byte other than space and dot. *)
Fixpoint only_dots (mem : list Z) (n : nat) {struct n} : res bool :=
  match n with
  | O => Ok true
  | S n' => match mem with
            | [] => UB
            | c :: r => if negb (c =? 32) && negb (c =? 46) then Ok false else only_dots r n'
            end
  end.

(** validate_dotgit_ntfs, path.c:90-130. *)
Definition dotgit_ntfs (mem : list Z) (len : nat) : res bool :=
  do start <- reserved_start mem len reserved_names ;;
  if (start =? 0)%nat then Ok true
  else
    do c <- rd mem start ;;
    if (c =? 92) || (c =? 58) then Ok false
    else do o <- only_dots (skipn start mem) (len - start) ;; Ok (negb o).

(** ntfs_end_of_filename, path.c:141-153. *)
Fixpoint ntfs_eof (mem : list Z) : res bool :=
  match mem with
  | [] => UB
  | c :: r => if (c =? 0) || (c =? 58) then Ok true
              else if negb (c =? 32) && negb (c =? 46) then Ok false else ntfs_eof r
  end.

(** The loop of path.c:174-193; the arguments are name + i, i and saw_tilde. *)
Fixpoint ntfs_fallback (mem : list Z) (i n : nat) (saw : bool) (pfix : list Z) {struct n} : res bool :=
  match n with
  | O => do e <- ntfs_eof mem ;; Ok (negb e)
  | S n' =>
      match mem with
      | [] => UB
      | c :: r =>
          if c =? 0 then Ok true
          else if saw then (if (c <? 48) || (57 <? c) then Ok true else ntfs_fallback r (S i) n' true pfix)
          else if c =? 126 then
            do d <- rd r 0 ;;
            if (d <? 49) || (57 <? d) then Ok true else ntfs_fallback r (S i) n' true pfix
          else if (6 <=? i)%nat then Ok true
          else if 127 <? c then Ok true
          else do s <- rd pfix i ;; if gtolower c =? s then ntfs_fallback r (S i) n' false pfix else Ok true
      end
  end.

(** validate_dotgit_ntfs_generic, path.c:155-197. *)
Definition dotgit_ntfs_generic (mem : list Z) (len : nat) (name pfix : list Z) : res bool :=
  do c0 <- rd mem 0 ;;
  do long <- (if (c0 =? 46) && (length name <=? len)%nat then ncase_eq (skipn 1 mem) name (length name) else Ok false) ;;
  if long then do e <- ntfs_eof (skipn (length name + 1) mem) ;; Ok (negb e)
  else
    do short <- ncase_eq mem name 6 ;;
    do basic <- (if (short : bool) then do t <- rd mem 6 ;; if t =? 126 then do d <- rd mem 7 ;; Ok ((49 <=? d) && (d <=? 52)) else Ok false
                 else Ok false) ;;
    if (basic : bool) then do e <- ntfs_eof (skipn 8 mem) ;; Ok (negb e)
    else ntfs_fallback mem 0 8 false pfix.

(** gitfiles, path.c:334-342: file and hash by index. *)
Definition gitfiles : list (list Z * list Z) :=
  [(bs "gitignore", bs "gi250a"); (bs "gitmodules", bs "gi7eba"); (bs "gitattributes", bs "gi7d29")].

(** git_path_is_gitfile, path.c:344-375.  [fs]: 0 generic, 1 NTFS, 2 HFS
    (include/git2/sys/path.h:32-39).  The -1 results are [Err]. *)
Definition is_gitfile (mem : list Z) (len : nat) (gitfile fs : Z) : res bool :=
  if (0 <=? gitfile) && (gitfile <? 3) then
    let (file, hash) := nth (Z.to_nat gitfile) gitfiles ([], []) in
    if fs =? 0 then
      do a <- dotgit_ntfs_generic mem len file hash ;;
      if (a : bool) then do b <- dotgit_hfs_generic mem len file ;; Ok (negb b) else Ok true
    else if fs =? 1 then do a <- dotgit_ntfs_generic mem len file hash ;; Ok (negb a)
    else if fs =? 2 then do b <- dotgit_hfs_generic mem len file ;; Ok (negb b)
    else Err (-1)
  else Err (-1).

(** common_prefix_icase, path.c:203-215. *)
Fixpoint common_prefix_icase (mem : list Z) (len : nat) (prefix : list Z) {struct len} : res nat :=
  match len with
  | O => Ok 0%nat
  | S n =>
      match mem, prefix with
      | x :: r, y :: p => if gtolower x =? gtolower y then do k <- common_prefix_icase r n p ;; Ok (S k) else Ok 0%nat
      | _, _ => UB
      end
  end.

(** The test of path.c:250-253. *)
Definition looks_dotgit (mem : list Z) (len : nat) : res bool :=
  if (len <? 4)%nat then Ok false else
  do a <- rd mem 0 ;; do b <- rd mem 1 ;; do c <- rd mem 2 ;; do d <- rd mem 3 ;;
  Ok ((a =? 46) && ((b =? 103) || (b =? 71)) && ((c =? 105) || (c =? 73)) && ((d =? 116) || (d =? 84))).

(** A check that is run only if [on]; false stops the validation. *)
Definition guard (on : bool) (check : res bool) (k : res bool) : res bool :=
  if on then do ok <- check ;; if (ok : bool) then k else Ok false else k.

(** validate_repo_component, path.c:217-266; [link] is S_ISLNK(file_mode). *)
Definition validate_repo_component (flags : Z) (link : bool) (mem : list Z) (len : nat) : res bool :=
  guard (has flags F_HFS) (dotgit_hfs_generic mem len (bs "git"))
  (guard (has flags F_HFS && link) (do g <- is_gitfile mem len 1 2 ;; Ok (negb g))
  (guard (has flags F_NTFS) (dotgit_ntfs mem len)
  (guard (has flags F_NTFS && link) (do g <- is_gitfile mem len 1 1 ;; Ok (negb g))
  (if negb (has flags F_HFS) && negb (has flags F_NTFS) && has flags F_LITERAL then
     do l <- looks_dotgit mem len ;;
     if (l : bool) then
       if (len =? 4)%nat then Ok false
       else if link then do k <- common_prefix_icase mem len (bs ".gitmodules" ++ [0]) ;; Ok (negb (k =? len)%nat)
       else Ok true
     else Ok true
   else Ok true)))).

(** What the repository configuration answers: core.protecthfs and
    core.protectntfs, None when the lookup fails (configmap lookup error). *)
Record config := { c_hfs : option bool; c_ntfs : option bool }.

(** dotgit_flags, path.c:268-292 (not Apple); no repository is [None]. *)
Definition dotgit_flags (repo : option config) (flags : Z) : Z :=
  let flags := Z.setbit flags F_LITERAL in
  let '(herr, hfs) := match repo with
                      | Some c => match c_hfs c with Some b => (false, b) | None => (true, false) end
                      | None => (false, false) end in
  let flags := if negb herr && hfs then Z.setbit flags F_HFS else flags in
  let '(nerr, ntfs) := match repo with
                       | Some c => match c_ntfs c with Some b => (false, b) | None => (true, true) end
                       | None => (herr, true) end in
  if negb nerr && ntfs then Z.setbit flags F_NTFS else flags.

(** validate_dospath, fs_path.c:1560-1578. *)
Definition validate_dospath (mem : list Z) (len : nat) (dos : list Z) (num : bool) : res bool :=
  let last := if num then 4%nat else 3%nat in
  if (len <? last)%nat then Ok true else
  do e <- ncase_eq mem dos 3 ;;
  if (e : bool) then
    do bad <- (if num then do d <- rd mem 3 ;; Ok ((d <? 49) || (57 <? d)) else Ok false) ;;
    if (bad : bool) then Ok true
    else if (last <? len)%nat then do c <- rd mem last ;; Ok (negb (c =? 46) && negb (c =? 58)) else Ok false
  else Ok true.

(** validate_char, fs_path.c:1580-1605. *)
Definition validate_char (c flags : Z) : bool :=
  if has flags F_BACKSLASH && (c =? 92) then false
  else if has flags F_SLASH && (c =? 47) then false
  else if has flags F_NT_CHARS then
    negb ((c <? 32) || (c =? 60) || (c =? 62) || (c =? 58) || (c =? 34) || (c =? 124) || (c =? 63) || (c =? 42))
  else true.

(** validate_component, fs_path.c:1616-1654. *)
Definition validate_component (mem : list Z) (len : nat) (flags : Z) : res bool :=
  if (len =? 0)%nat then Ok (negb (has flags F_EMPTY))
  else
    do c0 <- rd mem 0 ;;
    if has flags F_TRAVERSAL && (len =? 1)%nat && (c0 =? 46) then Ok false
    else
      do dd <- (if has flags F_TRAVERSAL && (len =? 2)%nat && (c0 =? 46) then do c1 <- rd mem 1 ;; Ok (c1 =? 46) else Ok false) ;;
      if (dd : bool) then Ok false
      else
        do z <- rd mem (len - 1) ;;
        if has flags F_TRAILING_DOT && (z =? 46) then Ok false
        else if has flags F_TRAILING_SPACE && (z =? 32) then Ok false
        else if has flags F_TRAILING_COLON && (z =? 58) then Ok false
        else
          let on := has flags F_DOS_PATHS in
          guard on (validate_dospath mem len (bs "CON") false)
          (guard on (validate_dospath mem len (bs "PRN") false)
          (guard on (validate_dospath mem len (bs "AUX") false)
          (guard on (validate_dospath mem len (bs "NUL") false)
          (guard on (validate_dospath mem len (bs "COM") true)
          (guard on (validate_dospath mem len (bs "LPT") true) (Ok true)))))).

(** The two component checks, fs_path.c:1692-1697 and 1711-1716. *)
Definition check_component (flags : Z) (link : bool) (start : list Z) (clen : nat) : res bool :=
  guard true (validate_component start clen flags) (validate_repo_component flags link start clen).

(** The loop and tail of git_fs_path_str_is_valid_ext, fs_path.c:1683-1716:
    [cur] is the memory at c, [start] at the start of the component, [clen] is
    c - start, [left] is path->size - len (None for SIZE_MAX).  The Windows
    length check is not modelled. *)
Fixpoint path_loop (flags : Z) (link : bool) (cur start : list Z) (clen : nat) (left : option nat) {struct cur} : res bool :=
  match cur with
  | [] => UB
  | c :: r =>
      if (c =? 0) || (match left with Some O => true | _ => false end) then
        match left with
        | Some (S _) => Ok false
        | _ => check_component flags link start clen
        end
      else
        let left' := match left with Some n => Some (n - 1)%nat | None => None end in
        if negb (validate_char c flags) then Ok false
        else if c =? 47 then
          do ok <- check_component flags link start clen ;;
          if (ok : bool) then path_loop flags link r r 0 left' else Ok false
        else path_loop flags link r start (S clen) left'
  end.

(** git_fs_path_str_is_valid_ext, fs_path.c:1669-1735, with the callbacks
    git_path_str_is_valid passes. *)
Definition str_is_valid_ext (mem : list Z) (size : option nat) (flags : Z) (link : bool) : res bool :=
  if flags =? 0 then Ok true else path_loop flags link mem mem 0 size.

(** git_path_str_is_valid, path.c:311-332; length_flags (path.c:294-309)
    clears the length bit on POSIX. *)
Definition path_str_is_valid (repo : option config) (mem : list Z) (size : option nat) (link : bool) (flags : Z) : res bool :=
  let flags := if has flags F_DOT_GIT then dotgit_flags repo flags else flags in
  let flags := if has flags F_LONG_PATHS then Z.clearbit flags F_LONG_PATHS else flags in
  str_is_valid_ext mem size flags link.

(** git_path_is_valid, path.h:36-44. *)
Definition path_is_valid (repo : option config) (mem : list Z) (link : bool) (flags : Z) : res bool :=
  path_str_is_valid repo mem None link flags.
