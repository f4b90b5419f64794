(** Checkout (src/libgit2/checkout.c): how the differences between baseline and target are matched
    with the working directory, which action is chosen for each of them, and what the actions then
    do to the files.

    Simplifications. Paths are compared byte by byte (no core.ignorecase folding; the configuration
    value itself is a parameter, [s_rmexist], because it selects whether existing items are removed
    before a file is written). Notification callbacks return 0. Symbolic links in the middle of a
    path are not followed. A file's contents are represented by the object id they hash to. Index
    conflicts, NOTIFY masks, progress and performance counters, [checkout_verify_paths] and the
    nesting limit of the recursive remove are left out. *)
From Coq Require Import ZArith List Bool Lia.
From Verif Require Import Base CStr Str.
Import ListNotations.
Local Open Scope Z_scope.

Definition slash : Z := 47.

(** include/git2/types.h:219-226 git_filemode_t *)
Definition MODE_TREE : Z := 16384.    (* 0040000 *)
Definition MODE_BLOB : Z := 33188.    (* 0100644 *)
Definition MODE_EXEC : Z := 33261.    (* 0100755 *)
Definition MODE_LINK : Z := 40960.    (* 0120000 *)
Definition MODE_COMMIT : Z := 57344.  (* 0160000 *)

(** include/git2/diff.h git_delta_t, the values a tree/index to tree/index diff produces *)
Inductive status := Unmodified | Added | Deleted | Modified | Typechange.

(** git_diff_delta: both sides have the same path. The sizes are what the iterators report:
    0 for tree entries. *)
Record delta := mkdelta {
  d_status : status; d_path : list Z;
  d_omode : Z; d_oid : list Z; d_osize : Z;
  d_nmode : Z; d_nid : list Z }.

(** The strategy bits (include/git2/checkout.h:112-206) that steer the code below, core.filemode,
    and [should_remove_existing] (checkout.c:1407-1417: core.ignorecase and not
    GIT_CHECKOUT_DONT_REMOVE_EXISTING). *)
Record strategy := mkstrategy {
  s_none : bool; s_force : bool; s_recreate : bool; s_allow : bool;
  s_rm_untracked : bool; s_rm_ignored : bool; s_update_only : bool;
  s_keep_ignored : bool; (* GIT_CHECKOUT_DONT_OVERWRITE_IGNORED *)
  s_dry_run : bool;
  s_filemode : bool;     (* data->respect_filemode *)
  s_rmexist : bool }.

(** A file, symbolic link or submodule (mode COMMIT) in the working directory, as stat sees it,
    with the id its contents hash to ([None]: hashing fails) and what the ignore rules say. *)
Record file := mkfile { f_mode : Z; f_id : option (list Z); f_size : Z; f_mtime : Z; f_ignored : bool }.

(** The working directory. A directory knows whether it is ignored as a whole (what
    git_iterator_advance_over reports) and whether it contains a .git (which the iterator itself
    does not list). *)
Inductive node :=
| NFile (f : file)
| NDir (ignored hasgit : bool) (kids : list (list Z * node)).

(** What checkout reads of the index: the entry at a path in stage 0 with its stat data and whether
    it is as new as the index file (index.h git_index_entry_newer_than_index), and the paths tracked
    in any stage. *)
Record ientry := mkientry { i_mode : Z; i_id : list Z; i_size : Z; i_mtime : Z; i_newer : bool }.
Record index := mkindex { ix_entry : list Z -> option ientry; ix_paths : list (list Z) }.

(** CHECKOUT_ACTION__* bits, checkout.c:38-49 *)
Record action := mkact { a_rm : bool; a_up : bool; a_sub : bool; a_conf : bool }.
Definition NONE := mkact false false false false.
Definition REMOVE := mkact true false false false.
Definition UPDATE_BLOB := mkact false true false false.
Definition CONFLICT := mkact false false false true.
Definition REMOVE_AND_UPDATE := mkact true true false false.

(** checkout.c:251-252 CHECKOUT_ACTION_IF *)
Definition action_if (flag : bool) (yes no : action) : action := if flag then yes else no.

(** futils.h:282 GIT_PERMS_IS_EXEC *)
Definition is_exec (mode : Z) : bool := negb (Z.land mode 64 =? 0).

(** checkout.c:149-156 is_workdir_base_or_new *)
Definition base_or_new (oid : list Z) (d : delta) : bool := leqb (d_oid d) oid || leqb (d_nid d) oid.

(** checkout.c:158-174 is_filemode_changed *)
Definition filemode_changed (a b : Z) (respect : bool) : bool :=
  if respect then negb (a =? b)
  else
    let a := if a =? MODE_LINK then MODE_BLOB else a in
    let b := if b =? MODE_LINK then MODE_BLOB else b in
    negb (Z.land a (Z.lnot 73) =? Z.land b (Z.lnot 73)).

(** What an iterator position shows: a directory has a trailing slash and mode TREE. *)
Definition item := (list Z * node)%type.
Definition n_mode (n : node) : Z := match n with NFile f => f_mode f | NDir _ _ _ => MODE_TREE end.
Definition n_size (n : node) : Z := match n with NFile f => f_size f | NDir _ _ _ => 0 end.
Definition n_ignored (n : node) : bool := match n with NFile f => f_ignored f | NDir i _ _ => i end.
Definition is_dir (n : node) : bool := match n with NDir _ _ _ => true | NFile _ => false end.

(** checkout.c:176-247 checkout_is_workdir_modified. [submod] stands for the answer the submodule
    code gives for an item of mode COMMIT (183-205). git_index_get_bypath finds nothing for a path
    with a trailing slash. The size of a directory is taken to differ from any file's. *)
Definition is_modified (st : strategy) (ix : index) (submod : bool) (d : delta) (w : item) : bool :=
  let '(path, n) := w in
  if n_mode n =? MODE_COMMIT then submod else
  match n with
  | NDir _ _ _ => negb (d_osize d =? 0) && negb (n_size n =? d_osize d)
  | NFile f =>
    let fresh :=
      match ix_entry ix path with
      | Some e =>
        if negb (i_newer e) && (f_mtime f =? i_mtime e) && (f_size f =? i_size e) &&
           negb (filemode_changed (f_mode f) (i_mode e) (s_filemode st))
        then Some (negb (base_or_new (i_id e) d) || filemode_changed (d_omode d) (i_mode e) (s_filemode st))
        else None
      | None => None
      end in
    match fresh with
    | Some b => b
    | None =>
      if negb (d_osize d =? 0) && negb (f_size f =? d_osize d) then true
      else if filemode_changed (d_omode d) (f_mode f) (s_filemode st) then true
      else match f_id f with
           | None => false
           | Some oid => negb (base_or_new oid d)
           end
    end
  end.

(** checkout.c:254-286 checkout_action_common; [wd] is the working-directory item or NULL *)
Definition action_common (st : strategy) (d : delta) (wd : option node) (a : action) : action :=
  let a := if s_update_only st then mkact false (a_up a) (a_sub a) (a_conf a) else a in
  if a_up a then
    let a := if d_nmode d =? MODE_COMMIT then mkact (a_rm a) false true (a_conf a) else a in
    let a := match wd with
             | Some _ => if d_nmode d =? MODE_LINK then mkact true (a_up a) (a_sub a) (a_conf a) else a
             | None => a
             end in
    match wd with
    | Some n => if Bool.eqb (is_exec (n_mode n)) (is_exec (d_nmode d)) then a
                else mkact true (a_up a) (a_sub a) (a_conf a)
    | None => a
    end
  else a.

(** checkout.c:288-325 checkout_action_no_wd *)
Definition action_no_wd (st : strategy) (d : delta) : action :=
  if s_none st then NONE else
  action_common st d None
    match d_status d with
    | Unmodified => action_if (s_recreate st) UPDATE_BLOB NONE
    | Added => UPDATE_BLOB
    | Modified => action_if (s_recreate st) UPDATE_BLOB CONFLICT
    | Typechange => if d_nmode d =? MODE_TREE then UPDATE_BLOB else NONE
    | Deleted => REMOVE
    end.

(** checkout.c:491-562 checkout_action_with_wd. [cfgonly] is submodule_is_config_only (461-479). *)
Definition action_with_wd (st : strategy) (ix : index) (submod cfgonly : bool) (d : delta) (w : item) : action :=
  if s_none st then NONE else
  let m := is_modified st ix submod d w in
  let wmode := n_mode (snd w) in
  action_common st d (Some (snd w))
    match d_status d with
    | Unmodified => if m then action_if (s_force st) UPDATE_BLOB NONE else NONE
    | Added => if n_ignored (snd w) then action_if (s_keep_ignored st) CONFLICT UPDATE_BLOB
               else action_if (s_force st) UPDATE_BLOB CONFLICT
    | Deleted => if m then action_if (s_force st) REMOVE CONFLICT else REMOVE
    | Modified => if negb (wmode =? MODE_COMMIT) && m then action_if (s_force st) UPDATE_BLOB CONFLICT
                  else UPDATE_BLOB
    | Typechange =>
      let a :=
        if d_omode d =? MODE_TREE then
          if wmode =? MODE_TREE then UPDATE_BLOB
          else if wmode =? MODE_COMMIT then
            if cfgonly then UPDATE_BLOB else action_if (s_force st) REMOVE_AND_UPDATE CONFLICT
          else action_if (s_force st) REMOVE CONFLICT
        else if m then action_if (s_force st) REMOVE_AND_UPDATE CONFLICT
        else REMOVE_AND_UPDATE in
      if d_nmode d =? MODE_TREE then mkact (a_rm a) false (a_sub a) (a_conf a) else a
    end.

(** checkout.c:564-598 checkout_action_with_wd_blocker *)
Definition action_blocker (st : strategy) (d : delta) (w : item) : action :=
  if s_none st then NONE else
  action_common st d (Some (snd w))
    match d_status d with
    | Unmodified => action_if (s_force st) REMOVE_AND_UPDATE NONE
    | Added | Modified => action_if (s_force st) REMOVE_AND_UPDATE CONFLICT
    | Deleted => action_if (s_force st) REMOVE CONFLICT
    | Typechange => action_if (s_force st) REMOVE_AND_UPDATE CONFLICT
    end.

(** checkout.c:600-653 checkout_action_with_wd_dir *)
Definition action_wd_dir (st : strategy) (d : delta) (w : item) : action :=
  if s_none st then NONE else
  action_common st d (Some (snd w))
    match d_status d with
    | Unmodified => action_if (s_force st) REMOVE_AND_UPDATE NONE
    | Added | Modified =>
      if d_omode d =? MODE_COMMIT then NONE
      else if negb (d_nmode d =? MODE_TREE) then
        if n_ignored (snd w) then action_if (s_keep_ignored st) CONFLICT REMOVE_AND_UPDATE
        else action_if (s_force st) REMOVE_AND_UPDATE CONFLICT
      else NONE
    | Deleted => NONE
    | Typechange =>
      if d_omode d =? MODE_TREE then UPDATE_BLOB
      else if negb (d_nmode d =? MODE_TREE) then action_if (s_force st) REMOVE_AND_UPDATE CONFLICT
      else NONE
    end.

(** checkout.c:655-667 checkout_action_with_wd_dir_empty *)
Definition action_dir_empty (st : strategy) (d : delta) : action :=
  let a := action_no_wd st d in
  if a_rm a || a_up a || a_sub a || a_conf a then mkact true (a_up a) (a_sub a) (a_conf a) else a.

(** iterator.c filesystem_iterator_advance_into: the children of a directory, which the iterator
    keeps sorted with directories carrying a trailing slash. *)
Definition child (dir : list Z) (k : list Z * node) : item :=
  (dir ++ fst k ++ (if is_dir (snd k) then [slash] else []), snd k).
Definition advance_into (w : item) : list item :=
  match w with
  | (path, NDir _ _ kids) => map (child path) kids
  | _ => []
  end.

(** checkout.c:365-459 checkout_action_wd_only: the iterator after the call, and the path queued for
    removal. Returns the items that replace [w] in front of the iterator. [spec] is
    git_pathspec__match (376-385); removable is wd_item_is_removable (343-355). *)
Definition wd_only (st : strategy) (ix : index) (spec : list Z -> bool) (w : item) : list item * list (list Z) :=
  let '(path, n) := w in
  if negb (spec path) then (advance_into w, []) else
  let removable := match n with NFile _ => true | NDir _ hasgit _ => negb hasgit end in
  let untracked :=
    if (if n_ignored n then s_rm_ignored st else s_rm_untracked st) && removable then [path] else [] in
  match n with
  | NFile _ =>
    if existsb (leqb path) (ix_paths ix) then ([], if s_force st then [path] else [])
    else ([], untracked)
  | NDir _ _ _ =>
    if existsb (prefixb path) (ix_paths ix) then (advance_into w, [])
    else ([], untracked)
  end.

(** Number of nodes: enough steps for the walk. *)
Fixpoint nsize (n : node) : nat :=
  match n with
  | NFile _ => 1
  | NDir _ _ kids => S ((fix go (l : list (list Z * node)) : nat :=
                           match l with [] => O | k :: r => nsize (snd k) + go r end) kids)
  end%nat.
Fixpoint isize (l : list item) : nat := match l with [] => O | w :: r => (nsize (snd w) + isize r)%nat end.

(** checkout.c:484-489 git_fs_path_is_empty_dir *)
Definition empty_dir (n : node) : bool := match n with NDir _ hasgit [] => negb hasgit | _ => false end.

(** checkout.c:669-776 checkout_action: the iterator [it] follows the deltas. Result: the action,
    the iterator afterwards and the paths queued for removal. *)
Fixpoint checkout_action (fuel : nat) (st : strategy) (ix : index) (submod cfgonly : bool) (spec : list Z -> bool)
    (d : delta) (it : list item) : option (action * list item * list (list Z)) :=
  match fuel with
  | O => None
  | S fuel =>
    let p := d_path d in
    match it with
    | [] => Some (action_no_wd st d, [], [])
    | w :: rest =>
      let only :=
        let '(front, rm) := wd_only st ix spec w in
        match checkout_action fuel st ix submod cfgonly spec d (front ++ rest) with
        | Some (a, it', rm') => Some (a, it', rm ++ rm')
        | None => None
        end in
      match lex (fst w) p with
      | Lt =>
        if prefixb (fst w) p then
          if is_dir (snd w) then checkout_action fuel st ix submod cfgonly spec d (advance_into w ++ rest)  (* case 2 *)
          else if nth (length (fst w)) p 0 =? slash then Some (action_blocker st d w, rest, [])             (* case 3 *)
          else only
        else only                                                                                          (* case 1 *)
      | Eq => Some (action_with_wd st ix submod cfgonly d w, rest, [])                                      (* case 4 *)
      | Gt =>
        if prefixb p (fst w) then
          if negb (nth (length p) (fst w) 0 =? slash) then Some (action_no_wd st d, it, [])
          else
            let other := Some (if empty_dir (snd w) then action_dir_empty st d else action_wd_dir st d w, it, []) in
            match d_status d with
            | Typechange =>
              if d_omode d =? MODE_TREE then Some (action_with_wd st ix submod cfgonly d w, advance_into w ++ rest, [])
              else if (d_nmode d =? MODE_TREE) || (d_nmode d =? MODE_COMMIT) || (d_omode d =? MODE_COMMIT)
              then Some (action_with_wd st ix submod cfgonly d w, rest, [])
              else other
            | _ => other
            end
        else Some (action_no_wd st d, it, [])                                                              (* case 6 *)
      end
    end
  end.

(** checkout.c:1338-1351 the loop over the deltas *)
Fixpoint actions (st : strategy) (ix : index) (submod cfgonly : list Z -> bool) (spec : list Z -> bool)
    (ds : list delta) (it : list item) : option (list (delta * action) * list item * list (list Z)) :=
  match ds with
  | [] => Some ([], it, [])
  | d :: r =>
    match checkout_action (S (isize it)) st ix (submod (d_path d)) (cfgonly (d_path d)) spec d it with
    | None => None
    | Some (a, it', rm) =>
      match actions st ix submod cfgonly spec r it' with
      | None => None
      | Some (l, it'', rm') => Some ((d, a) :: l, it'', rm ++ rm')
      end
    end
  end.

(** checkout.c:778-793 checkout_remaining_wd_items *)
Fixpoint remaining (fuel : nat) (st : strategy) (ix : index) (spec : list Z -> bool) (it : list item) : option (list (list Z)) :=
  match fuel with
  | O => None
  | S fuel =>
    match it with
    | [] => Some []
    | w :: rest =>
      let '(front, rm) := wd_only st ix spec w in
      match remaining fuel st ix spec (front ++ rest) with
      | Some rm' => Some (rm ++ rm')
      | None => None
      end
    end
  end.

(** The files below a node, with their paths: the state the effects act on. *)
Fixpoint files_at (path : list Z) (n : node) : list (list Z * file) :=
  match n with
  | NFile f => [(path, f)]
  | NDir _ _ kids =>
    (fix go (l : list (list Z * node)) :=
       match l with
       | [] => []
       | k :: r => files_at (path ++ fst k ++ (if is_dir (snd k) then [slash] else [])) (snd k) ++ go r
       end) kids
  end.
Definition fsys := list (list Z * file).
Definition files (it : list item) : fsys := flat_map (fun w => files_at (fst w) (snd w)) it.

Definition at_or_below (p q : list Z) : bool := leqb p q || prefixb (p ++ [slash]) q.

(** futils.c:855-885 git_futils_rmdir_r with EMPTY_PARENTS, REMOVE_FILES and REMOVE_BLOCKERS: the
    file at [path], or everything below the directory [path]; when a parent is a file, that file
    (futils.c:746-769 futils__rm_first_parent, 786-789). A trailing slash of [path] is ignored. *)
Definition strip (path : list Z) : list Z := if last path 0 =? slash then removelast path else path.
Definition rmdir_r (path : list Z) (fs : fsys) : fsys :=
  let path := strip path in
  if existsb (fun e => at_or_below path (fst e)) fs
  then filter (fun e => negb (at_or_below path (fst e))) fs
  else filter (fun e => negb (prefixb (fst e ++ [slash]) path)) fs.

(** checkout.c:1449-1482 mkpath2file: with [s_rmexist] files in the way of the parent directories and
    whatever is at the path itself are removed; without it a file in the way is an error. *)
Definition mkpath2file (st : strategy) (path : list Z) (fs : fsys) : option fsys :=
  if s_rmexist st then
    Some (filter (fun e => negb (at_or_below path (fst e)))
            (filter (fun e => negb (prefixb (fst e ++ [slash]) path)) fs))
  else if existsb (fun e => prefixb (fst e ++ [slash]) path) fs then None
  else Some fs.

Definition find_file (path : list Z) (fs : fsys) : option file :=
  match find (fun e => leqb path (fst e)) fs with Some e => Some (snd e) | None => None end.

(** How writing a file can end: done, blocked by a file in a parent's place (GIT_EEXISTS), or
    another error (-1). *)
Inductive wres := WOk | WExists | WFail.

(** odb.c error_null_oid: the zero id names no object *)
Definition zero_id (id : list Z) : bool := forallb (fun c => c =? 0) id.

(** checkout.c:1751-1784 checkout_write_content: blob lookup (1762), then 1520-1594
    blob_content_to_file (open with O_CREAT|O_TRUNC: a directory in the place is an error, an existing
    file keeps its mode) or 1596-1636 blob_content_to_link (an existing file is an error). Objects
    other than the zero id are present. The stat data of the new file is not modelled. *)
Definition write_content (st : strategy) (path : list Z) (mode : Z) (id : list Z) (fs : fsys) : fsys * wres :=
  if zero_id id then (fs, WFail) else
  match mkpath2file st path fs with
  | None => (fs, WExists)
  | Some fs =>
    if existsb (fun e => prefixb (path ++ [slash]) (fst e)) fs then (fs, WFail)
    else
      match find_file path fs with
      | Some f =>
        if mode =? MODE_LINK then (fs, WFail)
        else ((path, mkfile (f_mode f) (Some id) 0 0 false) :: filter (fun e => negb (leqb path (fst e))) fs, WOk)
      | None => ((path, mkfile mode (Some id) 0 0 false) :: fs, WOk)
      end
  end.

(** checkout.c:1727-1749 checkout_safe_for_update_only: an item of the same type is already there *)
Definition update_only_ok (path : list Z) (mode : Z) (fs : fsys) : bool :=
  match find_file path fs with
  | Some f => Z.land (f_mode f) (Z.lnot 511) =? Z.land mode (Z.lnot 511)
  | None => false
  end.

(** checkout.c:1786-1817 checkout_blob. With ALLOW_CONFLICTS a blocked write is skipped (1773-1781).
    Returns whether to continue. *)
Definition checkout_blob (st : strategy) (d : delta) (fs : fsys) : fsys * bool :=
  if s_update_only st && negb (update_only_ok (d_path d) (d_nmode d) fs) then (fs, true)
  else let '(fs', r) := write_content st (d_path d) (d_nmode d) (d_nid d) fs in
       (fs', match r with WOk => true | WExists => s_allow st | WFail => false end).

(** checkout.c:1676-1716 checkout_submodule: an (empty) directory is made; files in the way are
    removed or an error. *)
Definition checkout_submodule (st : strategy) (d : delta) (fs : fsys) : fsys * bool :=
  if s_update_only st then (fs, true)
  else
    let blocked := fun e : list Z * file => leqb (d_path d) (fst e) || prefixb (fst e ++ [slash]) (d_path d) in
    if s_rmexist st then (filter (fun e => negb (blocked e)) fs, true)
    else (fs, negb (existsb blocked fs)).

(** A loop over the deltas that stops at the first failure. *)
Fixpoint each (sel : delta -> action -> bool) (op : delta -> fsys -> fsys * bool) (l : list (delta * action)) (fs : fsys)
  : fsys * bool :=
  match l with
  | [] => (fs, true)
  | (d, a) :: r =>
    if sel d a then
      let '(fs', ok) := op d fs in if ok then each sel op r fs' else (fs', false)
    else each sel op r fs
  end.

(** checkout.c:1819-1876 checkout_remove_the_old *)
Definition remove_the_old (l : list (delta * action)) (rms : list (list Z)) (fs : fsys) : fsys :=
  let fs := fst (each (fun _ a => a_rm a) (fun d fs => (rmdir_r (d_path d) fs, true)) l fs) in
  fold_left (fun fs p => rmdir_r p fs) rms fs.

(** checkout.c:1878-1905 checkout_create_the_new: links last *)
Definition create_the_new (st : strategy) (l : list (delta * action)) (fs : fsys) : fsys * bool :=
  let '(fs, ok) := each (fun d a => a_up a && negb (d_nmode d =? MODE_LINK)) (checkout_blob st) l fs in
  if ok then each (fun d a => a_up a && (d_nmode d =? MODE_LINK)) (checkout_blob st) l fs else (fs, false).

(** The outcome of git_checkout_*: the files afterwards, and success, a conflict or a failure
    part-way. *)
Inductive outcome := Done (fs : fsys) | Conflicts (fs : fsys) | Failed (fs : fsys).
Definition outcome_files (o : outcome) : fsys := match o with Done fs | Conflicts fs | Failed fs => fs end.

(** checkout.c:1312-1405 checkout_get_actions and 2601-2656 git_checkout_iterator *)
Definition checkout (st : strategy) (ix : index) (submod cfgonly spec : list Z -> bool)
    (ds : list delta) (wd : list item) : option outcome :=
  match actions st ix submod cfgonly spec ds wd with
  | None => None
  | Some (l, it, rms) =>
    match remaining (S (isize it)) st ix spec it with
    | None => None
    | Some rms' =>
      if existsb (fun x => a_conf (snd x)) l && negb (s_allow st) then Some (Conflicts (files wd))
      else if s_dry_run st then Some (Done (files wd))
      else
        let fs := remove_the_old l (rms ++ rms') (files wd) in
        let '(fs, ok) := create_the_new st l fs in
        if ok then
          let '(fs, ok) := each (fun _ a => a_sub a) (checkout_submodule st) l fs in
          Some (if ok then Done fs else Failed fs)
        else Some (Failed fs)
    end
  end.
