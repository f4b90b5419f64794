(** Comparing two listings, src/libgit2/diff_generate.c: trees and indexes on both
    sides (no working directory), case-sensitive, no callbacks.  Deltas keep the fields a
    caller reads: status, path, and mode and id of both sides; sizes, flags and the
    number of files are left out. *)
From Verif Require Import Base CStr Str.
Local Open Scope Z_scope.

(** git_index_entry as an iterator yields it: tree_iterator_set_current, iterator.c:731-747
    (stage and flags 0), or an index entry.  [i_valid] is GIT_INDEX_ENTRY_VALID, [i_skip]
    GIT_INDEX_ENTRY_SKIP_WORKTREE. *)
Record item := mkitem { i_path : list Z; i_mode : Z; i_id : list Z; i_stage : Z; i_valid : bool; i_skip : bool }.
(** git_index_entry_is_conflict, index.c:3270-3273. *)
Definition is_conflict (e : item) : bool := 0 <? i_stage e.

(** git_delta_t, include/git2/diff.h:220-232, those that occur here. *)
Inductive dstatus := DUnmodified | DAdded | DDeleted | DModified | DTypechange | DConflicted.
(** git_diff_file: the mode and id of a side; a side not filled in is zero (git_oid_clear and calloc). *)
Record side := mkside { s_mode : Z; s_id : list Z }.
Definition zero_id : list Z := repeat 0 20.
Definition no_side : side := mkside 0 zero_id.
Record delta := mkdelta { d_status : dstatus; d_path : list Z; d_old : side; d_new : side }.

(** The options that matter here; [o_want] is the pathspec match, diff_generate.c:97-121, on the path. *)
Record dopts := mkopts { o_reverse : bool; o_unmodified : bool; o_typechange : bool; o_tctrees : bool; o_ignore_sub : bool; o_want : list Z -> bool }.

(** diff_delta__alloc, diff_generate.c:38-68: the status, exchanged under GIT_DIFF_REVERSE. *)
Definition alloc_status (op : dopts) (s : dstatus) : dstatus :=
  if o_reverse op then match s with DAdded => DDeleted | DDeleted => DAdded | _ => s end else s.

(** diff_delta__from_one, diff_generate.c:143-219.  [has_old]: the item is the old one.
    The result is the vector of deltas, last one first (diff_insert_delta, 70-95). *)
Definition from_one (op : dopts) (s : dstatus) (has_old : bool) (e : item) (ds : list delta) : list delta :=
  let old := xorb has_old (o_reverse op) in
  if i_valid e then ds
  else if negb (o_want op (i_path e)) then ds
  else let sd := mkside (i_mode e) (i_id e) in
       mkdelta (alloc_status op s) (i_path e) (if old then sd else no_side) (if old then no_side else sd) :: ds.

(** diff_delta__from_two, diff_generate.c:221-286, with new_id NULL. *)
Definition from_two (op : dopts) (s : dstatus) (o : item) (omode : Z) (n : item) (nmode : Z) (ds : list delta) : list delta :=
  match s, o_unmodified op with
  | DUnmodified, false => ds
  | _, _ =>
      let '(o', om, n', nm) := if o_reverse op then (n, nmode, o, omode) else (o, omode, n, nmode) in
      mkdelta (alloc_status op s) (i_path o)
        (if is_conflict o' then no_side else mkside om (i_id o'))
        (if is_conflict n' then no_side else mkside nm (i_id n')) :: ds
  end.

(** GIT_MODE_TYPE, futils.h:287-288. *)
Definition mode_type (m : Z) : Z := Z.land m 61440.
Definition oid_is_zero (i : list Z) : bool := forallb (fun b => b =? 0) i.

(** maybe_modified, diff_generate.c:803-949; new_is_workdir is false, so the mode bits are
    kept and the id is known.  GIT_FILEMODE_UNREADABLE is 0. *)
Definition maybe_modified (op : dopts) (o n : item) (ds : list delta) : list delta :=
  if negb (o_want op (i_path o)) then ds
  else
    let omode := i_mode o in
    let nmode := i_mode n in
    if is_conflict o || is_conflict n then from_two op DConflicted o omode n nmode ds
    else if i_valid o then from_two op DUnmodified o omode n nmode ds
    else if i_skip o then from_two op DUnmodified o omode n nmode ds
    else if negb (mode_type omode =? mode_type nmode) then
      if o_typechange op then from_two op DTypechange o omode n nmode ds
      else from_one op DAdded false n (from_one op DDeleted true o ds)
    else if leqb (i_id o) (i_id n) && (omode =? nmode) && negb (oid_is_zero (i_id o)) then from_two op DUnmodified o omode n nmode ds
    else if (mode_type nmode =? 57344) && o_ignore_sub op then from_two op DUnmodified o omode n nmode ds
    else from_two op DModified o omode n nmode ds.

(** entry_is_prefixed, diff_generate.c:951-966. *)
Definition entry_is_prefixed (it : option item) (prefix_item : item) : bool :=
  match it with
  | None => false
  | Some e =>
      let p := i_path prefix_item in
      if prefixb p (i_path e) then
        let len := length p in
        (nth (len - 1) p 0 =? 47) || (nth len (i_path e) 0 =? 0) || (nth len (i_path e) 0 =? 47)
      else false
  end.

(** iterator_advance, diff_generate.c:982-1014: [inc] is GIT_ITERATOR_INCLUDE_CONFLICTS. *)
Fixpoint skip_same (inc : bool) (prev : item) (r : list item) : list item :=
  match r with
  | [] => []
  | e :: r' => if inc && is_conflict prev && is_conflict e && leqb (i_path prev) (i_path e) then skip_same inc prev r' else r
  end.
Definition advance (inc : bool) (l : list item) : list item := match l with [] => [] | e :: r => skip_same inc e r end.

(** diff_delta__last_for_item, diff_generate.c:288-323: does the last delta stand for the item? *)
Definition last_for_item (ds : list delta) (e : item) : bool :=
  match ds with
  | [] => false
  | d :: _ =>
      match d_status d with
      | DUnmodified | DDeleted => leqb (s_id (d_old d)) (i_id e)
      | DAdded => leqb (s_id (d_new d)) (i_id e)
      | DModified => leqb (s_id (d_old d)) (i_id e) || ((s_mode (d_new d) =? i_mode e) && leqb (s_id (d_new d)) (i_id e))
      | _ => false
      end
  end.
Definition tree_mode : Z := 16384.

(** handle_unmatched_new_item, diff_generate.c:1045-1200: entries of trees and indexes are
    never GIT_FILEMODE_TREE here (the iterators do not include trees) nor ignored. *)
Definition unmatched_new (op : dopts) (oitem : option item) (n : item) (ds : list delta) : list delta :=
  let contains := entry_is_prefixed oitem n in
  let ty := if is_conflict n then DConflicted else DAdded in
  let ds := from_one op ty false n ds in
  if o_tctrees op && contains && last_for_item ds n
  then match ds with d :: r => mkdelta DTypechange (d_path d) (mkside tree_mode (s_id (d_old d))) (d_new d) :: r | [] => ds end
  else ds.

(** handle_unmatched_old_item, diff_generate.c:1202-1238. *)
Definition unmatched_old (op : dopts) (o : item) (nitem : option item) (ds : list delta) : list delta :=
  let ty := if is_conflict o then DConflicted else DDeleted in
  let ds := from_one op ty true o ds in
  if o_tctrees op && entry_is_prefixed nitem o && last_for_item ds o
  then match ds with d :: r => mkdelta DTypechange (d_path d) (d_old d) (mkside tree_mode (s_id (d_new d))) :: r | [] => ds end
  else ds.

(** The loop of git_diff__from_iterators, diff_generate.c:1287-1320; entrycomp is strcmp
    on the paths, diff.c:56-62.  [io], [inn]: whether each iterator includes conflicts. *)
Fixpoint loop (fuel : nat) (op : dopts) (io inn : bool) (os ns : list item) (ds : list delta) : res (list delta) :=
  match os, ns with
  | [], [] => Ok ds
  | _, _ =>
      match fuel with
      | O => NoFuel
      | S f =>
          match os, ns with
          | [], [] => Ok ds
          | o :: _, [] => loop f op io inn (advance io os) ns (unmatched_old op o None ds)
          | [], n :: _ => loop f op io inn os (advance inn ns) (unmatched_new op None n ds)
          | o :: _, n :: _ =>
              match lex (i_path o) (i_path n) with
              | Lt => loop f op io inn (advance io os) ns (unmatched_old op o (Some n) ds)
              | Gt => loop f op io inn os (advance inn ns) (unmatched_new op (Some o) n ds)
              | Eq => loop f op io inn (advance io os) (advance inn ns) (maybe_modified op o n ds)
              end
          end
      end
  end.

(** git_diff__from_iterators, diff_generate.c:1254-1334, as called by git_diff_tree_to_tree,
    1362-1404 (no conflicts), git_diff_tree_to_index, 1417-1463 (conflicts included) and
    git_diff_index_to_index, 1579-1619 (conflicts left out).  GIT_DIFF_INCLUDE_TYPECHANGE_TREES
    implies GIT_DIFF_INCLUDE_TYPECHANGE, 508-510. *)
Definition diff_lists (op : dopts) (io inn : bool) (old new : list item) : res (list delta) :=
  let op := if o_tctrees op then mkopts (o_reverse op) (o_unmodified op) true true (o_ignore_sub op) (o_want op) else op in
  do ds <- loop (length old + length new) op io inn old new [] ;; Ok (rev ds).
