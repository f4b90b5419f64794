(** Three-way merge of trees without rename detection: src/libgit2/merge.c, and the
    walk over several iterators, src/libgit2/iterator.c.  A tree is the list of its
    entries in the order its iterator yields them. *)
From Verif Require Import Base CStr Str.
Local Open Scope Z_scope.

(** git_index_entry: the members the merge reads; the stage of a tree's entry is 0. *)
Record ent := mkent { path : list Z; mode : Z; id : list Z }.

(** git_index_entry_cmp, index.c:201-213, on entries of stage 0; strcmp on paths is [lex]. *)
Definition entry_cmp (a b : ent) : comparison := lex (path a) (path b).

(** The inner loop of git_iterator_walk, iterator.c:2409-2434: [fm] is first_match, [done]
    the items already decided, last one first. *)
Fixpoint scan (heads : list (option ent)) (fm : option ent) (done : list (option ent)) : option ent * list (option ent) :=
  match heads with
  | [] => (fm, rev done)
  | None :: r => scan r fm (None :: done)
  | Some e :: r =>
      match fm with
      | None => scan r (Some e) (Some e :: done)
      | Some f =>
          match entry_cmp e f with
          | Lt => scan r (Some e) (Some e :: map (fun _ => None) done)
          | Eq => scan r fm (Some e :: done)
          | Gt => scan r fm (None :: done)
          end
      end
  end.

(** Advancing the iterators that took part, iterator.c:2442-2451. *)
Fixpoint advance (its : list (list ent)) (cur : list (option ent)) : list (list ent) :=
  match its, cur with
  | it :: r, c :: r' => (match c with Some _ => tl it | None => it end) :: advance r r'
  | _, _ => its
  end.

(** git_iterator_walk, iterator.c:2377-2462: the arguments of the calls of the callback.
    [fuel]: the number of rounds; the callback returns 0. *)
Fixpoint walk (fuel : nat) (its : list (list ent)) : res (list (list (option ent))) :=
  let '(fm, cur) := scan (map (@hd_error ent) its) None [] in
  match fm with
  | None => Ok []
  | Some _ =>
      match fuel with
      | O => NoFuel
      | S f => do r <- walk f (advance its cur) ;; Ok (cur :: r)
      end
  end.

(** git_delta_t, include/git2/diff.h:220-232, as far as used. *)
Inductive status := Unmodified | Added | Deleted | Modified | Typechange.
(** git_merge_diff_t, merge.h:29-77, as far as used without renames. *)
Inductive ctype := TNone | TBothModified | TBothAdded | TBothDeleted | TModifiedDeleted | TDirFile | TDfChild.

(** git_merge_diff, merge.h:100-116; a missing side is an entry of zeroes. *)
Record diff := mkdiff { d_anc : option ent; d_our : option ent; d_their : option ent; d_ourst : status; d_theirst : status; d_type : ctype }.
Definition with_type (d : diff) (t : ctype) : diff := mkdiff (d_anc d) (d_our d) (d_their d) (d_ourst d) (d_theirst d) t.

(** GIT_MERGE_INDEX_ENTRY_EXISTS, merge.c:53. *)
Definition emode (o : option ent) : Z := match o with Some e => mode e | None => 0 end.
Definition exists_ (o : option ent) : bool := negb (emode o =? 0).

(** S_ISDIR, S_ISLNK, S_ISGITLINK: the four type bits. *)
Definition ftype (m : Z) : Z := Z.land m 61440.
Definition is_dir (m : Z) : bool := ftype m =? 16384.
Definition is_lnk (m : Z) : bool := ftype m =? 40960.
Definition is_gitlink (m : Z) : bool := ftype m =? 57344.

(** index_entry_cmp, merge.c:643-655: zero exactly when both or neither exist (a missing one has no
    path) and mode, id and path agree. *)
Definition same_entry (a b : option ent) : bool :=
  match a, b with
  | None, None => true
  | None, Some _ => false
  | Some _, None => false
  | Some x, Some y => (mode x =? mode y) && leqb (id x) (id y) && leqb (path x) (path y)
  end.

(** merge_delta_type_from_index_entries, merge.c:1724-1743. *)
Definition delta_type (anc other : option ent) : status :=
  match anc, other with
  | None, None => Unmodified
  | None, Some _ => Added
  | Some _, None => Deleted
  | Some a, Some o =>
      if xorb (is_dir (mode a)) (is_dir (mode o)) then Typechange
      else if xorb (is_lnk (mode a)) (is_lnk (mode o)) then Typechange
      else if negb (leqb (id a) (id o)) || negb (mode a =? mode o) then Modified
      else Unmodified
  end.

(** merge_diff_from_index_entries, merge.c:1745-1766, then merge_diff_detect_type, 1686-1708. *)
Definition diff_of (anc our their : option ent) : diff :=
  let so := delta_type anc our in
  let st := delta_type anc their in
  mkdiff anc our their so st
    (match so, st with
     | Added, Added => TBothAdded
     | Modified, Modified => TBothModified
     | Deleted, Deleted => TBothDeleted
     | Modified, Deleted => TModifiedDeleted
     | Deleted, Modified => TModifiedDeleted
     | _, _ => TNone
     end).

(** merge_diff_path, merge.c:1619-1630. *)
Definition diff_path (d : diff) : option (list Z) :=
  match d_anc d, d_our d, d_their d with
  | Some a, o, t => if exists_ (d_anc d) then Some (path a)
                    else if exists_ o then option_map path o else if exists_ t then option_map path t else None
  | None, o, t => if exists_ o then option_map path o else if exists_ t then option_map path t else None
  end.

(** merge_diff_any_side_added_or_modified, merge.c:1632-1642. *)
Definition added_or_modified (d : diff) : bool :=
  match d_ourst d, d_theirst d with Added, _ | Modified, _ | _, Added | _, Modified => true | _, _ => false end.

(** path_is_prefixed, merge.c:1644-1654; a NULL path would be a crash and does not happen
    for entries with a mode. *)
Definition path_is_prefixed (parent child : list Z) : bool := prefixb (parent ++ [47]) child.

(** merge_diff_list: [dl_conflicts] holds the last inserted conflict first; that is also
    df_data's prev_conflict (and its path prev_path). *)
Record dlist := mkdl { dl_staged : list ent; dl_conflicts : list diff; dl_df : option (list Z) }.

(** merge_diff_detect_df_conflict, merge.c:1656-1682, and the insertion, 1770-1784. *)
Definition insert_conflict (l : dlist) (d : diff) : dlist :=
  let cur := match diff_path d with Some p => p | None => [] end in
  match dl_df l with
  | Some dfp =>
      if path_is_prefixed dfp cur
      then mkdl (dl_staged l) (with_type d TDfChild :: dl_conflicts l) (Some dfp)
      else mkdl (dl_staged l) (d :: dl_conflicts l) None
  | None =>
      match dl_conflicts l with
      | pv :: older =>
          match diff_path pv with
          | Some pp =>
              if added_or_modified pv && added_or_modified d && path_is_prefixed pp cur
              then mkdl (dl_staged l) (with_type d TDfChild :: with_type pv TDirFile :: older) (Some pp)
              else mkdl (dl_staged l) (d :: dl_conflicts l) None
          | None => mkdl (dl_staged l) (d :: dl_conflicts l) None
          end
      | [] => mkdl (dl_staged l) [d] None
      end
  end.

(** queue_difference, merge.c:1806-1828; merge_diff_list_insert_unmodified, 1786-1799. *)
Definition queue_difference (l : dlist) (entries : list (option ent)) : dlist :=
  match entries with
  | [a; o; t] =>
      match a, o, t with
      | Some x, Some _, Some _ =>
          if same_entry a o && same_entry a t then mkdl (x :: dl_staged l) (dl_conflicts l) (dl_df l)
          else insert_conflict l (diff_of a o t)
      | _, _, _ => insert_conflict l (diff_of a o t)
      end
  | _ => l
  end.

(** merge_conflict_resolve_trivial, merge.c:659-743: the entry staged, if any. *)
Definition changed (s : status) : bool := match s with Unmodified => false | _ => true end.
Definition resolve_trivial (d : diff) : option ent :=
  match d_type d with
  | TDirFile => None
  | _ =>
      let ours_empty := negb (exists_ (d_our d)) in
      let theirs_empty := negb (exists_ (d_their d)) in
      let ours_changed := changed (d_ourst d) in
      let theirs_changed := changed (d_theirst d) in
      let differ := ours_changed && theirs_changed && negb (same_entry (d_our d) (d_their d)) in
      let result :=
        if ours_changed && negb ours_empty && negb differ then d_our d
        else if ours_changed && ours_empty && theirs_empty then None
        else if ours_empty && negb theirs_changed then None
        else if negb ours_changed && theirs_empty then None
        else if ours_changed && negb theirs_changed then d_our d
        else if negb ours_changed && theirs_changed then d_their d
        else None in
      if exists_ result then result else None
  end.

(** merge_conflict_resolve_one_removed, merge.c:745-784. *)
Definition resolve_removed (d : diff) : bool :=
  match d_type d with
  | TDirFile => false
  | _ =>
      let ours_empty := negb (exists_ (d_our d)) in
      let theirs_empty := negb (exists_ (d_their d)) in
      let ours_changed := changed (d_ourst d) in
      let theirs_changed := changed (d_theirst d) in
      (ours_changed && ours_empty && theirs_empty) || (ours_empty && negb theirs_changed) || (negb ours_changed && theirs_empty)
  end.

(** merge_conflict_can_resolve_contents, merge.c:850-885, without the rename tests. *)
Definition can_contents (d : diff) : bool :=
  if negb (exists_ (d_our d)) || negb (exists_ (d_their d)) then false
  else match d_type d with
       | TDirFile => false
       | _ =>
           if is_gitlink (emode (d_anc d)) || is_gitlink (emode (d_our d)) || is_gitlink (emode (d_their d)) then false
           else negb (xorb (is_lnk (emode (d_anc d))) (is_lnk (emode (d_our d))) || xorb (is_lnk (emode (d_anc d))) (is_lnk (emode (d_their d))))
       end.

(** merge_conflict_resolve_contents, merge.c:928-1013: the merge driver is any function
    of the three sides; None is GIT_EMERGECONFLICT. *)
Definition driver := option ent -> ent -> ent -> option ent.
Definition resolve_contents (drv : driver) (d : diff) : option ent :=
  if can_contents d
  then match d_our d, d_their d with
       | Some o, Some t => drv (if exists_ (d_anc d) then d_anc d else None) o t
       | _, _ => None
       end
  else None.

(** merge_conflict_resolve, merge.c:1015-1048 (one_renamed does nothing without renames):
    what is staged and what goes to the resolved list, or none. *)
Definition resolve (drv : driver) (d : diff) : option (list ent * list diff) :=
  match resolve_trivial d with
  | Some e => Some ([e], [])
  | None =>
      if resolve_removed d then Some ([], [d])
      else match resolve_contents drv d with Some e => Some ([e], [d]) | None => None end
  end.

(** What git_merge__iterators hands to index_from_diff_list. *)
Record merged := mkmerged { m_staged : list ent; m_conflicts : list diff; m_resolved : list diff }.

(** The loop of git_merge__iterators, merge.c:2157-2175. *)
Fixpoint resolve_all (drv : driver) (fail : bool) (changes : list diff) (m : merged) : res merged :=
  match changes with
  | [] => Ok m
  | d :: r =>
      match resolve drv d with
      | Some (st, rs) => resolve_all drv fail r (mkmerged (m_staged m ++ st) (m_conflicts m) (m_resolved m ++ rs))
      | None => if fail then Err (-24) else resolve_all drv fail r (mkmerged (m_staged m) (m_conflicts m ++ [d]) (m_resolved m))
      end
  end.

(** git_merge__iterators, merge.c:2099-2195, with GIT_MERGE_FIND_RENAMES off; [fail] is
    GIT_MERGE_FAIL_ON_CONFLICT. *)
Definition merge_trees (drv : driver) (fail : bool) (anc our their : list ent) : res merged :=
  do calls <- walk (length anc + length our + length their) [anc; our; their] ;;
  let l := fold_left queue_difference calls (mkdl [] [] None) in
  resolve_all drv fail (rev (dl_conflicts l)) (mkmerged (rev (dl_staged l)) [] []).
