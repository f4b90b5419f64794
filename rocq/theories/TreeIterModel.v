(** Iterating over a tree: the tree iterator of src/libgit2/iterator.c, case-sensitive,
    with no start and end of the range, optionally limited to a list of paths. *)
From Verif Require Import Base CStr Str.
Local Open Scope Z_scope.

(** git_tree_entry, tree.h:19-25. *)
Record tentry := mktentry { t_name : list Z; t_mode : Z; t_id : list Z }.
(** git_tree_entry__is_tree, tree.h:39-42: S_ISDIR and not S_ISGITLINK. *)
Definition is_tree (e : tentry) : bool := (Z.land (t_mode e) 61440 =? 16384) && negb (Z.land (t_mode e) 61440 =? 57344).
(** git_tree_lookup: the entries of a tree object, or none if it is not there. *)
Definition store := list Z -> option (list tentry).

(** git_str_join with '/', str.c:760-807. *)
Fixpoint drop_slashes (s : list Z) : list Z := match s with c :: r => if c =? 47 then drop_slashes r else s | [] => [] end.
Definition joinpath (a b : list Z) : list Z :=
  match a with
  | [] => a ++ b
  | _ => if nth (length a - 1) a 0 =? 47 then a ++ drop_slashes b else a ++ [47] ++ drop_slashes b
  end.
(** tree_iterator_compute_path, iterator.c:517-534; the root's parent path is NULL (here empty). *)
Definition compute_path (parent : list Z) (e : tentry) : list Z :=
  let p := match parent with [] => t_name e | _ => joinpath parent (t_name e) end in
  if is_tree e then p ++ [47] else p.

(** The length of a path without a slash at its end, iterator.c:241-242 and 249-250. *)
Definition bare_len (p : list Z) : nat := if nth (length p - 1) p 0 =? 47 then (length p - 1)%nat else length p.
(** The loop of iterator_pathlist_next_is, iterator.c:244-288: [ps] are the elements from i on,
    [idx] is pathlist_walk_idx.  A string's terminating NUL is the default of [nth]. *)
Fixpoint pl_loop (ps : list (list Z)) (idx : nat) (path : list Z) : bool * nat :=
  match ps with
  | [] => (false, idx)
  | p :: r =>
      let n := Nat.min (bare_len path) (bare_len p) in
      match lex (firstn n p) (firstn n path) with
      | Eq =>
          if (nth n p 0 =? 0) && ((nth n path 0 =? 0) || (nth n path 0 =? 47)) then (true, idx)
          else if (nth n p 0 =? 47) && (nth n path 0 =? 47) then (true, idx)
          else pl_loop r idx path
      | Lt => pl_loop r (S idx) path
      | Gt => (false, idx)
      end
  end.
(** iterator_pathlist_next_is, iterator.c:228-291; [pl] is sorted (git_vector_sort). *)
Definition next_is (pl : list (list Z)) (idx : nat) (path : list Z) : bool * nat :=
  match pl with [] => (true, idx) | _ => pl_loop (skipn idx pl) idx path end.

(** tree_iterator_frame, iterator.c:430-452: its path and the entries still to come (from next_idx). *)
Record frame := mkframe { f_path : list Z; f_rest : list tentry }.
(** The iterator: its frames, the top one first, and pathlist_walk_idx. *)
Record iter := mkiter { it_frames : list frame; it_idx : nat }.
Record yielded := mkyield { y_path : list Z; y_mode : Z; y_id : list Z }.
(** Flags: GIT_ITERATOR_INCLUDE_TREES and not GIT_ITERATOR_DONT_AUTOEXPAND. *)
Record flags := mkflags { include_trees : bool; autoexpand : bool }.

Inductive round := Over | Failed (code : Z) | Again (i : iter) | Yield (y : yielded) (i : iter).
(** One round of the loop of tree_iterator_advance, iterator.c:757-850, with tree_iterator_frame_push
    and _pop, 658-713 and tree_iterator_set_current, 731-747.  A missing tree is GIT_ENOTFOUND. *)
Definition advance_round (st : store) (fl : flags) (pl : list (list Z)) (i : iter) : round :=
  match it_frames i with
  | [] => Over
  | f :: up =>
      match f_rest f with
      | [] => Again (mkiter up (it_idx i))
      | e :: es =>
          let p := compute_path (f_path f) e in
          let '(next, idx) := next_is pl (it_idx i) p in
          let stay := mkframe (f_path f) es :: up in
          if negb next then Again (mkiter stay idx)
          else if is_tree e && negb (include_trees fl) then
            if autoexpand fl
            then match st (t_id e) with
                 | Some t => Again (mkiter (mkframe p t :: stay) idx)
                 | None => Failed (-3)
                 end
            else Again (mkiter stay idx)
          else
            let y := mkyield p (t_mode e) (t_id e) in
            if is_tree e && autoexpand fl
            then match st (t_id e) with
                 | Some t => Yield y (mkiter (mkframe p t :: stay) idx)
                 | None => Failed (-3)
                 end
            else Yield y (mkiter stay idx)
      end
  end.

(** All entries, as a caller sees them that calls git_iterator_advance until GIT_ITEROVER. *)
Fixpoint collect (fuel : nat) (st : store) (fl : flags) (pl : list (list Z)) (i : iter) (acc : list yielded) : res (list yielded) :=
  match fuel with
  | O => NoFuel
  | S n =>
      match advance_round st fl pl i with
      | Over => Ok (rev acc)
      | Failed c => Err c
      | Again i' => collect n st fl pl i' acc
      | Yield y i' => collect n st fl pl i' (y :: acc)
      end
  end.
(** git_iterator_for_tree, iterator.c:920-957, tree_iterator_init, 890-901, and the iteration. *)
Definition iterate (fuel : nat) (st : store) (fl : flags) (pl : list (list Z)) (root : list tentry) : res (list yielded) :=
  collect fuel st fl pl (mkiter [mkframe [] root] 0) [].
