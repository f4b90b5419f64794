(** Writing the index as tree objects (tree.c: write_tree, git_tree__write_index) and the cache of
    directory ids that makes it fast (tree-cache.c), on top of the index (IndexModel) and the tree
    builder (TreeModel).  Allocations and the writes of objects succeed. *)
From Verif Require Import Base Arr Str VectorModel HashModel IndexModel TreeModel.

(** git_tree_cache, tree-cache.h:17-27, without the type of ids. *)
Inductive tcache := TC (name : list Z) (count : Z) (oid : list Z) (kids : list tcache).
Definition c_name (t : tcache) : list Z := let '(TC n _ _ _) := t in n.
Definition c_count (t : tcache) : Z := let '(TC _ c _ _) := t in c.
Definition c_oid (t : tcache) : list Z := let '(TC _ _ o _) := t in o.
Definition c_kids (t : tcache) : list tcache := let '(TC _ _ _ k) := t in k.
(** find_child, tree-cache.c:13-26. *)
Definition find_child (kids : list tcache) (name : list Z) : option tcache := find (fun k => leqb (c_name k) name) kids.
(** git_tree_cache_invalidate_path, tree-cache.c:28-49: [dirs] are the parts of the path before its
    slashes. *)
Fixpoint invalidate (t : tcache) (dirs : list (list Z)) : tcache :=
  let '(TC n _ o kids) := t in
  TC n (-1) o (match dirs with
               | [] => kids
               | d :: r => (fix go (l : list tcache) : list tcache :=
                              match l with
                              | [] => []
                              | k :: l => if leqb (c_name k) d then invalidate k r :: l else k :: go l
                              end) kids
               end).
Definition invalidate_path (t : option tcache) (path : list Z) : option tcache := option_map (fun t => invalidate t (removelast (split 47 path))) t.
(** git_tree_cache_get, tree-cache.c:51-72 (the test of [*end + 1] never holds). *)
Fixpoint cache_at (t : tcache) (comps : list (list Z)) : option tcache :=
  match comps with
  | [] => Some t
  | d :: r => match find_child (c_kids t) d with Some k => cache_at k r | None => None end
  end.
Definition cache_get (t : option tcache) (path : list Z) : option tcache := match t with None => None | Some t => cache_at t (split 47 path) end.

Section Wtree.
Context (nhash : list Z -> nat).              (* the hash function of the builder's map *)
Context (name_ok : list Z -> bool).           (* git_path_is_valid for the names in a tree *)
Context (sz : nat).                           (* the size of an id *)
Context (oid_of : list Z -> list Z).          (* the id of a tree object with this content *)
Context (id_of : Z -> list Z).                (* the id among the data of an index entry *)
(** The contents of the tree objects, in the order they were written; of two with the same id the
    first stays (git_odb_write, odb.c:1571-1585 does not write an object that exists). *)
Definition odb := list (list Z).
(** Whether an object of this id and type exists (or need not), git_object__is_valid. *)
Context (obj_ok : odb -> list Z -> Z -> bool).
Definition open_raw (st : odb) (id : list Z) : option (list Z) := find (fun b => leqb (oid_of b) id) st.
(** git_tree_lookup with git_tree__parse. *)
Definition open_tree (st : odb) (id : list Z) : option (list tentry) :=
  match open_raw st id with Some b => match parse_raw sz b with Ok es => Some es | _ => None end | None => None end.

(** "We've left our (sub)tree", tree.c:452-456 and 621-625. *)
Definition outside (dir path : list Z) : bool := negb (prefixb dir path) || (negb (leqb dir []) && negb (nth (length dir) path 0 =? 47)).
(** find_next_dir, tree.c:446-461. *)
Fixpoint next_dir (dir : list Z) (l : list entry) (i : nat) : nat :=
  match l with
  | [] => i
  | e :: r => if outside dir (e_path e) then i else next_dir dir r (S i)
  end.
(** tree.c:627-629: the path below the directory. *)
Definition below (dir path : list Z) : list Z := match skipn (length dir) path with c :: r => if c =? 47 then r else c :: r | [] => [] end.
(** strchr(s, '/'): what precedes the first slash. *)
Fixpoint before_slash (s : list Z) : option (list Z) :=
  match s with
  | [] => None
  | c :: r => if c =? 47 then Some [] else match before_slash r with Some a => Some (c :: a) | None => None end
  end.
(** strrchr, tree.c:653-658. *)
Definition last_comp (s : list Z) : list Z := last (split 47 s) [].

Notation tbl := (@table (list Z) tentry).
Section Index.
Variables (ents : list entry) (cache : option tcache).
(** write_tree, tree.c:586-686: the loop from entry [i] on with the builder [bld]; a subdirectory is
    taken from the cache or written by a recursive call.  The answer is the id and the index of the next
    entry, None for -1; the objects written stay also then. *)
Fixpoint write_loop (fuel : nat) (dir : list Z) (i : nat) (bld : tbl) (st : odb) : res (option (list Z * nat) * odb) :=
  match fuel with
  | O => NoFuel
  | S f =>
    let finish := do b <- builder_write bld ;; Ok (Some (oid_of b, i), st ++ [b]) in
    match nth_error ents i with
    | None => finish
    | Some e =>
      if outside dir (e_path e) then finish
      else
        let filename := below dir (e_path e) in
        match before_slash filename with
        | Some comp =>
            let subdir := firstn (length (e_path e) - length filename + length comp) (e_path e) in
            do w <- (match cache_get cache subdir with
                     | Some c => if 0 <=? c_count c then Ok (Some (c_oid c, next_dir subdir (skipn i ents) i), st) else write_loop f subdir i hinit st
                     | None => write_loop f subdir i hinit st
                     end) ;;
            match w with
            | (None, st) => Ok (None, st)
            | (Some (oid, j), st) =>
                do p <- append_entry nhash name_ok (obj_ok st) bld (last_comp subdir) oid 16384 true ;;
                let '(err, bld) := p in
                if err <? 0 then Ok (None, st) else write_loop f dir j bld st
            end
        | None =>
            do p <- append_entry nhash name_ok (obj_ok st) bld filename (id_of (e_data e)) (e_mode e) true ;;
            let '(err, bld) := p in
            if err <? 0 then Ok (None, st) else write_loop f dir (S i) bld st
        end
    end
  end.
(** Enough for the recursion: each round moves on in the entries or down in a path. *)
Definition widest : nat := fold_right (fun e n => Nat.max (length (e_path e)) n) 0%nat ents.
Definition write_fuel : nat := S (S (length ents) * S (S widest)).
Definition write_root (st : odb) : res (option (list Z * nat) * odb) :=
  match cache_get cache [] with
  | Some c => if 0 <=? c_count c then Ok (Some (c_oid c, next_dir [] ents 0), st) else write_loop write_fuel [] 0 hinit st
  | None => write_loop write_fuel [] 0 hinit st
  end.
End Index.

(** read_tree_recursive, tree-cache.c:168-226. *)
Fixpoint read_cache (fuel : nat) (st : odb) (name oid : list Z) (es : list tentry) : res tcache :=
  match fuel with
  | O => NoFuel
  | S f =>
    do p <- (fix go (es : list tentry) : res (Z * list tcache) :=
               match es with
               | [] => Ok (0, [])
               | e :: r =>
                 if normalize_filemode (te_attr e) =? 16384 then
                   match open_tree st (te_oid e) with
                   | None => Err (-3)
                   | Some sub => do k <- read_cache f st (te_name e) (te_oid e) sub ;; do p <- go r ;; Ok (c_count k + fst p, k :: snd p)
                   end
                 else do p <- go r ;; Ok (1 + fst p, snd p)
               end) es ;;
    Ok (TC name (fst p) oid (snd p))
  end.

(** An index of a repository: the entries, the cache and the repository's objects. *)
Record wstate := mkw { w_ix : index; w_cache : option tcache; w_odb : odb }.
Definition EUNMERGED : Z := -10.   (* errors.h:33 *)
(** git_tree__write_index, tree.c:688-733 (git_index_write_tree, index.c:824-838): the code, the id and
    the new state.  Sorting the entries back at the end is left out: they are in that order already
    before the call.  The tree cache has at most one level more than the longest path. *)
Definition rebuild (ic : bool) (w : wstate) : res (Z * list Z * wstate) :=
  let ents := items (i_ents (w_ix w)) in
  do v <- (if ic then vsort (ecmp false) (mkvec ents false) else Ok (mkvec ents true)) ;;
  do r <- write_root (items v) (w_cache w) (w_odb w) ;;
  match r with
  | (None, st) => Ok (-1, [], mkw (w_ix w) None st)
  | (Some (oid, _), st) =>
      match open_tree st oid with
      | None => Ok (-3, oid, mkw (w_ix w) None st)
      | Some es => match read_cache (S (S (widest ents))) st [] oid es with
                   | Ok c => Ok (0, oid, mkw (w_ix w) (Some c) st)
                   | Err e => Ok (e, oid, mkw (w_ix w) None st)
                   | UB => UB
                   | NoFuel => NoFuel
                   end
      end
  end.
Definition write_index (ic : bool) (w : wstate) : res (Z * list Z * wstate) :=
  if existsb (fun e => 0 <? e_stage e) (items (i_ents (w_ix w))) then Ok (EUNMERGED, [], w)
  else match w_cache w with
       | Some t => if 0 <=? c_count t then Ok (0, c_oid t, w) else rebuild ic w
       | None => rebuild ic w
       end.

(** The calls on an index, with what they do to the cache: index_remove_entry (index.c:516) invalidates
    the path of each entry it removes, git_index_add (index.c:1694) that of the entry added, and
    git_index_clear (index.c:542) drops the cache.  (The order among invalidations does not matter.) *)
Definition gone (before after : list entry) : list (list Z) :=
  map e_path (filter (fun e => negb (existsb (fun x => (e_ptr x =? e_ptr e)%nat) after)) before).
Definition touched (o : iop) (code : Z) (before after : list entry) : list (list Z) :=
  gone before after ++ match o with IAdd s => if code =? 0 then [s_path s] else [] | _ => [] end.
Inductive wop := WIndex (o : iop) | WWrite | WObject (b : list Z).
(** [WObject]: somebody writes a tree object. *)
Definition wstep (path_ok : list Z -> bool) (ic : bool) (w : wstate) (o : wop) : res (Z * list Z * wstate) :=
  match o with
  | WIndex o =>
      do p <- istep path_ok ic (w_ix w) o ;;
      let '(c, ix) := p in
      let cache := match o with
                   | IClear => None
                   | _ => fold_left invalidate_path (touched o c (items (i_ents (w_ix w))) (items (i_ents ix))) (w_cache w)
                   end in
      Ok (c, [], mkw ix cache (w_odb w))
  | WWrite => write_index ic w
  | WObject b => Ok (0, [], mkw (w_ix w) (w_cache w) (w_odb w ++ [b]))
  end.
Fixpoint wrun (path_ok : list Z -> bool) (ic : bool) (w : wstate) (ops : list wop) : res wstate :=
  match ops with
  | [] => Ok w
  | o :: r => do p <- wstep path_ok ic w o ;; wrun path_ok ic (snd p) r
  end.
End Wtree.
