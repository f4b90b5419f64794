(** Model of the in-memory index, src/libgit2/index.c and index_map.c.

    The entries vector is the [vec] of VectorModel (binary search, sorted
    insertion, removal and the sorted flag are those of C06).  The entry map is
    a list of entries with at most one per key (C08: a hash map is a map; its
    hash ignores case, so it agrees with both equalities).  An entry has an
    identity [e_ptr] (its address): the vector and the map hold the same
    objects, so overwriting an entry in place changes both.

    Simplified: stat data, the id and the remaining flags are one opaque value
    [e_data]; strings are lists of bytes without NUL; [ic] is ignore_case; the
    tree cache, the list of deleted entries kept for readers, the REUC and NAME
    records and failing allocations are left out; canonicalize_directory_path
    (index.c:1206-1274) does nothing when case matters or the path is trusted
    and is not modelled otherwise. *)
From Verif Require Import Base Arr Str VectorModel WildModel.

Record entry := mke { e_ptr : nat; e_path : list Z; e_stage : Z; e_mode : Z; e_data : Z }.
Record index := mki { i_ents : vec entry; i_map : list entry; i_next : nat }.

(** git_index_new_ext, index.c:389-461: empty. *)
Definition inew : index := mki vinit [] 0.

(** strcmp / strcasecmp: [fold ic] folds A-Z when case is ignored.  Paths hold
    no NUL, so the terminator is smaller than any byte. *)
Fixpoint pcmp (ic : bool) (a b : list Z) : Z :=
  match a, b with
  | [], [] => 0
  | [], _ :: _ => -1
  | _ :: _, [] => 1
  | x :: a', y :: b' => if fold ic x =? fold ic y then pcmp ic a' b' else fold ic x - fold ic y
  end.
(** memcmp / strncasecmp over [n] bytes that both have. *)
Fixpoint pncmp (ic : bool) (a b : list Z) (n : nat) : Z :=
  match n, a, b with
  | S n', x :: a', y :: b' => if fold ic x =? fold ic y then pncmp ic a' b' n' else fold ic x - fold ic y
  | _, _, _ => 0
  end.

(** git_index_entry_cmp, index.c:201-213; git_index_entry_icmp, 215-227. *)
Definition ecmp (ic : bool) (a b : entry) : Z :=
  let d := pcmp ic (e_path a) (e_path b) in
  if d =? 0 then e_stage a - e_stage b else d.

(** git_index_entry_srch, index.c:136-159; git_index_entry_isrch, 161-185.
    The stage -1 (GIT_INDEX_STAGE_ANY) matches every stage. *)
Definition srch (ic : bool) (path : list Z) (stage : Z) (e : entry) : Z :=
  let len1 := length path in
  let len2 := length (e_path e) in
  let cmp := pncmp ic path (e_path e) (if (len1 <? len2)%nat then len1 else len2) in
  if negb (cmp =? 0) then cmp
  else if (len1 <? len2)%nat then -1
  else if (len2 <? len1)%nat then 1
  else if negb (stage =? -1) then stage - e_stage e
  else 0.

(** index_find, index.c:343-362 (the vector is sorted first). *)
Definition ifind (ic : bool) (ix : index) (path : list Z) (stage : Z) : res (bool * nat * index) :=
  do (fp, v) <- vbsearch (ecmp ic) (i_ents ix) (srch ic path stage) ;;
  Ok (fp, mki v (i_map ix) (i_next ix)).

(** The entry map, index_map.c:29-58: equality of keys, put, get, remove. *)
Definition key_eq (ic : bool) (path : list Z) (stage : Z) (e : entry) : bool :=
  (stage =? e_stage e) && (pcmp ic path (e_path e) =? 0).
Definition map_remove (ic : bool) (m : list entry) (path : list Z) (stage : Z) : list entry :=
  filter (fun e => negb (key_eq ic path stage e)) m.
Definition map_put (ic : bool) (m : list entry) (e : entry) : list entry :=
  e :: map_remove ic m (e_path e) (e_stage e).
Definition map_get (ic : bool) (m : list entry) (path : list Z) (stage : Z) : option entry :=
  find (key_eq ic path stage) m.

(** index_remove_entry, index.c:510-533. *)
Definition remove_entry (ic : bool) (ix : index) (pos : nat) : Z * index :=
  let m := match nth_error (items (i_ents ix)) pos with
           | Some e => map_remove ic (i_map ix) (e_path e) (e_stage e)
           | None => i_map ix
           end in
  let '(r, v) := vremove (i_ents ix) pos in
  (r, mki v m (i_next ix)).

(** git_index__create_mode, index.c:318-327. *)
Definition create_mode (mode : Z) : Z :=
  let fmt := Z.land mode 61440 in
  if fmt =? 40960 then 40960
  else if (fmt =? 16384) || (fmt =? 57344) then 57344
  else 32768 + (if Z.land mode 64 =? 0 then 420 else 493).

(** has_file_name, index.c:1111-1136.  One iteration looks at the entry at
    [pos]; removing it leaves the next one at the same position. *)
Fixpoint has_file_name (fuel : nat) (ic : bool) (ix : index) (name : list Z) (stage : Z) (pos : nat) (ok : bool)
    : res (bool * index) :=
  match fuel with
  | O => NoFuel
  | S f =>
      match nth_error (items (i_ents ix)) pos with
      | None => Ok (true, ix)
      | Some p =>
          let len := length name in
          if (length (e_path p) <=? len)%nat then Ok (true, ix)
          else if negb (pncmp false name (e_path p) len =? 0) then Ok (true, ix)
          else if negb (e_stage p =? stage) then has_file_name f ic ix name stage (S pos) ok
          else if negb (nth len (e_path p) 0 =? 47) then has_file_name f ic ix name stage (S pos) ok
          else if negb ok then Ok (false, ix)
          else let '(r, ix') := remove_entry ic ix pos in
               if r <? 0 then Ok (true, ix') else has_file_name f ic ix' name stage pos ok
      end
  end.

(** The search for an entry inside the directory, index.c:1177-1188: true when
    one with our stage is found. *)
Fixpoint in_subdir (l : list entry) (dir : list Z) (stage : Z) : bool :=
  match l with
  | [] => false
  | p :: r =>
      let len := length dir in
      if (length (e_path p) <=? len)%nat || negb (nth len (e_path p) 0 =? 47) || negb (pncmp false (e_path p) dir len =? 0)
      then false
      else if e_stage p =? stage then true else in_subdir r dir stage
  end.

(** has_dir_name, index.c:1142-1191: [slash] is the offset of the byte after
    the one looked at next. *)
Fixpoint has_dir_name (slash : nat) (ic : bool) (ix : index) (name : list Z) (stage : Z) (ok : bool) : res (bool * index) :=
  match slash with
  | O | S O => Ok (true, ix)
  | S len =>
      if nth len name 0 =? 47 then
        let dir := firstn len name in
        do (fp, ix) <- ifind ic ix dir stage ;;
        let '(found, pos) := fp in
        if (found : bool) then
          if negb ok then Ok (false, ix)
          else let '(r, ix') := remove_entry ic ix pos in
               if r <? 0 then Ok (true, ix') else has_dir_name len ic ix' name stage ok
        else if in_subdir (skipn pos (items (i_ents ix))) dir stage then Ok (true, ix)
        else has_dir_name len ic ix name stage ok
      else has_dir_name len ic ix name stage ok
  end.

(** check_file_directory_collision, index.c:1193-1204. *)
Definition check_collision (ic : bool) (ix : index) (e : entry) (pos : nat) (ok : bool) : res (bool * index) :=
  do (good, ix) <- has_file_name (S (2 * length (items (i_ents ix)))) ic ix (e_path e) (e_stage e) pos ok ;;
  if (good : bool) then has_dir_name (length (e_path e)) ic ix (e_path e) (e_stage e) ok else Ok (false, ix).

(** index_existing_and_best, index.c:1285-1329: [best] only influences the mode
    when it is not trusted, which is not modelled. *)
Definition existing_and_pos (ic : bool) (ix : index) (e : entry) : res (option entry * nat * index) :=
  do (fp, ix) <- ifind ic ix (e_path e) (e_stage e) ;;
  let '(found, pos) := fp in
  if (found : bool) then do x <- aget (items (i_ents ix)) pos ;; Ok (Some x, pos, ix)
  else Ok (None, 0%nat, ix).

(** index_entry_cpy into an entry of the index, index.c:1068-1075 and 1402-1407:
    the stored object is overwritten, its identity stays; the path bytes are
    overwritten too when the path is trusted (it has the same length). *)
Definition overwrite (old new : entry) (e : entry) : entry :=
  if (e_ptr e =? e_ptr old)%nat then mke (e_ptr old) (e_path new) (e_stage new) (e_mode new) (e_data new) else e.
Definition index_no_dups (old new : entry) : Z := -4.

(** index_insert, index.c:1344-1434, with trust_path and trust_mode set;
    [id_ok]: the object exists (or need not, 1381-1390). *)
Definition insert (ic : bool) (ix : index) (e : entry) (replace id_ok : bool) : res (Z * index) :=
  do v <- vsort (ecmp ic) (i_ents ix) ;;
  do (ep, ix) <- existing_and_pos ic (mki v (i_map ix) (i_next ix)) e ;;
  let '(existing, position) := ep in
  let e := mke (e_ptr e) (e_path e) (e_stage e) (create_mode (e_mode e)) (e_data e) in
  if negb id_ok then Ok (-1, ix)
  else
    do (good, ix) <- check_collision ic ix e position replace ;;
    if negb (good : bool) then Ok (-1, ix)
    else
      match existing with
      | Some old =>
          if replace
          then Ok (0, mki (mkvec (map (overwrite old e) (items (i_ents ix))) (flag (i_ents ix)))
                          (map (overwrite old e) (i_map ix)) (i_next ix))
          else Ok (0, ix)
      | None =>
          do (r, v) <- vinsert_sorted (ecmp ic) (i_ents ix) e (Some index_no_dups) ;;
          if r <? 0 then Ok (r, mki v (i_map ix) (i_next ix))
          else Ok (0, mki v (map_put ic (i_map ix) e) (i_next ix))
      end.

(** valid_filemode, index.c:1462-1472. *)
Definition valid_filemode (m : Z) : bool :=
  (m =? 33188) || (m =? 33261) || (m =? 40960) || (m =? 57344).

(** What the caller passes; index_entry_dup (index.c:1077-1087, with
    index_entry_create, 921-958) checks the path and allocates. *)
Record source := mks { s_path : list Z; s_stage : Z; s_mode : Z; s_data : Z; s_id_ok : bool }.
Definition dup (path_ok : list Z -> bool) (ix : index) (s : source) : option (entry * index) :=
  if path_ok (s_path s)
  then Some (mke (i_next ix) (s_path s) (s_stage s) (s_mode s) (s_data s), mki (i_ents ix) (i_map ix) (S (i_next ix)))
  else None.

(** git_index_add, index.c:1677-1696. *)
Definition index_add (path_ok : list Z -> bool) (ic : bool) (ix : index) (s : source) : res (Z * index) :=
  if negb (valid_filemode (s_mode s)) then Ok (-1, ix)
  else match dup path_ok ix s with
       | None => Ok (-1, ix)
       | Some (e, ix) => insert ic ix e true (s_id_ok s)
       end.

(** git_index_remove, index.c:1698-1718. *)
Definition index_remove (ic : bool) (ix : index) (path : list Z) (stage : Z) : res (Z * index) :=
  let ix := mki (i_ents ix) (map_remove ic (i_map ix) path (Z.land stage 3)) (i_next ix) in
  do (fp, ix) <- ifind ic ix path stage ;;
  let '(found, pos) := fp in
  if (found : bool) then Ok (remove_entry ic ix pos) else Ok (-3, ix).

(** git_fs_path_to_dir, fs_path.c:412-420. *)
Definition to_dir (p : list Z) : list Z :=
  match p with [] => [] | _ => if last p 0 =? 47 then p else p ++ [47] end.

(** git_index_remove_directory, index.c:1720-1749: the loop. *)
Fixpoint remove_dir_loop (fuel : nat) (ic : bool) (ix : index) (pfx : list Z) (stage : Z) (pos : nat) : res (Z * index) :=
  match fuel with
  | O => NoFuel
  | S f =>
      match nth_error (items (i_ents ix)) pos with
      | None => Ok (0, ix)
      | Some e =>
          if negb (prefixb pfx (e_path e)) then Ok (0, ix)
          else if negb (e_stage e =? stage) then remove_dir_loop f ic ix pfx stage (S pos)
          else let '(r, ix') := remove_entry ic ix pos in
               if r =? 0 then remove_dir_loop f ic ix' pfx stage pos else Ok (r, ix')
      end
  end.
Definition index_remove_directory (ic : bool) (ix : index) (dir : list Z) (stage : Z) : res (Z * index) :=
  let pfx := to_dir dir in
  do (fp, ix) <- ifind ic ix pfx (-1) ;;
  let '(_, pos) := fp in
  remove_dir_loop (S (2 * length (items (i_ents ix)))) ic ix pfx stage pos.

(** git_index_find, index.c:1776-1803: the first position with that path. *)
Definition srch_path (ic : bool) (path : list Z) (e : entry) : Z := pcmp ic path (e_path e).
Fixpoint back_up (ic : bool) (l : list entry) (path : list Z) (pos : nat) : res nat :=
  match pos with
  | O => Ok O
  | S p => do prev <- aget l p ;;
           if pcmp ic (e_path prev) path =? 0 then back_up ic l path p else Ok pos
  end.
Definition index_find (ic : bool) (ix : index) (path : list Z) : res (option nat * index) :=
  do (fp, v) <- vbsearch (ecmp ic) (i_ents ix) (srch_path ic path) ;;
  let ix := mki v (i_map ix) (i_next ix) in
  let '(found, pos) := fp in
  if (found : bool) then do p <- back_up ic (items v) path pos ;; Ok (Some p, ix) else Ok (None, ix).

(** git_index_find_prefix, index.c:1751-1766. *)
Definition index_find_prefix (ic : bool) (ix : index) (prefix : list Z) : res (option nat * index) :=
  do (fp, ix) <- ifind ic ix prefix (-1) ;;
  let '(_, pos) := fp in
  match nth_error (items (i_ents ix)) pos with
  | Some e => Ok (if prefixb prefix (e_path e) then Some pos else None, ix)
  | None => Ok (None, ix)
  end.

(** index_conflict_remove, index.c:1956-1981; [path] None: every conflict. *)
Fixpoint conflict_remove_loop (fuel : nat) (ic : bool) (ix : index) (path : option (list Z)) (pos : nat) : res (Z * index) :=
  match fuel with
  | O => NoFuel
  | S f =>
      match nth_error (items (i_ents ix)) pos with
      | None => Ok (0, ix)
      | Some e =>
          if match path with Some p => negb (pcmp ic (e_path e) p =? 0) | None => false end then Ok (0, ix)
          else if e_stage e =? 0 then conflict_remove_loop f ic ix path (S pos)
          else let '(r, ix') := remove_entry ic ix pos in
               if r <? 0 then Ok (r, ix') else conflict_remove_loop f ic ix' path pos
      end
  end.
Definition index_conflict_remove (ic : bool) (ix : index) (path : option (list Z)) : res (Z * index) :=
  match path with
  | None => conflict_remove_loop (S (2 * length (items (i_ents ix)))) ic ix None 0
  | Some p =>
      do (o, ix) <- index_find ic ix p ;;
      match o with
      | None => Ok (-3, ix)
      | Some pos => conflict_remove_loop (S (2 * length (items (i_ents ix)))) ic ix path pos
      end
  end.

(** git_index_conflict_add, index.c:1805-1871: duplicates, validates, removes
    the stage-0 entries, then inserts stages 1, 2, 3. *)
Fixpoint dup_all (path_ok : list Z -> bool) (ix : index) (l : list (option source))
    : option (list (option (entry * bool)) * index) :=
  match l with
  | [] => Some ([], ix)
  | None :: r => match dup_all path_ok ix r with Some (es, ix) => Some (None :: es, ix) | None => None end
  | Some s :: r =>
      match dup path_ok ix s with
      | None => None
      | Some (e, ix) => match dup_all path_ok ix r with
                        | Some (es, ix) => Some (Some (e, s_id_ok s) :: es, ix)
                        | None => None
                        end
      end
  end.
Fixpoint remove_all0 (ic : bool) (ix : index) (es : list (option (entry * bool))) : res (Z * index) :=
  match es with
  | [] => Ok (0, ix)
  | None :: r => remove_all0 ic ix r
  | Some (e, _) :: r =>
      do (c, ix) <- index_remove ic ix (e_path e) 0 ;;
      if negb (c =? 0) && negb (c =? -3) then Ok (c, ix) else remove_all0 ic ix r
  end.
Fixpoint insert_all (ic : bool) (ix : index) (es : list (option (entry * bool))) (stage : Z) : res (Z * index) :=
  match es with
  | [] => Ok (0, ix)
  | None :: r => insert_all ic ix r (stage + 1)
  | Some (e, ok) :: r =>
      do (c, ix) <- insert ic ix (mke (e_ptr e) (e_path e) stage (e_mode e) (e_data e)) true ok ;;
      if c <? 0 then Ok (c, ix) else insert_all ic ix r (stage + 1)
  end.
Definition conflict_add (path_ok : list Z -> bool) (ic : bool) (ix : index) (anc our their : option source) : res (Z * index) :=
  match dup_all path_ok ix [anc; our; their] with
  | None => Ok (-1, ix)
  | Some (es, ix) =>
      if forallb (fun o => match o with Some (e, _) => valid_filemode (e_mode e) | None => true end) es then
        do (c, ix) <- remove_all0 ic ix es ;;
        if negb (c =? 0) then Ok (c, ix) else insert_all ic ix es 1
      else Ok (-1, ix)
  end.

(** git_index_clear, index.c:535-563. *)
Definition index_clear (ix : index) : index := mki (mkvec [] (flag (i_ents ix))) [] (i_next ix).

(** git_index_get_bypath, index.c:866-883; git_index_get_byindex, 857-864. *)
Definition get_bypath (ic : bool) (ix : index) (path : list Z) (stage : Z) : option entry :=
  map_get ic (i_map ix) path (Z.land stage 3).

(** Histories: any sequence of calls.  A call that fails in the model's sense
    ([UB], [NoFuel]) stops the history. *)
Inductive iop :=
| IAdd (s : source) | IRemove (path : list Z) (stage : Z) | IRemoveDir (dir : list Z) (stage : Z)
| IConflictAdd (a o t : option source) | IConflictRemove (path : option (list Z)) | IClear.
Definition istep (path_ok : list Z -> bool) (ic : bool) (ix : index) (o : iop) : res (Z * index) :=
  match o with
  | IAdd s => index_add path_ok ic ix s
  | IRemove p st => index_remove ic ix p st
  | IRemoveDir d st => index_remove_directory ic ix d st
  | IConflictAdd a o t => conflict_add path_ok ic ix a o t
  | IConflictRemove p => index_conflict_remove ic ix p
  | IClear => Ok (0, index_clear ix)
  end.
Fixpoint irun (path_ok : list Z -> bool) (ic : bool) (ix : index) (ops : list iop) : res index :=
  match ops with
  | [] => Ok ix
  | o :: r => do (_, ix') <- istep path_ok ic ix o ;; irun path_ok ic ix' r
  end.
