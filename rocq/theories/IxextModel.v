(** The three extensions of the index file libgit2 reads and writes: the tree cache (TREE), the
    resolve-undo entries (REUC) and the renames of conflicts (NAME).  The bytes of an extension are
    a list [s]; [aft] are the bytes of the buffer after the extension (index.c:2685-2687 leaves at
    least the checksum there).  Allocations succeed. *)
From Verif Require Import Base Str IntModel SigModel TreeModel WtreeModel IdxFileModel.

(** [*buffer], where [s] are the bytes of the extension from [buffer] on. *)
Definition deref (s aft : list Z) : res Z := match s ++ aft with c :: _ => Ok c | [] => UB end.

(** memchr for NUL in tree-cache.c:88 and p_strnlen in index.c:2325, 2396: the bytes before the first
    NUL of [s] and those after it; [None] when there is none. *)
Fixpoint cut_nul (s : list Z) : option (list Z * list Z) :=
  match s with
  | [] => None
  | c :: r => if c =? 0 then Some ([], r) else match cut_nul r with Some (a, b) => Some (c :: a, b) | None => None end
  end.

(** *** TREE *)
(** tree-cache.c:136-139: the children, read by [rd]; [k] bounds their number. *)
Definition read_kids (rd : list Z -> res (tcache * list Z)) : nat -> Z -> list Z -> res (list tcache * list Z) :=
  fix kids (k : nat) (i : Z) (s : list Z) {struct k} :=
    if i <=? 0 then Ok ([], s)
    else match k with
         | O => NoFuel
         | S k => do p <- rd s ;; do q <- kids k (i - 1) (snd p) ;; Ok (fst p :: fst q, snd q)
         end.
(** read_tree_internal, tree-cache.c:74-149, with [rd] for its recursive calls: the directory and the
    bytes after it.  The oid of a directory that has none is zero (the memset of tree-cache.c:258). *)
Definition read_dir (osz : nat) (aft : list Z) (rd : list Z -> res (tcache * list Z)) (k : nat) (s : list Z) : res (tcache * list Z) :=
  match cut_nul s with
  | None => Err (-1)
  | Some (name, s) =>
    match s with
    | [] => Err (-1)
    | _ :: _ =>
      do p <- strntol32 s 10 ;;
      let '(count, s) := p in
      do c <- deref s aft ;;
      if negb (c =? 32) then Err (-1)
      else if (length s <=? 1)%nat then Err (-1)
      else
        do p <- strntol32 (tl s) 10 ;;
        let '(n, s) := p in
        if n <? 0 then Err (-1)
        else
          do c <- deref s aft ;;
          if negb (c =? 10) then Err (-1)
          else if (length s <? 1)%nat then Err (-1)
          else
            let s := tl s in
            if (0 <=? count) && (length s <? osz)%nat then Err (-1)
            else
              let oid := if 0 <=? count then firstn osz s else repeat 0 osz in
              let s := if 0 <=? count then skipn osz s else s in
              do p <- read_kids rd k n s ;;
              Ok (TC name count oid (fst p), snd p)
    end
  end.
(** [fuel] bounds the depth of the recursion and the number of children of one directory. *)
Fixpoint tree_read_in (fuel : nat) (osz : nat) (aft s : list Z) : res (tcache * list Z) :=
  match fuel with O => NoFuel | S f => read_dir osz aft (tree_read_in f osz aft) f s end.
(** git_tree_cache_read, tree-cache.c:151-169. *)
Definition tree_read (osz : nat) (aft s : list Z) : res tcache :=
  do p <- tree_read_in (S (length s)) osz aft s ;;
  match snd p with [] => Ok (fst p) | _ :: _ => Err (-1) end.

(** printf's %zd *)
Definition dec_signed (n : Z) : list Z := (if n <? 0 then [45] else []) ++ dec 20 (Z.abs n).
(** write_tree, tree-cache.c:269-280 (and git_tree_cache_write, 282-287). *)
Fixpoint tree_write (t : tcache) : list Z :=
  let '(TC name count oid kids) := t in
  name ++ [0] ++ dec_signed count ++ [32] ++ dec 20 (Z.of_nat (length kids)) ++ [10] ++
  (if count =? -1 then [] else oid) ++ concat (map tree_write kids).

(** *** REUC *)
(** git_index_reuc_entry, include/git2/sys/index.h:29-34 *)
Record reuc := mkreuc { ru_path : list Z; ru_modes : list Z; ru_oids : list (list Z) }.
(** index.c:2335-2356: [k] octal numbers, each ended by a NUL with more bytes of the extension after it. *)
Fixpoint reuc_modes (k : nat) (aft s : list Z) : res (list Z * list Z) :=
  match k with
  | O => Ok ([], s)
  | S k =>
    do p <- strntol64 s 8 ;;
    let '(m, e) := p in
    if (length e =? length s)%nat then Err (-1)
    else
      do c <- deref e aft ;;
      if negb (c =? 0) || (m <? 0) || (4294967295 <? m) then Err (-1)
      else if (length s <=? length s - length e + 1)%nat then Err (-1)
      else
        do q <- reuc_modes k aft (skipn (length s - length e + 1) s) ;;
        Ok (m :: fst q, snd q)
  end.
(** index.c:2358-2372: an id for each number that is not zero; the others stay zero (the calloc of
    index.c:1025). *)
Fixpoint reuc_oids (osz : nat) (modes : list Z) (s : list Z) : res (list (list Z) * list Z) :=
  match modes with
  | [] => Ok ([], s)
  | m :: ms =>
    if m =? 0 then do q <- reuc_oids osz ms s ;; Ok (repeat 0 osz :: fst q, snd q)
    else if (length s <? osz)%nat then Err (-1)
    else do q <- reuc_oids osz ms (skipn osz s) ;; Ok (firstn osz s :: fst q, snd q)
  end.
(** index.c:2325-2376: one entry and the bytes after it. *)
Definition reuc_entry (osz : nat) (aft s : list Z) : res (reuc * list Z) :=
  match cut_nul s with
  | None | Some (_, []) => Err (-1)
  | Some (path, s) =>
    do p <- reuc_modes 3 aft s ;;
    do q <- reuc_oids osz (fst p) (snd p) ;;
    Ok (mkreuc path (fst p) (fst q), snd q)
  end.
(** read_reuc, index.c:2310-2383, the loop over the entries. *)
Fixpoint reuc_loop (fuel : nat) (osz : nat) (aft s : list Z) : res (list reuc) :=
  match s with
  | [] => Ok []
  | _ :: _ =>
    match fuel with
    | O => NoFuel
    | S f => do p <- reuc_entry osz aft s ;; do r <- reuc_loop f osz aft (snd p) ;; Ok (fst p :: r)
    end
  end.
Definition reuc_read (osz : nat) (aft s : list Z) : res (list reuc) := reuc_loop (S (length s)) osz aft s.
(** create_reuc_extension_data, index.c:3125-3146, for all entries (3157-3160). *)
Definition reuc_write1 (r : reuc) : list Z :=
  ru_path r ++ [0] ++ concat (map (fun m => oct_loop 11 m [] ++ [0]) (ru_modes r)) ++
  concat (map (fun mo => if fst mo =? 0 then [] else snd mo) (combine (ru_modes r) (ru_oids r))).
Definition reuc_write (l : list reuc) : list Z := concat (map reuc_write1 l).

(** *** NAME *)
(** git_index_name_entry, include/git2/sys/index.h:22-27: the names of the ancestor, ours and theirs. *)
Definition cname : Type := option (list Z) * option (list Z) * option (list Z).
(** The macro read_conflict_name, index.c:2395-2410. *)
Definition name_read1 (s : list Z) : res (option (list Z) * list Z) :=
  match cut_nul s with
  | None => Err (-1)
  | Some ([], s) => Ok (None, s)
  | Some (n, s) => Ok (Some n, s)
  end.
(** index.c:2413-2421: one entry and the bytes after it. *)
Definition name_entry (s : list Z) : res (cname * list Z) :=
  do a <- name_read1 s ;;
  do b <- name_read1 (snd a) ;;
  do c <- name_read1 (snd b) ;;
  Ok ((fst a, fst b, fst c), snd c).
(** read_conflict_names, index.c:2386-2439. *)
Fixpoint name_loop (fuel : nat) (s : list Z) : res (list cname) :=
  match s with
  | [] => Ok []
  | _ :: _ =>
    match fuel with
    | O => NoFuel
    | S f => do p <- name_entry s ;; do r <- name_loop f (snd p) ;; Ok (fst p :: r)
    end
  end.
Definition name_read (s : list Z) : res (list cname) := name_loop (S (length s)) s.
(** create_conflict_name_extension_data, index.c:3070-3097, for all entries (3108-3111). *)
Definition name_write1 (o : option (list Z)) : list Z := match o with None => [0] | Some n => n ++ [0] end.
Definition name_write (l : list cname) : list Z :=
  concat (map (fun c => let '(a, o, t) := c in name_write1 a ++ name_write1 o ++ name_write1 t) l).

(** *** The three together *)
Definition ext_tree : list Z := bs "TREE".   (* index.c:44-46 *)
Definition ext_reuc : list Z := bs "REUC".
Definition ext_name : list Z := bs "NAME".
Definition okb {A} (r : res A) : bool := match r with Ok _ => true | _ => false end.
(** read_extension, index.c:2692-2706: whether the reader of this extension accepts it ([aft] as in the
    buffer; any byte). *)
Definition ext_ok (osz : nat) (aft : list Z) (sig body : list Z) : bool :=
  if leqb sig ext_tree then okb (tree_read osz aft body)
  else if leqb sig ext_reuc then okb (reuc_read osz aft body)
  else if leqb sig ext_name then okb (name_read body)
  else true.
(** write_index, index.c:3240-3250: the extensions of an index. *)
Definition extensions (t : option tcache) (names : list cname) (us : list reuc) : list (list Z * list Z) :=
  (match t with Some t => [(ext_tree, tree_write t)] | None => [] end) ++
  (match names with [] => [] | _ :: _ => [(ext_name, name_write names)] end) ++
  (match us with [] => [] | _ :: _ => [(ext_reuc, reuc_write us)] end).
