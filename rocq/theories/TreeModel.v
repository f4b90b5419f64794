(** Model of src/libgit2/tree.c: tree objects, their parser, the tree builder and lookup. *)
From Verif Require Import Base Str Arr IntModel TsortModel VectorModel HashModel.

Definition EINVALID : Z := -21.     (* errors.h:50 *)

(** tree.h:19-24 git_tree_entry.  [te_name] is the C string at [filename], without its
    NUL; the 16-bit [filename_len] is [flen]. *)
Record tentry : Type := mkte { te_attr : Z; te_name : list Z; te_oid : list Z }.
Definition len16 (n : nat) : nat := Z.to_nat (Z.of_nat n mod 65536).   (* (uint16_t) *)
Definition flen (e : tentry) : nat := len16 (length (te_name e)).     (* tree.c:108, 428 *)

(** tree.h:34-37 with S_ISDIR *)
Definition is_tree (e : tentry) : bool := Z.land (te_attr e) 61440 =? 16384.

(** strncmp on strings without NUL (util.h:137 git__strncmp) *)
Fixpoint strncmp (a b : list Z) (n : nat) : Z :=
  match n with
  | O => 0
  | S n' =>
      match a, b with
      | [], [] => 0
      | [], y :: _ => - y
      | x :: _, [] => x
      | x :: a', y :: b' => if x =? y then strncmp a' b' n' else x - y
      end
  end.
(** fs_path.c:876-899 git_fs_path_cmp; reading the string at its length gives the NUL *)
Definition fs_path_cmp (name1 : list Z) (len1 : nat) (isdir1 : bool) (name2 : list Z) (len2 : nat) (isdir2 : bool)
    (compare : list Z -> list Z -> nat -> Z) : Z :=
  let len := if (len1 <? len2)%nat then len1 else len2 in
  let cmp := compare name1 name2 len in
  if negb (cmp =? 0) then cmp
  else
    let c1 := nth len name1 0 in
    let c2 := nth len name2 0 in
    let c1 := if (c1 =? 0) && isdir1 then 47 else c1 in
    let c2 := if (c2 =? 0) && isdir2 then 47 else c2 in
    if c1 <? c2 then -1 else if c2 <? c1 then 1 else 0.
(** tree.c:64-73 entry_sort_cmp *)
Definition entry_sort_cmp (e1 e2 : tentry) : Z :=
  fs_path_cmp (te_name e1) (flen e1) (is_tree e1) (te_name e2) (flen e2) (is_tree e2) strncmp.

(** tree.c:26-33 *)
Definition valid_filemode (m : Z) : bool :=
  (m =? 16384) || (m =? 33188) || (m =? 33261) || (m =? 40960) || (m =? 57344).
(** tree.c:35-55 normalize_filemode (GIT_MODE_TYPE, GIT_PERMS_IS_EXEC: filemode bits) *)
Definition normalize_filemode (m : Z) : Z :=
  let ty := Z.land m 61440 in
  if ty =? 16384 then 16384
  else if negb (Z.land m 64 =? 0) then 33261
  else if ty =? 57344 then 57344
  else if ty =? 40960 then 40960
  else 33188.

(** printf "%o" *)
Fixpoint oct_loop (fuel : nat) (n : Z) (acc : list Z) : list Z :=
  match fuel with
  | O => acc
  | S f => let acc := (48 + n mod 8) :: acc in if n / 8 =? 0 then acc else oct_loop f (n / 8) acc
  end.
Definition octal (n : Z) : list Z := oct_loop 6 n [].        (* 16-bit value *)

(** tree.c:533-546: one entry; the name's NUL is read with it *)
Definition put_entry (e : tentry) : list Z :=
  octal (te_attr e) ++ [32] ++ firstn (flen e + 1) (te_name e ++ [0]) ++ te_oid e.

Section Builder.
  Context (hash : list Z -> nat).   (* hashmap_str.h:12-22, any function of the name *)
  Context (path_ok : list Z -> bool).          (* git_path_is_valid, see C30 *)
  Context (obj_ok : list Z -> Z -> bool).      (* git_object__is_valid *)
  Notation tbl := (@table (list Z) tentry).

  (** tree.c:57-62 *)
  Definition valid_entry_name (n : list Z) : bool := negb (leqb n []) && path_ok n.
  (** tree.c:464-474 otype_from_mode: GIT_OBJECT_COMMIT 1, TREE 2, BLOB 3 *)
  Definition otype_from_mode (m : Z) : Z := if m =? 16384 then 2 else if m =? 57344 then 1 else 3.
  (** tree.c:476-492 check_entry *)
  Definition check_entry (n oid : list Z) (m : Z) : Z :=
    if negb (valid_filemode m) then -1
    else if negb (valid_entry_name n) then -1
    else if forallb (fun b => b =? 0) oid then -1
    else if negb (m =? 57344) && negb (obj_ok oid (otype_from_mode m)) then -1
    else 0.

  (** tree.c:554-580 append_entry.  alloc_entry (88-118) copies the name. *)
  Definition append_entry (t : tbl) (n oid : list Z) (m : Z) (validate : bool) : res (Z * tbl) :=
    let error := if validate then check_entry n oid m else 0 in
    if error <? 0 then Ok (error, t)
    else do t' <- hput hash leqb t n (mkte m n oid) ;; Ok (0, t').
  (** tree.c:735-770 git_treebuilder_new *)
  Fixpoint append_all (t : tbl) (src : list tentry) : res tbl :=
    match src with
    | [] => Ok t
    | e :: r => do (_, t') <- append_entry t (te_name e) (te_oid e) (te_attr e) false ;; append_all t' r
    end.
  Definition builder_new (src : option (list tentry)) : res tbl :=
    match src with None => Ok hinit | Some s => append_all hinit s end.

  (** tree.c:772-811 git_treebuilder_insert.  Updating the entry found in the map in place
      is modelled as storing a new value under the same key. *)
  Definition builder_insert (t : tbl) (n oid : list Z) (m : Z) : res (Z * tbl) :=
    let error := check_entry n oid m in
    if error <? 0 then Ok (error, t)
    else
      do old <- hget hash leqb t n ;;
      let e := match old with Some e => mkte m (te_name e) oid | None => mkte m n oid end in
      do t' <- hput hash leqb t n e ;; Ok (0, t').
  (** tree.c:813-830 git_treebuilder_get *)
  Definition builder_get (t : tbl) (n : list Z) : res (option tentry) := hget hash leqb t n.
  (** tree.c:832-843 git_treebuilder_remove *)
  Definition builder_remove (t : tbl) (n : list Z) : res (Z * tbl) :=
    do e <- hget hash leqb t n ;;
    match e with
    | None => Ok (-1, t)
    | Some _ => do (_, t') <- hremove hash leqb t n ;; Ok (0, t')
    end.
  (** tree.c:853-873 git_treebuilder_filter.  Removing marks the current slot deleted and
      moves nothing, so the iteration visits the entries present at the start. *)
  Fixpoint filter_loop (t : tbl) (l : list (list Z * tentry)) (p : tentry -> bool) : res tbl :=
    match l with
    | [] => Ok t
    | (k, e) :: r => if p e then do (_, t') <- hremove hash leqb t k ;; filter_loop t' r p else filter_loop t r p
    end.
  Definition builder_filter (t : tbl) (p : tentry -> bool) : res tbl := do l <- hiter t ;; filter_loop t l p.
  (** tree.c:875-888 git_treebuilder_clear *)
  Definition builder_clear (t : tbl) : tbl := hclear t.

  (** tree.c:494-552 git_treebuilder__write_with_buffer: the bytes given to git_odb_write *)
  Definition builder_write (t : tbl) : res (list Z) :=
    do l <- hiter t ;;
    let v := fold_left vinsert (map snd l) vinit in
    do v' <- vsort entry_sort_cmp v ;;
    Ok (concat (map put_entry (items v'))).
End Builder.

(** tree.c:369-386 parse_mode *)
Definition parse_mode (s : list Z) : res (Z * list Z) :=
  match s with
  | [] => Err (-1)
  | c :: _ =>
      if isspc c then Err (-1)
      else do (mode, rest) <- strntol32 s 8 ;;
           if (mode <? 0) || (65535 <? mode) then Err (-1) else Ok (mode, rest)
  end.
(** memchr(s, 0, n): what precedes and follows the first NUL *)
Fixpoint cut_nul (s : list Z) : option (list Z * list Z) :=
  match s with
  | [] => None
  | c :: r => if c =? 0 then Some ([], r) else match cut_nul r with Some (a, b) => Some (c :: a, b) | None => None end
  end.
(** tree.c:388-445 git_tree__parse_raw, one round of the loop (402-442) *)
Definition parse_entry (oidsz : nat) (s : list Z) : res (tentry * list Z) :=
  match parse_mode s with
  | Ok (attr, s) =>
      match s with
      | 32 :: s =>
          match cut_nul s with
          | None => Err EINVALID
          | Some (name, s) =>
              if (length name =? 0)%nat || (65535 <? Z.of_nat (length name)) then Err EINVALID
              else if (length s <? oidsz)%nat then Err EINVALID
              else Ok (mkte attr name (firstn oidsz s), skipn oidsz s)
          end
      | _ => Err EINVALID
      end
  | Err _ => Err EINVALID
  | UB => UB
  | NoFuel => NoFuel
  end.
Fixpoint parse_loop (fuel oidsz : nat) (s : list Z) (acc : list tentry) : res (list tentry) :=
  match s with
  | [] => Ok (rev acc)
  | _ =>
      match fuel with
      | O => NoFuel
      | S f => do (e, r) <- parse_entry oidsz s ;; parse_loop f oidsz r (e :: acc)
      end
  end.
Definition parse_raw (oidsz : nat) (s : list Z) : res (list tentry) := parse_loop (length s) oidsz s [].

(** memcmp over [n] bytes that both buffers have *)
Fixpoint memcmpz (a b : list Z) (n : nat) : Z :=
  match n, a, b with
  | S n', x :: a', y :: b' => if x =? y then memcmpz a' b' n' else x - y
  | _, _, _ => 0
  end.
(** tree.c:125-139 homing_search_cmp *)
Definition homing_cmp (k : list Z) (e : tentry) : Z :=
  let len1 := len16 (length k) in let len2 := flen e in
  memcmpz k (te_name e) (if (len1 <? len2)%nat then len1 else len2).
(** tree.c:180-181 *)
Definition name_eq (k : list Z) (e : tentry) : bool :=
  (flen e =? length k)%nat && (memcmpz k (te_name e) (length k) =? 0).
(** tree.c:174-187: forward from position [i] *)
Fixpoint look_fwd (k : list Z) (l : list tentry) (i : nat) : option nat :=
  match l with
  | [] => None
  | e :: r => if homing_cmp k e <? 0 then None else if name_eq k e then Some i else look_fwd k r (S i)
  end.
(** tree.c:191-207: backward; [l] is the part before, reversed, [i] the position of its head *)
Fixpoint look_bwd (k : list Z) (l : list tentry) (i : nat) : option nat :=
  match l with
  | [] => None
  | e :: r => if 0 <? homing_cmp k e then None else if name_eq k e then Some i else look_bwd k r (i - 1)
  end.
(** tree.c:156-211 tree_key_search; the search of array.h:96-125 is the loop of
    git__bsearch; [None] is GIT_ENOTFOUND *)
Definition tree_key_search (es : list tentry) (k : list Z) : res (option nat) :=
  do (found, homing) <- bsearch es (homing_cmp k) ;;
  if negb (found : bool) then Ok None
  else match look_fwd k (skipn homing es) homing with
       | Some i => Ok (Some i)
       | None => Ok (look_bwd k (rev (firstn homing es)) (homing - 1))
       end.
(** tree.c:288-306 entry_fromname, git_tree_entry_byname *)
Definition byname (es : list tentry) (k : list Z) : res (option tentry) :=
  do i <- tree_key_search es k ;;
  match i with None => Ok None | Some i => do e <- aget es i ;; Ok (Some e) end.

(** tree.c:906-913 subpath_len *)
Fixpoint cut_slash (s : list Z) : list Z * list Z :=
  match s with
  | [] => ([], [])
  | c :: r => if c =? 47 then ([], s) else let (a, b) := cut_slash r in (c :: a, b)
  end.
(** tree.c:915-976 git_tree_entry_bypath; [lookup] is git_tree_lookup *)
Fixpoint bypath (fuel : nat) (lookup : list Z -> option (list tentry)) (es : list tentry) (path : list Z) : res tentry :=
  match fuel with
  | O => NoFuel
  | S f =>
      let (name, rest) := cut_slash path in
      if (length name =? 0)%nat then Err ENOTFOUND
      else
        do o <- byname es name ;;
        match o with
        | None => Err ENOTFOUND
        | Some e =>
            match rest with
            | [] => Ok e
            | _ :: rest =>
                if negb (is_tree e) then Err ENOTFOUND
                else match rest with
                     | [] => Ok e
                     | _ => match lookup (te_oid e) with
                            | None => Err (-1)
                            | Some sub => bypath f lookup sub rest
                            end
                     end
            end
        end
  end.
Definition entry_bypath lookup es path := bypath (S (length path)) lookup es path.
