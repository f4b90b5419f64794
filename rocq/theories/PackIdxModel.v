(** Model of pack index files: src/libgit2/pack.c (reading and searching),
    indexer.c (writing).  The mapped file is a byte list; a read outside it is
    [UB].  Locks and the window cache are left out. *)
From Verif Require Import Base CStr OidModel IdxFileModel.

(** ntohl of the word at byte offset [off]. *)
Definition rd32 (data : list Z) (off : Z) : res Z :=
  do b <- rdn data (Z.to_nat off) 4 ;; Ok (unbe b).

(** PACK_IDX_SIGNATURE, pack.h:64. *)
Definition IDX_SIG : Z := 4285812579.

(** The fan-out loop of pack_index_check_locked, pack.c:253-260. *)
Fixpoint fan_check (data : list Z) (off : Z) (i : nat) (nr : Z) : res Z :=
  match i with
  | O => Ok nr
  | S i' => do n <- rd32 data off ;; if n <? nr then Err (-1) else fan_check data (off + 4) i' n
  end.

(** pack_index_check_locked, pack.c:199-303: version and number of objects.
    File opening and mapping are left out. *)
Definition index_check (osz : Z) (data : list Z) : res (Z * Z) :=
  let size := Z.of_nat (length data) in
  if size <? 1024 + osz * 2 then Err (-1)
  else
    do sig <- rd32 data 0 ;;
    do version <- (if sig =? IDX_SIG then do v <- rd32 data 4 ;; if (v <? 2) || (2 <? v) then Err (-1) else Ok v else Ok 1) ;;
    do nr <- fan_check data (if 1 <? version then 8 else 0) 256 0 ;;
    if version =? 1 then
      if negb (size =? 1024 + nr * (osz + 4) + osz * 2) then Err (-1) else Ok (version, nr)
    else
      let min_size := 8 + 1024 + nr * (osz + 4 + 4) + osz * 2 in
      let max_size := min_size + (if nr =? 0 then 0 else ((nr - 1) * 8) mod two32) in
      if (size <? min_size) || (max_size <? size) then Err (-1) else Ok (version, nr).

(** An opened index: struct git_pack_file, the fields used here. *)
Record pidx := { p_data : list Z; p_version : Z; p_nr : Z; p_osz : Z }.
Definition index_open (osz : Z) (data : list Z) : res pidx :=
  do (v, nr) <- index_check osz data ;; Ok {| p_data := data; p_version := v; p_nr := nr; p_osz := osz |}.

(** git_pack__lookup_id, pack.c:1466-1491.  [lo] and [hi] are 32-bit; the table
    starts at byte [base] of [data]. *)
Fixpoint lookup_id (fuel : nat) (data : list Z) (base stride lo hi : Z) (oid : list Z) (osz : Z) : res Z :=
  if lo <? hi then
    match fuel with
    | O => NoFuel
    | S f =>
        let mi := ((lo + hi) mod two32) / 2 in
        do c <- memcmp (skipn (Z.to_nat (base + mi * stride)) data) oid (Z.to_nat osz) ;;
        if c =? 0 then Ok (to_int32 mi)
        else if 0 <? c then lookup_id f data base stride lo mi oid osz
        else lookup_id f data base stride (mi + 1) hi oid osz
    end
  else Ok (- to_int32 lo - 1).

(** nth_packed_object_offset_locked, pack.c:1261-1284.  The products with 32-bit
    operands are reduced; a negative result is a 64-bit offset with the top bit
    set. *)
Definition to_int64 (v : Z) : Z := if v <? 9223372036854775808 then v else v - two64.
Definition nth_offset (p : pidx) (n : Z) : res Z :=
  if p_version p =? 1 then rd32 (p_data p) (1024 + (p_osz p + 4) * n)
  else
    let index := 1024 + 8 + p_nr p * (p_osz p + 4) in
    do off32 <- rd32 (p_data p) (index + (4 * n) mod two32) ;;
    if Z.land off32 2147483648 =? 0 then Ok off32
    else
      let index := index + p_nr p * 4 + (Z.land off32 2147483647 * 8) mod two32 in
      if Z.of_nat (length (p_data p)) - 8 <=? index then Ok (-1)
      else
        do h <- rd32 (p_data p) index ;;
        do l <- rd32 (p_data p) (index + 4) ;;
        Ok (to_int64 (Z.lor (Z.shiftl h 32) l)).

(** git_oid_raw_ncmp on the id at byte [off], oid.h:175-196; the cap of
    GIT_OID_MAX_HEXSIZE is twice the id size in the default build. *)
Definition ncmp_at (osz : Z) (data : list Z) (off : Z) (oid : list Z) (len : nat) : res Z :=
  oid_ncmp (Z.to_nat osz) oid (skipn (Z.to_nat off) data) len.

(** pack_entry_find_offset, pack.c:1493-1612: offset and id.  Error codes:
    GIT_ENOTFOUND -3, GIT_EAMBIGUOUS -5. *)
Definition find_offset (p : pidx) (oid : list Z) (len : nat) : res (Z * list Z) :=
  let data := p_data p in
  let lvl1 := if 1 <? p_version p then 8 else 0 in
  do b <- rd oid 0 ;;
  do hi <- rd32 data (lvl1 + 4 * b) ;;
  do lo <- (if b =? 0 then Ok 0 else rd32 data (lvl1 + 4 * (b - 1))) ;;
  let stride := if 1 <? p_version p then p_osz p else p_osz p + 4 in
  let index := lvl1 + 1024 + (if 1 <? p_version p then 0 else 4) in
  do pos <- lookup_id (S (Z.to_nat (hi - lo))) data index stride lo hi oid (p_osz p) ;;
  let nr := to_int32 (p_nr p) in
  do (found, pos, current) <-
    (if 0 <=? pos then Ok (true, pos, index + (pos * stride) mod two32)
     else
       let pos := - 1 - pos in
       if pos <? nr then
         let current := index + (pos * stride) mod two32 in
         do c <- ncmp_at (p_osz p) data current oid len ;; Ok (c =? 0, pos, current)
       else Ok (false, pos, 0)) ;;
  do ambiguous <-
    (if (found : bool) && negb (Z.of_nat len =? 2 * p_osz p) && (pos + 1 <? nr) then
       do c <- ncmp_at (p_osz p) data (current + stride) oid len ;; Ok (c =? 0)
     else Ok false) ;;
  if negb found then Err (-3)
  else if (ambiguous : bool) then Err (-5)
  else
    do offset <- nth_offset p pos ;;
    if offset <? 0 then Err (-1)
    else do o <- rdn data (Z.to_nat current) (Z.to_nat (p_osz p)) ;; Ok (offset, o).

(** *** Writing, indexer.c *)

(** One object: id, the four bytes of its CRC, offset (struct entry,
    indexer.c:33-38). *)
Record iobj := { o_id : list Z; o_crc : list Z; o_off : Z }.

(** The fan-out counts, indexer.c:551-553 and 591-593. *)
Definition fan_add (fan : list Z) (b : Z) : list Z :=
  map (fun x => if b <=? fst x then snd x + 1 else snd x) (combine (map Z.of_nat (seq 0 256)) fan).
Definition fanout (objs : list iobj) : list Z :=
  fold_left (fun f o => fan_add f (hd 0 (o_id o))) objs (repeat 0 256).

(** The offset words and the long offsets, indexer.c:1351-1374; UINT31_MAX is
    the limit of indexer.c:503 and 572. *)
Fixpoint offset_words (objs : list iobj) (long : Z) : list Z :=
  match objs with
  | [] => []
  | o :: r => if 2147483647 <? o_off o then be 4 (Z.lor 2147483648 long) ++ offset_words r (long + 1)
              else be 4 (o_off o) ++ offset_words r long
  end.
Definition long_offsets (objs : list iobj) : list Z :=
  concat (map (fun o => if 2147483647 <? o_off o then be 4 (Z.shiftr (o_off o) 32) ++ be 4 (Z.land (o_off o) 4294967295) else []) objs).

(** git_indexer_commit, indexer.c:1325-1383: the contents of the index file,
    from the sorted objects and the two checksums. *)
Definition write_idx (objs : list iobj) (packsum idxsum : list Z) : list Z :=
  be 4 IDX_SIG ++ be 4 2 ++ concat (map (be 4) (fanout objs)) ++
  concat (map o_id objs) ++ concat (map o_crc objs) ++ offset_words objs 0 ++ long_offsets objs ++ packsum ++ idxsum.
