(** Model of reading and writing the index file, src/libgit2/index.c.

    Memory: [git_futils_readbuffer] yields the bytes of the file followed by one
    NUL; every read goes through [rdn], [memchr0], [strz] or [decode_varint] and
    is [UB] past that NUL.  Sizes are size_t of 64 bits.

    Parameters: [osz] the size of an object id (20 or 32), [H] the hash over the
    file contents, [path_ok] the path check of index_entry_create, [ext_ok] the
    parsers of the extension contents (tree cache, REUC, NAME), [ic] is
    ignore_case.  Simplified: an error stops the whole operation (the C code
    leaves the entries parsed so far in the index); the entry map, allocation
    failures and the filebuf (C18) are left out. *)
From Verif Require Import Base Arr VectorModel WildModel IndexModel VarintModel.

(** git_index_entry, include/git2/index.h:58-84: ten 32-bit fields (ctime and
    mtime seconds, at 0 and 2, are signed), id, flags, flags_extended, path. *)
Record dentry := mkd { d_stat : list Z; d_id : list Z; d_flags : Z; d_ext : Z; d_path : list Z }.

Definition EXTENDED : Z := 16384.         (* GIT_INDEX_ENTRY_EXTENDED, 0x4000 *)
Definition NAMEMASK : Z := 4095.          (* GIT_INDEX_ENTRY_NAMEMASK *)
Definition EXT_FLAGS : Z := 24576.        (* GIT_INDEX_ENTRY_EXTENDED_FLAGS, 0x6000 *)
Definition extended (flags : Z) : bool := negb (Z.land flags EXTENDED =? 0).

(** htonl / htons and back. *)
Fixpoint be (k : nat) (v : Z) : list Z :=
  match k with O => [] | S k' => be k' (v / 256) ++ [v mod 256] end.
Definition unbe (l : list Z) : Z := fold_left (fun a b => a * 256 + b) l 0.

(** index_entry_path_offset, index.c:2441-2459, from the structs at 58-88. *)
Definition path_offset (osz : nat) (flags : Z) : nat := if extended flags then 44 + osz else 42 + osz.

(** index_entry_size, index.c:2475-2499; 0 is the error. *)
Definition entry_size (osz : nat) (path_len varint_len : Z) (flags : Z) : Z :=
  let offset := Z.of_nat (path_offset osz flags) in
  if negb (varint_len =? 0) then
    if (two64 <=? offset + path_len) || (two64 <=? offset + path_len + 1) || (two64 <=? offset + path_len + 1 + varint_len) then 0
    else offset + path_len + 1 + varint_len
  else
    if (two64 <=? offset + path_len) || (two64 <=? offset + path_len + 8) then 0
    else Z.ldiff (offset + path_len + 8) 7.

(** is_index_extended, index.c:2840-2856: the entries with the flag recomputed. *)
Definition fix_extended (e : dentry) : dentry :=
  let flags := Z.ldiff (d_flags e) EXTENDED in
  if Z.land (d_ext e) EXT_FLAGS =? 0 then mkd (d_stat e) (d_id e) flags (d_ext e) (d_path e)
  else mkd (d_stat e) (d_id e) (Z.lor flags EXTENDED) (d_ext e) (d_path e).
Definition is_extended (es : list dentry) : bool := existsb (fun e => negb (Z.land (d_ext e) EXT_FLAGS =? 0)) es.

(** The common prefix, index.c:2896-2905. *)
Fixpoint same_len (a b : list Z) : nat :=
  match a, b with
  | x :: a', y :: b' => if x =? y then S (same_len a' b') else O
  | _, _ => O
  end.

(** The fixed part, index.c:2926-2977. *)
Definition ondisk (e : dentry) : list Z :=
  concat (map (fun v => be 4 (v mod two32)) (d_stat e)) ++ d_id e ++ be 2 (d_flags e) ++
  (if extended (d_flags e) then be 2 (Z.land (d_ext e) EXT_FLAGS) else []).

(** write_disk_entry, index.c:2858-3018: [last] is the previous path when
    paths are compressed. *)
Definition write_disk_entry (osz : nat) (e : dentry) (last : option (list Z)) : res (list Z) :=
  let offset := Z.of_nat (path_offset osz (d_flags e)) in
  match last with
  | Some l =>
      let same := same_len (d_path e) l in
      let path_len := Z.of_nat (length (d_path e)) - Z.of_nat same in
      do (vlen, _) <- encode_varint None (Z.of_nat (length l) - Z.of_nat same) ;;
      let disk_size := entry_size osz path_len vlen (d_flags e) in
      if disk_size =? 0 then Err (-1)
      else
        do (vlen, code) <- encode_varint (Some (disk_size - offset)) (Z.of_nat (length l) - Z.of_nat same) ;;
        if negb (0 <? vlen) then Err (-1)
        else if negb (disk_size - offset - vlen =? path_len + 1) then Err (-1)
        else Ok (ondisk e ++ code ++ skipn same (d_path e) ++ [0])
  | None =>
      let path_len := Z.of_nat (length (d_path e)) in
      let disk_size := entry_size osz path_len 0 (d_flags e) in
      if disk_size =? 0 then Err (-1)
      else if negb (path_len <? disk_size - offset) then Err (-1)
      else Ok (ondisk e ++ d_path e ++ repeat 0 (Z.to_nat (disk_size - offset - path_len)))
  end.

(** write_entries, index.c:3020-3056: the loop over the (case sorted) entries. *)
Fixpoint write_loop (osz : nat) (version : Z) (es : list dentry) (last : option (list Z)) : res (list Z) :=
  match es with
  | [] => Ok []
  | e :: r =>
      do b <- write_disk_entry osz e last ;;
      do bs <- write_loop osz version r (if 4 <=? version then Some (d_path e) else None) ;;
      Ok (b ++ bs)
  end.
(** git_index_entry_cmp / icmp, index.c:201-227, on these entries. *)
Definition d_stage (e : dentry) : Z := Z.shiftr (Z.land (d_flags e) 12288) 12.
Definition toe (e : dentry) : entry := mke 0 (d_path e) (d_stage e) 0 0.
Definition dcmp (ic : bool) (a b : dentry) : Z := ecmp ic (toe a) (toe b).
Definition write_entries (osz : nat) (ic : bool) (version : Z) (es : list dentry) : res (list Z) :=
  do v <- (if ic then vsort (dcmp false) (mkvec es false) else Ok (mkvec es true)) ;;
  write_loop osz version (items v) (if 4 <=? version then Some [] else None).

(** write_extension, index.c:3058-3068. *)
Definition write_ext (x : list Z * list Z) : list Z := fst x ++ be 4 (Z.of_nat (length (snd x))) ++ snd x.

(** write_index, index.c:3206-3262: the bytes of the file. *)
Definition SIG : Z := 1145655875.          (* INDEX_HEADER_SIG, 0x44495243 *)
Definition write_index (H : list Z -> list Z) (osz : nat) (ic : bool) (version : Z) (es : list dentry) (exts : list (list Z * list Z)) : res (list Z) :=
  let fixed := if version <=? 3 then map fix_extended es else es in
  let number := if version <=? 3 then (if is_extended es then 3 else 2) else version in
  do body <- write_entries osz ic number fixed ;;
  let contents := be 4 SIG ++ be 4 number ++ be 4 (Z.of_nat (length es) mod two32) ++ body ++ concat (map write_ext exts) in
  Ok (contents ++ H contents).

(** *** Reading *)
Definition rdn (mem : list Z) (off n : nat) : res (list Z) :=
  if (off + n <=? length mem)%nat then Ok (sub mem off n) else UB.
(** memchr(mem, '\0', n) *)
Fixpoint memchr0 (mem : list Z) (n : nat) : res (option nat) :=
  match n with
  | O => Ok None
  | S n' => match mem with
            | [] => UB
            | c :: r => if c =? 0 then Ok (Some O)
                        else do o <- memchr0 r n' ;; Ok (option_map S o)
            end
  end.
(** The NUL terminated string at [mem] (strlen, strcpy). *)
Fixpoint strz (mem : list Z) : res (list Z) :=
  match mem with
  | [] => UB
  | c :: r => if c =? 0 then Ok [] else do s <- strz r ;; Ok (c :: s)
  end.

(** The ten fields, index.c:2542-2551; seconds are stored in an int32_t. *)
Definition to_int32 (v : Z) : Z := if v <? 2147483648 then v else v - two32.
Definition read_field (b : list Z) (k : nat) : Z := unbe (sub b (4 * k) 4).
Definition read_stat (b : list Z) : list Z :=
  [to_int32 (read_field b 0); read_field b 1; to_int32 (read_field b 2); read_field b 3; read_field b 4;
   read_field b 5; read_field b 6; read_field b 7; read_field b 8; read_field b 9].

(** read_entry, index.c:2501-2656.  [mem] starts at [buffer], [bsz] is
    buffer_size.  The copy into the struct (2527-2540) reads sizeof the struct,
    44 + osz bytes. *)
Definition PATH_MAX : Z := 4096.
Definition read_entry (path_ok : list Z -> bool) (osz : nat) (compressed : bool) (mem : list Z) (bsz : Z) (last : list Z)
    : res (dentry * Z) :=
  let csz := Z.of_nat osz in
  if bsz <? csz + Z.of_nat (path_offset osz 0) then Err (-1)
  else
    do source <- rdn mem 0 (44 + osz) ;;
    let flags := unbe (sub source (40 + osz) 2) in
    let off := path_offset osz flags in
    do ext <- (if extended flags then do raw <- rdn mem (42 + osz) 2 ;; Ok (unbe raw) else Ok 0) ;;
    let path_ptr := skipn off mem in
    do (path, size) <-
      (if negb compressed then
         let plen := Z.land flags NAMEMASK in
         do plen <- (if plen =? NAMEMASK
                     then do o <- memchr0 path_ptr (Z.to_nat bsz) ;;
                          match o with Some n => Ok (Z.of_nat n) | None => Err (-1) end
                     else Ok plen) ;;
         let size := entry_size osz plen 0 flags in
         if size =? 0 then Err (-1) else if bsz <? csz + size then Err (-1)
         else do path <- strz path_ptr ;; Ok (path, size)
       else
         do (strip, vlen) <- decode_varint path_ptr ;;
         let last_len := Z.of_nat (length last) in
         if (vlen =? 0)%nat || (last_len <? strip) then Err (-1)
         else
           let prefix_len := Z.to_nat (last_len - strip) in
           do suffix <- strz (skipn vlen path_ptr) ;;
           let path_len := Z.of_nat prefix_len + Z.of_nat (length suffix) + 1 in
           if PATH_MAX <? path_len then Err (-1)
           else
             let size := entry_size osz (Z.of_nat (length suffix)) (Z.of_nat vlen) flags in
             if size =? 0 then Err (-1) else if bsz <? csz + size then Err (-1)
             else Ok (firstn prefix_len last ++ suffix, size)) ;;
    if path_ok path then Ok (mkd (read_stat source) (sub source 40 osz) flags ext path, size)
    else Err (-1).

(** seek_forward, index.c:2730-2735. *)
Definition seek (mem : list Z) (bsz n : Z) : res (list Z * Z) :=
  if bsz <=? n then Err (-1) else Ok (skipn (Z.to_nat n) mem, bsz - n).

(** The loop over the entries, index.c:2766-2800. *)
Fixpoint parse_entries (fuel : nat) (path_ok : list Z -> bool) (osz : nat) (compressed : bool) (count : Z) (mem : list Z) (bsz : Z) (last : list Z)
    {struct fuel} : res (list dentry * list Z * Z) :=
  match fuel with
  | O => NoFuel
  | S f =>
      if (0 <? count) && (Z.of_nat osz <? bsz) then
        do (e, size) <- read_entry path_ok osz compressed mem bsz last ;;
        do (mem, bsz) <- seek mem bsz size ;;
        do (r, bsz) <- parse_entries f path_ok osz compressed (count - 1) mem bsz (if compressed then d_path e else last) ;;
        let '(es, mem) := r in
        Ok (e :: es, mem, bsz)
      else if count =? 0 then Ok ([], mem, bsz) else Err (-1)
  end.

(** read_extension, index.c:2676-2717. *)
Definition read_extension (ext_ok : list Z -> list Z -> bool) (osz : nat) (mem : list Z) (bsz : Z) : res ((list Z * list Z) * Z) :=
  do hdr <- rdn mem 0 8 ;;
  let sig := sub hdr 0 4 in
  let size := unbe (sub hdr 4 4) in
  let total := size + 8 in
  if (bsz <? total) || (bsz - total <? Z.of_nat osz) then Err (-1)
  else if (65 <=? nth 0 sig 0) && (nth 0 sig 0 <=? 90) then
    do data <- rdn mem 8 (Z.to_nat size) ;;
    if ext_ok sig data then Ok ((sig, data), total) else Err (-1)
  else Err (-1).

(** The loop over the extensions, index.c:2802-2811. *)
Fixpoint parse_exts (fuel : nat) (ext_ok : list Z -> list Z -> bool) (osz : nat) (mem : list Z) (bsz : Z) {struct fuel} : res (list (list Z * list Z) * list Z * Z) :=
  match fuel with
  | O => NoFuel
  | S f =>
      if Z.of_nat osz <? bsz then
        do (x, size) <- read_extension ext_ok osz mem bsz ;;
        do (mem, bsz) <- seek mem bsz size ;;
        do (r, bsz) <- parse_exts f ext_ok osz mem bsz ;;
        let '(xs, mem) := r in
        Ok (x :: xs, mem, bsz)
      else Ok ([], mem, bsz)
  end.

Definition leq (a b : list Z) : bool := if list_eq_dec Z.eq_dec a b then true else false.

(** parse_index, index.c:2719-2838 (with read_header, 2658-2674), on the bytes
    of the file; the result is the version, the entries vector and the
    extensions. *)
Definition parse_index (H : list Z -> list Z) (path_ok : list Z -> bool) (ext_ok : list Z -> list Z -> bool) (osz : nat) (ic : bool) (file : list Z)
    : res (Z * vec dentry * list (list Z * list Z)) :=
  let mem := file ++ [0] in
  let bsz := Z.of_nat (length file) in
  if bsz <? 12 + Z.of_nat osz then Err (-1)
  else
    let checksum := H (firstn (length file - osz) file) in
    do hdr <- rdn mem 0 12 ;;
    let version := unbe (sub hdr 4 4) in
    let count := unbe (sub hdr 8 4) in
    if negb (unbe (sub hdr 0 4) =? SIG) then Err (-1)
    else if (version <? 2) || (4 <? version) then Err (-1)
    else
      do (mem, bsz) <- seek mem bsz 12 ;;
      do (r, bsz) <- parse_entries (S (length file)) path_ok osz (4 <=? version) count mem bsz [] ;;
      let '(es, mem) := r in
      do (r, bsz) <- parse_exts (S (length file)) ext_ok osz mem bsz ;;
      let '(xs, mem) := r in
      if negb (bsz =? Z.of_nat osz) then Err (-1)
      else
        do stored <- rdn mem 0 osz ;;
        if negb (leq stored (repeat 0 osz)) && negb (leq stored checksum) then Err (-1)
        else do v <- vsort (dcmp ic) (mkvec es (negb ic)) ;; Ok (version, v, xs).
