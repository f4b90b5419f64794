(** Multi-pack-index files (src/libgit2/midx.c): parsing (52-285), searching (380-454),
    enumerating (456-478) and writing (597-641, 680-892).  The mapped file is a byte list; a read
    outside it is [UB], and so is a signed overflow.  [osz] is the size of an id.  Left out:
    opening and mapping the file, the comparison with the file on disk (343-378), collecting the packs
    (570-595: a pack is given by its name in the pack directory and by the ids and offsets that
    git_pack_foreach_entry_offset enumerates), storing the result, allocation failures. *)
From Verif Require Import Base Arr CStr Str OidModel IdxFileModel PackIdxModel VectorModel CgModel.

(** midx.c:21 and 33-37. *)
Definition MX_SIG : Z := 1296647256.
Definition ID_PNAM : Z := 1347305805.
Definition ID_OOFF : Z := 1330595398.
Definition ID_LOFF : Z := 1280263750.

(** git_midx_file, midx.h:33-70: pointers are offsets in [m_data], 0 for NULL. *)
Record mxfile := mkmx {
  m_data : list Z; m_osz : Z; m_packs : list (list Z); m_num : Z; m_fan : Z; m_lookup : Z; m_offs : Z;
  m_large : Z; m_nlarge : Z; m_sum : list Z
}.

(** p_strnlen on the memory [l]. *)
Fixpoint strnlen (l : list Z) (n : nat) : res nat :=
  match n with
  | O => Ok 0%nat
  | S n' => match l with [] => UB | c :: r => if c =? 0 then Ok 0%nat else do k <- strnlen r n' ;; Ok (S k) end
  end.
(** git__suffixcmp(name, ".idx") == 0. *)
Definition ends_with (suf name : list Z) : bool := leqb (skipn (length name - length suf) name) suf.
(** The loop of midx_parse_packfile_names, 68-83.  [l] is the memory at packfile_name, [size] is
    chunk_size; the name is NUL-terminated when strcmp, strlen and strchr look at it. *)
Fixpoint names_loop (n : nat) (l : list Z) (size : nat) (prev : option (list Z)) : res (list (list Z)) :=
  match n with
  | O => Ok []
  | S n' =>
      do len <- strnlen l size ;;
      if (len =? 0)%nat then Err (-1)
      else if (size <? len + 1)%nat then Err (-1)
      else
        let name := firstn len l in
        if match prev with Some p => match lex p name with Lt => false | _ => true end | None => false end then Err (-1)
        else if (len <=? 4)%nat || negb (ends_with (bs ".idx") name) then Err (-1)
        else if existsb (fun c => (c =? 47) || (c =? 92)) name then Err (-1)
        else do r <- names_loop n' (skipn (len + 1) l) (size - (len + 1)) (Some name) ;; Ok (name :: r)
  end.
(** midx_parse_packfile_names, 52-85. *)
Definition parse_names (data : list Z) (packfiles : Z) (c : Z * Z) : res (list (list Z)) :=
  if fst c =? 0 then Err (-1)
  else if snd c =? 0 then Err (-1)
  else names_loop (Z.to_nat packfiles) (skipn (Z.to_nat (fst c)) data) (Z.to_nat (snd c)) None.
(** midx_parse_oid_lookup, 112-129, and midx_parse_object_offsets, 131-146: [w] bytes per object. *)
Definition parse_table (num w : Z) (c : Z * Z) : res unit :=
  if fst c =? 0 then Err (-1)
  else if snd c =? 0 then Err (-1)
  else if negb (snd c =? num * w) then Err (-1)
  else Ok tt.
(** midx_parse_object_large_offsets, 148-162. *)
Definition parse_large (c : Z * Z) : res (Z * Z) :=
  if snd c =? 0 then Ok (0, 0)
  else if negb (snd c mod 8 =? 0) then Err (-1)
  else Ok (fst c, snd c / 8).

(** The switch of 233-263: the number of the chunk structure an id selects. *)
Definition mx_slot (id : Z) : nat :=
  if id =? ID_PNAM then 0
  else if id =? ID_OIDF then 1
  else if id =? ID_OIDL then 2
  else if id =? ID_OOFF then 3
  else if id =? ID_LOFF then 4
  else 5.
(** The loop of 217-264 and the length of the last chunk, 265. *)
Fixpoint mx_chunks (data : list Z) (trailer : Z) (n : nat) (hdr lastoff : Z) (last : option nat) (cs : list (Z * Z)) : res (list (Z * Z)) :=
  match n with
  | O => match last with None => UB | Some k => Ok (set_length cs k (trailer - lastoff)) end
  | S n' =>
      do id <- rd32 data hdr ;;
      do h <- rd32 data (hdr + 4) ;;
      do l <- rd32 data (hdr + 8) ;;
      if 2147483647 <=? h then Err (-1)
      else
        let off := Z.lor (Z.shiftl h 32) l in
        if off <? lastoff then Err (-1)
        else if trailer <=? off then Err (-1)
        else
          let cs := match last with None => cs | Some k => set_length cs k (off - lastoff) end in
          mx_chunks data trailer n' (hdr + 12) off (Some (mx_slot id)) (set_offset cs (mx_slot id) off)
  end.

(** git_midx_parse, 164-285.  [parse_fanout] is midx_parse_oid_fanout, 87-110, the same as in
    commit_graph.c. *)
Definition mx_parse (osz : Z) (data : list Z) : res mxfile :=
  let size := Z.of_nat (length data) in
  if size <? 12 + osz then Err (-1)
  else
    do sig <- rd32 data 0 ;;
    do ver <- rd data 4 ;;
    do over <- rd data 5 ;;
    do chunks <- rd data 6 ;;
    do packfiles <- rd32 data 8 ;;
    if negb (sig =? MX_SIG) || negb (ver =? 1) || negb (over =? 1) then Err (-1)
    else if chunks =? 0 then Err (-1)
    else
      let first := 12 + (1 + chunks) * 12 in
      let trailer := size - osz in
      if trailer <? first then Err (-1)
      else
        do sum <- rdn data (Z.to_nat trailer) (Z.to_nat osz) ;;
        do cs <- mx_chunks data trailer (Z.to_nat chunks) 12 first None (repeat (0, 0) 6) ;;
        let c k := nth k cs (0, 0) in
        do names <- parse_names data packfiles (c 0%nat) ;;
        do num <- parse_fanout data (c 1%nat) ;;
        do _ <- parse_table num osz (c 2%nat) ;;
        do _ <- parse_table num 8 (c 3%nat) ;;
        do (large, nlarge) <- parse_large (c 4%nat) ;;
        Ok (mkmx data osz names num (fst (c 1%nat)) (fst (c 2%nat)) (fst (c 3%nat)) large nlarge sum).

(** git_midx_entry, midx.h:75-82. *)
Record mentry := mkme { me_id : list Z; me_pack : Z; me_off : Z }.

(** git_midx_entry_find, 380-430: the position in the table of ids.  GIT_ENOTFOUND -3,
    GIT_EAMBIGUOUS -5. *)
Definition mx_locate (f : mxfile) (oid : list Z) (len : nat) : res Z :=
  let data := m_data f in
  let osz := m_osz f in
  do b <- rd oid 0 ;;
  do hi <- rd32 data (m_fan f + 4 * b) ;;
  do lo <- (if b =? 0 then Ok 0 else rd32 data (m_fan f + 4 * (b - 1))) ;;
  do pos <- lookup_id (S (Z.to_nat (hi - lo))) data (m_lookup f) osz lo hi oid osz ;;
  let nr := to_int32 (m_num f) in
  do (found, pos, current) <-
    (if 0 <=? pos then Ok (true, pos, m_lookup f + pos * osz)
     else
       let pos := - 1 - pos in
       if pos <? nr then
         let current := m_lookup f + pos * osz in
         do c <- ncmp_at osz data current oid len ;; Ok (c =? 0, pos, current)
       else Ok (false, pos, 0)) ;;
  do ambiguous <-
    (if (found : bool) && negb (Z.of_nat len =? 2 * osz) && (pos + 1 <? nr) then
       do c <- ncmp_at osz data (current + osz) oid len ;; Ok (c =? 0)
     else Ok false) ;;
  if negb found then Err (-3)
  else if (ambiguous : bool) then Err (-5)
  else Ok pos.
(** 432-453: what is recorded at position [pos].  [pos * 8] is an int product, and
    [8 * object_large_offsets_pos] a 32-bit unsigned one. *)
Definition mx_entry (f : mxfile) (pos : Z) : res mentry :=
  let data := m_data f in
  if 2147483647 <? pos * 8 then UB
  else
    let oo := m_offs f + pos * 8 in
    do off <- rd32 data (oo + 4) ;;
    do offset <-
      (if negb (m_large f =? 0) && negb (Z.land off TOPBIT =? 0) then
         let lp := Z.lxor off TOPBIT in
         if m_nlarge f <=? lp then Err (-3)
         else
           let li := m_large f + (8 * lp) mod two32 in
           do h <- rd32 data li ;;
           do l <- rd32 data (li + 4) ;;
           Ok (to_int64 (Z.lor (Z.shiftl h 32) l))
       else Ok off) ;;
    do pack <- rd32 data oo ;;
    if Z.of_nat (length (m_packs f)) <=? pack then Err (-1)
    else
      do id <- rdn data (Z.to_nat (m_lookup f + pos * m_osz f)) (Z.to_nat (m_osz f)) ;;
      Ok (mkme id pack offset).
(** git_midx_entry_find, 380-454. *)
Definition mx_find (f : mxfile) (oid : list Z) (len : nat) : res mentry :=
  do pos <- mx_locate f oid len ;; mx_entry f pos.

(** git_midx_foreach_entry, 456-478: the ids given to the callback (which never stops it);
    [error] is uninitialised if there are none. *)
Fixpoint ids_loop (f : mxfile) (n : nat) (i : Z) : res (list (list Z)) :=
  match n with
  | O => Ok []
  | S n' =>
      do id <- rdn (m_data f) (Z.to_nat (m_lookup f + i * m_osz f)) (Z.to_nat (m_osz f)) ;;
      do r <- ids_loop f n' (i + 1) ;; Ok (id :: r)
  end.
Definition mx_foreach (f : mxfile) : res (list (list Z)) :=
  if m_num f =? 0 then UB else ids_loop f (Z.to_nat (m_num f)) 0.

(** *** Writing *)

(** git_pack_file: its name in the pack directory, and its objects with their offsets. *)
Record mpack := mkmp { mp_name : list Z; mp_objs : list (list Z * Z) }.
(** packfile__cmp, 502-508 (the directory is the same for all packs), and object_entry__cmp,
    618-624: the signs. *)
Definition mp_cmp (a b : mpack) : Z := match lex (mp_name a) (mp_name b) with Lt => -1 | Eq => 0 | Gt => 1 end.
Definition me_cmp (a b : mentry) : Z := match lex (me_id a) (me_id b) with Lt => -1 | Eq => 0 | Gt => 1 end.

(** The names of the loop of 727-762. *)
Fixpoint pack_names (ps : list mpack) : res (list Z) :=
  match ps with
  | [] => Ok []
  | p :: r =>
      let n := mp_name p in
      if (length n <=? 5)%nat || negb (ends_with (bs ".pack") n) then Err (-1)
      else do t <- pack_names r ;; Ok (firstn (length n - 5) n ++ bs ".idx" ++ [0] ++ t)
  end.
(** The entries of the loop, object_entry__cb (604-616). *)
Fixpoint pack_entries (ps : list mpack) (i : Z) : list mentry :=
  match ps with
  | [] => []
  | p :: r => map (fun o => mkme (fst o) i (snd o)) (mp_objs p) ++ pack_entries r (i + 1)
  end.
(** The padding, 774-776. *)
Definition padded (names : list Z) : list Z := names ++ repeat 0 ((4 - length names mod 4) mod 4).
(** 796-816: the object offsets and the large offsets; write_offset, 626-641. *)
Fixpoint off_tables (es : list mentry) (count : Z) : list Z * list Z :=
  match es with
  | [] => ([], [])
  | e :: r =>
      if TOPBIT <=? me_off e then
        let (o, l) := off_tables r ((count + 1) mod two32) in
        (be 4 (me_pack e) ++ be 4 (Z.lor TOPBIT count) ++ o, be 4 (Z.shiftr (me_off e) 32) ++ be 4 (me_off e) ++ l)
      else
        let (o, l) := off_tables r count in
        (be 4 (me_pack e) ++ be 4 (Z.land (me_off e) 2147483647) ++ o, l)
  end.
(** 818-870: everything that is written, before the checksum. *)
Definition mx_body (npacks : Z) (names fan ids offs large : list Z) : list Z :=
  let more := (0 <? length large)%nat in
  let nchunks := 4 + (if more then 1 else 0) in
  let o0 := 12 + (nchunks + 1) * 12 in
  let o1 := o0 + Z.of_nat (length names) in
  let o2 := o1 + 1024 in
  let o3 := o2 + Z.of_nat (length ids) in
  let o4 := o3 + Z.of_nat (length offs) in
  let o5 := o4 + Z.of_nat (length large) in
  be 4 MX_SIG ++ [1; 1; nchunks; 0] ++ be 4 npacks ++
  chunk_header ID_PNAM o0 ++ chunk_header ID_OIDF o1 ++ chunk_header ID_OIDL o2 ++ chunk_header ID_OOFF o3 ++
  (if more then chunk_header ID_LOFF o4 ++ chunk_header 0 o5 else chunk_header 0 o4) ++
  names ++ fan ++ ids ++ offs ++ large.
(** The fan-out table, 778-785: the loop of commit_graph.c, which looks at the ids only. *)
Definition as_pc (e : mentry) : pcommit := mkpc (me_id e) [] 0 [].

(** midx_write, 680-892: the contents of the file; [H] is the hash. *)
Definition mx_write (H : list Z -> list Z) (packs : list mpack) : res (list Z) :=
  do v <- vsort mp_cmp (fold_left vinsert packs vinit) ;;
  let ps := items v in
  do names <- pack_names ps ;;
  do w <- vsort me_cmp (mkvec (pack_entries ps 0) false) ;;
  do w <- vuniq me_cmp w ;;
  let es := items w in
  let (offs, large) := off_tables es 0 in
  let body := mx_body (Z.of_nat (length ps)) (padded names) (fan_fill 256 0 (map as_pc es) 0) (concat (map me_id es)) offs large in
  Ok (body ++ H body).
