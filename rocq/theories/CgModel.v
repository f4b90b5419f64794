(** Commit-graph files: reading (src/libgit2/commit_graph.c:104-302, 488-656), checking
    (344-362) and writing (689-694, 872-1009, 1011-1272).  The mapped file is a byte
    list; a read outside it is [UB].  [osz] is the size of an id (20, or 32 in SHA-256
    repositories).  Left out: opening and mapping the file, collecting the commits from packs
    and revision walks (772-861), storing the result (1274-1330), allocation failures, and a
    second write with the same writer. *)
From Verif Require Import Base Arr CStr Str OidModel IdxFileModel PackIdxModel VectorModel.

(** commit_graph.c:20-21, 24-26 and 36-41. *)
Definition MISSING_PARENT : Z := 1879048192.        (* 0x70000000 *)
Definition GEN_MAX : Z := 1073741823.               (* 0x3FFFFFFF *)
Definition CG_SIG : Z := 1128747080.                (* CGPH *)
Definition ID_OIDF : Z := 1330201670.
Definition ID_OIDL : Z := 1330201676.
Definition ID_CDAT : Z := 1128546644.
Definition ID_EDGE : Z := 1162102597.
Definition ID_BIDX : Z := 1112097880.
Definition ID_BDAT : Z := 1111769428.
Definition TOPBIT : Z := 2147483648.                (* 0x80000000 *)
(** sizeof checksum in git_commit_graph_file: GIT_HASH_SHA1_SIZE, commit_graph.h:65. *)
Definition CHECKSUM_BUF : Z := 20.

(** git_commit_graph_file, commit_graph.h:31-66: pointers are offsets in [c_data]. *)
Record cgfile := mkcg {
  c_data : list Z; c_osz : Z; c_num : Z; c_fan : Z; c_lookup : Z; c_cdata : Z;
  c_edges : Z; c_nedges : Z; c_sum : list Z
}.

(** The switch of 249-281: the number of the chunk structure an id selects (the two Bloom
    filter chunks share one, which is never used). *)
Definition chunk_slot (id : Z) : option nat :=
  if id =? ID_OIDF then Some 0%nat
  else if id =? ID_OIDL then Some 1%nat
  else if id =? ID_CDAT then Some 2%nat
  else if id =? ID_EDGE then Some 3%nat
  else if (id =? ID_BIDX) || (id =? ID_BDAT) then Some 4%nat
  else None.
(** git_commit_graph_chunk, 43-46: offset and length. *)
Definition set_offset (cs : list (Z * Z)) (k : nat) (off : Z) : list (Z * Z) := upd cs k (off, snd (nth k cs (0, 0))).
Definition set_length (cs : list (Z * Z)) (k : nat) (len : Z) : list (Z * Z) := upd cs k (fst (nth k cs (0, 0)), len).

(** The loop of git_commit_graph_file_parse, 238-282, and the length of the last chunk, 283. *)
Fixpoint chunk_loop (data : list Z) (trailer : Z) (n : nat) (hdr lastoff : Z) (last : option nat) (cs : list (Z * Z)) : res (list (Z * Z)) :=
  match n with
  | O => match last with None => UB | Some k => Ok (set_length cs k (trailer - lastoff)) end
  | S n' =>
      do h <- rd32 data (hdr + 4) ;;
      do l <- rd32 data (hdr + 8) ;;
      let off := Z.lor (Z.shiftl h 32) l in
      if off <? lastoff then Err (-1)
      else if trailer <=? off then Err (-1)
      else
        let cs := match last with None => cs | Some k => set_length cs k (off - lastoff) end in
        do id <- rd32 data hdr ;;
        match chunk_slot id with
        | None => Err (-1)
        | Some k => chunk_loop data trailer n' (hdr + 12) off (Some k) (set_offset cs k off)
        end
  end.

(** commit_graph_parse_oid_fanout, 110-133: the number of commits.  Its loop (124-129) is that
    of the pack index, [fan_check]. *)
Definition parse_fanout (data : list Z) (c : Z * Z) : res Z :=
  if fst c =? 0 then Err (-1)
  else if snd c =? 0 then Err (-1)
  else if negb (snd c =? 256 * 4) then Err (-1)
  else fan_check data (fst c) 256 0.

(** commit_graph_parse_oid_lookup, 135-162. *)
Fixpoint lookup_check (data : list Z) (osz : Z) (n : nat) (off : Z) (prev : list Z) : res unit :=
  match n with
  | O => Ok tt
  | S n' =>
      let oid := skipn (Z.to_nat off) data in
      do c <- memcmp prev oid (Z.to_nat osz) ;;
      if 0 <=? c then Err (-1) else lookup_check data osz n' (off + osz) oid
  end.
Definition parse_lookup (data : list Z) (osz num : Z) (c : Z * Z) : res unit :=
  if fst c =? 0 then Err (-1)
  else if snd c =? 0 then Err (-1)
  else if negb (snd c =? num * osz) then Err (-1)
  else lookup_check data osz (Z.to_nat num) (fst c) (repeat 0 32).

(** commit_graph_parse_commit_data, 164-181. *)
Definition parse_cdata (osz num : Z) (c : Z * Z) : res unit :=
  if fst c =? 0 then Err (-1)
  else if snd c =? 0 then Err (-1)
  else if negb (snd c =? num * (osz + 16)) then Err (-1)
  else Ok tt.

(** commit_graph_parse_extra_edge_list, 183-197: position and number of the words. *)
Definition parse_edges (c : Z * Z) : res (Z * Z) :=
  if snd c =? 0 then Ok (0, 0)
  else if negb (snd c mod 4 =? 0) then Err (-1)
  else Ok (fst c, snd c / 4).

(** git_commit_graph_file_parse, 199-302.  The copy of the trailer (236) writes [osz] bytes to
    a buffer of 20. *)
Definition cg_parse (osz : Z) (data : list Z) : res cgfile :=
  let size := Z.of_nat (length data) in
  if size <? 8 + osz then Err (-1)
  else
    do sig <- rd32 data 0 ;;
    do ver <- rd data 4 ;;
    do over <- rd data 5 ;;
    do chunks <- rd data 6 ;;
    if negb (sig =? CG_SIG) || negb (ver =? 1) || negb (over =? 1) then Err (-1)
    else if chunks =? 0 then Err (-1)
    else
      let first := 8 + (1 + chunks) * 12 in
      let trailer := size - osz in
      if trailer <? first then Err (-1)
      else if CHECKSUM_BUF <? osz then UB
      else
        do sum <- rdn data (Z.to_nat trailer) (Z.to_nat osz) ;;
        do cs <- chunk_loop data trailer (Z.to_nat chunks) 8 first None (repeat (0, 0) 5) ;;
        let c k := nth k cs (0, 0) in
        do num <- parse_fanout data (c 0%nat) ;;
        do _ <- parse_lookup data osz num (c 1%nat) ;;
        do _ <- parse_cdata osz num (c 2%nat) ;;
        do (edges, nedges) <- parse_edges (c 3%nat) ;;
        Ok (mkcg data osz num (fst (c 0%nat)) (fst (c 1%nat)) (fst (c 2%nat)) edges nedges sum).

(** git_commit_graph_validate, 344-362. *)
Definition cg_validate (H : list Z -> list Z) (f : cgfile) : res unit :=
  let size := Z.of_nat (length (c_data f)) in
  if size <? c_osz f then Err (-1)
  else
    do c <- memcmp (H (firstn (Z.to_nat (size - c_osz f)) (c_data f))) (c_sum f) (Z.to_nat (c_osz f)) ;;
    if negb (c =? 0) then Err (-1) else Ok tt.

(** git_commit_graph_entry, commit_graph.h:72-98.  extra_parents_index is left uninitialised
    ([None]) unless the commit has an edge list. *)
Record cgentry := mkent {
  e_gen : Z; e_time : Z; e_count : Z; e_p0 : Z; e_p1 : Z; e_extra : option Z; e_tree : list Z; e_id : list Z
}.

(** The loop of 533-542: the number of words before the one with the top bit; [n] words are
    left in the chunk. *)
Fixpoint edge_scan (data : list Z) (edges : Z) (n : nat) (pos count : Z) : res Z :=
  match n with
  | O => Ok count
  | S n' =>
      do w <- rd32 data (edges + pos * 4) ;;
      if Z.land w TOPBIT =? 0 then edge_scan data edges n' (pos + 1) (count + 1) else Ok count
  end.

(** git_commit_graph_entry_get_byindex, 488-547. *)
Definition get_byindex (f : cgfile) (pos : Z) : res cgentry :=
  if c_num f <=? pos then Err (-3)
  else
    let data := c_data f in
    let osz := c_osz f in
    let cd := c_cdata f + pos * (osz + 16) in
    do tree <- rdn data (Z.to_nat cd) (Z.to_nat osz) ;;
    do p0 <- rd32 data (cd + osz) ;;
    do p1 <- rd32 data (cd + osz + 4) ;;
    let count := (if p0 =? MISSING_PARENT then 0 else 1) + (if p1 =? MISSING_PARENT then 0 else 1) in
    do g <- rd32 data (cd + osz + 8) ;;
    do t <- rd32 data (cd + osz + 12) ;;
    let time := Z.lor t (Z.shiftl (Z.land g 3) 32) in
    let gen := Z.shiftr g 2 in
    do (extra, count) <-
      (if negb (Z.land p1 TOPBIT =? 0) then
         let ep := Z.land p1 2147483647 in
         if c_nedges f <=? ep then Err (-3)
         else do count <- edge_scan data (c_edges f) (Z.to_nat (c_nedges f - ep)) ep count ;; Ok (Some ep, count)
       else Ok (None, count)) ;;
    do id <- rdn data (Z.to_nat (c_lookup f + pos * osz)) (Z.to_nat osz) ;;
    Ok (mkent gen time count p0 p1 extra tree id).

(** git_commit_graph_entry_find, 575-631.  GIT_ENOTFOUND -3, GIT_EAMBIGUOUS -5. *)
Definition cg_find (f : cgfile) (oid : list Z) (len : nat) : res cgentry :=
  let data := c_data f in
  let osz := c_osz f in
  do b <- rd oid 0 ;;
  do hi <- rd32 data (c_fan f + 4 * b) ;;
  do lo <- (if b =? 0 then Ok 0 else rd32 data (c_fan f + 4 * (b - 1))) ;;
  do pos <- lookup_id (S (Z.to_nat (hi - lo))) data (c_lookup f) osz lo hi oid osz ;;
  let nr := to_int32 (c_num f) in
  do (found, pos, current) <-
    (if 0 <=? pos then Ok (true, pos, c_lookup f + pos * osz)
     else
       let pos := - 1 - pos in
       if pos <? nr then
         let current := c_lookup f + pos * osz in
         do c <- ncmp_at osz data current oid len ;; Ok (c =? 0, pos, current)
       else Ok (false, pos, 0)) ;;
  do ambiguous <-
    (if (found : bool) && negb (Z.of_nat len =? 2 * osz) && (pos + 1 <? nr) then
       do c <- ncmp_at osz data (current + osz) oid len ;; Ok (c =? 0)
     else Ok false) ;;
  if negb found then Err (-3)
  else if (ambiguous : bool) then Err (-5)
  else get_byindex f pos.

(** git_commit_graph_entry_parent, 633-656. *)
Definition cg_parent (f : cgfile) (e : cgentry) (n : Z) : res cgentry :=
  if e_count e <=? n then Err (-3)
  else if (n =? 0) || ((n =? 1) && (e_count e =? 2)) then get_byindex f (if n =? 0 then e_p0 e else e_p1 e)
  else
    match e_extra e with
    | None => UB
    | Some x => do w <- rd32 (c_data f) (c_edges f + (x + n - 1) * 4) ;; get_byindex f (Z.land w 2147483647)
    end.

(** *** Writing *)

(** packed_commit, 50-58, as filled in by packed_commit_new (71-100). *)
Record pcommit := mkpc { k_id : list Z; k_tree : list Z; k_time : Z; k_parents : list (list Z) }.

(** packed_commit__cmp, 689-694: the sign of memcmp. *)
Definition pc_cmp (a b : pcommit) : Z := match lex (k_id a) (k_id b) with Lt => -1 | Eq => 0 | Gt => 1 end.

(** compute_generation_numbers, 872-1009.  The map of 884-891 from ids to commits as a search
    in the list (the map itself is C08). *)
Fixpoint idx_of (id : list Z) (cs : list pcommit) (k : nat) : option nat :=
  match cs with [] => None | c :: r => if leqb (k_id c) id then Some k else idx_of id r (S k) end.
(** 909-927. *)
Fixpoint parents_of (cs : list pcommit) (ps : list (list Z)) : res (list nat) :=
  match ps with
  | [] => Ok []
  | p :: r => match idx_of p cs 0 with None => Err (-3) | Some k => do l <- parents_of cs r ;; Ok (k :: l) end
  end.
(** 893-928. *)
Fixpoint parent_indices (cs todo : list pcommit) : res (list (list nat)) :=
  match todo with
  | [] => Ok []
  | c :: r => do l <- parents_of cs (k_parents c) ;; do ls <- parent_indices cs r ;; Ok (l :: ls)
  end.

(** generation_number_commit_state, 863-868: 0 unvisited, 1 added, 2 expanded, 3 visited. *)
(** The loop of 966-971. *)
Fixpoint max_gen (ps : list nat) (gens : list Z) (g : Z) : res Z :=
  match ps with
  | [] => Ok g
  | p :: r => do x <- aget gens p ;; max_gen r gens (if g <? x then x else g)
  end.
(** The loop of 993-1002. *)
Fixpoint push_parents (ps : list nat) (st : list Z) (stack : list nat) : res (list Z * list nat) :=
  match ps with
  | [] => Ok (st, stack)
  | p :: r =>
      do s <- aget st p ;;
      if negb (s =? 0) then push_parents r st stack
      else do st' <- aset st p 1 ;; push_parents r st' (p :: stack)
  end.
(** The loop of 954-1003; the head of [stack] is its top. *)
Fixpoint gen_loop (fuel : nat) (pidx : list (list nat)) (stack : list nat) (st : list Z) (gens : list Z) : res (list Z) :=
  match stack with
  | [] => Ok gens
  | i :: stack' =>
      match fuel with
      | O => NoFuel
      | S f =>
          do s <- aget st i ;;
          do ps <- aget pidx i ;;
          if s =? 3 then gen_loop f pidx stack' st gens
          else if s =? 2 then
            do g <- max_gen ps gens 0 ;;
            do gens' <- aset gens i (if g <? GEN_MAX then g + 1 else g) ;;
            do st' <- aset st i 3 ;;
            gen_loop f pidx stack' st' gens'
          else
            match ps with
            | [] =>
                do st' <- aset st i 3 ;;
                do gens' <- aset gens i 1 ;;
                gen_loop f pidx stack' st' gens'
            | _ =>
                do (st1, stack1) <- push_parents ps st (i :: stack') ;;
                do st2 <- aset st1 i 2 ;;
                gen_loop f pidx stack1 st2 gens
            end
      end
  end.
(** 930-952, and the loop. *)
Definition generations (pidx : list (list nat)) : res (list Z) :=
  let n := length pidx in
  gen_loop (3 * n) pidx (rev (seq 0 n)) (repeat 0 n) (repeat 0 n).

(** The fan-out table, 1119-1128. *)
Fixpoint fan_skip (i : Z) (rest : list pcommit) (count : Z) : list pcommit * Z :=
  match rest with
  | [] => ([], count)
  | c :: r => if hd 0 (k_id c) <=? i then fan_skip i r (count + 1) else (rest, count)
  end.
Fixpoint fan_fill (n : nat) (i : Z) (rest : list pcommit) (count : Z) : list Z :=
  match n with
  | O => []
  | S n' => let (rest', count') := fan_skip i rest count in be 4 count' ++ fan_fill n' (i + 1) rest' count'
  end.

(** The extra edges of one commit, 1174-1185: the parents from the second on. *)
Fixpoint edge_words (ps : list nat) : list Z :=
  match ps with
  | [] => []
  | [p] => be 4 (Z.lor (Z.of_nat p) TOPBIT)
  | p :: r => be 4 (Z.of_nat p) ++ edge_words r
  end.
(** The commit data of one commit, 1150-1172 and 1189-1204. *)
Definition data_words (c : pcommit) (ps : list nat) (gen : Z) (edge_count : Z) : list Z :=
  k_tree c ++
  be 4 (match ps with [] => MISSING_PARENT | p :: _ => Z.of_nat p end) ++
  be 4 (match ps with
        | [] | [_] => MISSING_PARENT
        | [_; q] => Z.of_nat q
        | _ => Z.lor TOPBIT edge_count
        end) ++
  be 4 (Z.lor (Z.shiftl (if GEN_MAX <? gen then GEN_MAX else gen) 2) (Z.land (Z.shiftr (k_time c) 32) 3)) ++
  be 4 (Z.land (k_time c) 4294967295).
(** 1139-1205: the commit data and the extra edges. *)
Fixpoint tables (cs : list pcommit) (pidx : list (list nat)) (gens : list Z) (edge_count : Z) : list Z * list Z :=
  match cs, pidx, gens with
  | c :: cs', ps :: pidx', g :: gens' =>
      let many := (2 <? length ps)%nat in
      let (cd, ed) := tables cs' pidx' gens' (if many then (edge_count + Z.of_nat (length ps) - 1) mod two32 else edge_count) in
      (data_words c ps g edge_count ++ cd, (if many then edge_words (tl ps) else []) ++ ed)
  | _, _, _ => ([], [])
  end.
(** write_chunk_header with write_offset, 1011-1039. *)
Definition chunk_header (id off : Z) : list Z := be 4 id ++ be 4 (Z.shiftr off 32) ++ be 4 off.

(** 1207-1262: everything that is written, before the checksum. *)
Definition cg_body (fan ids cdata edges : list Z) : list Z :=
  let nchunks := 3 + (if (0 <? length edges)%nat then 1 else 0) in
  let o0 := 8 + (nchunks + 1) * 12 in
  let o1 := o0 + 1024 in
  let o2 := o1 + Z.of_nat (length ids) in
  let o3 := o2 + Z.of_nat (length cdata) in
  let o4 := o3 + Z.of_nat (length edges) in
  be 4 CG_SIG ++ [1; 1; nchunks; 0] ++
  chunk_header ID_OIDF o0 ++ chunk_header ID_OIDL o1 ++ chunk_header ID_CDAT o2 ++
  (if (0 <? length edges)%nat then chunk_header ID_EDGE o3 ++ chunk_header 0 o4 else chunk_header 0 o3) ++
  fan ++ ids ++ cdata ++ edges.

(** commit_graph_write, 1073-1272: the contents of the file; [H] is the hash. *)
Definition cg_write (H : list Z -> list Z) (commits : list pcommit) : res (list Z) :=
  do v <- vsort pc_cmp (fold_left vinsert commits vinit) ;;
  do v <- vuniq pc_cmp v ;;
  let cs := items v in
  do pidx <- parent_indices cs cs ;;
  do gens <- generations pidx ;;
  let (cdata, edges) := tables cs pidx gens 0 in
  let body := cg_body (fan_fill 256 0 cs 0) (concat (map k_id cs)) cdata edges in
  Ok (body ++ H body).
