(** Model of src/libgit2/delta.c. *)
From Verif Require Import Base DeltaTables.

Definition RABIN_SHIFT : Z := 23.        (* delta.c:13 *)
Definition RABIN_WINDOW : Z := 16.       (* delta.c:14 *)
Definition HASH_LIMIT : Z := 64.         (* delta.c:11 *)
Definition MAX_OP_SIZE : Z := 5 + 5 + 1 + RABIN_WINDOW + 7.   (* delta.c:268 *)
Definition UINT_MAX : Z := 4294967295.
Definition GIT_EBUFS : Z := -6.

(** Checked array read at a [Z] index. *)
Definition rdz (l : list Z) (i : Z) : res Z :=
  if (0 <=? i) && (i <? Z.of_nat (length l)) then rd l (Z.to_nat i) else UB.

(** ** Applying *)

(** delta.c:465-487 [hdr_sz].  [c & 0x7f] is an [unsigned int], so the shift is
    a 32-bit shift: undefined for [shift >= 32], truncating to 32 bits below
    that.  Returns the size and the remaining bytes. *)
Fixpoint hdr_sz (delta : list Z) (r shift : Z) : res (Z * list Z) :=
  match delta with
  | [] => Err (-1)                                        (* truncated delta *)
  | c :: d =>
      if 32 <=? shift then UB
      else
        let r' := Z.lor r ((Z.shiftl (Z.land c 127) shift) mod two32) in
        if Z.land c 128 =? 0 then Ok (r', d) else hdr_sz d r' (shift + 7)
  end.

(** delta.c:489-501 [git_delta_read_header]. *)
Definition delta_read_header (delta : list Z) : res (Z * Z) :=
  do (b, d) <- hdr_sz delta 0 0 ;;
  do (r, _) <- hdr_sz d 0 0 ;;
  Ok (b, r).

(** delta.c:574-584, one use of the macro ADD_DELTA under its [if (cmd & bit)]. *)
Definition add_delta (cmd bit shift o : Z) (d : list Z) : res (Z * list Z) :=
  if Z.land cmd bit =? 0 then Ok (o, d)
  else match d with
       | [] => Err (-1)
       | b :: d' => Ok (Z.lor o ((Z.shiftl b shift) mod two32), d')
       end.

(** delta.c:575-583: the operands of a copy instruction; a zero length means 0x10000. *)
Definition read_copy (cmd : Z) (d0 : list Z) : res (Z * Z * list Z) :=
  do (off, d1) <- add_delta cmd 1 0 0 d0 ;;
  do (off, d2) <- add_delta cmd 2 8 off d1 ;;
  do (off, d3) <- add_delta cmd 4 16 off d2 ;;
  do (off, d4) <- add_delta cmd 8 24 off d3 ;;
  do (len, d5) <- add_delta cmd 16 0 0 d4 ;;
  do (len, d6) <- add_delta cmd 32 8 len d5 ;;
  do (len, d7) <- add_delta cmd 64 16 len d6 ;;
  Ok (off, if len =? 0 then 65536 else len, d7).

(** [memcpy(dst, src + off, len)] from a buffer: undefined when it reads past the
    end of the source. *)
Definition copy_from (src : list Z) (off len : Z) : res (list Z) :=
  if (0 <=? off) && (0 <=? len) && (off + len <=? Z.of_nat (length src))
  then Ok (sub src (Z.to_nat off) (Z.to_nat len)) else UB.

(** [memcpy] into the result: [room] bytes are left in the allocation. *)
Definition put (out : list Z) (room : Z) (data : list Z) : res (list Z) :=
  if Z.of_nat (length data) <=? room then Ok (out ++ data) else UB.

(** delta.c:568-619, the instruction loop.  [d] are the unread delta bytes, [out]
    the bytes produced, [res_sz] the bytes still expected.  Fuel: each iteration
    consumes at least one delta byte. *)
Fixpoint apply_loop (fuel : nat) (base d out : list Z) (res_sz : Z) : res (list Z) :=
  match d with
  | [] => if res_sz =? 0 then Ok out else Err (-1)         (* delta.c:615 *)
  | cmd :: d0 =>
      match fuel with
      | O => NoFuel
      | S fuel' =>
          if negb (Z.land cmd 128 =? 0) then
            do (off, len, d7) <- read_copy cmd d0 ;;
            let e := off + len in
            (* GIT_ADD_SIZET_OVERFLOW || base_len < end || res_sz < len *)
            if (two64 <=? e) || (Z.of_nat (length base) <? e) || (res_sz <? len) then Err (-1)
            else
              do chunk <- copy_from base off len ;;
              do out' <- put out res_sz chunk ;;
              apply_loop fuel' base d7 out' (res_sz - len)
          else if negb (cmd =? 0) then
            if (Z.of_nat (length d0) <? cmd) || (res_sz <? cmd) then Err (-1)
            else
              do chunk <- copy_from d0 0 cmd ;;
              do out' <- put out res_sz chunk ;;
              apply_loop fuel' base (skipn (Z.to_nat cmd) d0) out' (res_sz - cmd)
          else Err (-1)
      end
  end.

(** delta.c:534-628 [git_delta_apply]; allocation of [res_sz + 1] bytes is assumed
    to succeed unless [res_sz + 1] overflows size_t. *)
Definition delta_apply (base delta : list Z) : res (list Z) :=
  do (base_sz, d) <- hdr_sz delta 0 0 ;;
  if negb (base_sz =? Z.of_nat (length base)) then Err (-1)
  else
    do (res_sz, d) <- hdr_sz d 0 0 ;;
    if two64 <=? res_sz + 1 then Err (-1)
    else apply_loop (length d) base d [] res_sz.

(** ** The index *)

(** One step of the rolling hash: [val = ((val << 8) | b) ^ T[val >> RABIN_SHIFT]]
    on 32-bit unsigned ints (delta.c:205, 328, 338, 424). *)
Definition hash_step (val b : Z) : res Z :=
  do t <- rdz T_tab (Z.shiftr val RABIN_SHIFT) ;;
  Ok (Z.lxor ((Z.lor (Z.shiftl val 8) b) mod two32) t).

(** Fold the hash over [n] bytes starting at [pos]. *)
Fixpoint hash_range (buf : list Z) (pos : Z) (n : nat) (val : Z) : res Z :=
  match n with
  | O => Ok val
  | S n' => do b <- rdz buf pos ;; do v <- hash_step val b ;; hash_range buf (pos + 1) n' v
  end.

(** An index entry: ([ptr - buffer], [val]); delta.c:108-112. *)
Definition entry : Type := Z * Z.

(** delta.c:114-120 [struct git_delta_index]: [di_bucket i] is the chain [hash[i]]. *)
Record dindex := { di_src : list Z; di_mask : Z; di_bucket : Z -> list entry }.

(** delta.c:171-173: hsize is a power of two, at least 16 and at most 2^31. *)
Fixpoint hsize_loop (fuel : nat) (i hsize : Z) : Z :=
  match fuel with
  | O => i
  | S f => if (i <? 31) && (Z.shiftl 1 i <? hsize) then hsize_loop f (i + 1) hsize else i
  end.

(** delta.c:199-218: blocks are visited from the last to the first; [acc] holds the
    entries allocated so far, newest first.  [entry[-1].ptr = ...] rewrites the
    newest entry and is [UB] when there is none. *)
Fixpoint index_fill (nblocks : nat) (buf : list Z) (prev_val : Z) (acc : list entry)
  : res (list entry) :=
  match nblocks with
  | O => Ok acc
  | S k =>
      let data := Z.of_nat k * RABIN_WINDOW in
      do val <- hash_range buf (data + 1) 16 0 ;;
      if val =? prev_val then
        match acc with
        | [] => UB
        | (_, v) :: acc' => index_fill k buf prev_val ((data + RABIN_WINDOW, v) :: acc')
        end
      else index_fill k buf val ((data + RABIN_WINDOW, val) :: acc)
  end.

(** delta.c:232-245, culling one chain of [count >= HASH_LIMIT] entries:
    after keeping an entry, [skip] links are followed; when [skip = 0] the
    post-decrement test [--skip] only stops at the end of the chain. *)
Fixpoint cull (fuel : nat) (skip : Z) (l : list entry) : list entry :=
  match fuel, l with
  | _, [] => []
  | O, _ => l
  | S f, keep :: rest =>
      keep :: (if skip =? 0 then [] else cull f skip (skipn (Z.to_nat (skip - 1)) rest))
  end.

(** delta.c:145-250 [git_delta_index_init] for a non-empty buffer.
    [hash_count[i]] equals the length of chain [i]. *)
Definition delta_index_init (buf : list Z) : res dindex :=
  let bufsize := Z.of_nat (length buf) in
  let entries := if UINT_MAX <=? bufsize then 4294967294 / RABIN_WINDOW
                 else ((bufsize - 1) mod two32) / RABIN_WINDOW in
  let hsize := Z.shiftl 1 (hsize_loop 40 4 (entries / 4)) in
  let hmask := hsize - 1 in
  do es <- index_fill (Z.to_nat entries) buf UINT_MAX [] ;;
  Ok {| di_src := buf; di_mask := hmask;
        di_bucket := fun i =>
          let chain := filter (fun e : entry => Z.land (snd e) hmask =? i) es in
          let count := Z.of_nat (length chain) in
          if count <? HASH_LIMIT then chain
          else cull (length chain) (count / HASH_LIMIT / 2) chain |}.

(** ** Creating *)

(** delta.c:350-351: [while (ref_size-- && *src++ == *ref) ref++]: how far the
    match starting at [src = trg + d] and [ref = source + p] extends, at most [n]. *)
Fixpoint match_len (n : nat) (src trg : list Z) (p d : Z) : res Z :=
  match n with
  | O => Ok 0
  | S n' =>
      do a <- rdz trg d ;;
      do b <- rdz src p ;;
      if a =? b then do m <- match_len n' src trg (p + 1) (d + 1) ;; Ok (m + 1) else Ok 0
  end.

(** delta.c:340-359, the walk over one chain; returns (moff, msize). *)
Fixpoint search (chain : list entry) (src trg : list Z) (data val moff msize : Z) : res (Z * Z) :=
  match chain with
  | [] => Ok (moff, msize)
  | (ptr, v) :: rest =>
      if negb (v =? val) then search rest src trg data val moff msize
      else
        let ref_size := Z.of_nat (length src) - ptr in
        let left := Z.of_nat (length trg) - data in
        let ref_size := if left <? ref_size then left else ref_size in
        if ref_size <=? msize then Ok (moff, msize)
        else
          do m <- match_len (Z.to_nat ref_size) src trg ptr data ;;
          if msize <? m
          then if 4096 <=? m then Ok (ptr, m) else search rest src trg data val ptr m
          else search rest src trg data val moff msize
  end.

(** The output buffer: the first [bufpos] bytes, and its capacity [bufsize].
    A reserved count slot is stored as 0 until it is filled in. *)
Record obuf := { ob : list Z; ob_cap : Z }.

(** [buf[bufpos++] = b]: undefined at the end of the allocation. *)
Definition push (o : obuf) (b : Z) : res obuf :=
  if Z.of_nat (length (ob o)) <? ob_cap o
  then Ok {| ob := ob o ++ [b mod 256]; ob_cap := ob_cap o |} else UB.

(** [bufpos--] *)
Definition pop (o : obuf) : res obuf :=
  match ob o with
  | [] => UB
  | _ => Ok {| ob := removelast (ob o); ob_cap := ob_cap o |}
  end.

(** [buf[bufpos - inscnt - 1] = inscnt].  With [inscnt = -1] (delta.c:385-389) this
    stores at [buf[bufpos]], just above the used part: only the capacity matters,
    because that byte is overwritten by the next [op]. *)
Definition set_count (o : obuf) (inscnt : Z) : res obuf :=
  let pos := Z.of_nat (length (ob o)) - inscnt - 1 in
  if (pos <? 0) || (ob_cap o <=? pos) then UB
  else Ok {| ob := upd (ob o) (Z.to_nat pos) (inscnt mod 256); ob_cap := ob_cap o |}.

(** delta.c:304-309 and 312-317: a size in little-endian base 128.
    [i] is an unsigned int: five iterations at most. *)
Fixpoint put_size (fuel : nat) (i : Z) (o : obuf) : res obuf :=
  match fuel with
  | O => NoFuel
  | S f => if 128 <=? i then do o' <- push o (Z.lor i 128) ;; put_size f (Z.shiftr i 7) o'
           else push o i
  end.

(** delta.c:324-330: the first (at most 16) bytes are inserted literally. *)
Fixpoint first_window (n : nat) (trg : list Z) (data val : Z) (o : obuf) : res (Z * Z * obuf) :=
  match n with
  | O => Ok (data, val, o)
  | S n' =>
      if data <? Z.of_nat (length trg) then
        do b <- rdz trg data ;;
        do o' <- push o b ;;
        do v <- hash_step val b ;;
        first_window n' trg (data + 1) v o'
      else Ok (data, val, o)
  end.

(** delta.c:377-388: extend the match backwards over pending literals.  Returns
    (moff, msize, data, inscnt, buffer), [inscnt] being -1 when the whole
    literal run (and its count slot) was absorbed. *)
Fixpoint back_match (n : nat) (src trg : list Z) (moff msize data : Z) (o : obuf)
  : res (Z * Z * Z * Z * obuf) :=
  match n with
  | O => Ok (moff, msize, data, 0, o)   (* not reached: entered with inscnt > 0 *)
  | S n' =>
      if moff =? 0 then Ok (moff, msize, data, Z.of_nat n, o)
      else
        do a <- rdz src (moff - 1) ;;
        do b <- rdz trg (data - 1) ;;
        if negb (a =? b) then Ok (moff, msize, data, Z.of_nat n, o)
        else
          do o1 <- pop o ;;
          match n' with
          | O => do o2 <- pop o1 ;; Ok (moff - 1, msize + 1, data - 1, -1, o2)
          | S _ => back_match n' src trg (moff - 1) (msize + 1) (data - 1) o1
          end
  end.

(** delta.c:400-412: one optional byte of the copy opcode, flag [bit]. *)
Definition put_opt (x mask shift bit : Z) (st : obuf * Z) : res (obuf * Z) :=
  let (o, i) := st in
  if Z.land x mask =? 0 then Ok (o, i)
  else do o' <- push o (Z.shiftr x shift) ;; Ok (o', Z.lor i bit).

(** delta.c:397-414: emit a copy instruction for [moff], [msize] (msize <= 0x10000). *)
Definition put_copy (o : obuf) (moff msize : Z) : res obuf :=
  let pos := length (ob o) in
  do o0 <- push o 0 ;;
  do s1 <- put_opt moff 255 0 1 (o0, 128) ;;
  do s2 <- put_opt moff 65280 8 2 s1 ;;
  do s3 <- put_opt moff 16711680 16 4 s2 ;;
  do s4 <- put_opt moff 4278190080 24 8 s3 ;;
  do s5 <- put_opt msize 255 0 16 s4 ;;
  do s6 <- put_opt msize 65280 8 32 s5 ;;
  let (o6, i) := s6 in
  Ok {| ob := upd (ob o6) pos i; ob_cap := ob_cap o6 |}.

(** delta.c:429-441 (growing the buffer).  [None] is the [break]. *)
Definition grow (o : obuf) (max_size : Z) : option obuf :=
  let bufpos := Z.of_nat (length (ob o)) in
  if (ob_cap o - MAX_OP_SIZE) mod two32 <=? bufpos then
    let bufsize := ((ob_cap o * 3) mod two32) / 2 in
    let bufsize := if negb (max_size =? 0) && (max_size <=? bufsize)
                   then max_size + MAX_OP_SIZE + 1 else bufsize in
    if negb (max_size =? 0) && (max_size <? bufpos) then None
    else Some {| ob := ob o; ob_cap := bufsize |}
  else Some o.

(** delta.c:334-442, the main loop.  State: data, val, moff, msize, inscnt, buffer. *)
Fixpoint create_loop (fuel : nat) (ix : dindex) (trg : list Z) (max_size : Z)
         (data val moff msize inscnt : Z) (o : obuf) : res (obuf * Z) :=
  if negb (data <? Z.of_nat (length trg)) then Ok (o, inscnt)
  else
  match fuel with
  | O => NoFuel
  | S fuel' =>
      do (val, moff, msize) <-
        (if msize <? 4096 then
           do old <- rdz trg (data - RABIN_WINDOW) ;;
           do u <- rdz U_tab old ;;
           do cur <- rdz trg data ;;
           do val <- hash_step (Z.lxor val u) cur ;;
           do (moff, msize) <-
             search (di_bucket ix (Z.land val (di_mask ix))) (di_src ix) trg data val moff msize ;;
           Ok (val, moff, msize)
         else Ok (val, moff, msize)) ;;
      if msize <? 4 then
        do o1 <- (if inscnt =? 0 then push o 0 else Ok o) ;;
        do b <- rdz trg data ;;
        do o2 <- push o1 b ;;
        let inscnt := inscnt + 1 in
        do (o3, inscnt) <- (if inscnt =? 127
                            then do o' <- set_count o2 inscnt ;; Ok (o', 0)
                            else Ok (o2, inscnt)) ;;
        match grow o3 max_size with
        | None => Ok (o3, inscnt)
        | Some o4 => create_loop fuel' ix trg max_size (data + 1) val moff 0 inscnt o4
        end
      else
        do (moff, msize, data, o1) <-
          (if inscnt =? 0 then Ok (moff, msize, data, o)
           else
             do (moff, msize, data, inscnt, o1) <-
               back_match (Z.to_nat inscnt) (di_src ix) trg moff msize data o ;;
             do o2 <- set_count o1 inscnt ;;
             Ok (moff, msize, data, o2)) ;;
        let left := if msize <? 65536 then 0 else msize - 65536 in
        let msize := msize - left in
        do o2 <- put_copy o1 moff msize ;;
        let data := data + msize in
        let moff := moff + msize in
        let msize := left in
        do val <- (if msize <? 4096
                   then hash_range trg (data - RABIN_WINDOW) 16 0 else Ok val) ;;
        match grow o2 max_size with
        | None => Ok (o2, 0)
        | Some o3 => create_loop fuel' ix trg max_size data val moff msize 0 o3
        end
  end.

(** delta.c:270-456 [git_delta_create_from_index].  [Ok None] is the success
    without output for an empty target. *)
Definition delta_create (ix : dindex) (trg : list Z) (max_size : Z) : res (option (list Z)) :=
  let trg_size := Z.of_nat (length trg) in
  let src_size := Z.of_nat (length (di_src ix)) in
  if trg_size =? 0 then Ok None
  else if (UINT_MAX <? src_size) || (UINT_MAX <? trg_size)
          || (UINT_MAX - MAX_OP_SIZE - 1 <? max_size) then Err (-1)
  else
    let bufsize := if negb (max_size =? 0) && (max_size <=? 8192)
                   then max_size + MAX_OP_SIZE + 1 else 8192 in
    do o <- put_size 6 src_size {| ob := []; ob_cap := bufsize |} ;;
    do o <- put_size 6 trg_size o ;;
    do o <- push o 0 ;;                                  (* bufpos++ *)
    do (data, val, o) <- first_window 16 trg 0 0 o ;;
    do (o, inscnt) <- create_loop (S (length trg)) ix trg max_size data val 0 0 data o ;;
    do o <- (if inscnt =? 0 then Ok o else set_count o inscnt) ;;
    if negb (max_size =? 0) && (max_size <? Z.of_nat (length (ob o))) then Err GIT_EBUFS
    else Ok (Some (ob o)).

(** delta.h:62-85 [git_delta], with the early return of [git_delta_index_init] on an
    empty source (delta.c:157-158).  [Ok None]: success with no delta. *)
Definition git_delta (src trg : list Z) (max_size : Z) : res (option (list Z)) :=
  match src with
  | [] => Ok None
  | _ => do ix <- delta_index_init src ;; delta_create ix trg max_size
  end.
