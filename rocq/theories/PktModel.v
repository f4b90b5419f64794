(** The packets of the smart protocol, src/libgit2/transports/smart_pkt.c, and the loop that reads them from the
    network, smart_protocol.c:25-86.  A pointer into the receive buffer is the list of the bytes of memory from
    there to the end of the buffer; reading beyond is undefined behaviour.  Failing allocations and leaks are left
    out.  [exp] is GIT_EXPERIMENTAL_SHA256. *)
From Verif Require Import Base Str CodecModel OidModel OidSpec.

Definition EBUFS : Z := -6.
Definition EEOF : Z := -20.

(** smart.h:45-138. *)
Inductive status := ANone | AContinue | ACommon | AReady.
Inductive pkt :=
| KFlush | KAck (oid : list Z) (st : status) | KNak | KComment (t : list Z) | KErr (t : list Z) | KData (d : list Z) | KProgress (d : list Z)
| KOk (ref : list Z) | KNg (ref msg : list Z) | KUnpack (good : bool) | KShallow (oid : option (list Z)) | KUnshallow (oid : option (list Z))
| KRef (oid name : list Z) (caps : option (list Z)).
(** git_pkt_parse_data: oid_type as the size of an id (None for 0), and whether capabilities were seen. *)
Record pdata := mkpd { pd_size : option nat; pd_seen : bool }.

(** git__prefixncmp() == 0, util.c:216-242 and 257-260. *)
Fixpoint prefixn (s : list Z) (n : nat) (p : list Z) {struct n} : res bool :=
  match n with
  | O => Ok (match p with [] => true | _ => false end)
  | S n => match s with [] => UB | c :: r => match p with [] => Ok true | d :: q => if c =? d then prefixn r n q else Ok false end end
  end.
(** git__prefixcmp() == 0, util.c:241-255: a byte is read before the end of the prefix is seen. *)
Fixpoint prefixc (s p : list Z) : res bool :=
  match s with [] => UB | c :: r => match p with [] => Ok true | d :: q => if c =? d then prefixc r q else Ok false end end.
(** memcpy of [n] bytes, memchr. *)
Definition take (s : list Z) (n : nat) : res (list Z) := if (n <=? length s)%nat then Ok (firstn n s) else UB.
Fixpoint find_byte (c : Z) (s : list Z) : option nat := match s with [] => None | x :: r => if x =? c then Some O else option_map S (find_byte c r) end.
Definition memchr (s : list Z) (c : Z) (n : nat) : res (option nat) := do t <- take s n ;; Ok (find_byte c t).
(** strncmp(s, p, strlen(p)) == 0, strstr and strchr of a NUL-terminated string. *)
Fixpoint strn_is (s p : list Z) {struct p} : res bool :=
  match p with [] => Ok true | d :: q => match s with [] => UB | c :: r => if c =? d then strn_is r q else Ok false end end.
Fixpoint strstr (s p : list Z) : res (option (list Z)) :=
  match s with
  | [] => UB
  | c :: r => do b <- strn_is s p ;; if b : bool then Ok (Some s) else if c =? 0 then Ok None else strstr r p
  end.
Fixpoint strchr (c : Z) (s : list Z) : res (option nat) :=
  match s with [] => UB | x :: r => if x =? c then Ok (Some O) else if x =? 0 then Ok None else do o <- strchr c r ;; Ok (option_map S o) end.

(** git_oid_type_fromstrn, oid.h:106-117. *)
Definition type_of (exp : bool) (name : list Z) : option nat :=
  if leqb name (bs "sha1") then Some 20%nat else if exp && leqb name (bs "sha256") then Some 32%nat else None.
(** set_data, smart_pkt.c:224-272: where the object format starts (235-243), what it says (245-259), and the
    function.  The search for " object-format=" and for the end of the format goes on to the next NUL, which may
    be in a later packet or behind the bytes received. *)
Definition find_format (len : nat) (z : option nat) (s : list Z) : res (option (list Z)) :=
  match z with
  | Some i =>
      if (S i <? len)%nat
      then
        let caps := skipn (S i) s in
        do b <- strn_is caps (bs "object-format=") ;;
        if b : bool then Ok (Some (skipn 14 caps)) else do f <- strstr caps (bs " object-format=") ;; Ok (option_map (skipn 15) f)
      else Ok None
  | None => Ok None
  end.
Definition format_end (f : list Z) : res nat :=
  do e <- strchr 32 f ;;
  match e with Some n => Ok n | None => do e <- strchr 0 f ;; match e with Some n => Ok n | None => Err (-1) end end.
Definition format_size (exp : bool) (fmt : option (list Z)) : res nat :=
  match fmt with
  | Some f => do n <- format_end f ;; match type_of exp (firstn n f) with Some size => Ok size | None => Err (-1) end
  | None => Ok 20%nat
  end.
Definition set_data (exp : bool) (s : list Z) (len : nat) (d : pdata) : res pdata :=
  do z <- memchr s 0 len ;;
  do fmt <- find_format len z s ;;
  do size <- format_size exp fmt ;;
  match pd_size d with
  | None => Ok (mkpd (Some size) (pd_seen d))
  | Some k => if (k =? size)%nat then Ok d else Err (-1)
  end.
(** ref_pkt, smart_pkt.c:282-340: [strlen] of the copied name is where its first NUL is. *)
Definition strip_nl (line : list Z) : list Z := if last line 0 =? 10 then removelast line else line.
Definition ref_pkt (exp : bool) (s : list Z) (len : nat) (d : pdata) : res (pkt * pdata) :=
  do d <- (if pd_seen d then Ok d else set_data exp s len d) ;;
  match pd_size d with
  | None => Err (-1)
  | Some size =>
      if (len <? 2 * size)%nat then Err (-1)
      else
        do oid <- oid_from_prefix size s (2 * size) ;;
        let s := skipn (2 * size) s in
        let len := (len - 2 * size)%nat in
        do b <- prefixn s len [32] ;;
        if negb b then Err (-1)
        else
          let s := tl s in
          let len := (len - 1)%nat in
          if (len =? 0)%nat then Err (-1)
          else
            do line <- take s len ;;
            let line := strip_nl line in
            match find_byte 0 line with
            | None => Ok (KRef oid line None, mkpd (Some size) true)
            | Some i => if pd_seen d then Err (-1) else Ok (KRef oid (firstn i line) (Some (skipn (S i) line)), mkpd (Some size) true)
            end
  end.
(** ack_pkt, smart_pkt.c:45-91. *)
Definition ack_pkt (s : list Z) (len : nat) (d : pdata) : res (pkt * pdata) :=
  match pd_size d with
  | None => Err (-1)
  | Some size =>
      do b <- prefixn s len (bs "ACK ") ;;
      if negb b then Err (-1)
      else
        let s := skipn 4 s in
        let len := (len - 4)%nat in
        if (len <? 2 * size)%nat then Err (-1)
        else
          do oid <- oid_from_prefix size s (2 * size) ;;
          let s := skipn (2 * size) s in
          let len := (len - 2 * size)%nat in
          do sp <- (if (len =? 0)%nat then Ok false else do c <- rd s 0 ;; Ok (c =? 32)) ;;
          if sp : bool
          then
            let s := tl s in
            let len := (len - 1)%nat in
            do b <- prefixn s len (bs "continue") ;;
            if b : bool then Ok (KAck oid AContinue, d)
            else do b <- prefixn s len (bs "common") ;;
                 if b : bool then Ok (KAck oid ACommon, d)
                 else do b <- prefixn s len (bs "ready") ;; if b : bool then Ok (KAck oid AReady, d) else Err (-1)
          else Ok (KAck oid ANone, d)
  end.
(** comment_pkt, smart_pkt.c:106-124, and the bands, 159-224. *)
Definition comment_pkt (s : list Z) (len : nat) : res pkt := do t <- take s len ;; Ok (KComment t).
Definition band_pkt (k : list Z -> pkt) (s : list Z) (len : nat) : res pkt := do t <- take (tl s) (len - 1) ;; Ok (k t).
(** err_pkt, smart_pkt.c:126-157. *)
Definition err_pkt (s : list Z) (len : nat) : res pkt :=
  do b <- prefixn s len (bs "ERR ") ;; if negb b then Err (-1) else do t <- take (skipn 4 s) (len - 4) ;; Ok (KErr t).
(** ok_pkt, smart_pkt.c:342-374. *)
Definition ok_pkt (s : list Z) (len : nat) : res pkt :=
  do b <- prefixn s len (bs "ok ") ;; if negb b then Err (-1) else do t <- take (skipn 3 s) (len - 3) ;; Ok (KOk (strip_nl t)).
(** ng_pkt, smart_pkt.c:376-430. *)
Definition ng_pkt (s : list Z) (len : nat) : res pkt :=
  do b <- prefixn s len (bs "ng ") ;;
  if negb b then Err (-1)
  else
    let s := skipn 3 s in
    let len := (len - 3)%nat in
    do p <- memchr s 32 len ;;
    match p with
    | None => Err (-1)
    | Some i =>
        do ref <- take s i ;;
        let s := skipn (S i) s in
        if (len <=? S i)%nat then Err (-1)
        else do p <- memchr s 10 (len - S i) ;; match p with None => Err (-1) | Some j => do msg <- take s j ;; Ok (KNg ref msg) end
    end.
(** unpack_pkt, smart_pkt.c:432-447. *)
Definition unpack_pkt (s : list Z) (len : nat) : res pkt := do b <- prefixn s len (bs "unpack ok") ;; Ok (KUnpack b).
(** shallow_pkt and unshallow_pkt, smart_pkt.c:449-521: the outcome of parsing the id is not looked at; an id
    that could not be parsed is None. *)
Definition shallow_pkt (word : list Z) (k : option (list Z) -> pkt) (s : list Z) (len : nat) (d : pdata) : res (pkt * pdata) :=
  match pd_size d with
  | None => Err (-1)
  | Some size =>
      do b <- prefixn s len word ;;
      if negb b then Err (-1)
      else
        let s := skipn (length word) s in
        if negb (len - length word =? 2 * size)%nat then Err (-1)
        else match oid_from_prefix size s (2 * size) with Ok o => Ok (k (Some o), d) | Err _ => Ok (k None, d) | UB => UB | NoFuel => NoFuel end
  end.
(** parse_len, smart_pkt.c:523-560; the digits were checked, so the number is what they say (util.c:34-160). *)
Fixpoint hex_number (acc : Z) (s : list Z) : option Z :=
  match s with [] => Some acc | c :: r => match hexval c with Some v => hex_number (16 * acc + v) r | None => None end end.
Definition parse_len (s : list Z) (n : nat) : res nat :=
  if (n <? 4)%nat then Err EBUFS
  else do t <- take s 4 ;; match hex_number 0 t with Some v => Ok (Z.to_nat v) | None => Err (-1) end.
Definition keep {A} (d : pdata) (r : res A) : res (A * pdata) := do x <- r ;; Ok (x, d).
Definition payload (exp : bool) (s : list Z) (len : nat) (d : pdata) : res (pkt * pdata) :=
  do c <- rd s 0 ;;
  if c =? 1 then keep d (band_pkt KData s len)
  else if c =? 2 then keep d (band_pkt KProgress s len)
  else if c =? 3 then keep d (band_pkt KErr s len)
  else do b <- prefixn s len (bs "ACK") ;; if b : bool then ack_pkt s len d
  else do b <- prefixn s len (bs "NAK") ;; if b : bool then Ok (KNak, d)
  else do b <- prefixn s len (bs "ERR") ;; if b : bool then keep d (err_pkt s len)
  else if c =? 35 then keep d (comment_pkt s len)
  else do b <- prefixn s len (bs "ok") ;; if b : bool then keep d (ok_pkt s len)
  else do b <- prefixn s len (bs "ng") ;; if b : bool then keep d (ng_pkt s len)
  else do b <- prefixn s len (bs "unpack") ;; if b : bool then keep d (unpack_pkt s len)
  else do b <- prefixc s (bs "shallow") ;; if b : bool then shallow_pkt (bs "shallow ") KShallow s len d
  else do b <- prefixc s (bs "unshallow") ;; if b : bool then shallow_pkt (bs "unshallow ") KUnshallow s len d
  else ref_pkt exp s len d.
(** git_pkt_parse_line, smart_pkt.c:575-665: the packet and the number of bytes it took. *)
Definition parse_line (exp : bool) (s : list Z) (n : nat) (d : pdata) : res (pkt * pdata * nat) :=
  do len <- parse_len s n ;;
  if (n <? len)%nat then Err EBUFS
  else if negb (len =? 0)%nat && (len <=? 4)%nat then Err (-1)
  else if (len =? 0)%nat then Ok (KFlush, d, 4%nat)
  else do x <- payload exp (skipn 4 s) (len - 4) d ;; Ok (x, len).

(** git_smart__store_refs, smart_protocol.c:25-86, git_smart__recv (smart.c:16-50) and git_staticstr_consume.
    [chunks] are what the reads of the stream will return (an empty one, or none, is the end of it); a chunk
    beyond the free space of the buffer arrives in parts.  [stale n] is what the buffer holds behind its valid
    bytes in the iteration with [n] to go.  The result: the packets stored, what is left in the buffer, and what
    was not read from the stream. *)
Definition BUFSIZE : nat := Z.to_nat 65536.
Fixpoint store_refs (fuel : nat) (exp : bool) (stale : nat -> list Z) (flushes : nat) (buf : list Z) (d : pdata) (refs : list pkt) (chunks : list (list Z)) : res (list pkt * list Z * list (list Z)) :=
  match fuel with
  | O => NoFuel
  | S n =>
      match (match buf with [] => Err EBUFS | _ => parse_line exp (buf ++ stale n) (length buf) d end) with
      | Ok (p, d, k) =>
          let buf := skipn k buf in
          match p with
          | KErr _ => Err (-1)
          | KFlush => if (flushes <=? 1)%nat then Ok (refs, buf, chunks) else store_refs n exp stale (flushes - 1) buf d refs chunks
          | p => store_refs n exp stale flushes buf d (refs ++ [p]) chunks
          end
      | Err e =>
          if e =? EBUFS
          then
            if (BUFSIZE <=? length buf)%nat then Err (-1)
            else match chunks with
                 | [] | [] :: _ => Err EEOF
                 | c :: cs =>
                     let room := (BUFSIZE - length buf)%nat in
                     store_refs n exp stale flushes (buf ++ firstn room c) d refs (if (length c <=? room)%nat then cs else skipn room c :: cs)
                 end
          else Err e
      | UB => UB
      | NoFuel => NoFuel
      end
  end.

(** *** Writing, smart_pkt.c:697-870.  "%04x" of the length. *)
Definition hex4 (n : Z) : list Z := [digit (n / 4096); digit (n / 256 mod 16); digit (n / 16 mod 16); digit (n mod 16)].
Definition pkt_have (size : nat) (oid : list Z) : res (list Z) := do h <- oid_fmt size oid ;; Ok (hex4 (4 + 5 + 2 * Z.of_nat size + 1) ++ bs "have " ++ h ++ [10]).
Definition pkt_flush : list Z := bs "0000".
Definition pkt_done : list Z := bs "0009done" ++ [10].
(** transport_smart_caps, smart.h:143-160. *)
Record caps := mkcaps { c_common : bool; c_detailed : bool; c_multi : bool; c_64k : bool; c_side : bool; c_tag : bool; c_thin : bool; c_ofs : bool; c_shallow : bool }.
Definition caps_text (c : caps) : list Z :=
  (if c_detailed c then bs "multi_ack_detailed " else if c_multi c then bs "multi_ack " else []) ++
  (if c_64k c then bs "side-band-64k " else if c_side c then bs "side-band " else []) ++
  (if c_tag c then bs "include-tag " else []) ++ (if c_thin c then bs "thin-pack " else []) ++ (if c_ofs c then bs "ofs-delta " else []) ++ (if c_shallow c then bs "shallow " else []).
Definition pkt_want (size : nat) (oid : list Z) (tail : list Z) : res (list Z) :=
  do h <- oid_fmt size oid ;; Ok (hex4 (4 + 5 + 2 * Z.of_nat size + Z.of_nat (length tail) + 1) ++ bs "want " ++ h ++ tail ++ [10]).
Fixpoint wants_rest (size : nat) (refs : list (list Z * bool)) : res (list Z) :=
  match refs with
  | [] => Ok []
  | (oid, local) :: r => if local : bool then wants_rest size r else do a <- pkt_want size oid [] ;; do b <- wants_rest size r ;; Ok (a ++ b)
  end.
(** The loop that finds the first reference that is not local reads behind the array if all are. *)
Fixpoint wants_first (size : nat) (c : caps) (refs : list (list Z * bool)) : res (list Z) :=
  match refs with
  | [] => UB
  | (oid, local) :: r => if local : bool then wants_first size c r else do a <- pkt_want size oid (32 :: caps_text c) ;; do b <- wants_rest size r ;; Ok (a ++ b)
  end.
Fixpoint shallows (size : nat) (roots : list (list Z)) : res (list Z) :=
  match roots with
  | [] => Ok []
  | oid :: r => do h <- oid_fmt size oid ;; do b <- shallows size r ;; Ok (hex4 (8 + 2 * Z.of_nat size + 1 + 4) ++ bs "shallow " ++ h ++ [10] ++ b)
  end.
(** git_pkt_buffer_wants, smart_pkt.c:768-846, without a depth. *)
Definition buffer_wants (size : nat) (c : caps) (refs : list (list Z * bool)) (roots : list (list Z)) : res (list Z) :=
  do a <- (if c_common c then wants_first size c refs else wants_rest size refs) ;; do b <- shallows size roots ;; Ok (a ++ b ++ pkt_flush).
