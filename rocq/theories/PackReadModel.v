(** Model of reading objects out of a pack file, src/libgit2/pack.c: the chain of
    deltas, the cache of delta bases shared by all threads, and the reading of just
    an object's size and type.

    Taken as parameters (fields of [pack]): what inflating the bytes from a position
    gives, what the index says about an id (its lookup is C24), and how many bytes a
    memory window shows.  Memory allocation is assumed to succeed; the locks are the
    atomicity of the steps below. *)
From Verif Require Import Base PackHdrModel DeltaModel.

(** How the zlib stream starting at some bytes ends: complete; cut off by the end of
    the file ([Z_BUF_ERROR] with nothing produced); or corrupt (any other error).
    The data is what was produced before that. *)
Inductive zstr := ZDone (data : list Z) | ZShort (data : list Z) | ZBad (data : list Z).

(** [struct git_pack_file], pack.h:104-133, and what lies behind it. *)
Record pack := {
  pk_file : list Z;                   (* the contents of the pack file *)
  pk_oid : nat;                       (* oid_size *)
  pk_find : list Z -> res Z;          (* pack_entry_find_offset, pack.c:1493-1612, for a full id *)
  pk_inflate : list Z -> zstr;        (* zlib *)
  pk_win : Z -> nat                   (* bytes visible in the window opened at an offset *)
}.
Definition pk_size (p : pack) : Z := Z.of_nat (length (pk_file p)).
(** The bytes of the file from an offset on, and those the window shows. *)
Definition rest_at (p : pack) (off : Z) : list Z := skipn (Z.to_nat off) (pk_file p).
Definition win_at (p : pack) (off : Z) : list Z := firstn (pk_win p off) (rest_at p off).

(** git_mwindow__window_size / 2 on 64-bit systems: mwindow.c:25-27, 337. *)
Definition WALIGN : Z := 536870912.
(** git_packfile_unpack_header, pack.c:450-497: unlike pack_window_open, the window is
    opened (mwindow.c:392-446) without comparing the offset with the size of the file:
    past the end of the file, but in the last half-window, the returned pointer lies
    outside the mapping. Result: size, type, position after the header. *)
Definition unpack_header (p : pack) (off : Z) : res (Z * Z * Z) :=
  if off <? pk_size p then
    do (used, size, ty) <- unpack_header1 (win_at p off) ;;
    Ok (size, ty, off + Z.of_nat used)
  else if off / WALIGN * WALIGN <? pk_size p then UB
  else Err (-6).

(** pack_window_open, pack.c:338-378. *)
Definition window_open (p : pack) (off : Z) : option (list Z) :=
  if pk_size p - Z.of_nat (pk_oid p) <? off then None
  else if off <? 0 then None
  else Some (win_at p off).

Definition OFS_DELTA : Z := 6.        (* pack.h:36 *)
Definition REF_DELTA : Z := 7.        (* pack.h:37 *)
Definition is_delta (ty : Z) : bool := (ty =? OFS_DELTA) || (ty =? REF_DELTA).

(** get_delta_base, pack.c:962-1040, for a pack with an index ([has_cache] unset):
    position after the base's name, offset of the base. *)
Definition get_delta_base (p : pack) (curpos ty off : Z) : res (Z * Z) :=
  match window_open p curpos with
  | None => Err (-6)
  | Some w =>
      if ty =? OFS_DELTA then
        do (used, base) <- delta_base_ofs w off ;; Ok (curpos + Z.of_nat used, base)
      else if ty =? REF_DELTA then
        match pk_find p (firstn (pk_oid p) w) with
        | Ok base => if base =? 0 then Err (-1) else Ok (curpos + Z.of_nat (pk_oid p), base)
        | Err _ => Err (-1)
        | UB => UB
        | NoFuel => NoFuel
        end
      else Err (-1)
  end.

(** packfile_unpack_compressed, pack.c:886-956: inflate everything from [pos]; the
    loop refills the window, so the whole rest of the file is available.  A stream
    that is not complete or not of the announced length is an error. *)
Definition unpack_compressed (p : pack) (pos size : Z) : res (list Z) :=
  match window_open p pos with
  | None => Err (-1)
  | Some _ =>
      match pk_inflate p (rest_at p pos) with
      | ZDone d => if Z.of_nat (length d) =? size then Ok d else Err (-1)
      | _ => Err (-1)
      end
  end.

(** [struct pack_chain_elem], pack.h:76-81. *)
Record elem := { e_key : Z; e_pos : Z; e_size : Z; e_type : Z }.

(** One round of the loop of pack_dependency_chain, pack.c:622-657, after the cache
    was asked: the element pushed, and the base when it is a delta. *)
Definition chain_elem (p : pack) (off : Z) : res (elem * option Z) :=
  do (size, ty, curpos) <- unpack_header p off ;;
  if is_delta ty then
    do (curpos', base) <- get_delta_base p curpos ty off ;;
    Ok ({| e_key := off; e_pos := curpos'; e_size := size; e_type := ty |}, Some base)
  else Ok ({| e_key := off; e_pos := curpos; e_size := size; e_type := ty |}, None).

(** ** The base cache, pack.c:57-175, pack.h:70-99 *)

(** [git_rawobj]: type and data. *)
Definition obj : Type := Z * list Z.
(** git_pack_cache_entry; [ce_id] stands for its address, so that a freed entry can
    be told from a later one under the same offset. *)
Record centry := { ce_id : Z; ce_ref : Z; ce_obj : obj }.
Record cache := { c_used : Z; c_next : Z; c_map : list (Z * centry) }.
Definition LIMIT : Z := 16777216.          (* GIT_PACK_CACHE_MEMORY_LIMIT, pack.h:85 *)
Definition SIZE_LIMIT : Z := 1048576.      (* GIT_PACK_CACHE_SIZE_LIMIT, pack.h:86 *)
Definition olen (o : obj) : Z := Z.of_nat (length (snd o)).

Fixpoint map_find (m : list (Z * centry)) (k : Z) : option centry :=
  match m with
  | [] => None
  | (k', e) :: r => if k' =? k then Some e else map_find r k
  end.
Fixpoint map_set (m : list (Z * centry)) (k : Z) (e : centry) : list (Z * centry) :=
  match m with
  | [] => []
  | (k', e') :: r => if k' =? k then (k', e) :: r else (k', e') :: map_set r k e
  end.
Definition add_ref (e : centry) (n : Z) : centry := {| ce_id := ce_id e; ce_ref := ce_ref e + n; ce_obj := ce_obj e |}.

(** cache_get, pack.c:103-119 ([last_usage] is written but never read). *)
Definition cache_get (c : cache) (off : Z) : option (centry * cache) :=
  match map_find (c_map c) off with
  | Some e => Some (e, {| c_used := c_used c; c_next := c_next c; c_map := map_set (c_map c) off (add_ref e 1) |})
  | None => None
  end.

(** free_lowest_entry, pack.c:122-135: in spite of its name, every entry nobody uses
    goes. *)
Fixpoint evict (m : list (Z * centry)) (used : Z) : list (Z * centry) * Z :=
  match m with
  | [] => ([], used)
  | (k, e) :: r =>
      if ce_ref e =? 0 then evict r (used - olen (ce_obj e))
      else let (r', u) := evict r used in ((k, e) :: r', u)
  end.

(** cache_add, pack.c:137-175.  [AddSpin]: the loop at pack.c:157-158 did not make
    enough room; it goes on (a second round frees nothing unless some thread drops
    its reference meanwhile). *)
Inductive added := AddNo | AddYes (id : Z) (c : cache) | AddSpin (c : cache).
Definition cache_add (c : cache) (o : obj) (off : Z) : added :=
  if SIZE_LIMIT <? olen o then AddNo
  else match map_find (c_map c) off with
       | Some _ => AddNo
       | None =>
           let (m, used) := if LIMIT <? c_used c + olen o then evict (c_map c) (c_used c) else (c_map c, c_used c) in
           if LIMIT <? used + olen o then AddSpin {| c_used := used; c_next := c_next c; c_map := m |}
           else AddYes (c_next c)
                  {| c_used := used + olen o; c_next := c_next c + 1;
                     c_map := (off, {| ce_id := c_next c; ce_ref := 1; ce_obj := o |}) :: m |}
       end.

(** git_atomic32_dec(&cached->refcount), pack.c:757, 804, 819: done without the lock.
    [None]: the entry was freed. *)
Definition cache_dec (c : cache) (off id : Z) : option cache :=
  match map_find (c_map c) off with
  | Some e => if ce_id e =? id then Some {| c_used := c_used c; c_next := c_next c; c_map := map_set (c_map c) off (add_ref e (-1)) |} else None
  | None => None
  end.
(** Reading the data of a cached entry. *)
Definition cache_read (c : cache) (off id : Z) : option obj :=
  match map_find (c_map c) off with
  | Some e => if ce_id e =? id then Some (ce_obj e) else None
  | None => None
  end.

(** ** One thread in git_packfile_unpack, pack.c:665-831 *)

(** Where [obj] and [cached] point: to data of this thread alone, or into the cache. *)
Inductive src := Own (d : list Z) | Held (off id : Z).

(** What is left to do.  [start] (the offset asked for) is a ghost.
    - [Chain]: at the top of the loop of pack_dependency_chain, [st] pushed so far;
    - [Add]: [o] is complete, about to offer it to the cache under [key] (pack.c:770-771);
    - [Apply]: about to read and apply the next delta (pack.c:773-790), or, with no delta
      left, to copy the cached object (pack.c:749-759);
    - [Drop]: done with the cached base, about to give up the reference (pack.c:757,
      803-806, 818-819);
    - [Crash]: freed memory was used. *)
Inductive tst :=
| Idle
| Chain (start off : Z) (st : list elem)
| Add (start : Z) (o : obj) (key : Z) (st : list elem)
| Apply (start ty : Z) (s : src) (st : list elem)
| Drop (off id : Z) (next : tst)
| Done (start : Z) (r : res obj)
| Crash.

(** After the chain: the base element itself (pack.c:723-741). *)
Definition base_elem (p : pack) (start : Z) (e : elem) (st : list elem) : tst :=
  if (1 <=? e_type e) && (e_type e <=? 4) then
    match unpack_compressed p (e_pos e) (e_size e) with
    | Ok d => Add start (e_type e, d) (e_key e) st
    | Err c => Done start (Err c)
    | UB => Done start UB
    | NoFuel => Done start NoFuel
    end
  else Done start (Err (-1)).

(** One delta applied to [base] (pack.c:773-811). *)
Definition apply_elem (p : pack) (start ty : Z) (base : list Z) (e : elem) (st : list elem) : tst :=
  match bindr (unpack_compressed p (e_pos e) (e_size e)) (fun delta => delta_apply base delta) with
  | Ok d => Add start (ty, d) (e_key e) st
  | Err c => Done start (Err c)
  | UB => Done start UB
  | NoFuel => Done start NoFuel
  end.

(** One atomic step.  The cache lock is held during cache_get and cache_add; the
    rest touches only immutable data and the thread's own. *)
Definition tstep (p : pack) (c : cache) (t : tst) : cache * tst :=
  match t with
  | Chain start off st =>
      match cache_get c off with
      | Some (e, c') => (c', Apply start (fst (ce_obj e)) (Held off (ce_id e)) st)
      | None =>
          (c, match chain_elem p off with
              | Ok (e, Some base) => Chain start base (e :: st)
              | Ok (e, None) => base_elem p start e st
              | Err x => Done start (Err x)
              | UB => Done start UB
              | NoFuel => Done start NoFuel
              end)
      end
  | Add start o key [] => (c, Done start (Ok o))
  | Add start o key st =>
      match cache_add c o key with
      | AddNo => (c, Apply start (fst o) (Own (snd o)) st)
      | AddYes id c' => (c', Apply start (fst o) (Held key id) st)
      | AddSpin c' => (c', t)
      end
  | Apply start ty (Own d) [] => (c, Done start (Ok (ty, d)))
  | Apply start ty (Own d) (e :: st) => (c, apply_elem p start ty d e st)
  | Apply start ty (Held off id) [] =>
      match cache_read c off id with
      | Some o => (c, Drop off id (Done start (Ok (ty, snd o))))
      | None => (c, Crash)
      end
  | Apply start ty (Held off id) (e :: st) =>
      match cache_read c off id with
      | Some o => (c, Drop off id (apply_elem p start ty (snd o) e st))
      | None => (c, Crash)
      end
  | Drop off id next =>
      match cache_dec c off id with
      | Some c' => (c', next)
      | None => (c, Crash)
      end
  | Idle | Done _ _ | Crash => (c, t)
  end.

(** Any number of threads on one pack; a thread that is not busy may ask for any
    object. *)
Record sys := { s_cache : cache; s_threads : list tst }.
Inductive label := Start (i : nat) (off : Z) | Step (i : nat).
Definition sys_step (p : pack) (s : sys) (l : label) : sys :=
  match l with
  | Start i off =>
      match nth_error (s_threads s) i with
      | Some Idle | Some (Done _ _) => {| s_cache := s_cache s; s_threads := upd (s_threads s) i (Chain off off []) |}
      | _ => s
      end
  | Step i =>
      match nth_error (s_threads s) i with
      | Some t => let (c, t') := tstep p (s_cache s) t in {| s_cache := c; s_threads := upd (s_threads s) i t' |}
      | None => s
      end
  end.
Definition empty_cache : cache := {| c_used := 0; c_next := 0; c_map := [] |}.
Definition sys0 (n : nat) : sys := {| s_cache := empty_cache; s_threads := repeat Idle n |}.
Definition sys_run (p : pack) (s : sys) (ls : list label) : sys := fold_left (sys_step p) ls s.

(** ** Size and type only *)

(** git_delta_read_header_fromstream, delta.c:503-532, on the stream that starts at
    [pos].  The buffer of 16 bytes is filled from the stream: a negative read is
    added to the length (an unsigned underflow: the sizes are then read from
    uninitialised memory), and GIT_EBUFS, returned when the file has no more bytes
    (pack.c:857-858, 875-876), is retried for ever: [fuel] counts the retries. *)
Fixpoint retry (fuel : nat) : res (list Z) := match fuel with O => NoFuel | S f => retry f end.
Definition stream_head (p : pack) (fuel : nat) (pos : Z) : res (list Z) :=
  match window_open p pos with
  | None => retry fuel
  | Some _ =>
      match pk_inflate p (rest_at p pos) with
      | ZDone d => Ok (firstn 16 d)
      | ZShort d => if (16 <=? length d)%nat then Ok (firstn 16 d) else retry fuel
      | ZBad d => if (16 <=? length d)%nat then Ok (firstn 16 d) else UB
      end
  end.
Definition read_header_fromstream (p : pack) (fuel : nat) (pos : Z) : res (Z * Z) :=
  do buf <- stream_head p fuel pos ;; delta_read_header buf.

(** The loop of git_packfile_resolve_header, pack.c:563-578, at [off]: the type at the end of the chain. *)
Fixpoint resolve_type (p : pack) (fuel : nat) (off : Z) : res Z :=
  match fuel with
  | O => NoFuel
  | S f =>
      do (size, ty, curpos) <- unpack_header p off ;;
      if negb (is_delta ty) then Ok ty
      else do (_, base) <- get_delta_base p curpos ty off ;; resolve_type p f base
  end.
(** git_packfile_resolve_header, pack.c:499-581: size and type. *)
Definition resolve_header (p : pack) (fuel : nat) (off : Z) : res (Z * Z) :=
  do (size, ty, curpos) <- unpack_header p off ;;
  if is_delta ty then
    do (curpos', base) <- get_delta_base p curpos ty off ;;
    do (_, rsz) <- read_header_fromstream p fuel curpos' ;;
    do ty' <- resolve_type p fuel base ;;
    Ok (rsz, ty')
  else Ok (size, ty).
