(** Model of the per-object header and the offset-delta base in pack files,
    src/libgit2/pack.c.  The buffer is the window: [len] in the C code is its
    length.  Locks and the window cache are left out. *)
From Verif Require Import Base.

(** The loop of git_packfile__object_header, pack.c:402-407.  A 64-bit size needs
    at most 9 rounds. *)
Fixpoint header_loop (fuel : nat) (c size : Z) : res (list Z) :=
  if size =? 0 then Ok [c]
  else match fuel with
       | O => NoFuel
       | S f => do r <- header_loop f (Z.land size 127) (Z.shiftr size 7) ;; Ok (Z.lor c 128 :: r)
       end.
(** git_packfile__object_header, pack.c:388-411: the bytes stored at [hdr]. *)
Definition object_header (size ty : Z) : res (list Z) :=
  if negb ((1 <=? ty) && (ty <=? 7)) then Err (-1)
  else header_loop 64 ((Z.lor (Z.shiftl ty 4) (Z.land size 15)) mod 256) (Z.shiftr size 4).

(** The loop of packfile_unpack_header1, pack.c:428-443; bitsizeof(long) is 64. *)
Fixpoint unpack_loop (rest : list Z) (c size shift : Z) (used : nat) : res (nat * Z) :=
  if Z.land c 128 =? 0 then Ok (used, size)
  else
    match rest with
    | [] => Err (-6)
    | c' :: rest' =>
        if 64 <=? shift then Err (-1)
        else unpack_loop rest' c' ((size + (Z.shiftl (Z.land c' 127) shift) mod two64) mod two64) (shift + 7) (S used)
    end.
(** packfile_unpack_header1, pack.c:413-448: bytes used, size, type.  The first
    byte is read without looking at the length. *)
Definition unpack_header1 (buf : list Z) : res (nat * Z * Z) :=
  match buf with
  | [] => UB
  | c :: rest => do (used, size) <- unpack_loop rest c (Z.land c 15) 4 1 ;; Ok (used, size, Z.land (Z.shiftr c 4) 7)
  end.

(** The loop of get_delta_base for GIT_PACKFILE_OFS_DELTA, pack.c:990-998.  size_t
    has 64 bits; MSB is util.h:21. *)
Fixpoint ofs_loop (rest : list Z) (c val : Z) (n : nat) : res (Z * nat) :=
  if Z.land c 128 =? 0 then Ok (val, n)
  else
    match rest with
    | [] => Err (-6)
    | c' :: rest' =>
        let val1 := (val + 1) mod two64 in
        if (val1 =? 0) || negb (Z.land val1 (Z.shiftl 127 57) =? 0) then Err (-1)
        else ofs_loop rest' c' ((Z.shiftl val1 7 + Z.land c' 127) mod two64) (S n)
    end.
(** get_delta_base, pack.c:986-1003, for GIT_PACKFILE_OFS_DELTA: bytes used and
    offset of the base. *)
Definition delta_base_ofs (buf : list Z) (delta_obj_offset : Z) : res (nat * Z) :=
  match buf with
  | [] => UB
  | c :: rest =>
      do (v, used) <- ofs_loop rest c (Z.land c 127) 1 ;;
      if (v =? 0) || (delta_obj_offset mod two64 <=? v) then Err (-1)
      else
        let base := delta_obj_offset - v in
        if base =? 0 then Err (-1) else Ok (used, base)
  end.
