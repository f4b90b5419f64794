(** Model of src/libgit2/oid.c and oid.h: conversion and comparison of object ids.
    Default build (no GIT_EXPERIMENTAL_SHA256): one id type, of [size] bytes; the
    definitions take [size] as a parameter (20 for SHA1), and GIT_OID_MAX_HEXSIZE is
    [2 * size] as in include/git2/oid.h.  An id is the list of its bytes. *)
From Verif Require Import Base CStr.

(** util.h:193-210 [from_hex]. *)
Definition from_hex : list Z :=
  [-1; -1; -1; -1; -1; -1; -1; -1; -1; -1; -1; -1; -1; -1; -1; -1;
   -1; -1; -1; -1; -1; -1; -1; -1; -1; -1; -1; -1; -1; -1; -1; -1;
   -1; -1; -1; -1; -1; -1; -1; -1; -1; -1; -1; -1; -1; -1; -1; -1;
   0; 1; 2; 3; 4; 5; 6; 7; 8; 9; -1; -1; -1; -1; -1; -1;
   -1; 10; 11; 12; 13; 14; 15; -1; -1; -1; -1; -1; -1; -1; -1; -1;
   -1; -1; -1; -1; -1; -1; -1; -1; -1; -1; -1; -1; -1; -1; -1; -1;
   -1; 10; 11; 12; 13; 14; 15; -1; -1; -1; -1; -1; -1; -1; -1; -1;
   -1; -1; -1; -1; -1; -1; -1; -1; -1; -1; -1; -1; -1; -1; -1; -1;
   -1; -1; -1; -1; -1; -1; -1; -1; -1; -1; -1; -1; -1; -1; -1; -1;
   -1; -1; -1; -1; -1; -1; -1; -1; -1; -1; -1; -1; -1; -1; -1; -1;
   -1; -1; -1; -1; -1; -1; -1; -1; -1; -1; -1; -1; -1; -1; -1; -1;
   -1; -1; -1; -1; -1; -1; -1; -1; -1; -1; -1; -1; -1; -1; -1; -1;
   -1; -1; -1; -1; -1; -1; -1; -1; -1; -1; -1; -1; -1; -1; -1; -1;
   -1; -1; -1; -1; -1; -1; -1; -1; -1; -1; -1; -1; -1; -1; -1; -1;
   -1; -1; -1; -1; -1; -1; -1; -1; -1; -1; -1; -1; -1; -1; -1; -1;
   -1; -1; -1; -1; -1; -1; -1; -1; -1; -1; -1; -1; -1; -1; -1; -1].

(** util.h:212-215 [git__fromhex]; a char is given as its unsigned value. *)
Definition fromhex (c : Z) : res Z := rd from_hex (Z.to_nat c).

(** oid.c:53-59: the loop over [n] more characters from position [p].
    [(unsigned char)(v << (p % 2 ? 0 : 4))]. *)
Fixpoint parse_loop (n p : nat) (str id : list Z) : res (list Z) :=
  match n with
  | O => Ok id
  | S n' =>
      do c <- rd str p ;;
      do v <- fromhex c ;;
      if v <? 0 then Err (-1)
      else
        do old <- rd id (Nat.div p 2) ;;
        let w := (Z.shiftl v (if Nat.odd p then 0 else 4)) mod 256 in
        parse_loop n' (S p) str (upd id (Nat.div p 2) (Z.lor old w))
  end.

(** oid.c:31-62 [git_oid_from_prefix]. *)
Definition oid_from_prefix (size : nat) (str : list Z) (len : nat) : res (list Z) :=
  if (len =? 0)%nat then Err (-1)
  else if (2 * size <? len)%nat then Err (-1)
  else parse_loop len 0 str (repeat 0 size).

(** oid.c:64-78 [git_oid_from_string]; [str] includes its terminating NUL. *)
Definition oid_from_string (size : nat) (str : list Z) : res (list Z) :=
  do id <- oid_from_prefix size str (2 * size) ;;
  do c <- rd str (2 * size) ;;
  if c =? 0 then Ok id else Err (-1).

(** oid.h:160 the digits. *)
Definition hex_digits : list Z := [48; 49; 50; 51; 52; 53; 54; 55; 56; 57; 97; 98; 99; 100; 101; 102].
Definition hexdig (v : Z) : res Z := rd hex_digits (Z.to_nat v).

(** oid.h:166-169: whole bytes [i .. i+n). *)
Fixpoint fmt_pairs (n i : nat) (id : list Z) : res (list Z) :=
  match n with
  | O => Ok []
  | S n' =>
      do b <- rd id i ;;
      do h <- hexdig (Z.shiftr b 4) ;;
      do l <- hexdig (Z.land b 15) ;;
      do rest <- fmt_pairs n' (S i) id ;;
      Ok (h :: l :: rest)
  end.

(** oid.h:154-173 [git_oid_fmt_substr]: the characters stored at [str]. *)
Definition fmt_substr (id : list Z) (start count : nat) : res (list Z) :=
  let e := (start + count)%nat in
  let mn := Nat.div start 2 in
  let mx := Nat.div e 2 in
  do (pre, mn) <- (if Nat.odd start
                   then do b <- rd id mn ;; do d <- hexdig (Z.land b 15) ;; Ok ([d], S mn)
                   else Ok ([], mn)) ;;
  do mid <- fmt_pairs (mx - mn) mn id ;;
  do post <- (if Nat.odd e
              then do b <- rd id (Nat.max mn mx) ;; do d <- hexdig (Z.shiftr b 4) ;; Ok [d]
              else Ok []) ;;
  Ok (pre ++ mid ++ post).

(** oid.c:112-131 [git_oid_nfmt] with a non-NULL id: the [n] characters stored. *)
Definition oid_nfmt (size n : nat) (id : list Z) : res (list Z) :=
  if (2 * size <? n)%nat
  then do s <- fmt_substr id 0 (2 * size) ;; Ok (s ++ repeat 0 (n - 2 * size))
  else fmt_substr id 0 n.

(** oid.c:133-136 [git_oid_fmt]. *)
Definition oid_fmt (size : nat) (id : list Z) : res (list Z) := oid_nfmt size (2 * size) id.

(** oid.c:138-149 [git_oid_pathfmt]. *)
Definition oid_pathfmt (size : nat) (id : list Z) : res (list Z) :=
  do a <- fmt_substr id 0 2 ;;
  do b <- fmt_substr id 2 (2 * size - 2) ;;
  Ok (a ++ 47 :: b).

(** oid.c:207-223 [git_oid_tostr] with [n > 0] and a non-NULL id: what is stored in
    [out], including the NUL. *)
Definition oid_tostr (size n : nat) (id : list Z) : res (list Z) :=
  let n := if (2 * size + 1 <? n)%nat then (2 * size + 1)%nat else n in
  do s <- oid_nfmt size (n - 1) id ;;
  Ok (s ++ [0]).

(** oid.h:175-196 [git_oid_raw_ncmp]; the loop consumes two nibbles at a time. *)
Fixpoint ncmp_loop (fuel : nat) (a b : list Z) (len : nat) : res Z :=
  match len with
  | O => Ok 0
  | S O => do x <- rd a 0 ;; do y <- rd b 0 ;;
           Ok (if Z.land (Z.lxor x y) 240 =? 0 then 0 else 1)
  | S (S len') =>
      match fuel with
      | O => NoFuel
      | S f => do x <- rd a 0 ;; do y <- rd b 0 ;;
               if x =? y then ncmp_loop f (tl a) (tl b) len' else Ok 1
      end
  end.
Definition oid_ncmp (size : nat) (a b : list Z) (len : nat) : res Z :=
  let len := if (2 * size <? len)%nat then (2 * size)%nat else len in
  ncmp_loop len a b len.

(** oid.c:244-247 [git_oid_cmp], oid.h:222-232. *)
Definition oid_cmp (size : nat) (a b : list Z) : res Z := memcmp a b size.

(** oid.h:234-245 [git_oid__cpy_prefix]: [out] keeps its bytes beyond the prefix. *)
Definition oid_cpy_prefix (out id : list Z) (len : nat) : res (list Z) :=
  let n := Nat.div (len + 1) 2 in
  if ((n <=? length out) && (n <=? length id))%nat then
    let r := firstn n id ++ skipn n out in
    if Nat.odd len then
      do b <- rd r (Nat.div len 2) ;; Ok (upd r (Nat.div len 2) (Z.land b 240))
    else Ok r
  else UB.

(** oid.c:264-285 [git_oid_strcmp]; [str] is NUL-terminated, [a] the id bytes left. *)
Fixpoint oid_strcmp (a str : list Z) : res Z :=
  match a with
  | [] => Ok 0
  | x :: a' =>
      match str with
      | [] => UB
      | c :: s1 =>
          if c =? 0 then Ok 0
          else
            do h <- fromhex c ;;
            if h <? 0 then Ok (-1)
            else
              let v := Z.shiftl h 4 mod 256 in
              match s1 with
              | [] => UB
              | c2 :: s2 =>
                  if c2 =? 0 then (if x =? v then oid_strcmp a' s1 else Ok (x - v))
                  else
                    do h2 <- fromhex c2 ;;
                    if h2 <? 0 then Ok (-1)
                    else let v := Z.lor v h2 in
                         if x =? v then oid_strcmp a' s2 else Ok (x - v)
              end
      end
  end.

(** oid.c:292-308 [git_oid_is_zero]. *)
Fixpoint oid_is_zero (id : list Z) : bool :=
  match id with [] => true | b :: r => if negb (b =? 0) then false else oid_is_zero r end.

(** oid.h:247-257 [git_oid__is_hexstr]: [i] counts the characters before the NUL. *)
Fixpoint is_hexstr (size : nat) (str : list Z) (i : nat) : res bool :=
  match str with
  | [] => UB
  | c :: s => if c =? 0 then Ok (i =? 2 * size)%nat
              else do v <- fromhex c ;; if v <? 0 then Ok false else is_hexstr size s (S i)
  end.
