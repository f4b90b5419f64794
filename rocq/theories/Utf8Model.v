(** Model of src/util/utf8.c.  [mem] is the memory readable at the pointer
    passed in, [len] the length the caller declares; a read beyond [mem] is
    [UB]. *)
From Verif Require Import Base.

(** utf8proc_utf8class, utf8.c:38-55. *)
Definition utf8class : list Z :=
  [1; 1; 1; 1; 1; 1; 1; 1; 1; 1; 1; 1; 1; 1; 1; 1;
   1; 1; 1; 1; 1; 1; 1; 1; 1; 1; 1; 1; 1; 1; 1; 1;
   1; 1; 1; 1; 1; 1; 1; 1; 1; 1; 1; 1; 1; 1; 1; 1;
   1; 1; 1; 1; 1; 1; 1; 1; 1; 1; 1; 1; 1; 1; 1; 1;
   1; 1; 1; 1; 1; 1; 1; 1; 1; 1; 1; 1; 1; 1; 1; 1;
   1; 1; 1; 1; 1; 1; 1; 1; 1; 1; 1; 1; 1; 1; 1; 1;
   1; 1; 1; 1; 1; 1; 1; 1; 1; 1; 1; 1; 1; 1; 1; 1;
   1; 1; 1; 1; 1; 1; 1; 1; 1; 1; 1; 1; 1; 1; 1; 1;
   0; 0; 0; 0; 0; 0; 0; 0; 0; 0; 0; 0; 0; 0; 0; 0;
   0; 0; 0; 0; 0; 0; 0; 0; 0; 0; 0; 0; 0; 0; 0; 0;
   0; 0; 0; 0; 0; 0; 0; 0; 0; 0; 0; 0; 0; 0; 0; 0;
   0; 0; 0; 0; 0; 0; 0; 0; 0; 0; 0; 0; 0; 0; 0; 0;
   2; 2; 2; 2; 2; 2; 2; 2; 2; 2; 2; 2; 2; 2; 2; 2;
   2; 2; 2; 2; 2; 2; 2; 2; 2; 2; 2; 2; 2; 2; 2; 2;
   3; 3; 3; 3; 3; 3; 3; 3; 3; 3; 3; 3; 3; 3; 3; 3;
   4; 4; 4; 4; 4; 4; 4; 4; 0; 0; 0; 0; 0; 0; 0; 0].

(** The loop of utf8.c:70-73. *)
Fixpoint cont_loop (mem : list Z) (i n : nat) : res bool :=
  match n with
  | O => Ok true
  | S n' => do b <- rd mem i ;;
            if Z.land b 192 =? 128 then cont_loop mem (S i) n' else Ok false
  end.

(** utf8_charlen, utf8.c:57-76; -1 is the error result. *)
Definition charlen (mem : list Z) (len : nat) : res Z :=
  do b0 <- rd mem 0 ;;
  let length := nth (Z.to_nat b0) utf8class 0 in
  if length =? 0 then Ok (-1)
  else if (0 <? len)%nat && (Z.of_nat len <? length) then Ok (-1)
  else
    do ok <- cont_loop mem 1 (Z.to_nat length - 1) ;;
    if ok then Ok length else Ok (-1).

(** git_utf8_iterate, utf8.c:78-118: the result and [*out]; uc = -1 is
    0xFFFFFFFF. *)
Definition minus1 : Z := 4294967295.
Definition iterate (mem : list Z) (len : nat) : res (Z * Z) :=
  do length <- charlen mem len ;;
  if length <? 0 then Ok (-1, 0)
  else
    do uc <- (if length =? 1 then rd mem 0
              else if length =? 2 then
                do a <- rd mem 0 ;; do b <- rd mem 1 ;;
                let uc := Z.shiftl (Z.land a 31) 6 + Z.land b 63 in
                Ok (if uc <? 128 then minus1 else uc)
              else if length =? 3 then
                do a <- rd mem 0 ;; do b <- rd mem 1 ;; do c <- rd mem 2 ;;
                let uc := Z.shiftl (Z.land a 15) 12 + Z.shiftl (Z.land b 63) 6 + Z.land c 63 in
                Ok (if (uc <? 2048) || ((55296 <=? uc) && (uc <? 57344)) || ((64976 <=? uc) && (uc <? 65008))
                    then minus1 else uc)
              else
                do a <- rd mem 0 ;; do b <- rd mem 1 ;; do c <- rd mem 2 ;; do d <- rd mem 3 ;;
                let uc := Z.shiftl (Z.land a 7) 18 + Z.shiftl (Z.land b 63) 12 + Z.shiftl (Z.land c 63) 6 + Z.land d 63 in
                Ok (if (uc <? 65536) || (1114112 <=? uc) then minus1 else uc)) ;;
    if 65534 <=? Z.land uc 65535 then Ok (-1, 0) else Ok (length, uc).

(** git_utf8_char_length, utf8.c:120-136. *)
Fixpoint char_length (fuel : nat) (mem : list Z) (offset len count : nat) : res nat :=
  match fuel with
  | O => NoFuel
  | S f =>
      if (offset <? len)%nat then
        do n <- charlen (skipn offset mem) (len - offset) ;;
        let n := if n <? 0 then 1 else n in
        char_length f mem (offset + Z.to_nat n) len (S count)
      else Ok count
  end.

(** git_utf8_valid_buf_length, utf8.c:138-150. *)
Fixpoint valid_buf_length (fuel : nat) (mem : list Z) (offset len : nat) : res nat :=
  match fuel with
  | O => NoFuel
  | S f =>
      if (offset <? len)%nat then
        do n <- charlen (skipn offset mem) (len - offset) ;;
        if n <? 0 then Ok offset
        else valid_buf_length f mem (offset + Z.to_nat n) len
      else Ok offset
  end.
