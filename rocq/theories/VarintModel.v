(** Model of src/util/varint.c (the variable-length integers of index v4). *)
From Verif Require Import Base.

(** varint.c:14-26, the loop of [git_decode_varint] after the first byte [c]
    was read.  [val] is a 64-bit [uintmax_t]: [val += 1] wraps mod 2^64;
    [MSB(val, 7)] (util.h:21) tests the seven top bits, i.e. bits 57..63.
    The buffer is the list of remaining bytes; the C code has no end pointer,
    so running off the buffer is [UB].  [n] counts the bytes consumed. *)
Fixpoint decode_loop (rest : list Z) (c val : Z) (n : nat) : res (Z * nat) :=
  if Z.land c 128 =? 0 then Ok (val, n)                  (* varint.c:25-26 *)
  else
    let val1 := (val + 1) mod two64 in                   (* varint.c:15 *)
    if (val1 =? 0) || negb (Z.land val1 (Z.shiftl 127 57) =? 0)
    then Ok (0, O)                                        (* varint.c:16-21: *varint_len = 0 *)
    else
      match rest with
      | [] => UB                                          (* *buf++ past the end *)
      | c' :: rest' =>
          decode_loop rest' c' ((Z.shiftl val1 7 + Z.land c' 127) mod two64) (S n)
      end.

(** varint.c:10-27 [git_decode_varint]: result value and [*varint_len]. *)
Definition decode_varint (buf : list Z) : res (Z * nat) :=
  match buf with
  | [] => UB
  | c :: rest => decode_loop rest c (Z.land c 127) 1
  end.

(** varint.c:34-35, the loop [while (value >>= 7) varint[--pos] = 128 | (--value & 127)].
    [room] is [pos], the number of free bytes below in the 16-byte scratch array;
    decrementing [pos] below zero is [UB]. *)
Fixpoint encode_loop (room : nat) (value : Z) (acc : list Z) : res (list Z) :=
  let v := Z.shiftr value 7 in
  if v =? 0 then Ok acc
  else match room with
       | O => UB
       | S room' => encode_loop room' (v - 1) (Z.lor 128 (Z.land (v - 1) 127) :: acc)
       end.

(** varint.c:30-42 [git_encode_varint].  [buf = None] is the NULL buffer (only
    the length is wanted); [buf = Some n] a buffer of [n] bytes.  The result is
    the return value together with the bytes stored at [buf]. *)
Definition encode_varint (buf : option Z) (value : Z) : res (Z * list Z) :=
  do code <- encode_loop 15 value [Z.land value 127] ;;
  let len := Z.of_nat (length code) in
  match buf with
  | None => Ok (len, [])
  | Some bufsize => if bufsize <? len then Ok (-1, []) else Ok (len, code)
  end.
