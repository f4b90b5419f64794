(** Model of the text codecs of src/util/str.c: base64, base85, percent
    decoding, C-style path quoting and backslash escaping.

    A git_str is the list of its bytes (its allocation and the terminating NUL
    are not modelled); every function appends to / replaces the buffer as in
    the code.  Reads of the input are checked: a read past its end is [UB].
    Size computations that cannot overflow unless the input exceeds a quarter
    of the address space (the GIT_ERROR_CHECK_ALLOC macros) are not modelled. *)
From Verif Require Import Base Str.

(** base64_encode, str.c:246-247. *)
Definition b64_alphabet : list Z :=
  bs "ABCDEFGHIJKLMNOPQRSTUVWXYZabcdefghijklmnopqrstuvwxyz0123456789+/".
Definition b64c (v : Z) : Z := nth (Z.to_nat v) b64_alphabet 0.

(** base64_decode, str.c:292-309. *)
Definition b64_table : list Z :=
  [(-1); (-1); (-1); (-1); (-1); (-1); (-1); (-1); (-1); (-1); (-1); (-1); (-1); (-1); (-1); (-1);
   (-1); (-1); (-1); (-1); (-1); (-1); (-1); (-1); (-1); (-1); (-1); (-1); (-1); (-1); (-1); (-1);
   (-1); (-1); (-1); (-1); (-1); (-1); (-1); (-1); (-1); (-1); (-1); 62; (-1); (-1); (-1); 63;
   52; 53; 54; 55; 56; 57; 58; 59; 60; 61; (-1); (-1); (-1); 0; (-1); (-1);
   (-1); 0; 1; 2; 3; 4; 5; 6; 7; 8; 9; 10; 11; 12; 13; 14;
   15; 16; 17; 18; 19; 20; 21; 22; 23; 24; 25; (-1); (-1); (-1); (-1); (-1);
   (-1); 26; 27; 28; 29; 30; 31; 32; 33; 34; 35; 36; 37; 38; 39; 40;
   41; 42; 43; 44; 45; 46; 47; 48; 49; 50; 51; (-1); (-1); (-1); (-1); (-1);
   (-1); (-1); (-1); (-1); (-1); (-1); (-1); (-1); (-1); (-1); (-1); (-1); (-1); (-1); (-1); (-1);
   (-1); (-1); (-1); (-1); (-1); (-1); (-1); (-1); (-1); (-1); (-1); (-1); (-1); (-1); (-1); (-1);
   (-1); (-1); (-1); (-1); (-1); (-1); (-1); (-1); (-1); (-1); (-1); (-1); (-1); (-1); (-1); (-1);
   (-1); (-1); (-1); (-1); (-1); (-1); (-1); (-1); (-1); (-1); (-1); (-1); (-1); (-1); (-1); (-1);
   (-1); (-1); (-1); (-1); (-1); (-1); (-1); (-1); (-1); (-1); (-1); (-1); (-1); (-1); (-1); (-1);
   (-1); (-1); (-1); (-1); (-1); (-1); (-1); (-1); (-1); (-1); (-1); (-1); (-1); (-1); (-1); (-1);
   (-1); (-1); (-1); (-1); (-1); (-1); (-1); (-1); (-1); (-1); (-1); (-1); (-1); (-1); (-1); (-1);
   (-1); (-1); (-1); (-1); (-1); (-1); (-1); (-1); (-1); (-1); (-1); (-1); (-1); (-1); (-1); (-1)].
Definition b64v (c : Z) : Z := nth (Z.to_nat c) b64_table 0.

(** git_str_encode_base64, str.c:249-289: what is appended to the buffer. *)
Fixpoint enc64 (d : list Z) : list Z :=
  match d with
  | a :: b :: c :: r =>
      b64c (Z.shiftr a 2) ::
      b64c (Z.lor (Z.shiftl (Z.land a 3) 4) (Z.shiftr b 4)) ::
      b64c (Z.lor (Z.shiftl (Z.land b 15) 2) (Z.shiftr c 6)) ::
      b64c (Z.land c 63) :: enc64 r
  | [a; b] =>
      [b64c (Z.shiftr a 2);
       b64c (Z.lor (Z.shiftl (Z.land a 3) 4) (Z.shiftr b 4));
       b64c (Z.shiftl (Z.land b 15) 2); 61]
  | [a] =>
      [b64c (Z.shiftr a 2);
       b64c (Z.lor (Z.shiftl (Z.land a 3) 4) (Z.shiftr 0 4));
       61; 61]
  | [] => []
  end.

(** git_str_decode_base64, str.c:311-350: the loop of 326-342; the stores
    convert to char, i.e. keep the low eight bits. *)
Fixpoint dec64_loop (s : list Z) (out : list Z) : res (list Z) :=
  match s with
  | [] => Ok out
  | x0 :: x1 :: x2 :: x3 :: r =>
      let a := b64v x0 in let b := b64v x1 in let c := b64v x2 in let d := b64v x3 in
      if (a <? 0) || (b <? 0) || (c <? 0) || (d <? 0) then Err (-1)
      else dec64_loop r
             (out ++ [Z.land (Z.lor (Z.shiftl a 2) (Z.shiftr (Z.land b 48) 4)) 255;
                      Z.land (Z.lor (Z.shiftl (Z.land b 15) 4) (Z.shiftr (Z.land c 60) 2)) 255;
                      Z.land (Z.lor (Z.shiftl (Z.land c 3) 6) (Z.land d 63)) 255])
  | _ => UB
  end.
Definition dec64 (s : list Z) : res (list Z) :=
  if (length s mod 4 =? 0)%nat then dec64_loop s [] else Err (-1).

(** base85_encode, str.c:352-353. *)
Definition b85_alphabet : list Z :=
  bs "0123456789ABCDEFGHIJKLMNOPQRSTUVWXYZabcdefghijklmnopqrstuvwxyz!#$%&()*+-;<=>?@^_`{|}~".
Definition b85c (v : Z) : Z := nth (Z.to_nat v) b85_alphabet 0.

(** base85_decode, str.c:391-408. *)
Definition b85_table : list Z :=
  [(-1); (-1); (-1); (-1); (-1); (-1); (-1); (-1); (-1); (-1); (-1); (-1); (-1); (-1); (-1); (-1);
   (-1); (-1); (-1); (-1); (-1); (-1); (-1); (-1); (-1); (-1); (-1); (-1); (-1); (-1); (-1); (-1);
   (-1); 63; (-1); 64; 65; 66; 67; (-1); 68; 69; 70; 71; (-1); 72; (-1); (-1);
   1; 2; 3; 4; 5; 6; 7; 8; 9; 10; (-1); 73; 74; 75; 76; 77;
   78; 11; 12; 13; 14; 15; 16; 17; 18; 19; 20; 21; 22; 23; 24; 25;
   26; 27; 28; 29; 30; 31; 32; 33; 34; 35; 36; (-1); (-1); (-1); 79; 80;
   81; 37; 38; 39; 40; 41; 42; 43; 44; 45; 46; 47; 48; 49; 50; 51;
   52; 53; 54; 55; 56; 57; 58; 59; 60; 61; 62; 82; 83; 84; 85; (-1);
   (-1); (-1); (-1); (-1); (-1); (-1); (-1); (-1); (-1); (-1); (-1); (-1); (-1); (-1); (-1); (-1);
   (-1); (-1); (-1); (-1); (-1); (-1); (-1); (-1); (-1); (-1); (-1); (-1); (-1); (-1); (-1); (-1);
   (-1); (-1); (-1); (-1); (-1); (-1); (-1); (-1); (-1); (-1); (-1); (-1); (-1); (-1); (-1); (-1);
   (-1); (-1); (-1); (-1); (-1); (-1); (-1); (-1); (-1); (-1); (-1); (-1); (-1); (-1); (-1); (-1);
   (-1); (-1); (-1); (-1); (-1); (-1); (-1); (-1); (-1); (-1); (-1); (-1); (-1); (-1); (-1); (-1);
   (-1); (-1); (-1); (-1); (-1); (-1); (-1); (-1); (-1); (-1); (-1); (-1); (-1); (-1); (-1); (-1);
   (-1); (-1); (-1); (-1); (-1); (-1); (-1); (-1); (-1); (-1); (-1); (-1); (-1); (-1); (-1); (-1);
   (-1); (-1); (-1); (-1); (-1); (-1); (-1); (-1); (-1); (-1); (-1); (-1); (-1); (-1); (-1); (-1)].
Definition b85v (c : Z) : Z := nth (Z.to_nat c) b85_table 0.

(** The five digits written by the loop of str.c:378-386. *)
Fixpoint b85_digits (n : nat) (acc : Z) (out : list Z) : list Z :=
  match n with
  | O => out
  | S n' => b85_digits n' (acc / 85) (b85c (acc mod 85) :: out)
  end.

(** The accumulation loop of str.c:368-376: up to four bytes, most significant
    first; [i] is the shift of the next byte. *)
Fixpoint b85_acc (d : list Z) (i : Z) (acc : Z) (fuel : nat) {struct fuel} : Z * list Z :=
  match fuel with
  | O => (acc, d)
  | S f => match d with
           | [] => (acc, [])
           | ch :: r => b85_acc r (i - 8) (Z.lor acc (Z.shiftl ch i)) f
           end
  end.

(** git_str_encode_base85, str.c:355-388. *)
Fixpoint enc85_loop (fuel : nat) (d : list Z) : list Z :=
  match fuel with
  | O => []
  | S f => match d with
           | [] => []
           | _ => let '(acc, r) := b85_acc d 24 0 4 in b85_digits 5 acc [] ++ enc85_loop f r
           end
  end.
Definition enc85 (d : list Z) : list Z := enc85_loop (length d) d.

(** The first four digits of a group, str.c:433-440 (acc is a 32-bit unsigned). *)
Fixpoint dec85_four (n : nat) (s : list Z) (acc : Z) : res (Z * list Z) :=
  match n with
  | O => Ok (acc, s)
  | S n' =>
      match s with
      | [] => UB
      | ch :: r => let de := b85v ch - 1 in
                   if de <? 0 then Err (-1)
                   else dec85_four n' r ((acc * 85 + de) mod two32)
      end
  end.

(** The output loop of str.c:453-457: rotate left by eight, store the low byte. *)
Fixpoint dec85_out (cnt : nat) (acc : Z) (out : list Z) : list Z :=
  match cnt with
  | O => out
  | S n => let acc' := (Z.lor (Z.shiftl acc 8) (Z.shiftr acc 24)) mod two32 in
           dec85_out n acc' (out ++ [Z.land acc' 255])
  end.

(** git_str_decode_base85, str.c:410-471. *)
Fixpoint dec85_loop (fuel : nat) (s : list Z) (output_len : nat) (out : list Z) : res (list Z) :=
  match fuel with
  | O => NoFuel
  | S f =>
      match output_len with
      | O => Ok out
      | _ =>
          do (acc, s1) <- dec85_four 4 s 0 ;;
          match s1 with
          | [] => UB
          | ch :: s2 =>
              let de := b85v ch - 1 in
              if de <? 0 then Err (-1)
              else if (4294967295 / 85 <? acc) || (4294967295 - de <? (acc * 85) mod two32) then Err (-1)
              else
                let acc2 := ((acc * 85) mod two32 + de) mod two32 in
                let cnt := Nat.min output_len 4 in
                dec85_loop f s2 (output_len - cnt) (dec85_out cnt acc2 out)
          end
      end
  end.
Definition dec85 (s : list Z) (output_len : nat) : res (list Z) :=
  if negb (length s mod 5 =? 0)%nat || (length s * 4 / 5 <? output_len)%nat then Err (-1)
  else dec85_loop (S output_len) s output_len [].

(** git__isxdigit, ctype_compat.h:48-51; HEX_DECODE, str.c:472. *)
Definition isxdigit (c : Z) : bool :=
  ((48 <=? c) && (c <=? 57)) || ((97 <=? c) && (c <=? 102)) || ((65 <=? c) && (c <=? 70)).
Definition hex_decode (c : Z) : Z := (Z.lor c 32) mod 39 - 9.

(** git_str_decode_percent, str.c:474-500. *)
Fixpoint dec_percent (s : list Z) : list Z :=
  match s with
  | [] => []
  | c :: r =>
      match r with
      | h1 :: h2 :: r2 =>
          if (c =? 37) && isxdigit h1 && isxdigit h2
          then (Z.shiftl (hex_decode h1) 4 + hex_decode h2) :: dec_percent r2
          else c :: dec_percent r
      | _ => c :: dec_percent r
      end
  end.

(** Plain char is signed on the modelled platforms. *)
Definition sgn (b : Z) : Z := if b <? 128 then b else b - 256.

(** git_str_quote, str.c:924-987: does a byte need quoting (939-940)? *)
Definition needs_quote (b : Z) : bool :=
  (b =? 34) || (b =? 92) || (sgn b <? 32) || (126 <? sgn b).

(** printf("%03o") of an unsigned char, str.c:966. *)
Definition octal3 (b : Z) : list Z := [48 + b / 64; 48 + b / 8 mod 8; 48 + b mod 8].

(** One byte inside the quotes, str.c:950-972. *)
Definition quote_whitespace : list Z := bs "abtnvfr".
Definition quote_byte (b : Z) : list Z :=
  if (7 <=? sgn b) && (sgn b <=? 13) then [92; nth (Z.to_nat (sgn b - 7)) quote_whitespace 0]
  else if (b =? 34) || (b =? 92) then [92; b]
  else if negb (b =? 32) && ((sgn b <? 33) || (126 <? sgn b)) then 92 :: octal3 b
  else [b].

(** The scan for the first byte to quote, str.c:936-942: its index, if any. *)
Fixpoint quote_scan (s : list Z) (i : nat) : option nat :=
  match s with
  | [] => None
  | b :: r => if needs_quote b then Some i else quote_scan r (S i)
  end.

Definition str_quote (s : list Z) : list Z :=
  let start := match s with
               | c :: _ => if c =? 33 then Some 0%nat     (* a leading '!', str.c:933-934 *)
                           else quote_scan s 0
               | [] => quote_scan s 0
               end in
  match start with
  | None => s
  | Some i => [34] ++ firstn i s ++ flat_map quote_byte (skipn i s) ++ [34]
  end.

(** git__isspace, ctype_compat.h:43-46. *)
Definition isspace (c : Z) : bool :=
  (c =? 32) || (c =? 9) || (c =? 10) || (c =? 12) || (c =? 13) || (c =? 11).

(** git_str_rtrim, str.c:869-880. *)
Fixpoint rtrim (s : list Z) : list Z :=
  match s with
  | [] => []
  | c :: r => match rtrim r with
              | [] => if isspace c then [] else [c]
              | r' => c :: r'
              end
  end.

(** git_str_unquote, str.c:990-1057.  [buf] is the trimmed buffer including
    both quotes; reads are indexed and checked (the byte at index size is the
    terminating NUL).  The code writes its result over the same buffer, always
    at an index below the one being read, so the reads see the original. *)
Definition rd0 (buf : list Z) (j : nat) : res Z :=
  if (j =? length buf)%nat then Ok 0 else rd buf j.
Definition unq_char (ch : Z) : option Z :=
  if (ch =? 34) || (ch =? 92) then Some ch
  else if ch =? 97 then Some 7
  else if ch =? 98 then Some 8
  else if ch =? 102 then Some 12
  else if ch =? 110 then Some 10
  else if ch =? 114 then Some 13
  else if ch =? 116 then Some 9
  else if ch =? 118 then Some 11
  else None.
Definition not_octal (c : Z) : bool := (sgn c <? 48) || (55 <? sgn c).
Fixpoint unquote_loop (fuel : nat) (buf : list Z) (j : nat) (out : list Z) : res (list Z) :=
  match fuel with
  | O => NoFuel
  | S f =>
      if (j <? length buf - 1)%nat then
        do ch <- rd0 buf j ;;
        if ch =? 92 then
          if (j =? length buf - 2)%nat then Err (-1)
          else
            let j := S j in
            do ch <- rd0 buf j ;;
            match unq_char ch with
            | Some c => unquote_loop f buf (S j) (out ++ [c])
            | None =>
                if (48 <=? ch) && (ch <=? 51) then
                  if (j =? length buf - 3)%nat then Err (-1)
                  else
                    do c1 <- rd0 buf (j + 1) ;;
                    if not_octal c1 then Err (-1)
                    else
                      do c2 <- rd0 buf (j + 2) ;;
                      if not_octal c2 then Err (-1)
                      else unquote_loop f buf (j + 3)
                             (out ++ [Z.land (Z.lor (Z.lor (Z.shiftl (ch - 48) 6) (Z.shiftl (c1 - 48) 3)) (c2 - 48)) 255])
                else Err (-1)
            end
        else unquote_loop f buf (S j) (out ++ [ch])
      else Ok out
  end.
Definition str_unquote (s : list Z) : res (list Z) :=
  let buf := rtrim s in
  if (length buf <? 2)%nat then Err (-1)
  else
    do c0 <- rd buf 0 ;;
    do c1 <- rd buf (length buf - 1) ;;
    if negb (c0 =? 34) || negb (c1 =? 34) then Err (-1)
    else unquote_loop (length buf) buf 1 [].

(** git_str_puts_escaped, str.c:1059-1106: runs of ordinary characters are
    copied, each character of [esc_chars] is preceded by [esc_with].
    (strcspn/strspn runs are merged into one pass.) *)
Fixpoint puts_escaped (esc_chars esc_with : list Z) (s : list Z) : list Z :=
  match s with
  | [] => []
  | c :: r => (if existsb (Z.eqb c) esc_chars then esc_with ++ [c] else [c]) ++ puts_escaped esc_chars esc_with r
  end.

(** git__unescape, util.c:655-674, on the C string [s] (without its NUL). *)
Fixpoint unescape (s : list Z) : list Z :=
  match s with
  | [] => []
  | c :: r => if c =? 92 then match r with
                              | c' :: r' => c' :: unescape r'
                              | [] => [c]
                              end
              else c :: unescape r
  end.
