(** The codecs, independently of the code. *)
From Verif Require Import Base Str.

(** Base64 (RFC 4648): the bytes, padded with zeros to groups of three, are
    read as 24-bit big-endian numbers, each written as four digits in base 64;
    the digits that carry no data are written '='. *)
Definition digit64 (v : Z) : Z :=
  if v <? 26 then 65 + v else if v <? 52 then 97 + (v - 26) else if v <? 62 then 48 + (v - 52)
  else if v =? 62 then 43 else 47.
Definition group64 (a b c : Z) (pad : nat) : list Z :=
  let n := a * 65536 + b * 256 + c in
  firstn (4 - pad) [digit64 (n / 262144); digit64 (n / 4096 mod 64); digit64 (n / 64 mod 64); digit64 (n mod 64)]
  ++ repeat 61 pad.
Fixpoint base64 (d : list Z) : list Z :=
  match d with
  | a :: b :: c :: r => group64 a b c 0 ++ base64 r
  | [a; b] => group64 a b 0 1
  | [a] => group64 a 0 0 2
  | [] => []
  end.
Definition pad64 (n : nat) : nat := match (n mod 3)%nat with 1%nat => 2%nat | 2%nat => 1%nat | _ => 0%nat end.
Definition in_alphabet64 (c : Z) : Prop :=
  (65 <= c <= 90) \/ (97 <= c <= 122) \/ (48 <= c <= 57) \/ c = 43 \/ c = 47.

(** Percent-encoded text: each byte is written as itself or as '%' and two
    hexadecimal digits (either case). *)
Definition hexdigit (c : Z) : option Z :=
  if (48 <=? c) && (c <=? 57) then Some (c - 48)
  else if (97 <=? c) && (c <=? 102) then Some (c - 87)
  else if (65 <=? c) && (c <=? 70) then Some (c - 55)
  else None.
Inductive percent : list Z -> list Z -> Prop :=    (* text, bytes *)
| pct_nil : percent [] []
| pct_self c s d : c <> 37 -> percent s d -> percent (c :: s) (c :: d)
| pct_esc h l x y s d : hexdigit h = Some x -> hexdigit l = Some y -> percent s d ->
    percent (37 :: h :: l :: s) (16 * x + y :: d).

(** The text between the quotes of a quoted path. *)
Inductive quoted : list Z -> list Z -> Prop :=     (* text, bytes *)
| q_nil : quoted [] []
| q_self c s d : c <> 92 -> quoted s d -> quoted (c :: s) (c :: d)
| q_esc e c s d : In (e, c) [(34, 34); (92, 92); (97, 7); (98, 8); (116, 9); (110, 10); (118, 11); (102, 12); (114, 13)] ->
    quoted s d -> quoted (92 :: e :: s) (c :: d)
| q_oct a b e s d : 0 <= a <= 3 -> 0 <= b <= 7 -> 0 <= e <= 7 -> quoted s d ->
    quoted (92 :: 48 + a :: 48 + b :: 48 + e :: s) (a * 64 + b * 8 + e :: d).
