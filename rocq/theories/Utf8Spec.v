(** UTF-8, independently of the code. *)
From Verif Require Import Base.

(** The encoding of a code point (RFC 3629). *)
Definition encode_cp (u : Z) : list Z :=
  if u <? 128 then [u]
  else if u <? 2048 then [192 + u / 64; 128 + u mod 64]
  else if u <? 65536 then [224 + u / 4096; 128 + u / 64 mod 64; 128 + u mod 64]
  else [240 + u / 262144; 128 + u / 4096 mod 64; 128 + u / 64 mod 64; 128 + u mod 64].

(** The characters the scanner accepts: Unicode scalar values that are not
    noncharacters (U+FDD0..U+FDEF and the last two of each plane). *)
Definition scalar (u : Z) : Prop := 0 <= u < 1114112 /\ ~ (55296 <= u < 57344).
Definition noncharacter (u : Z) : Prop := 64976 <= u < 65008 \/ 65534 <= u mod 65536.
Definition accepted (u : Z) : Prop := scalar u /\ ~ noncharacter u.

(** A structurally complete sequence: a lead byte and as many continuation
    bytes as it announces. *)
Definition is_cont (b : Z) : Prop := 128 <= b < 192.
Inductive sequence : list Z -> Prop :=
| seq1 a : 0 <= a < 128 -> sequence [a]
| seq2 a b : 192 <= a < 224 -> is_cont b -> sequence [a; b]
| seq3 a b c : 224 <= a < 240 -> is_cont b -> is_cont c -> sequence [a; b; c]
| seq4 a b c d : 240 <= a < 248 -> is_cont b -> is_cont c -> is_cont d -> sequence [a; b; c; d].
