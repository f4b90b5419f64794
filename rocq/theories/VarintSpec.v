(** What a varint is: a bijective base-128 numeral, most significant digit first,
    in which every byte but the last has its top bit set. *)
From Verif Require Import Base.

Inductive varint_code : list Z -> Z -> Prop :=
| vc_last b : 0 <= b < 128 -> varint_code [b] b
| vc_more b l v :
    128 <= b < 256 -> varint_code l v ->
    varint_code (b :: l) ((b - 128 + 1) * 128 ^ Z.of_nat (length l) + v).
