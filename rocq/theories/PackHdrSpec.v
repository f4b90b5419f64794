(** The object header of a pack entry, from the format description: the first byte
    holds the type in bits 4..6 and the low four bits of the size, the following
    bytes seven more bits each, least significant first; every byte but the last
    has its top bit set. *)
From Verif Require Import Base.

Fixpoint le128 (l : list Z) : Z := match l with [] => 0 | b :: r => b mod 128 + 128 * le128 r end.

Inductive continued : list Z -> Prop :=
| ct_last b : 0 <= b < 128 -> continued [b]
| ct_more b l : 128 <= b < 256 -> continued l -> continued (b :: l).

Definition header_code (h : list Z) (ty size : Z) : Prop :=
  continued h /\ exists b r, h = b :: r /\ ty = (b / 16) mod 8 /\ size = b mod 16 + 16 * le128 r.
