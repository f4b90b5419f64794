(** The Secure Hash Standard's way from a compression function to a digest. *)
From Verif Require Import Base.
Local Open Scope Z_scope.

Definition be64 (n : Z) : list Z := map (fun k => (n / 2 ^ k) mod 256) [56; 48; 40; 32; 24; 16; 8; 0].
Definition be32 (n : Z) : list Z := map (fun k => (n / 2 ^ k) mod 256) [24; 16; 8; 0].
Definition size (m : list Z) : Z := Z.of_nat (length m).
(** A bit 1, the least number of zero bits, and the length in bits: a multiple of 64 bytes. *)
Definition pad (m : list Z) : list Z := m ++ [128] ++ repeat 0 (Z.to_nat ((55 - size m) mod 64)) ++ be64 ((8 * size m) mod 2 ^ 64).
Fixpoint cut (n : nat) (l : list Z) : list (list Z) := match n with O => [] | S k => firstn 64 l :: cut k (skipn 64 l) end.
Definition digest {T} (compress : T -> list Z -> T) (iv : T) (m : list Z) : T :=
  fold_left compress (cut (length (pad m) / 64) (pad m)) iv.
