(** The git delta format, independently of the code that reads or writes it. *)
From Verif Require Import Base.

(** Sizes: little-endian base 128, all bytes but the last have the top bit set. *)
Inductive size_code : list Z -> Z -> Prop :=
| sc_last b : 0 <= b < 128 -> size_code [b] b
| sc_more b l v : 128 <= b < 256 -> size_code l v -> size_code (b :: l) (b - 128 + 128 * v).

Inductive instr :=
| Copy (off len : Z)
| Insert (data : list Z).

(** An optional operand byte of a copy instruction. *)
Definition opt_bytes (f : option Z) : list Z := match f with Some b => [b] | None => [] end.
Definition opt_val (f : option Z) : Z := match f with Some b => b | None => 0 end.
Definition opt_flag (bit : Z) (f : option Z) : Z := match f with Some _ => bit | None => 0 end.
Definition opt_ok (f : option Z) : Prop := match f with Some b => is_byte b | None => True end.

(** How an instruction is written down. *)
Inductive instr_code : instr -> list Z -> Prop :=
| ic_insert data :
    (1 <= length data <= 127)%nat -> bytes data ->
    instr_code (Insert data) (Z.of_nat (length data) :: data)
| ic_copy o0 o1 o2 o3 s0 s1 s2 :
    opt_ok o0 -> opt_ok o1 -> opt_ok o2 -> opt_ok o3 -> opt_ok s0 -> opt_ok s1 -> opt_ok s2 ->
    instr_code
      (Copy (opt_val o0 + 256 * opt_val o1 + 65536 * opt_val o2 + 16777216 * opt_val o3)
            (let n := opt_val s0 + 256 * opt_val s1 + 65536 * opt_val s2 in
             if n =? 0 then 65536 else n))
      ((128 + opt_flag 1 o0 + opt_flag 2 o1 + opt_flag 4 o2 + opt_flag 8 o3
        + opt_flag 16 s0 + opt_flag 32 s1 + opt_flag 64 s2)
       :: opt_bytes o0 ++ opt_bytes o1 ++ opt_bytes o2 ++ opt_bytes o3
       ++ opt_bytes s0 ++ opt_bytes s1 ++ opt_bytes s2).

(** What an instruction produces from a base, when it is in range. *)
Inductive produces (base : list Z) : instr -> list Z -> Prop :=
| pr_insert data : produces base (Insert data) data
| pr_copy off len pre chunk post :
    base = pre ++ chunk ++ post ->
    off = Z.of_nat (length pre) -> len = Z.of_nat (length chunk) ->
    produces base (Copy off len) chunk.

(** [delta_body base body out]: the bytes [body] are a sequence of instructions
    which, run on [base], produce [out]. *)
Inductive delta_body (base : list Z) : list Z -> list Z -> Prop :=
| db_nil : delta_body base [] []
| db_cons i code chunk body out :
    instr_code i code -> produces base i chunk -> delta_body base body out ->
    delta_body base (code ++ body) (chunk ++ out).
