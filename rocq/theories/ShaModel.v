(** Hashing in pieces: SHA1DCUpdate and SHA1DCFinal of src/util/hash/sha1dc/sha1.c, and
    src/util/hash/rfc6234/sha224-256.c with src/util/hash/builtin.c. *)
From Verif Require Import Base.
Local Open Scope Z_scope.

Definition u8 (z : Z) : Z := Z.land z 255.
Definition u32 (z : Z) : Z := z mod 2 ^ 32.
Definition u64 (z : Z) : Z := z mod 2 ^ 64.
(** memcpy into a buffer. *)
Definition copy_at (buf : list Z) (off : nat) (d : list Z) : list Z := firstn off buf ++ d ++ skipn (off + length d) buf.

(** ** SHA-1 *)
Section Sha1.
Context {S : Type}.                       (* the chaining value and what collision detection keeps *)
Variable process : S -> list Z -> S.      (* sha1_process, sha1.c:1713-1763, on the 64 bytes of a block *)
Variable unaligned : bool.                (* SHA1DC_ALLOW_UNALIGNED_ACCESS *)
(** SHA1_CTX, sha1.h:39-55: total, buffer, and the rest. *)
Record sha1 := mksha1 { total : Z; st : S; buf : list Z }.
(** The while loop of SHA1DCUpdate, sha1.c:1838-1850. *)
Fixpoint blocks_loop (fuel : nat) (c : sha1) (d : list Z) : sha1 * list Z :=
  match fuel with
  | O => (c, d)
  | Datatypes.S n =>
      if (64 <=? length d)%nat then
        let b := firstn 64 d in
        blocks_loop n (mksha1 (u64 (total c + 64)) (process (st c) b) (if unaligned then buf c else copy_at (buf c) 0 b)) (skipn 64 d)
      else (c, d)
  end.
(** SHA1DCUpdate, sha1.c:1819-1856. *)
Definition sha1_update (c : sha1) (d : list Z) : sha1 :=
  match d with
  | [] => c
  | _ =>
      let lft := Z.to_nat (Z.land (total c) 63) in
      let fill := (64 - lft)%nat in
      let '(c, d, lft) :=
        if negb (lft =? 0)%nat && (fill <=? length d)%nat then
          let b := copy_at (buf c) lft (firstn fill d) in
          (mksha1 (u64 (total c + Z.of_nat fill)) (process (st c) b) b, skipn fill d, 0%nat)
        else (c, d, lft) in
      let '(c, d) := blocks_loop (length d) c d in
      match d with
      | [] => c
      | _ => mksha1 (u64 (total c + Z.of_nat (length d))) (st c) (copy_at (buf c) lft d)
      end
  end.
(** sha1_padding, sha1.c:1858-1864. *)
Definition sha1_padding : list Z := 128 :: repeat 0 63.
(** SHA1DCFinal, sha1.c:1866-1905, up to the output of the chaining value. *)
Definition sha1_final (c : sha1) : S :=
  let last := Z.land (total c) 63 in
  let padn := if last <? 56 then 56 - last else 120 - last in
  let c := sha1_update c (firstn (Z.to_nat padn) sha1_padding) in
  let t := u64 (Z.shiftl (u64 (total c - padn)) 3) in
  let b := copy_at (buf c) 56 (map (fun k => u8 (Z.shiftr t k)) [56; 48; 40; 32; 24; 16; 8; 0]) in
  process (st c) b.
(** SHA1DCInit, sha1.c:1765-1779; the buffer holds anything. *)
Definition sha1_init (iv : S) (garbage : list Z) : sha1 := mksha1 0 iv garbage.
End Sha1.

(** ** SHA-256 *)
(** SHA256Context, rfc6234/sha.h:147-159. *)
Record sha256 := mksha256 { hash : list Z; len_high : Z; len_low : Z; idx : nat; blk : list Z; computed : bool; corrupted : bool }.
Section Sha256.
Variable compress : list Z -> list Z -> list Z.    (* SHA224_256ProcessMessageBlock, 402-471: the new Intermediate_Hash *)
(** ...and the index set back, 470. *)
Definition process_block (c : sha256) : sha256 := mksha256 (compress (hash c) (blk c)) (len_high c) (len_low c) 0 (blk c) (computed c) (corrupted c).
(** Message_Block[Message_Block_Index++] = b. *)
Definition put (c : sha256) (b : Z) : sha256 := mksha256 (hash c) (len_high c) (len_low c) (Datatypes.S (idx c)) (upd (blk c) (idx c) b) (computed c) (corrupted c).
(** SHA224_256AddLength, 87-91, with length 8; addTemp (86) is assigned and read here. *)
Definition add_length (c : sha256) : sha256 :=
  let temp := len_low c in
  let low := u32 (len_low c + 8) in
  if low <? temp then
    let high := u32 (len_high c + 1) in
    mksha256 (hash c) high low (idx c) (blk c) (computed c) (corrupted c || (high =? 0))
  else mksha256 (hash c) (len_high c) low (idx c) (blk c) (computed c) (corrupted c).
(** The loop of SHA256Input, 257-267.  Writing past the block is UB. *)
Fixpoint input_loop (c : sha256) (d : list Z) : res sha256 :=
  match d with
  | [] => Ok c
  | b :: r =>
      if (64 <=? idx c)%nat then UB
      else
        let c := add_length (put c b) in
        input_loop (if negb (corrupted c) && (idx c =? 64)%nat then process_block c else c) r
  end.
(** SHA256Input, 248-271. *)
Definition sha256_input (c : sha256) (d : list Z) : res sha256 :=
  match d with
  | [] => Ok c
  | _ => if computed c then Err (-1) else if corrupted c then Err (-1) else input_loop c d
  end.
(** git_hash_sha256_update, builtin.c:33-51: pieces of at most UINT_MAX bytes. *)
Fixpoint sha256_update (fuel : nat) (c : sha256) (d : list Z) : res sha256 :=
  match d with
  | [] => Ok c
  | _ =>
      match fuel with
      | O => NoFuel
      | Datatypes.S n =>
          let chunk := Z.to_nat (Z.min (Z.of_nat (length d)) 4294967295) in
          do c <- sha256_input c (firstn chunk d) ;;
          if corrupted c then Err (-1) else sha256_update n c (skipn chunk d)
      end
  end.
(** while (Message_Block_Index < n) Message_Block[Message_Block_Index++] = 0. *)
Fixpoint zeros_to (k : nat) (c : sha256) : sha256 := match k with O => c | Datatypes.S k' => zeros_to k' (put c 0) end.
(** SHA224_256PadMessage, 527-560, called with Pad_Byte 0x80. *)
Definition pad_message (c : sha256) : sha256 :=
  let c := if (56 <=? idx c)%nat then let c := put c 128 in process_block (zeros_to (64 - idx c) c) else put c 128 in
  let c := zeros_to (56 - idx c) c in
  let b := copy_at (blk c) 56 (map (fun k => u8 (Z.shiftr (len_high c) k)) [24; 16; 8; 0] ++ map (fun k => u8 (Z.shiftr (len_low c) k)) [24; 16; 8; 0]) in
  process_block (mksha256 (hash c) (len_high c) (len_low c) (idx c) b (computed c) (corrupted c)).
(** SHA224_256ResultN, 583-600, with SHA224_256Finalize, 490-501. *)
Definition sha256_result (c : sha256) : res (list Z) :=
  if corrupted c then Err (-1)
  else
    let h := if computed c then hash c else hash (pad_message c) in
    Ok (map (fun i => u8 (Z.shiftr (nth (Nat.div i 4) h 0) (8 * (3 - Z.of_nat (Nat.modulo i 4))))) (seq 0 32)).
End Sha256.
(** SHA224_256Reset, 361-382. *)
Definition sha256_init (h0 garbage : list Z) : sha256 := mksha256 h0 0 0 0 garbage false false.

(** ** The compression function of SHA-256 *)
(** The macros, 53-80. *)
Definition rotr (n w : Z) : Z := Z.lor (Z.shiftr w n) (u32 (Z.shiftl w (32 - n))).
Definition ch (x y z : Z) : Z := Z.lxor (Z.land x y) (Z.land (2 ^ 32 - 1 - x) z).
Definition maj (x y z : Z) : Z := Z.lxor (Z.lxor (Z.land x y) (Z.land x z)) (Z.land y z).
Definition SIGMA0 w := Z.lxor (Z.lxor (rotr 2 w) (rotr 13 w)) (rotr 22 w).
Definition SIGMA1 w := Z.lxor (Z.lxor (rotr 6 w) (rotr 11 w)) (rotr 25 w).
Definition sigma0 w := Z.lxor (Z.lxor (rotr 7 w) (rotr 18 w)) (Z.shiftr w 3).
Definition sigma1 w := Z.lxor (Z.lxor (rotr 17 w) (rotr 19 w)) (Z.shiftr w 10).
(** K, 405-418. *)
Definition K256 : list Z := [
  0x428a2f98; 0x71374491; 0xb5c0fbcf; 0xe9b5dba5; 0x3956c25b; 0x59f111f1; 0x923f82a4; 0xab1c5ed5; 0xd807aa98; 0x12835b01;
  0x243185be; 0x550c7dc3; 0x72be5d74; 0x80deb1fe; 0x9bdc06a7; 0xc19bf174; 0xe49b69c1; 0xefbe4786; 0x0fc19dc6; 0x240ca1cc;
  0x2de92c6f; 0x4a7484aa; 0x5cb0a9dc; 0x76f988da; 0x983e5152; 0xa831c66d; 0xb00327c8; 0xbf597fc7; 0xc6e00bf3; 0xd5a79147;
  0x06ca6351; 0x14292967; 0x27b70a85; 0x2e1b2138; 0x4d2c6dfc; 0x53380d13; 0x650a7354; 0x766a0abb; 0x81c2c92e; 0x92722c85;
  0xa2bfe8a1; 0xa81a664b; 0xc24b8b70; 0xc76c51a3; 0xd192e819; 0xd6990624; 0xf40e3585; 0x106aa070; 0x19a4c116; 0x1e376c08;
  0x2748774c; 0x34b0bcb5; 0x391c0cb3; 0x4ed8aa4a; 0x5b9cca4f; 0x682e6ff3; 0x748f82ee; 0x78a5636f; 0x84c87814; 0x8cc70208;
  0x90befffa; 0xa4506ceb; 0xbef9a3f7; 0xc67178f2].
(** The message schedule, 428-436: W[0..t) so far, the latest word first. *)
Definition word_at (b : list Z) (t : nat) : Z :=
  Z.lor (Z.lor (Z.lor (Z.shiftl (nth (4 * t) b 0) 24) (Z.shiftl (nth (4 * t + 1) b 0) 16)) (Z.shiftl (nth (4 * t + 2) b 0) 8)) (nth (4 * t + 3) b 0).
Fixpoint extend (n : nat) (w : list Z) : list Z :=
  match n with
  | O => w
  | Datatypes.S n' => extend n' (u32 (sigma1 (nth 1 w 0) + nth 6 w 0 + sigma0 (nth 14 w 0) + nth 15 w 0) :: w)
  end.
Definition schedule (b : list Z) : list Z := rev (extend 48 (rev (map (word_at b) (seq 0 16)))).
(** The rounds, 447-458. *)
Definition round256 (s : list Z) (kw : Z * Z) : list Z :=
  match s with
  | [a; b; c; d; e; f; g; h] =>
      let temp1 := u32 (h + SIGMA1 e + ch e f g + fst kw + snd kw) in
      let temp2 := u32 (SIGMA0 a + maj a b c) in
      [u32 (temp1 + temp2); a; b; c; u32 (d + temp1); e; f; g]
  | _ => s
  end.
(** SHA224_256ProcessMessageBlock, 402-471. *)
Definition compress256 (h : list Z) (b : list Z) : list Z :=
  map (fun xy : Z * Z => u32 (fst xy + snd xy)) (combine h (fold_left round256 (combine K256 (schedule b)) h)).
(** SHA256_H0, 110-113. *)
Definition H256 : list Z := [0x6A09E667; 0xBB67AE85; 0x3C6EF372; 0xA54FF53A; 0x510E527F; 0x9B05688C; 0x1F83D9AB; 0x5BE0CD19].

(** ** Two threads *)
(** addTemp (86) is one static variable for all threads.  A thread hashing [data] with its own
    context takes two steps for a byte: it stores the byte and assigns addTemp, then adds to the
    length and reads addTemp again. *)
Record thread := mkthread { t_ctx : sha256; t_data : list Z; t_mid : bool }.
Section Threads.
Variable compress : list Z -> list Z -> list Z.
Definition add_length_shared (temp : Z) (c : sha256) : sha256 :=
  let low := u32 (len_low c + 8) in
  if low <? temp then
    let high := u32 (len_high c + 1) in
    mksha256 (hash c) high low (idx c) (blk c) (computed c) (corrupted c || (high =? 0))
  else mksha256 (hash c) (len_high c) low (idx c) (blk c) (computed c) (corrupted c).
Definition thread_step (temp : Z) (t : thread) : Z * thread :=
  if t_mid t then
    let c := add_length_shared temp (t_ctx t) in
    (temp, mkthread (if negb (corrupted c) && (idx c =? 64)%nat then process_block compress c else c) (t_data t) false)
  else match t_data t with
       | [] => (temp, t)
       | b :: r => (len_low (t_ctx t), mkthread (put (t_ctx t) b) r true)
       end.
(** A schedule says which of the two runs next. *)
Fixpoint run_threads (sched : list bool) (temp : Z) (a b : thread) : Z * thread * thread :=
  match sched with
  | [] => (temp, a, b)
  | true :: r => let '(temp, a) := thread_step temp a in run_threads r temp a b
  | false :: r => let '(temp, b) := thread_step temp b in run_threads r temp a b
  end.
End Threads.
