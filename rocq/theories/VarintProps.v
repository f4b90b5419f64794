(** C01: variable-length integers. *)
From Verif Require Import Base VarintModel VarintSpec VarintProofs.

(** Decoding reads exactly the numeral at the front of the buffer, whatever
    follows; a numeral that does not fit 64 bits is reported (length 0). *)
Theorem varint_decode_exact : forall code value rest,
  varint_code code value ->
  decode_varint (code ++ rest) =
  if value <? 2 ^ 64 then Ok (value, length code) else Ok (0, O).
Proof. exact decode_code. Qed.
Print Assumptions varint_decode_exact.

(** A decode that reports a nonzero length really consumed a numeral of that
    length denoting that value, and the value fits. *)
Theorem varint_decode_sound : forall buf value n,
  bytes buf -> decode_varint buf = Ok (value, n) -> (0 < n)%nat ->
  exists code rest, buf = code ++ rest /\ n = length code /\
                    varint_code code value /\ value < 2 ^ 64.
Proof. exact decode_inv. Qed.
Print Assumptions varint_decode_sound.

(** Encoding any 64-bit value gives its numeral when the buffer is large enough
    (or absent: then only the length), and -1 with nothing stored otherwise. *)
Theorem varint_encode_exact : forall value, 0 <= value < 2 ^ 64 ->
  exists code, varint_code code value /\
    encode_varint None value = Ok (Z.of_nat (length code), []) /\
    (forall size, Z.of_nat (length code) <= size ->
       encode_varint (Some size) value = Ok (Z.of_nat (length code), code)) /\
    (forall size, size < Z.of_nat (length code) -> encode_varint (Some size) value = Ok (-1, [])).
Proof. exact encode_none. Qed.
Print Assumptions varint_encode_exact.

(** Numerals are unique, so encodings are canonical. *)
Theorem varint_code_unique : forall code1 code2 value,
  varint_code code1 value -> varint_code code2 value -> code1 = code2.
Proof. exact (fun c1 c2 v H1 H2 => code_unique c1 v H1 c2 H2). Qed.
Print Assumptions varint_code_unique.

(** Round trip. *)
Theorem varint_roundtrip : forall value size n code rest,
  0 <= value < 2 ^ 64 ->
  encode_varint (Some size) value = Ok (n, code) -> n <> -1 ->
  decode_varint (code ++ rest) = Ok (value, Z.to_nat n) /\ n = Z.of_nat (length code).
Proof.
  intros value size n code rest Hv He Hn.
  destruct (encode_none value Hv) as (c & Hc & _ & Hok & Hko).
  destruct (Z.le_gt_cases (Z.of_nat (length c)) size) as [Hs|Hs].
  - rewrite (Hok size Hs) in He. injection He as <- <-.
    split; [|reflexivity]. rewrite (decode_code c value rest Hc).
    change (2 ^ 64) with two64 in Hv.
    destruct (Z.ltb_spec value two64); [|lia]. rewrite Nat2Z.id. reflexivity.
  - rewrite (Hko size Hs) in He. injection He as <- <-. congruence.
Qed.
Print Assumptions varint_roundtrip.

(** The decoder has no end pointer; it never needs more than ten bytes, so any
    caller whose buffer has ten bytes left is safe on arbitrary contents. *)
Theorem varint_decode_reads_at_most_10 : forall buf,
  (10 <= length buf)%nat -> exists r, decode_varint buf = Ok r.
Proof. exact decode_safe_10. Qed.
Print Assumptions varint_decode_reads_at_most_10.

(** Non-vacuity and boundary vectors (tests/util/encoding.c). *)
Example varint_ex_65 : decode_varint [65] = Ok (65, 1%nat). Proof. reflexivity. Qed.
Example varint_ex_4 : decode_varint [254; 220; 186; 88; 89] = Ok (267869656, 4%nat).
Proof. vm_compute. reflexivity. Qed.
Example varint_ex_6 : decode_varint [170; 170; 254; 220; 186; 88; 89] = Ok (1489279344088, 6%nat).
Proof. vm_compute. reflexivity. Qed.
Example varint_ex_ovf :
  decode_varint [170; 170; 170; 170; 170; 170; 170; 254; 220; 186; 88; 89] = Ok (0, O).
Proof. vm_compute. reflexivity. Qed.
Example varint_ex_enc : encode_varint (Some 100) 1489279344088 = Ok (6, [170; 170; 254; 220; 186; 88]).
Proof. vm_compute. reflexivity. Qed.
Example varint_ex_max :
  encode_varint (Some 100) (2 ^ 64 - 1) =
  Ok (10, [128; 254; 254; 254; 254; 254; 254; 254; 254; 127]).
Proof. vm_compute. reflexivity. Qed.
Example varint_ex_code : varint_code [128; 0] 128.
Proof. exact (vc_more 128 [0] 0 ltac:(lia) (vc_last 0 ltac:(lia))). Qed.
Example varint_ex_overflow :
  decode_varint [128; 254; 254; 254; 254; 254; 254; 254; 254; 255; 0] = Ok (0, O).
Proof. vm_compute. reflexivity. Qed.
Example varint_ex_small_buf : encode_varint (Some 1) 128 = Ok (-1, []).
Proof. reflexivity. Qed.
