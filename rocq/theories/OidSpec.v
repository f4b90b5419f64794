(** Hexadecimal text of an object id, independently of the code. *)
From Verif Require Import Base.

Definition hexval (c : Z) : option Z :=
  if (48 <=? c) && (c <=? 57) then Some (c - 48)        (* '0'..'9' *)
  else if (97 <=? c) && (c <=? 102) then Some (c - 87)  (* 'a'..'f' *)
  else if (65 <=? c) && (c <=? 70) then Some (c - 55)   (* 'A'..'F' *)
  else None.

Definition digit (v : Z) : Z := if v <? 10 then 48 + v else 87 + v.

(** The nibbles of an id, most significant first. *)
Fixpoint nibbles (id : list Z) : list Z :=
  match id with [] => [] | b :: r => b / 16 :: b mod 16 :: nibbles r end.

(** The lower-case text of an id. *)
Definition hex_text (id : list Z) : list Z := map digit (nibbles id).

(** [digits_of s vs]: the text [s] consists of hex digits with values [vs]. *)
Definition digits_of (s vs : list Z) : Prop := Forall2 (fun c v => hexval c = Some v) s vs.

Definition oid_ok (size : nat) (id : list Z) : Prop := length id = size /\ bytes id.
