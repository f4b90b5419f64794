(** Numerals in text and their mathematical value. *)
From Verif Require Import Base Str.

Definition space (c : Z) : Prop := In c (bs " ") \/ 9 <= c <= 13.
(** [digit_is b c v]: byte [c] is a digit of base [b] with value [v]. *)
Definition digit_is (b c v : Z) : Prop :=
  v < b /\ ((ch "0" <= c <= ch "9" /\ v = c - ch "0") \/
            (ch "a" <= c <= ch "z" /\ v = c - ch "a" + 10) \/
            (ch "A" <= c <= ch "Z" /\ v = c - ch "A" + 10)).
Inductive digits (b : Z) : list Z -> Z -> Prop :=     (* a non-empty digit string and its value *)
| D1 c v : digit_is b c v -> digits b [c] v
| DS s n c v : digits b s n -> digit_is b c v -> digits b (s ++ [c]) (n * b + v).

Definition hexprefix (s : list Z) : Prop := exists c r, s = ch "0" :: c :: r /\ (c = ch "x" \/ c = ch "X") /\ r <> [].
(** The base in force, and the prefix to skip, for the text [t] after the sign. *)
Definition base_of (base : Z) (t : list Z) (b : Z) (px : list Z) : Prop :=
  (base <> 0 -> b = base) /\
  (base = 0 -> (hexprefix t /\ b = 16) \/ (~ hexprefix t /\ starts_with (bs "0") t /\ b = 8) \/ (~ starts_with (bs "0") t /\ b = 10)) /\
  0 <= b <= 36 /\
  ((b = 16 /\ hexprefix t /\ px = firstn 2 t) \/ (~ (b = 16 /\ hexprefix t) /\ px = [])).

(** Spaces, an optional sign, an optional 0x, and the longest run of digits. *)
Definition numeral (base : Z) (s : list Z) (v : Z) (rest : list Z) : Prop :=
  exists ws sg px ds b m,
    s = ws ++ sg ++ px ++ ds ++ rest /\ Forall space ws /\
    In sg [[]; bs "+"; bs "-"] /\ base_of base (px ++ ds ++ rest) b px /\
    digits b ds m /\ (forall c r d, rest = c :: r -> ~ digit_is b c d) /\
    v = if leqb sg (bs "-") then - m else m.

Definition int64 (v : Z) : Prop := - 2 ^ 63 <= v < 2 ^ 63.
Definition int32 (v : Z) : Prop := - 2 ^ 31 <= v < 2 ^ 31.
(** The factor of a size suffix. *)
Definition suffix (s : list Z) (f : Z) : Prop :=
  (s = [] /\ f = 1) \/ (In s [bs "k"; bs "K"] /\ f = 1024) \/ (In s [bs "m"; bs "M"] /\ f = 1024 ^ 2) \/ (In s [bs "g"; bs "G"] /\ f = 1024 ^ 3).
