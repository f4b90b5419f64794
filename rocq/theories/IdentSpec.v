(** The ident keyword, independently of the code. *)
From Verif Require Import Base Str.

(** The first $Id in [s], with [a] before it and [r] behind it. *)
Definition first_id (s a r : list Z) : Prop :=
  s = a ++ bs "$Id" ++ r /\ forall a' r', s = a' ++ bs "$Id" ++ r' -> (length a <= length a')%nat.
Definition no_id (s : list Z) : Prop := forall a r, s <> a ++ bs "$Id" ++ r.
(** [s] has the keyword: the first $Id up to the next dollar, [m] between; [a] before and [b] behind. *)
Definition keyword (s a m b : list Z) : Prop := first_id s a (m ++ bs "$" ++ b) /\ ~ In (ch "$") m.
(** [s] has no $Id, but its last four bytes begin and end with a dollar. *)
Definition odd_end (s a : list Z) : Prop := no_id s /\ exists x y, s = a ++ [ch "$"; x; y; ch "$"].

(** Binary contents: a mark of UTF-16 or UTF-32, a NUL, or more than one control byte in 128 printable
    ones (backspace, form feed and escape count as printable; a mark of UTF-8 is passed over). *)
Definition printing (c : Z) : Prop := 32 <= c < 127 \/ 127 < c \/ c = 8 \/ c = 12 \/ c = 27.
Definition control (c : Z) : Prop := 0 <= c <= 8 \/ 14 <= c < 32 \/ c = 127.
(** [n] bytes of [s] are in [p]. *)
Inductive amount (p : Z -> Prop) : list Z -> Z -> Prop :=
| amount_nil : amount p [] 0
| amount_in c s n : p c -> amount p s n -> amount p (c :: s) (n + 1)
| amount_out c s n : ~ p c -> amount p s n -> amount p (c :: s) n.
Definition binary (s : list Z) : Prop :=
  (exists mark, In mark [[0; 0; 254; 255]; [254; 255]; [255; 254]] /\ starts_with mark s) \/
  exists body, (s = [239; 187; 191] ++ body \/ (body = s /\ ~ starts_with [239; 187; 191] s)) /\
    (In 0 body \/ exists p n, amount printing body p /\ amount (fun c => control c /\ ~ printing c) body n /\ p / 128 < n).
