(** What a written signature means, independently of the model's loops. *)
From Verif Require Import Base Str.
Local Open Scope Z_scope.

(** The bytes a name or an address may not begin or end with: blanks and control
    characters, and the punctuation , : ; < > double quote \ and single quote. *)
Definition crud (c : Z) : Prop := c <= 32 \/ In c (bs ",:;<>\'") \/ c = 34.
(** [core] is [s] without the crud around it. *)
Definition trims_to (s core : list Z) : Prop :=
  exists a b, s = a ++ core ++ b /\ Forall crud a /\ Forall crud b /\
    (forall c r, core = c :: r -> ~ crud c) /\ (forall c r, core = r ++ [c] -> ~ crud c).
Definition trimmed (s : list Z) : Prop := trims_to s s.
(** A C string of bytes. *)
Definition cstring (s : list Z) : Prop := Forall (fun c => 0 < c < 256) s.
Definition one_line (s : list Z) : Prop := ~ In 10 s.
(** Times that fit 32 bits, and zones no more than fourteen hours and 59 minutes away. *)
Definition time_ok (t : Z) : Prop := 0 <= t < 2 ^ 32.
Definition zone_ok (o : Z) : Prop := - (14 * 60 + 59) <= o <= 14 * 60 + 59.
(** The sign kept beside the offset, which tells -0000 from +0000. *)
Definition sign_ok (o sg : Z) : Prop := (o < 0 -> sg = ch "-") /\ (0 < o -> sg = ch "+") /\ (o = 0 -> sg = ch "-" \/ sg = ch "+").
