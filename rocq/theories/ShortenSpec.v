(** What an abbreviation length must achieve, independently of the code.  An id is
    the list of its 40 digit values. *)
From Verif Require Import Base OidSpec.

Definition id40 (v : list Z) : Prop := length v = 40%nat /\ Forall (fun d => 0 <= d < 16) v.
(** [text] is the hexadecimal text of the id [v] (followed by anything). *)
Definition text_of (text v : list Z) : Prop := bytes text /\ (40 <= length text)%nat /\ digits_of (firstn 40 text) v.

(** [n] digits tell all ids apart. *)
Definition distinguishes (n : nat) (ids : list (list Z)) : Prop :=
  forall a b, In a ids -> In b ids -> firstn n a = firstn n b -> a = b.
