(** The documented rules for reference names, stated on strings. *)
From Verif Require Import Base Str RefnameModel.

(** A byte that may not occur in a reference name. *)
Definition forbidden (c : Z) : Prop := c <= 32 \/ In c (bs "~^:\?[").

(** A path component is acceptable. *)
Definition component_ok (s : list Z) : Prop :=
  s <> [] /\ ~ In (ch "/") s /\ ~ starts_with (bs ".") s /\ ~ ends_with (bs ".lock") s /\
  ~ contains (bs "..") s /\ ~ contains (bs "@{") s.

(** An all-caps name such as HEAD or FETCH_HEAD; a leading caret is ignored. *)
Definition all_caps (s : list Z) : Prop :=
  exists t, (s = t \/ s = ch "^" :: t) /\ Forall (fun c => ch "A" <= c <= ch "Z" \/ c = ch "_") t /\
    ~ starts_with (bs "_") s /\ ~ ends_with (bs "_") s.

Definition count (c : Z) (s : list Z) : nat := length (filter (Z.eqb c) s).

(** The rules; [caret] = the very first character may be a caret (negative refspec). *)
Definition refname_ok (fl : rflags) (n : list Z) : Prop :=
  let segs := split (ch "/") n in
  Forall component_ok segs /\
  (Forall (fun c => ~ forbidden c) n \/ exists r, n = ch "^" :: r /\ Forall (fun c => ~ forbidden c) r) /\
  (count (ch "*") n <= if f_pattern fl then 1 else 0)%nat /\
  ~ ends_with (bs ".") n /\
  (length segs = 1%nat -> f_onelevel fl = true /\ (f_shorthand fl = true \/ all_caps n \/ (f_pattern fl = true /\ n = bs "*"))) /\
  (1 < length segs -> ~ all_caps (hd [] segs))%nat.

(** Empty components removed. *)
Definition squeeze (n : list Z) : list Z := join (ch "/") (filter (fun s => negb (leqb s [])) (split (ch "/") n)).
