(** What FETCH_HEAD holds. *)
From Verif Require Import Base CStr Str OidSpec FheadModel.

(** A ref that can be written: its name as names of refs are, and a url of one line.  The url of HEAD
    must not look like the description of a branch or tag. *)
Definition url_ok (u : list Z) : Prop := Forall (fun c => 0 < c < 256 /\ c <> ch "010") u.
Definition fh_good (size : nat) (r : fhref) : Prop :=
  oid_ok size (fh_oid r) /\
  fh_name r <> [] /\ Forall (fun c => ch " " < c < 256) (fh_name r) /\
  ~ starts_with (bs "refs/heads//") (fh_name r) /\ ~ starts_with (bs "refs/tags//") (fh_name r) /\
  url_ok (fh_url r) /\
  (fh_name r = bs "HEAD" -> forall p, In p [bs "branch '"; bs "tag '"; bs "'"] -> ~ starts_with p (fh_url r)).
(** What a reader is told about a ref: everything, except that HEAD has no name and is to be merged. *)
Definition told (r : fhref) : fhev :=
  if leqb (fh_name r) (bs "HEAD") then mkev None (Some (fh_url r)) (fh_oid r) true
  else mkev (Some (fh_name r)) (Some (fh_url r)) (fh_oid r) (fh_merge r).
(** Refs to be merged come first; then by name. *)
Definition fh_before (a b : fhref) : Prop :=
  (fh_merge a = true /\ fh_merge b = false) \/ (fh_merge a = fh_merge b /\ lex (fh_name a) (fh_name b) <> Gt).
Fixpoint fh_ordered (l : list fhref) : Prop :=
  match l with [] => True | r :: l => (forall x, In x l -> fh_before r x) /\ fh_ordered l end.
