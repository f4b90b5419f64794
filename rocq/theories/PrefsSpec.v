(** What the packed-refs file holds. *)
From Verif Require Import Base Str CStr OidSpec PrefsModel.

(** A reference in the file: its name, its id and, for a tag, the id of the tagged object. *)
Record ent := mke { e_name : list Z; e_oid : list Z; e_peel : option (list Z) }.
(** Names as git allows them have no control characters and no spaces. *)
Definition good_name (n : list Z) : Prop := n <> [] /\ Forall (fun c => 32 < c < 256) n.
Definition good_ent (size : nat) (e : ent) : Prop :=
  good_name (e_name e) /\ oid_ok size (e_oid e) /\ match e_peel e with Some p => oid_ok size p /\ Exists (fun c => c <> 0) p | None => True end.
Fixpoint ascending (l : list ent) : Prop :=
  match l with
  | [] => True
  | e :: r => Forall (fun f => lex (e_name e) (e_name f) = Lt) r /\ ascending r
  end.
Definition good_list (size : nat) (l : list ent) : Prop := Forall (good_ent size) l /\ ascending l.

(** The text of the file: a header, then for each reference a line with id and name, and for a tag another
    line with the tagged id after a caret. *)
Definition line (e : ent) : list Z := hex_text (e_oid e) ++ 32 :: e_name e.
Definition record (e : ent) : list Z := line e ++ 10 :: match e_peel e with Some p => 94 :: hex_text p ++ [10] | None => [] end.
Definition body (l : list ent) : list Z := concat (map record l).
Definition file_text (l : list ent) : list Z := bs "# pack-refs with: peeled fully-peeled sorted " ++ 10 :: body l.

(** A repository whose packed-refs file is absent or of this form. *)
Definition packs (size : nat) (st : refs) (l : list ent) : Prop := good_list size l /\ (packed st = file_text l \/ packed st = [] /\ l = []).
Definition good_refs (size : nat) (st : refs) : Prop :=
  (exists l, packs size st l) /\ NoDup (map fst (loose st)) /\ Forall (fun f => good_name (fst f) /\ Forall (fun c => 0 <= c < 256) (snd f)) (loose st).
(** What a reference points to. *)
Definition points_to (r : res (target * option (list Z))) : res target := do x <- r ;; Ok (fst x).

(** Kinds of loose files, and an object database whose tags name objects. *)
Definition symbolic (content : list Z) : Prop := exists t, content = bs "ref: " ++ t.
Definition lockfile (name : list Z) : Prop := exists p, name = p ++ bs ".lock".
Definition tags_ok (size : nat) (odb : list Z -> obj) : Prop := forall o t, odb o = OTag t -> oid_ok size t /\ Exists (fun c => c <> 0) t.
(** Packing is possible: every loose file that is a reference to an object can be read, and the object exists. *)
Definition packable (size : nat) (odb : list Z -> obj) (st : refs) : Prop :=
  forall name content, In (name, content) (loose st) -> ~ lockfile name -> ~ symbolic content -> exists o, lookup size st name = Ok (TOid o, None) /\ odb o <> OMissing.
