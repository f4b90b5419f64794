(** Multi-pack-index files, what they must say, independently of the code.  Uses the records
    [mpack] (a pack given to the writer), [mentry] and the functions of the API only. *)
From Verif Require Import Base Arr CStr Str OidSpec PackIdxSpec CgSpec MidxModel.

(** A pack: its name is a stem followed by .pack; the stem is not empty and has no byte 0, slash,
    backslash, dot or semicolon; ids have 20 bytes and offsets fit in 63 bits. *)
Definition stem_ok (s : list Z) : Prop := s <> [] /\ bytes s /\ ~ In 0 s /\ ~ In 46 s /\ ~ In 47 s /\ ~ In 92 s.
Definition pack_ok (p : mpack) : Prop :=
  (exists s, stem_ok s /\ mp_name p = s ++ bs ".pack") /\
  Forall (fun o => oid_ok 20 (fst o) /\ 0 <= snd o < 9223372036854775808) (mp_objs p).
(** The packs: no two with one name, and at least one object. *)
Definition packs_ok (packs : list mpack) : Prop :=
  Forall pack_ok packs /\ List.NoDup (map mp_name packs) /\ exists p, In p packs /\ mp_objs p <> [].
Definition objects (packs : list mpack) : Z := fold_right Z.add 0 (map (fun p => Z.of_nat (length (mp_objs p))) packs).
Definition name_bytes (packs : list mpack) : Z := fold_right Z.add 0 (map (fun p => Z.of_nat (length (mp_name p))) packs).

(** An object with the id [id] is in one of the packs. *)
Definition present (packs : list mpack) (id : list Z) : Prop := exists p off, In p packs /\ In (id, off) (mp_objs p).
(** The entry points at an occurrence of its id: the pack it names has the object there. *)
Definition right (f : mxfile) (packs : list mpack) (e : mentry) : Prop :=
  exists p s, In p packs /\ mp_name p = s ++ bs ".pack" /\ 0 <= me_pack e /\
    nth_error (m_packs f) (Z.to_nat (me_pack e)) = Some (s ++ bs ".idx") /\ In (me_id e, me_off e) (mp_objs p).

(** What the file answers. *)
Definition mx_answers (f : mxfile) (packs : list mpack) : Prop :=
  (forall id, present packs id -> exists e, mx_find f id 40 = Ok e /\ me_id e = id /\ right f packs e) /\
  (forall vs q, query vs q ->
     match mx_find f q (length vs) with
     | Ok e => begins vs (me_id e) /\ right f packs e /\ (forall id, present packs id -> begins vs id -> id = me_id e)
     | Err x => (x = -3 /\ forall id, present packs id -> ~ begins vs id) \/
                (x = -5 /\ exists a b, present packs a /\ present packs b /\ a <> b /\ begins vs a /\ begins vs b)
     | _ => False
     end) /\
  (exists l, mx_foreach f = Ok l /\ increasing l /\ forall id, In id l <-> present packs id).
