(** Pack index files, from their format description (git's
    gitformat-pack documentation), independently of the code. *)
From Verif Require Import Base CStr OidSpec.

(** An object of the pack: its id and its offset in the pack file. *)
Definition pobj : Type := (list Z * Z)%type.

(** [v] as [k] bytes, most significant first. *)
Fixpoint bigend (k : nat) (v : Z) : list Z :=
  match k with O => [] | S k' => bigend k' (v / 256) ++ [v mod 256] end.

(** The first table: entry [b] is the number of objects whose first id byte is at
    most [b]. *)
Definition count_upto (objs : list pobj) (b : Z) : Z :=
  Z.of_nat (length (filter (fun o => hd 0 (fst o) <=? b) objs)).
Definition fan_table (objs : list pobj) : list Z :=
  concat (map (fun i => bigend 4 (count_upto objs (Z.of_nat i))) (seq 0 256)).

(** Distinct ids in increasing order. *)
Fixpoint increasing (ids : list (list Z)) : Prop :=
  match ids with
  | a :: ((b :: _) as r) => lex a b = Lt /\ increasing r
  | _ => True
  end.

Definition objs_ok (osz : nat) (objs : list pobj) : Prop :=
  Forall (fun o => oid_ok osz (fst o)) objs /\ increasing (map fst objs).

(** Version 1: table, then offset and id of every object, then two checksums. *)
Definition version1 (osz : nat) (objs : list pobj) (data : list Z) : Prop :=
  objs_ok osz objs /\ Forall (fun o => 0 <= snd o < two32) objs /\
  exists sums, length sums = (2 * osz)%nat /\ bytes sums /\
    data = fan_table objs ++ concat (map (fun o => bigend 4 (snd o) ++ fst o) objs) ++ sums.

(** Version 2: magic, version, table, ids, CRCs, a 4-byte word per object that is
    its offset or (top bit set) the number of an entry in the table of 8-byte
    offsets that follows, two checksums. *)
Definition offset_word (longs : list Z) (o : pobj) (w : Z) : Prop :=
  (w = snd o /\ 0 <= snd o < 2147483648) \/
  (exists k, w = 2147483648 + Z.of_nat k /\ nth_error longs k = Some (snd o) /\ 0 <= snd o < 9223372036854775808).
Definition version2 (osz : nat) (objs : list pobj) (data : list Z) : Prop :=
  objs_ok osz objs /\
  exists crcs words longs sums,
    length crcs = (4 * length objs)%nat /\ bytes crcs /\
    Forall2 (offset_word longs) objs words /\ (length longs <= length objs - 1)%nat /\
    length sums = (2 * osz)%nat /\ bytes sums /\
    data = [255; 116; 79; 99] ++ [0; 0; 0; 2] ++ fan_table objs ++ concat (map fst objs) ++ crcs ++
           concat (map (bigend 4) words) ++ concat (map (bigend 8) longs) ++ sums.

(** What a lookup must say about the digits [vs] (values 0..15, most significant
    first): the object whose id starts with them. *)
Definition starts_with (vs : list Z) (o : pobj) : bool :=
  if list_eq_dec Z.eq_dec (firstn (length vs) (nibbles (fst o))) vs then true else false.
Inductive answer : Type := NotFound | Found (o : pobj) | Ambiguous.
Definition lookup_spec (objs : list pobj) (vs : list Z) : answer :=
  match filter (starts_with vs) objs with [] => NotFound | [o] => Found o | _ => Ambiguous end.
(** As a return value: GIT_ENOTFOUND, the offset and the full id, GIT_EAMBIGUOUS. *)
Definition answer_res (a : answer) : res (Z * list Z) :=
  match a with NotFound => Err (-3) | Found o => Ok (snd o, fst o) | Ambiguous => Err (-5) end.
