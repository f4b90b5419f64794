(** The packets of the protocol: four digits that give the length of the packet with the digits, then its bytes;
    four zeros are a flush. *)
From Verif Require Import Base Str OidSpec PktModel.

Inductive item := Flush | Line (pl : list Z).
Definition frame (pl : list Z) : list Z := let n := Z.of_nat (length pl) + 4 in hex_text [n / 256; n mod 256] ++ pl.
Definition item_text (i : item) : list Z := match i with Flush => bs "0000" | Line pl => frame pl end.
Definition text (l : list item) : list Z := concat (map item_text l).
Definition frameable (i : item) : Prop := match i with Flush => True | Line pl => pl <> [] /\ bytes pl /\ Z.of_nat (length pl) + 4 < 65536 end.

(** What reading the packets one after another gives, each looked at alone: the packets before the last flush
    asked for and what follows it. *)
Fixpoint expected (exp : bool) (flushes : nat) (d : pdata) (l : list item) (got : list pkt) : res (list pkt * list item) :=
  match l with
  | [] => Err (-20)
  | Flush :: r => if (flushes <=? 1)%nat then Ok (got, r) else expected exp (flushes - 1) d r got
  | Line pl :: r =>
      match payload exp pl (length pl) d with
      | Ok (KErr _, _) => Err (-1)
      | Ok (p, d) => expected exp flushes d r (got ++ [p])
      | Err e => Err e
      | UB => UB
      | NoFuel => NoFuel
      end
  end.

(** [pat] is found in [s ++ pat] only at its end. *)
Definition first_at (pat s : list Z) : Prop := forall u v, s ++ pat = u ++ pat ++ v -> u = s.
Definition nowhere (pat s : list Z) : Prop := forall u v, s <> u ++ pat ++ v.
Definition newline_or_not (nl : list Z) : Prop := nl = [] \/ nl = [10].

(** What is asked for: the references that are not there yet, the capabilities with the first. *)
Definition want_line (oid tail : list Z) : item := Line (bs "want " ++ hex_text oid ++ tail ++ [10]).
Definition shallow_line (oid : list Z) : item := Line (bs "shallow " ++ hex_text oid ++ [10]).
Definition have_line (oid : list Z) : item := Line (bs "have " ++ hex_text oid ++ [10]).
Definition wanted (refs : list (list Z * bool)) : list (list Z) := map fst (filter (fun r => negb (snd r)) refs).
Definition want_lines (caps : option (list Z)) (oids : list (list Z)) : list item :=
  match oids with [] => [] | o :: r => want_line o (match caps with Some c => 32 :: c | None => [] end) :: map (fun o => want_line o []) r end.

(** A list of references as a server sends it. *)
Definition ref_line (caps : option (list Z)) (r : list Z * list Z) : item := Line (hex_text (fst r) ++ 32 :: snd r ++ (match caps with Some c => 0 :: c | None => [] end) ++ [10]).
Definition advert (caps : list Z) (refs : list (list Z * list Z)) : list item :=
  match refs with [] => [Flush] | r :: rs => ref_line (Some caps) r :: map (ref_line None) rs ++ [Flush] end.
Definition advertised (caps : list Z) (refs : list (list Z * list Z)) : list pkt :=
  match refs with [] => [] | r :: rs => KRef (fst r) (snd r) (Some caps) :: map (fun r => KRef (fst r) (snd r) None) rs end.
Definition good_ref (size : nat) (r : list Z * list Z) : Prop := oid_ok size (fst r) /\ snd r <> [] /\ Forall (fun c => 32 < c < 256) (snd r) /\ (length (snd r) < 1000)%nat.
(** The capabilities name the format of ids, and a space follows. *)
Definition announces (exp : bool) (caps : list Z) (size : nat) : Prop :=
  exists fmt post, (fmt = bs "sha1" /\ size = 20%nat \/ exp = true /\ fmt = bs "sha256" /\ size = 32%nat) /\
  (caps = bs "object-format=" ++ fmt ++ 32 :: post \/
   (exists pre, caps = pre ++ bs " object-format=" ++ fmt ++ 32 :: post /\ ~ In 0 pre /\ first_at (bs " object-format=") pre /\ forall v, caps <> bs "object-format=" ++ v)).
