(** What a line of a mailmap file says. *)
From Verif Require Import Base Str MmapSpec.

Definition space (c : Z) : Prop := c = 32 \/ 9 <= c <= 13.
Definition blank (s : list Z) : Prop := Forall space s.
(** [t] is [s] without the spaces at its end. *)
Definition trimmed (s t : list Z) : Prop := exists w, s = t ++ w /\ blank w /\ (t = [] \/ exists u c, t = u ++ [c] /\ ~ space c).
(** A piece in which the searched character and comments do not occur. *)
Definition clean (stop : Z) (s : list Z) : Prop := Forall (fun c => c <> stop /\ c <> ch "#") s.
(** Nothing but spaces and a comment. *)
Definition idle (s : list Z) : Prop := exists w c, s = w ++ c /\ blank w /\ (c = [] \/ exists d, c = ch "#" :: d).
(** A name before its email: spaces, the name, <, the email, >. *)
Definition person (s name email rest : list Z) : Prop :=
  exists w n, s = w ++ n ++ [ch "<"] ++ email ++ [ch ">"] ++ rest /\ blank w /\ (n = [] \/ exists c r, n = c :: r /\ ~ space c) /\
    clean (ch "<") n /\ clean (ch ">") email /\ trimmed n name.
(** One person: who has this email gets this name.  Two: who has the second name and email gets the
    first. *)
Definition says (line : list Z) (a : madd) : Prop :=
  (exists name email rest, person line name email rest /\ idle rest /\ a = mkadd (Some name) (Some []) (Some []) email) \/
  (exists name email rest name2 email2 rest2, person line name email rest /\ person rest name2 email2 rest2 /\ idle rest2 /\
     a = mkadd (Some name) (Some email) (Some name2) email2).
Definition says_maybe (line : list Z) (o : option madd) : Prop :=
  match o with Some a => says line a | None => forall a, ~ says line a end.
Definition somes {A} (l : list (option A)) : list A := concat (map (fun o => match o with Some a => [a] | None => [] end) l).
