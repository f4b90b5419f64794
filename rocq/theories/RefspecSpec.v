(** What a refspec string means. *)
From Verif Require Import Base Str RefspecModel.

(** Bytes without a special meaning in patterns. *)
Definition lit (s : list Z) : Prop := Forall (fun c => ~ In c (bs "*?[\")) s.
(** [x] is [a]*[b] with exactly one star and no other special byte. *)
Definition one_star (x a b : list Z) : Prop := x = a ++ ch "*" :: b /\ lit a /\ lit b.

(** [input] spells the refspec [s]: an optional plus, the source, and an optional colon and
    destination (the last colon counts). *)
Definition spells (input : list Z) (fetch : bool) (s : refspec) : Prop :=
  exists body, input = (if rs_force s then bs "+" else []) ++ body /\
    (rs_force s = false -> ~ starts_with (bs "+") body) /\
    rs_push s = negb fetch /\ rs_string s = input /\
    ((~ In (ch ":") body /\ rs_src s = body /\ rs_dst s = if fetch then None else Some body) \/
     (exists d, body = rs_src s ++ ch ":" :: d /\ ~ In (ch ":") d /\
        rs_dst s = if fetch then (match d with [] => None | _ => Some d end) else Some d)).

(** Negative refspecs: fetch only, no destination, the source begins with a caret. *)
Definition negative (fetch : bool) (s : refspec) : Prop :=
  fetch = true /\ rs_dst s = None /\ starts_with (bs "^") (rs_src s).
