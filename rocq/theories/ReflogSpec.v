(** What a reflog is: a list of entries, newest first, each starting where the one
    before it ended. *)
From Verif Require Import Base Str IntSpec SigModel SigSpec OidSpec ReflogModel.
Local Open Scope Z_scope.

(** [v] lists what git_reflog_entry_byindex shows for 0, 1, 2, ... *)
Definition shows (log v : list entry) : Prop := forall i, byindex log i = nth_error v i.
(** Newest first: an entry's old id is the new id of the next older one; the oldest starts
    from the zero id. *)
Definition linked (size : nat) (v : list entry) : Prop :=
  forall i e, nth_error v i = Some e ->
    e_old e = match nth_error v (S i) with Some p => e_new p | None => repeat 0 size end.

(** [core] is [m] without the white space at its end. *)
Definition rstripped (m core : list Z) : Prop :=
  exists ws, m = core ++ ws /\ Forall space ws /\ (forall p c, core = p ++ [c] -> ~ space c).
(** A message is kept as one line: newlines become blanks, blanks at the end go, and an
    empty message is no message. *)
Definition kept (msg msg' : option (list Z)) : Prop :=
  match msg with
  | None => msg' = None
  | Some m => exists core, rstripped (map (fun c => if c =? 10 then 32 else c) m) core /\
                msg' = match core with [] => None | _ => Some core end
  end.
(** Messages a reflog file can hold: no newline right before a last visible byte. *)
Definition msg_ok (msg : option (list Z)) : Prop :=
  match msg with None => True | Some m => cstring m /\ forall p c, m = p ++ [10; c] -> space c end.
