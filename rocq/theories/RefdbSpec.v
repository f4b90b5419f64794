(** What a reference's value is, executions, and the discipline under which
    references keep their meaning. *)
From Verif Require Import Base Str RefdbModel.

(** The value a lookup finds when nothing happens meanwhile. *)
Definition val (s : rst) (r : rname) : option rv :=
  match r_loose s r with Some v => Some v | None => option_map Dir (r_packed s r) end.

(** The expectation of a conditional update: nothing expected, exactly this
    value, or -- the all-zero id -- no such reference (or the zero id itself). *)
Definition matches (old : option rv) (v : option rv) : Prop :=
  match old with
  | None => True
  | Some o => v = Some o \/ (v = None /\ exists z, o = Dir z /\ zero_oid z = true)
  end.

Definition started (pc : rpc) : Prop :=
  match pc with RIdle | RDone _ | RFound _ | RDead => False | _ => True end.

(** [q] is in the middle of packing / of deleting a reference. *)
Definition packing (prog : nat -> rop) (s : rst) (q : nat) : Prop := prog q = OCompress /\ started (r_pc s q).
Definition deleting (prog : nat -> rop) (s : rst) (q : nat) (r : rname) : Prop :=
  (exists old, prog q = ODelete r old) /\ started (r_pc s q).

(** The discipline: packing does not overlap with another packing or with a
    deletion; two deletions do not overlap if both references are packed. *)
Definition discipline (prog : nat -> rop) (s : rst) (p : nat) : Prop :=
  r_pc s p = RIdle ->
  (prog p = OCompress -> forall q, ~ packing prog s q /\ forall r, ~ deleting prog s q r) /\
  (forall r old, prog p = ODelete r old -> forall q, ~ packing prog s q /\
     forall r', deleting prog s q r' -> r_packed s r = None \/ r_packed s r' = None).

(** Executions, oldest event first; [g] = the discipline is observed. *)
Definition revent := (nat * rst * rst)%type.
Inductive rexec (g : bool) (prog : nat -> rop) (s0 : rst) : list revent -> rst -> Prop :=
| rexec_nil : rexec g prog s0 [] s0
| rexec_step tr s p c s' :
    rexec g prog s0 tr s -> (g = true -> discipline prog s p) ->
    rstep s p prog c = Some s' ->
    rexec g prog s0 (tr ++ [(p, s, s')]) s'.

(** Nobody has started; locks left over by crashed processes are allowed. *)
Definition rinit (s : rst) : Prop := forall p, r_pc s p = RIdle.

(** What the operation of process [p] is meant to do to its reference. *)
Definition intent (o : rop) : option (rname * option rv * option rv) :=
  match o with
  | OWrite r new _ old => Some (r, old, Some new)
  | ODelete r old => Some (r, old, None)
  | _ => None
  end.

(** [v] was the value of [r] at some moment during the activity of [p]: in a
    state at or after the first event of [p]. *)
Definition during (tr : list revent) (p : nat) (r : rname) (v : option rv) : Prop :=
  exists tr1 s1 s1' tr2, tr = tr1 ++ (p, s1, s1') :: tr2 /\
    (val s1 r = v \/ val s1' r = v \/ exists q s s', In (q, s, s') tr2 /\ val s' r = v).

(** The reference whose lock file a process at [pc] has created and not yet
    removed or given up. *)
Definition holds (o : rop) (pc : rpc) : option rname :=
  match o with
  | OWrite r _ _ _ =>
      match pc with RIdle | RExP | RLock | RDone _ | RFound _ | RDead => None | _ => Some r end
  | ODelete r _ =>
      match pc with RIdle | RDone _ | RFound _ | RDead => None | _ => Some r end
  | OCompress => match pc with RCRemRead r _ _ | RCRemUnlink r _ _ | RCRemUnlock r _ _ => Some r | _ => None end
  | OLookup _ => None
  end.
Definition holds_lock (prog : nat -> rop) (s : rst) (p : nat) (r : rname) : Prop :=
  holds (prog p) (r_pc s p) = Some r.

(** A new value other than the all-zero id, which the code takes for "no such
    reference". *)
Definition not_zero (v : rv) : Prop := forall z, v = Dir z -> zero_oid z = false.
