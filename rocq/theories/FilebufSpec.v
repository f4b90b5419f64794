(** Executions and observations of the lock-file protocol. *)
From Verif Require Import Base Str FilebufModel.

(** An execution: the events (process, file system before, file system after)
    in order, oldest first. *)
Definition event := (nat * fsys * fsys)%type.
Inductive exec (psf : bool) (prog : nat -> wprog) (s0 : wstate) : list event -> wstate -> Prop :=
| exec_nil : exec psf prog s0 [] s0
| exec_step tr s p c s' :
    exec psf prog s0 tr s -> wstep psf prog s p c = Some s' ->
    exec psf prog s0 (tr ++ [(p, w_fs s, w_fs s')]) s'.

(** What somebody reading the target path finds. *)
Definition target (f : fsys) : option (list Z) := option_map (f_data f) (f_tgt f).

(** Nobody is writing yet; there is no lock. *)
Definition init (s : wstate) : Prop :=
  (forall p, w_pc s p = PStart) /\ f_lck (w_fs s) = None /\
  (forall i, f_tgt (w_fs s) = Some i -> (i < f_next (w_fs s))%nat).
(** Buffers have room for at least one byte, and unbuffered files are only
    written with git_filebuf_write (the other two calls need the buffer). *)
Definition good_progs (prog : nat -> wprog) : Prop := forall p,
  (0 < w_size (prog p))%nat /\ 
  (w_nobuf (prog p) = true -> forall o, In o (w_ops (prog p)) -> exists d, o = OpWrite d).

(** Everything a writer was asked to write. *)
Definition payload (w : wprog) : list Z := concat (map op_data (w_ops w)).

(** Complete new content: what was there before, when appending, then the
    payload. *)
Definition new_content (w : wprog) (old : option (list Z)) : list Z :=
  (if w_append w then match old with Some c => c | None => [] end else []) ++ payload w.

(** The writer has acquired the lock and has neither given it back nor moved
    it onto the target: from the creation of the lock file to the unlink or
    rename that removes it. *)
Definition has_lock (s : wstate) (p : nat) : Prop :=
  match w_pc s p with
  | PStart | PCreate | PSyncDir _ | PDone _ => False
  | _ => True
  end.

(** A reader opens the target at some moment and then reads it in pieces while
    the execution goes on: [reads psf prog s i off acc s'] -- in state [s'] it
    has read [acc] up to offset [off] of the inode [i] it opened in [s]. *)
Inductive reads (psf : bool) (prog : nat -> wprog) (s : wstate) (i : nat) : nat -> list Z -> wstate -> Prop :=
| reads_open : f_tgt (w_fs s) = Some i -> reads psf prog s i 0 [] s
| reads_other off acc s1 p c s2 :
    reads psf prog s i off acc s1 -> wstep psf prog s1 p c = Some s2 -> reads psf prog s i off acc s2
| reads_piece off acc s1 n :
    reads psf prog s i off acc s1 ->
    let piece := firstn n (skipn off (f_data (w_fs s1) i)) in
    reads psf prog s i (off + length piece) (acc ++ piece) s1.

(** How often process [p] made the target path name another file. *)
Definition same_file (a b : option nat) : bool :=
  match a, b with Some x, Some y => Nat.eqb x y | None, None => true | _, _ => false end.
Definition replaced_by (p : nat) (e : event) : bool :=
  let '(q, f, f') := e in Nat.eqb q p && negb (same_file (f_tgt f) (f_tgt f')).
Definition replacements (tr : list event) (p : nat) : nat := length (filter (replaced_by p) tr).
