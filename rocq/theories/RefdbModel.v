(** Model of the filesystem reference database, src/libgit2/refdb_fs.c: reading,
    conditional writing and deleting of references, and packing them, by any
    number of processes that interleave at every file-system operation and may
    crash anywhere.

    The file system holds, per reference, a loose file and its ".lock"; and the
    packed-refs file with its ".lock".  Files are replaced as a whole (that a
    lock file commit is atomic is property C18).

    Simplified: contents are values, not bytes (parsing of loose and packed
    files is elsewhere); a process has a fresh backend, so packed_reload always
    reads the file; no directory/file conflicts (reference_path_available's
    collision test, rmdir of empty directories, prune_refs), no reflogs, no
    per-worktree references; one of old_id and old_target is given. *)
From Verif Require Import Base Str.

Definition rname := list Z.
Definition roid := list Z.
Inductive rv := Dir (id : roid) | Sym (target : rname).
Definition zero_oid (o : roid) : bool := forallb (fun b => b =? 0) o.
Definition rv_eqb (a b : rv) : bool :=
  match a, b with Dir x, Dir y => leqb x y | Sym x, Sym y => leqb x y | _, _ => false end.

Definition nset {A} (f : rname -> A) (r : rname) (x : A) : rname -> A :=
  fun q => if leqb q r then x else f q.
Definition pcset {A} (f : nat -> A) (p : nat) (x : A) : nat -> A :=
  fun q => if Nat.eqb q p then x else f q.

(** What a process is asked to do. *)
Inductive rop :=
| OWrite (r : rname) (new : rv) (force : bool) (old : option rv)
    (* git_reference_create_matching, git_reference_symbolic_create_matching,
       git_reference_set_target: refdb_fs_backend__write *)
| ODelete (r : rname) (old : option rv)   (* refdb_fs_backend__delete *)
| OCompress                               (* refdb_fs_backend__compress *)
| OLookup (r : rname).                    (* refdb_fs_backend__lookup *)

Definition pcache := rname -> option roid.

Inductive rpc :=
| RIdle
| RExP                          (* exists: loose file absent, packed next *)
| RLock                         (* loose_lock *)
| RCmpL | RCmpP                 (* cmp_old_ref against the expected value: loose, then packed *)
| RNewL | RNewP                 (* cmp_old_ref against the new value *)
| RCommit                       (* loose_commit *)
| RLinked                       (* link() done, unlink(lock) next *)
| RDReload                      (* packed_delete: packed_reload *)
| RDPLock (c : pcache)          (* packed_write: open packed-refs.lock *)
| RDPWrite (c : pcache)         (* git_filebuf_commit of packed-refs *)
| RDPUnlock                     (* link() done, unlink(packed-refs.lock) next *)
| RDUnlink                      (* loose_delete *)
| RUnlock (e : Z)               (* git_filebuf_cleanup, then return e *)
| RCLoad (c : pcache) (fl : rname -> bool)    (* packed_loadloose *)
| RCPLock (c : pcache) (fl : rname -> bool)
| RCPWrite (c : pcache) (fl : rname -> bool)
| RCPUnlock (c : pcache) (fl : rname -> bool)
| RCRem (c : pcache) (fl : rname -> bool)             (* packed_remove_loose: next reference *)
| RCRemRead (r : rname) (c : pcache) (fl : rname -> bool)   (* lock held, read the loose file *)
| RCRemUnlink (r : rname) (c : pcache) (fl : rname -> bool)
| RCRemUnlock (r : rname) (c : pcache) (fl : rname -> bool)
| RPFail (e : Z)                (* packed_write failed: unlink(packed-refs.lock), return e *)
| RLkP                          (* lookup: loose file absent, packed next *)
| RDone (e : Z)
| RFound (v : option rv)        (* result of a lookup *)
| RDead.                        (* crashed *)

Record rst := mkr {
  r_loose : rname -> option rv;
  r_lock : rname -> bool;
  r_packed : rname -> option roid;
  r_plock : bool;
  r_pc : nat -> rpc
}.

Inductive rchoice := RGo | RAlt | RFail | RCrash | RName (r : rname).

Definition ENOTFOUND : Z := -3.      (* include/git2/errors.h:32 *)
Definition EEXISTS : Z := -4.        (* include/git2/errors.h:33 *)
Definition ELOCKED : Z := -14.       (* include/git2/errors.h:50 *)
Definition EMODIFIED : Z := -15.     (* include/git2/errors.h:51 *)

(** cmp_old_ref, refdb_fs.c:1514-1553, once the lookup has answered [v]:
    [None] = the comparison succeeded and the values match. *)
Definition cmp_old (old : rv) (v : option rv) : option Z :=
  match v with
  | None => match old with
            | Dir z => if zero_oid z then None else Some ENOTFOUND
            | Sym _ => Some ENOTFOUND
            end
  | Some w => if rv_eqb old w then None else Some EMODIFIED
  end.

(** write_tail's second comparison, refdb_fs.c:1648-1656: is the value already there? *)
Definition same_value (new : rv) (v : option rv) : bool :=
  match cmp_old new v with None => true | Some _ => false end.

Section Step.
Variable s : rst.
Variable p : nat.
Let goto (pc : rpc) := Some (mkr (r_loose s) (r_lock s) (r_packed s) (r_plock s) (pcset (r_pc s) p pc)).
Let set_loose r v pc := Some (mkr (nset (r_loose s) r v) (r_lock s) (r_packed s) (r_plock s) (pcset (r_pc s) p pc)).
Let set_lock r b pc := Some (mkr (r_loose s) (nset (r_lock s) r b) (r_packed s) (r_plock s) (pcset (r_pc s) p pc)).
Let set_plock b pc := Some (mkr (r_loose s) (r_lock s) (r_packed s) b (pcset (r_pc s) p pc)).

(** loose_lock, refdb_fs.c:1146-1186 and filebuf.c:43-101: create r.lock
    exclusively. *)
Definition take_lock (r : rname) (c : rchoice) (pc : rpc) : option rst :=
  match c with
  | RGo => if r_lock s r then goto (RDone ELOCKED) else set_lock r true pc
  | RFail => goto (RDone (-1))
  | _ => None
  end.

(** cmp_old_ref = refdb_fs_backend__lookup (refdb_fs.c:764-786): read the loose
    file; only if there is none, packed-refs. *)
Definition cmp_loose (r : rname) (c : rchoice) (next_packed : rpc) (decide : option rv -> rpc) : option rst :=
  match c with
  | RGo => match r_loose s r with Some v => goto (decide (Some v)) | None => goto next_packed end
  | RFail => goto (RUnlock (-1))
  | _ => None
  end.
Definition cmp_packed (r : rname) (c : rchoice) (decide : option rv -> rpc) : option rst :=
  match c with
  | RGo => goto (decide (option_map Dir (r_packed s r)))
  | RFail => goto (RUnlock (-1))
  | _ => None
  end.

(** refdb_fs_backend__write, refdb_fs.c:1594-1617, and write_tail, 1619-1678. *)
Definition write_step (r : rname) (new : rv) (force : bool) (old : option rv) (pc : rpc) (c : rchoice) : option rst :=
  let after_old v := match old with
                     | None => RNewL
                     | Some o => match cmp_old o v with None => RNewL | Some e => RUnlock e end
                     end in
  let after_new v := if same_value new v then RUnlock 0 else RCommit in
  match pc with
  (* reference_path_available, refdb_fs.c:1100-1124: only without force *)
  | RIdle =>
      match c with
      | RGo => if force then goto RLock
               else match r_loose s r with Some _ => goto (RDone EEXISTS) | None => goto RExP end
      | RFail => goto (RDone (-1))
      | _ => None
      end
  | RExP =>
      match c with
      | RGo => match r_packed s r with Some _ => goto (RDone EEXISTS) | None => goto RLock end
      | RFail => goto (RDone (-1))
      | _ => None
      end
  | RLock => take_lock r c (match old with None => RNewL | Some _ => RCmpL end)
  | RCmpL => cmp_loose r c RCmpP after_old
  | RCmpP => cmp_packed r c after_old
  | RNewL => cmp_loose r c RNewP after_new
  | RNewP => cmp_packed r c after_new
  (* loose_commit, refdb_fs.c:1188-1205; p_rename, posix.c:153-164: link() if
     there is no loose file, else rename() *)
  | RCommit =>
      match c with
      | RGo => Some (mkr (nset (r_loose s) r (Some new)) (nset (r_lock s) r false) (r_packed s) (r_plock s)
                        (pcset (r_pc s) p (RDone 0)))
      | RAlt => match r_loose s r with None => set_loose r (Some new) RLinked | Some _ => None end
      | RFail => goto (RUnlock (-1))
      | _ => None
      end
  | RLinked => match c with RGo => set_lock r false (RDone 0) | RFail => goto (RDone 0) | _ => None end
  | RUnlock e => match c with RGo => set_lock r false (RDone e) | RFail => goto (RDone e) | _ => None end
  | _ => None
  end.

(** refdb_fs_backend__delete, refdb_fs.c:1732-1753; delete_tail, 1774-1830;
    packed_delete, 1483-1510; packed_write, 1412-1481. *)
Definition delete_step (r : rname) (old : option rv) (pc : rpc) (c : rchoice) : option rst :=
  let after_old v := match old with
                     | None => RDReload
                     | Some o => match cmp_old o v with None => RDReload | Some e => RUnlock e end
                     end in
  match pc with
  | RIdle => take_lock r c (match old with None => RDReload | Some _ => RCmpL end)
  | RCmpL => cmp_loose r c RCmpP after_old
  | RCmpP => cmp_packed r c after_old
  (* packed_reload and removal from the in-memory table *)
  | RDReload =>
      match c with
      | RGo => match r_packed s r with
               | Some _ => goto (RDPLock (nset (r_packed s) r None))
               | None => goto RDUnlink
               end
      | RFail => goto (RUnlock (-1))
      | _ => None
      end
  | RDPLock t =>
      match c with
      | RGo => if r_plock s then goto (RUnlock ELOCKED) else set_plock true (RDPWrite t)
      | RFail => goto (RUnlock (-1))
      | _ => None
      end
  | RDPWrite t =>
      match c with
      | RGo => Some (mkr (r_loose s) (r_lock s) t false (pcset (r_pc s) p RDUnlink))
      | RAlt => Some (mkr (r_loose s) (r_lock s) t (r_plock s) (pcset (r_pc s) p RDPUnlock))
      | RFail => set_plock false (RUnlock (-1))
      | _ => None
      end
  | RDPUnlock => match c with RGo => set_plock false RDUnlink | RFail => goto RDUnlink | _ => None end
  (* loose_delete, refdb_fs.c:1755-1772; packed_delete returned 0, so a missing
     loose file is success *)
  | RDUnlink =>
      match c with
      | RGo => set_loose r None (RUnlock 0)
      | RFail => match r_loose s r with Some _ => goto (RUnlock (-1)) | None => None end
      | _ => None
      end
  | RUnlock e => match c with RGo => set_lock r false (RDone e) | RFail => goto (RDone e) | _ => None end
  | _ => None
  end.

(** refdb_fs_backend__compress, refdb_fs.c:1897-1910; packed_loadloose,
    326-345, reads the loose files one at a time, in any order; packed_write,
    1412-1481; packed_remove_loose, 1348-1407. *)
Definition compress_step (pc : rpc) (c : rchoice) : option rst :=
  match pc, c with
  | RIdle, RGo => goto (RCLoad (r_packed s) (fun _ => false))
  | RIdle, RFail => goto (RDone (-1))
  (* loose_lookup_to_packfile, refdb_fs.c:255-293 *)
  | RCLoad t fl, RName r =>
      match r_loose s r with
      | Some (Dir v) => goto (RCLoad (nset t r (Some v)) (nset fl r true))
      | _ => goto (RCLoad t fl)
      end
  | RCLoad t fl, RGo => goto (RCPLock t fl)
  | RCLoad t fl, RFail => goto (RDone (-1))
  | RCPLock t fl, RGo => if r_plock s then goto (RDone ELOCKED) else set_plock true (RCPWrite t fl)
  | RCPLock t fl, RFail => goto (RDone (-1))
  | RCPWrite t fl, RGo => Some (mkr (r_loose s) (r_lock s) t false (pcset (r_pc s) p (RCRem t fl)))
  | RCPWrite t fl, RAlt => Some (mkr (r_loose s) (r_lock s) t (r_plock s) (pcset (r_pc s) p (RCPUnlock t fl)))
  | RCPWrite t fl, RFail => goto (RPFail (-1))
  | RPFail e, RGo => set_plock false (RDone e)
  | RPFail e, RFail => goto (RDone e)
  | RCPUnlock t fl, RGo => set_plock false (RCRem t fl)
  | RCPUnlock t fl, RFail => goto (RCRem t fl)
  (* the next reference that was loose; a lock held by somebody else is
     GIT_ELOCKED, which ends the whole operation (refdb_fs.c:1367-1376) *)
  | RCRem t fl, RName r =>
      if fl r then (if r_lock s r then goto (RDone ELOCKED) else set_lock r true (RCRemRead r t fl)) else None
  | RCRem t fl, RGo => goto (RDone 0)
  | RCRemRead r t fl, RGo =>
      match r_loose s r, t r with
      | Some (Dir v), Some w => if leqb v w then goto (RCRemUnlink r t fl) else goto (RCRemUnlock r t fl)
      | _, _ => goto (RCRemUnlock r t fl)
      end
  | RCRemUnlink r t fl, RGo => set_loose r None (RCRemUnlock r t fl)
  | RCRemUnlink r t fl, RFail => goto (RCRemUnlock r t fl)
  | RCRemUnlock r t fl, RGo => set_lock r false (RCRem t fl)
  | RCRemUnlock r t fl, RFail => goto (RCRem t fl)
  | _, _ => None
  end.

(** refdb_fs_backend__lookup, refdb_fs.c:764-786. *)
Definition lookup_step (r : rname) (pc : rpc) (c : rchoice) : option rst :=
  match pc, c with
  | RIdle, RGo => match r_loose s r with Some v => goto (RFound (Some v)) | None => goto RLkP end
  | RIdle, RFail => goto (RDone (-1))
  | RLkP, RGo => goto (RFound (option_map Dir (r_packed s r)))
  | RLkP, RFail => goto (RDone (-1))
  | _, _ => None
  end.

Definition rstep (prog : nat -> rop) (c : rchoice) : option rst :=
  match c with
  | RCrash => match r_pc s p with
              | RIdle | RDone _ | RFound _ | RDead => None
              | _ => goto RDead
              end
  | _ =>
      match prog p with
      | OWrite r new force old => write_step r new force old (r_pc s p) c
      | ODelete r old => delete_step r old (r_pc s p) c
      | OCompress => compress_step (r_pc s p) c
      | OLookup r => lookup_step r (r_pc s p) c
      end
  end.
End Step.
