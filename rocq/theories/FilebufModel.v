(** Model of src/util/filebuf.c: buffered writing through a lock file.

    The model is a transition system.  Every system call that matters is one
    atomic step on a small file system holding the target path, its ".lock"
    path and the inodes they name; any number of processes interleave their
    steps; a process that is never scheduled again has crashed (and the whole
    machine stopping is a prefix of an execution).

    Simplified: one target path (writers of different paths use disjoint
    files); no symlink at the target (resolve_symlink, filebuf.c:201-268, is
    not modelled), the target is not a directory; no deflate and no hash
    (write_normal only); allocation failures only where noted; durability
    across power loss (what fsync adds) is not modelled. *)
From Verif Require Import Base Str.

(** *** The file system: names to inodes, inodes to contents. *)
Record fsys := mkfs {
  f_tgt : option nat;          (* path_original *)
  f_lck : option nat;          (* path_lock *)
  f_data : nat -> list Z;      (* inode contents *)
  f_next : nat                 (* next unused inode *)
}.

Definition dset (d : nat -> list Z) (i : nat) (c : list Z) : nat -> list Z :=
  fun j => if Nat.eqb j i then c else d j.

(** What a caller does with an open filebuf. *)
Inductive fop :=
| OpWrite (d : list Z)      (* git_filebuf_write(file, d, len) *)
| OpReserve (d : list Z)    (* git_filebuf_reserve(file, &p, len); memcpy(p, d, len) *)
| OpPrintf (d : list Z).    (* git_filebuf_printf producing the text d *)
Definition op_data (o : fop) : list Z :=
  match o with OpWrite d | OpReserve d | OpPrintf d => d end.

(** One writer: open flags (filebuf.h:18-30), buffer size, calls made. *)
Record wprog := mkprog {
  w_append : bool;    (* GIT_FILEBUF_APPEND *)
  w_nobuf : bool;     (* GIT_FILEBUF_DO_NOT_BUFFER *)
  w_fsync : bool;     (* GIT_FILEBUF_FSYNC *)
  w_size : nat;       (* buf_size *)
  w_ops : list fop    (* calls before git_filebuf_commit *)
}.

(** What a p_write in progress returns to. *)
Inductive cont :=
| KWrite (d : list Z)   (* the for(;;) of git_filebuf_write with d left, filebuf.c:500-514 *)
| KDirect               (* unbuffered write, filebuf.c:497-498 *)
| KReserve (d : list Z) (* git_filebuf_reserve after its flush, filebuf.c:533-535 *)
| KPrintf (d : list Z)  (* git_filebuf_printf after its flush, filebuf.c:551-575 *)
| KCommit.              (* git_filebuf_commit after its flush, filebuf.c:452-455 *)

(** Where a writer is.  [i] is the inode its descriptor refers to. *)
Inductive wpc :=
| PStart                                   (* before git_filebuf_open *)
| PCreate                                  (* lock_file: lock seen absent, filebuf.c:47-53 *)
| PAppend (i : nat)                        (* lock created, APPEND test, filebuf.c:68 *)
| PCopy (i src : nat) (off : nat)          (* copying the original, filebuf.c:82-87 *)
| PRun (i : nat) (buf : list Z) (err : bool) (ops : list fop)
| PFlush (i : nat) (out : list Z) (buf : list Z) (k : cont) (ops : list fop)
| PClose (i : nat)                         (* filebuf.c:457-469: fsync, close *)
| PLink (i : nat)                          (* p_rename: link(), posix.c:155 *)
| PUnlink (i : nat)                        (* p_rename: unlink(from), posix.c:156 *)
| PRename (i : nat)                        (* p_rename: rename(), posix.c:160 *)
| PSyncDir (i : nat)                       (* fsync of the parent, filebuf.c:476 *)
| PClean (i : nat)                         (* git_filebuf_cleanup: exists(lock)?, filebuf.c:109 *)
| PCleanUnlink (i : nat)                   (* git_filebuf_cleanup: unlink(lock), filebuf.c:110 *)
| PDone (r : Z).                           (* returned r to the caller *)

Record wstate := mkw { w_fs : fsys; w_pc : nat -> wpc }.

(** Nondeterminism of one step. *)
Inductive wchoice :=
| Go               (* the call succeeds *)
| GoN (n : nat)    (* a short read or write of n bytes *)
| Fail             (* the call fails *)
| Abort.           (* the caller gives up: git_filebuf_cleanup *)

Definition GIT_ELOCKED : Z := -14.     (* include/git2/errors.h:50 *)

Definition pset {A} (f : nat -> A) (p : nat) (x : A) : nat -> A :=
  fun q => if Nat.eqb q p then x else f q.

(** git_filebuf_write, filebuf.c:490-515, one turn of the loop: either the
    data is cached, or the buffer is filled up and handed to p_write. *)
Definition write_turn (size : nat) (i : nat) (buf d : list Z) (ops : list fop) : wpc :=
  let space := (size - length buf)%nat in
  if (length d <? space)%nat then PRun i (buf ++ d) false ops
  else PFlush i (buf ++ firstn space d) [] (KWrite (skipn space d)) ops.

(** git_filebuf_write, filebuf.c:490-498. *)
Definition fb_write (w : wprog) (i : nat) (buf : list Z) (err : bool) (d : list Z) (ops : list fop) : wpc :=
  if err then PRun i buf err ops                         (* ENSURE_BUF_OK *)
  else if w_nobuf w then PFlush i d buf KDirect ops
  else write_turn (w_size w) i buf d ops.

(** git_filebuf_reserve, filebuf.c:517-541 (the caller fills the space it was
    given before its next call). *)
Definition fb_reserve (w : wprog) (i : nat) (buf : list Z) (err : bool) (d : list Z) (ops : list fop) : wpc :=
  if err then PRun i buf err ops
  else if (w_size w <? length d)%nat then PRun i buf true ops    (* BUFERR_MEM *)
  else if (w_size w - length buf <=? length d)%nat
       then PFlush i buf [] (KReserve d) ops
       else PRun i (buf ++ d) false ops.

(** git_filebuf_printf, filebuf.c:543-588, first turn of its loop.  [err] is
    sticky; vsnprintf and malloc are assumed to succeed. *)
Definition fb_printf (w : wprog) (i : nat) (buf : list Z) (err : bool) (d : list Z) (ops : list fop) : wpc :=
  if err then PRun i buf err ops
  else if (length d + 1 <=? w_size w - length buf)%nat
       then PRun i (buf ++ d) false ops
       else PFlush i buf [] (KPrintf d) ops.

Definition fb_op (w : wprog) (i : nat) (buf : list Z) (err : bool) (o : fop) (ops : list fop) : wpc :=
  match o with
  | OpWrite d => fb_write w i buf err d ops
  | OpReserve d => fb_reserve w i buf err d ops
  | OpPrintf d => fb_printf w i buf err d ops
  end.

(** A p_write that finished successfully returns to its caller. *)
Definition resume (w : wprog) (i : nat) (buf : list Z) (k : cont) (ops : list fop) : wpc :=
  match k with
  | KWrite d => write_turn (w_size w) i buf d ops
  | KDirect => PRun i buf false ops
  | KReserve d => PRun i (buf ++ d) false ops
  | KPrintf d => if (length d + 1 <=? w_size w - length buf)%nat
                 then PRun i (buf ++ d) false ops
                 else fb_write w i buf false d ops
  | KCommit => PClose i
  end.

(** A p_write that failed (write_normal sets BUFERR_WRITE, filebuf.c:147-150);
    in git_filebuf_commit verify_last_error then sends it to on_error. *)
Definition resume_fail (i : nat) (buf : list Z) (k : cont) (ops : list fop) : wpc :=
  match k with
  | KCommit => PClean i
  | _ => PRun i buf true ops
  end.

(** p_write's loop over write(2), posix.c:200-225: after a write of n bytes. *)
Definition flush_step (w : wprog) (i : nat) (out buf : list Z) (k : cont) (ops : list fop) (n : nat) : wpc :=
  match skipn n out with
  | [] => resume w i buf k ops
  | rest => PFlush i rest buf k ops
  end.

(** One step of one process.  [psf]: may the fsync of the parent directory
    fail after the rename took place (filebuf.c:476-477)? *)
Definition wstep (psf : bool) (prog : nat -> wprog) (s : wstate) (p : nat) (c : wchoice) : option wstate :=
  let w := prog p in
  let fs := w_fs s in
  let goto pc := Some (mkw fs (pset (w_pc s) p pc)) in
  let goto_fs fs' pc := Some (mkw fs' (pset (w_pc s) p pc)) in
  match w_pc s p, c with
  (* lock_file, filebuf.c:45-52 *)
  | PStart, Go => match f_lck fs with Some _ => goto (PDone GIT_ELOCKED) | None => goto PCreate end
  (* git_futils_creat_locked: O_CREAT|O_EXCL, futils.c:69-88 *)
  | PCreate, Go =>
      match f_lck fs with
      | Some _ => goto (PDone GIT_ELOCKED)
      | None =>
          goto_fs (mkfs (f_tgt fs) (Some (f_next fs)) (dset (f_data fs) (f_next fs) []) (S (f_next fs)))
            (if w_append w then PAppend (f_next fs) else PRun (f_next fs) [] false (w_ops w))
      end
  | PCreate, Fail => goto (PDone (-1))
  (* GIT_FILEBUF_APPEND, filebuf.c:68-79: exists and open of the original
     (simplified: one step) *)
  | PAppend i, Go =>
      match f_tgt fs with
      | None => goto (PRun i [] false (w_ops w))
      | Some src => goto (PCopy i src 0)
      end
  (* failure inside lock_file: created_lock is not yet set, so cleanup leaves
     the lock file behind, filebuf.c:73-78, 91-97 and 387-390 *)
  | PAppend i, Fail => goto (PDone (-1))
  (* read and write loop, filebuf.c:82-87, n bytes at a time *)
  | PCopy i src off, GoN n =>
      let chunk := firstn (S n) (skipn off (f_data fs src)) in
      match chunk with
      | [] => goto (PRun i [] false (w_ops w))
      | _ => goto_fs (mkfs (f_tgt fs) (f_lck fs) (dset (f_data fs) i (f_data fs i ++ chunk)) (f_next fs))
               (PCopy i src (off + length chunk))
      end
  | PCopy i src off, Fail => goto (PDone (-1))
  (* the caller's operations, then git_filebuf_commit: flush_buffer and
     verify_last_error, filebuf.c:447-455.  flush_buffer returns through
     write_normal, which does nothing for len 0 *)
  | PRun i buf err (o :: ops), Go => goto (fb_op w i buf err o ops)
  | PRun i buf err [], Go =>
      if err then goto (PClean i) else goto (PFlush i buf [] KCommit [])
  | PRun i _ _ _, Abort => goto (PClean i)
  (* write(2) of n+1 bytes; a flush of no bytes returns at once *)
  | PFlush i out buf k ops, GoN n =>
      match out with
      | [] => goto (resume w i buf k ops)
      | _ => goto_fs (mkfs (f_tgt fs) (f_lck fs) (dset (f_data fs) i (f_data fs i ++ firstn (S n) out)) (f_next fs))
               (flush_step w i out buf k ops (S n))
      end
  | PFlush i out buf k ops, Fail =>
      match out with [] => None | _ => goto (resume_fail i buf k ops) end
  (* fsync and close, filebuf.c:459-469 *)
  | PClose i, Go => goto (PLink i)
  | PClose i, Fail => goto (PClean i)
  (* p_rename, posix.c:153-164 *)
  | PLink i, Go =>
      match f_tgt fs, f_lck fs with
      | None, Some j => goto_fs (mkfs (Some j) (f_lck fs) (f_data fs) (f_next fs)) (PUnlink i)
      | _, _ => None
      end
  | PLink i, Fail => goto (PRename i)
  | PUnlink i, Go => goto_fs (mkfs (f_tgt fs) None (f_data fs) (f_next fs)) (PSyncDir i)
  | PUnlink i, Fail => goto (PSyncDir i)         (* result of p_unlink ignored *)
  | PRename i, Go =>
      match f_lck fs with
      | Some j => goto_fs (mkfs (Some j) None (f_data fs) (f_next fs)) (PSyncDir i)
      | None => goto (PClean i)                  (* ENOENT *)
      end
  | PRename i, Fail => goto (PClean i)
  (* git_futils_fsync_parent, filebuf.c:476-481; success sets did_rename *)
  | PSyncDir i, Go => goto (PDone 0)
  | PSyncDir i, Fail => if psf && w_fsync w then goto (PClean i) else None
  (* git_filebuf_cleanup, filebuf.c:104-110; the operation then returns -1 *)
  | PClean i, Go => match f_lck fs with Some _ => goto (PCleanUnlink i) | None => goto (PDone (-1)) end
  | PCleanUnlink i, Go => goto_fs (mkfs (f_tgt fs) None (f_data fs) (f_next fs)) (PDone (-1))
  | PCleanUnlink i, Fail => goto (PDone (-1))
  | _, _ => None
  end.
