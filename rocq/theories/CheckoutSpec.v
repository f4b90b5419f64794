(** What it means for a safe checkout not to destroy unsaved work. *)
From Coq Require Import ZArith List Bool Lia Sorted.
From Verif Require Import Base CStr Str CheckoutModel.
Import ListNotations.
Local Open Scope Z_scope.

(** [lives kids q n]: the directory with the entries [kids] has the node [n] at the path [q]. *)
Inductive lives : list (list Z * node) -> list Z -> node -> Prop :=
| lives_here kids name n : In (name, n) kids -> lives kids name n
| lives_below kids name i g sub q n : In (name, NDir i g sub) kids -> lives sub q n ->
    lives kids (name ++ slash :: q) n.

(** Entries are listed in the order of their names, where a directory counts as if its name ended
    in a slash. *)
Definition key (k : list Z * node) : list Z := fst k ++ (if is_dir (snd k) then [slash] else []).

(** A directory as a file system can hold it. *)
Inductive wf : list (list Z * node) -> Prop :=
| wf_kids kids :
    (forall name n, In (name, n) kids -> name <> [] /\ ~ In slash name) ->
    (forall name f, In (name, NFile f) kids -> f_mode f <> MODE_TREE) ->
    (forall name i g sub, In (name, NDir i g sub) kids -> wf sub) ->
    NoDup (map fst kids) ->
    StronglySorted (fun a b => lex (key a) (key b) = Lt) kids ->
    wf kids.

(** What the iterator shows at the start: the entries of the root. *)
Definition workdir (kids : list (list Z * node)) : list item := map (child []) kids.

(** The differences come in strictly ascending order of their paths, and paths are not empty and do
    not end in a slash. *)
Definition well_ordered (ds : list delta) : Prop :=
  StronglySorted (fun a b => lex (d_path a) (d_path b) = Lt) ds /\
  (forall d, In d ds -> d_path d <> [] /\ last (d_path d) 0 <> slash).

(** No force, no removal of untracked or ignored files. *)
Definition safe (st : strategy) : Prop :=
  s_force st = false /\ s_rm_untracked st = false /\ s_rm_ignored st = false.

(** The contents of the file at [q] are those the baseline or the target records for this path, with
    the baseline's mode unless core.filemode is off. *)
Definition saved (st : strategy) (ds : list delta) (q : list Z) (f : file) : Prop :=
  exists d, In d ds /\ d_path d = q /\
    (f_id f = Some (d_oid d) \/ f_id f = Some (d_nid d)) /\
    (s_filemode st = true -> f_mode f = d_omode d).

(** When the stat data recorded in the index matches a file, the recorded id is that of its
    contents. *)
Definition index_honest (ix : index) (kids : list (list Z * node)) : Prop :=
  forall q f e, lives kids q (NFile f) -> ix_entry ix q = Some e ->
    i_newer e = false -> f_mtime f = i_mtime e -> f_size f = i_size e -> f_id f = Some (i_id e).

(** Ignored files are only protected when asked for. *)
Definition ignored_ok (st : strategy) (kids : list (list Z * node)) : Prop :=
  s_keep_ignored st = true \/ forall q n, lives kids q n -> n_ignored n = false.

(** No file of the working directory is in the place of a directory that a difference is in - except
    where the target itself replaces that file by a directory with added entries. *)
Definition no_blockers (ds : list delta) (kids : list (list Z * node)) : Prop :=
  forall d q f, In d ds -> lives kids q (NFile f) -> starts_with (q ++ [slash]) (d_path d) ->
    d_status d = Added /\ exists d0, In d0 ds /\ d_path d0 = q.

(** Where the working directory has a directory at the path of a difference, it has no name that
    continues that path with a byte sorting before the slash ("a" and "a.b"). *)
Definition no_shadows (ds : list delta) (kids : list (list Z * node)) : Prop :=
  forall d i g sub, In d ds -> lives kids (d_path d) (NDir i g sub) ->
  forall q n c, lives kids q n -> c < slash -> ~ starts_with (d_path d ++ [c]) q.

(** Where the working directory has a directory at the path of a type change, the change is from
    a directory to a plain file or submodule. *)
Definition plain_typechanges (ds : list delta) (kids : list (list Z * node)) : Prop :=
  forall d i g sub, In d ds -> d_status d = Typechange -> lives kids (d_path d) (NDir i g sub) ->
    d_omode d = MODE_TREE /\ d_nmode d <> MODE_TREE /\ d_nmode d <> MODE_LINK /\ is_exec (d_nmode d) = false.
