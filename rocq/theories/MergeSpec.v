(** The merge table, path by path. *)
From Verif Require Import Base CStr Str MergeModel.
Local Open Scope Z_scope.

(** Trees list each path once, in order, with a mode. *)
Definition sorted (t : list ent) : Prop := forall i j a b, (i < j)%nat -> nth_error t i = Some a -> nth_error t j = Some b -> lex (path a) (path b) = Lt.
Definition tree_ok (t : list ent) : Prop := sorted t /\ forall e, In e t -> mode e <> 0.
(** [at_path t p o]: [o] is what the tree has at path [p]. *)
Definition at_path (t : list ent) (p : list Z) (o : option ent) : Prop :=
  match o with Some e => In e t /\ path e = p | None => forall e, In e t -> path e <> p end.
(** [p] is a directory of path [q]. *)
Definition inside (p q : list Z) : Prop := exists r, q = p ++ bs "/" ++ r.

(** Contents can be merged when both sides have the path, none of the three is a
    submodule, and all agree on being a symbolic link (an absent ancestor is none). *)
Definition filetype (m : Z) : Z := Z.land m 61440.                          (* 0170000 *)
Definition submodule (o : option ent) : Prop := exists e, o = Some e /\ filetype (mode e) = 57344.   (* 0160000 *)
Definition symlink (o : option ent) : Prop := exists e, o = Some e /\ filetype (mode e) = 40960.     (* 0120000 *)
Definition mergeable (a o t : option ent) : Prop :=
  o <> None /\ t <> None /\ ~ submodule a /\ ~ submodule o /\ ~ submodule t /\ (symlink a <-> symlink o) /\ (symlink a <-> symlink t).

(** What becomes of a path: an entry or its absence, or a conflict. *)
Inductive outcome := Take (o : option ent) | Clash.
Inductive table (drv : driver) (a o t : option ent) : outcome -> Prop :=
| both_agree : o = t -> table drv a o t (Take o)
| only_theirs : o = a -> table drv a o t (Take t)
| only_ours : t = a -> table drv a o t (Take o)
| merged_contents x y r : o = Some x -> t = Some y -> o <> t -> o <> a -> t <> a -> mergeable a o t -> drv a x y = Some r -> table drv a o t (Take (Some r))
| driver_conflict x y : o = Some x -> t = Some y -> o <> t -> o <> a -> t <> a -> mergeable a o t -> drv a x y = None -> table drv a o t Clash
| not_mergeable : o <> t -> o <> a -> t <> a -> ~ mergeable a o t -> table drv a o t Clash.

(** What a merge result says about a path: the one staged entry or none, or a conflict
    with all three sides. *)
Definition sides (d : diff) : option ent * option ent * option ent := (d_anc d, d_our d, d_their d).
Definition about (d : diff) (p : list Z) : Prop := exists e, In (Some e) [d_anc d; d_our d; d_their d] /\ path e = p.
Definition shows (m : merged) (p : list Z) (a o t : option ent) (w : outcome) : Prop :=
  match w with
  | Take r => (forall e, In e (m_staged m) /\ path e = p <-> r = Some e) /\ (forall d, In d (m_conflicts m) -> ~ about d p)
  | Clash => (forall e, In e (m_staged m) -> path e <> p) /\ In (a, o, t) (map sides (m_conflicts m)) /\
             (forall d, In d (m_conflicts m) -> about d p -> sides d = (a, o, t))
  end.
(** One side has a file where a side has a directory. *)
Definition file_in_the_way (our their : list ent) (p : list Z) : Prop :=
  exists e q, In e (our ++ their) /\ path e = p /\ In q (our ++ their) /\ inside p (path q).
