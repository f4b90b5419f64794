(** What a diff has to report. *)
From Verif Require Import Base CStr Str DiffModel.
Local Open Scope Z_scope.

(** A listing is in path order; a path occurs once, or several times as a conflict
    when conflicts are included. *)
Definition listing (inc : bool) (l : list item) : Prop :=
  forall i j a b, (i < j)%nat -> nth_error l i = Some a -> nth_error l j = Some b ->
    lex (i_path a) (i_path b) = Lt \/ (i_path a = i_path b /\ inc = true /\ 0 < i_stage a /\ 0 < i_stage b).
(** [first_at l p o]: [o] is the first entry of the listing at the path. *)
Definition first_at (l : list item) (p : list Z) (o : option item) : Prop :=
  match o with
  | None => forall e, In e l -> i_path e <> p
  | Some e => exists pre post, l = pre ++ e :: post /\ i_path e = p /\ forall x, In x pre -> i_path x <> p
  end.

(** Order of the reported paths. *)
Fixpoint ascending (ps : list (list Z)) : Prop :=
  match ps with [] => True | p :: r => (forall q, In q r -> lex p q = Lt) /\ ascending r end.

(** The sides a delta shows: nothing for a conflict. *)
Definition shown (e : item) : side := if 0 <? i_stage e then no_side else mkside (i_mode e) (i_id e).
Definition only_old (s : dstatus) (e : item) : delta := mkdelta s (i_path e) (mkside (i_mode e) (i_id e)) no_side.
Definition only_new (s : dstatus) (e : item) : delta := mkdelta s (i_path e) no_side (mkside (i_mode e) (i_id e)).
Definition both (s : dstatus) (o n : item) : delta := mkdelta s (i_path o) (shown o) (shown n).
(** Entries marked assume-unchanged are not reported on their own. *)
Definition unless_valid (e : item) (d : delta) : list delta := if i_valid e then [] else [d].
Definition kind (e : item) : Z := Z.land (i_mode e) 61440.       (* 0170000 *)
Definition unconflicted (o n : item) : Prop := i_stage o <= 0 /\ i_stage n <= 0.
Definition kept (e : item) : Prop := i_valid e = false /\ i_skip e = false.
Definition is_submodule (e : item) : Prop := kind e = 57344.    (* 0160000 *)
Definition same_file (o n : item) : Prop := i_mode o = i_mode n /\ i_id o = i_id n /\ exists b, In b (i_id o) /\ b <> 0.

Inductive reports (op : dopts) : option item -> option item -> list delta -> Prop :=
| r_deleted o : i_stage o <= 0 -> reports op (Some o) None (unless_valid o (only_old DDeleted o))
| r_old_conflict o : 0 < i_stage o -> reports op (Some o) None (unless_valid o (only_old DConflicted o))
| r_added n : i_stage n <= 0 -> reports op None (Some n) (unless_valid n (only_new DAdded n))
| r_new_conflict n : 0 < i_stage n -> reports op None (Some n) (unless_valid n (only_new DConflicted n))
| r_conflict o n : ~ unconflicted o n -> reports op (Some o) (Some n) [both DConflicted o n]
| r_same o n : unconflicted o n -> (~ kept o \/ same_file o n \/ (kind o = kind n /\ is_submodule n /\ o_ignore_sub op = true)) ->
    reports op (Some o) (Some n) (if o_unmodified op then [both DUnmodified o n] else [])
| r_type o n : unconflicted o n -> kept o -> kind o <> kind n -> o_typechange op = true -> reports op (Some o) (Some n) [both DTypechange o n]
| r_split o n : unconflicted o n -> kept o -> kind o <> kind n -> o_typechange op = false ->
    reports op (Some o) (Some n) (only_old DDeleted o :: unless_valid n (only_new DAdded n))
| r_modified o n : unconflicted o n -> kept o -> kind o = kind n -> ~ same_file o n -> ~ (is_submodule n /\ o_ignore_sub op = true) ->
    reports op (Some o) (Some n) [both DModified o n].

(** Exchanging the two sides of a delta. *)
Definition flip (d : delta) : delta :=
  mkdelta (match d_status d with DAdded => DDeleted | DDeleted => DAdded | s => s end) (d_path d) (d_new d) (d_old d).
