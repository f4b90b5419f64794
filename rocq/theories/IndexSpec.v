(** The index as a user sees it: a set of entries ordered by path and stage. *)
From Verif Require Import Base CStr WildModel IndexModel.

(** Paths as compared: A-Z folded when case is ignored. *)
Definition folded (ic : bool) (p : list Z) : list Z := map (fold ic) p.
Definition same_key (ic : bool) (p : list Z) (st : Z) (q : list Z) (st' : Z) : Prop :=
  folded ic p = folded ic q /\ st = st'.
(** Strict order by path, then stage. *)
Definition before (ic : bool) (a b : entry) : Prop :=
  lex (folded ic (e_path a)) (folded ic (e_path b)) = Lt \/
  (folded ic (e_path a) = folded ic (e_path b) /\ e_stage a < e_stage b).
Definition ordered (ic : bool) (l : list entry) : Prop :=
  forall i j a b, (i < j)%nat -> nth_error l i = Some a -> nth_error l j = Some b -> before ic a b.

(** [b] lies in a directory named [a]. *)
Definition under (a b : list Z) : Prop := exists r, b = a ++ 47 :: r.
(** No path is both a file and a directory at the same stage. *)
Definition collision_free (l : list entry) : Prop :=
  forall a b, In a l -> In b l -> e_stage a = e_stage b -> ~ under (e_path a) (e_path b).
(** [e] is a file whose name is one of the directories leading to [name]. *)
Definition dir_collision (ic : bool) (name : list Z) (st : Z) (e : entry) : Prop :=
  exists d, under d name /\ same_key ic d st (e_path e) (e_stage e).
(** A file [path] and the entry [x] cannot both be checked out. *)
Definition collides (ic : bool) (path : list Z) (st : Z) (x : entry) : Prop :=
  (e_stage x = st /\ under path (e_path x)) \/ dir_collision ic path st x.

(** What [git_index_entrycount] and [git_index_get_byindex] show. *)
Definition listing (ix : index) : list entry := VectorModel.items (i_ents ix).
(** Two indexes showing the same: identities of entries are not visible. *)
Definition shown (e : entry) : list Z * Z * Z * Z := (e_path e, e_stage e, e_mode e, e_data e).
