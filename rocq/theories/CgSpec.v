(** Commit-graph files, what they must say, independently of the code.  Uses the records
    [pcommit] (a commit given to the writer), [cgentry] and the functions of the API only. *)
From Verif Require Import Base Arr CStr OidSpec CgModel.

(** The commits handed to the writer: ids and tree ids of 20 bytes, no null id (the null id
    names no object), one commit per id, commit times the format can hold (34 bits). *)
Definition commits_ok (commits : list pcommit) : Prop :=
  Forall (fun c => oid_ok 20 (k_id c) /\ oid_ok 20 (k_tree c) /\ k_id c <> repeat 0 20 /\ 0 <= k_time c < 17179869184) commits /\
  forall a b, In a commits -> In b commits -> k_id a = k_id b -> a = b.
(** Every parent is one of the commits. *)
Definition closed (commits : list pcommit) : Prop :=
  forall c p, In c commits -> In p (k_parents c) -> exists d, In d commits /\ k_id d = p.
(** The words of the extra edge list: all parents but the first of commits with more than two. *)
Definition extra_edges (commits : list pcommit) : Z :=
  fold_right Z.add 0 (map (fun c => if (2 <? length (k_parents c))%nat then Z.of_nat (length (k_parents c)) - 1 else 0) commits).

(** The id starts with the hexadecimal digits [vs]. *)
Definition begins (vs : list Z) (id : list Z) : Prop := firstn (length vs) (nibbles id) = vs.
(** The query made of the digits [vs] followed by zeros (git_oid_fromstrn). *)
Definition query (vs q : list Z) : Prop := oid_ok 20 q /\ (length vs <= 40)%nat /\ nibbles q = vs ++ repeat 0 (40 - length vs).

(** An entry says what the commit says; the parents found through it are the entries of the
    parents' ids. *)
Definition agrees (f : cgfile) (e : cgentry) (c : pcommit) : Prop :=
  e_id e = k_id c /\ e_tree e = k_tree c /\ e_time e = k_time c /\ e_count e = Z.of_nat (length (k_parents c)) /\
  (forall k p, nth_error (k_parents c) k = Some p ->
     exists e', cg_parent f e (Z.of_nat k) = Ok e' /\ e_id e' = p /\ cg_find f p 40 = Ok e') /\
  (forall k, Z.of_nat (length (k_parents c)) <= k -> cg_parent f e k = Err (-3)).

(** The generation of a commit: 1 for a root, otherwise one more than the largest generation of
    its parents.  [parents] lists, for every commit, the positions of its parents. *)
Definition max_of (l : list Z) : Z := fold_right Z.max 0 l.
Definition is_generation (parents : list (list nat)) (G : nat -> Z) : Prop :=
  forall i ps, nth_error parents i = Some ps ->
    Forall (fun p => (p < length parents)%nat) ps /\ G i = 1 + max_of (map G ps) /\ 0 < G i.

(** What the file answers: every commit is found by its id and agrees; an abbreviated id finds the
    commit it abbreviates, nothing, or is ambiguous, as the commits demand. *)
Definition answers (f : cgfile) (commits : list pcommit) : Prop :=
  (forall c, In c commits -> exists e, cg_find f (k_id c) 40 = Ok e /\ agrees f e c) /\
  (forall vs q, query vs q ->
     match cg_find f q (length vs) with
     | Ok e => exists c, In c commits /\ begins vs (k_id c) /\ e_id e = k_id c /\ (forall d, In d commits -> begins vs (k_id d) -> d = c)
     | Err x => (x = -3 /\ forall c, In c commits -> ~ begins vs (k_id c)) \/
                (x = -5 /\ exists c d, In c commits /\ In d commits /\ k_id c <> k_id d /\ begins vs (k_id c) /\ begins vs (k_id d))
     | _ => False
     end).
(** The generations of the commits, by id, and what the file says about them: never more than the
    generation, and exactly it in histories without merges. *)
Definition generation_of (commits : list pcommit) (G : list Z -> Z) : Prop :=
  forall c, In c commits -> 0 < G (k_id c) /\ G (k_id c) = 1 + max_of (map G (k_parents c)).
Definition gen_sound (f : cgfile) (commits : list pcommit) : Prop :=
  forall G, generation_of commits G -> forall c, In c commits -> exists e, cg_find f (k_id c) 40 = Ok e /\
    1 <= e_gen e <= GEN_MAX /\ e_gen e <= G (k_id c) /\
    ((forall d, In d commits -> G (k_id d) <= GEN_MAX) -> (forall d, In d commits -> (length (k_parents d) <= 1)%nat) -> e_gen e = G (k_id c)).

(** Entries obtained from a file. *)
Inductive entry_of (f : cgfile) : cgentry -> Prop :=
| eo_find q len e : oid_ok 20 q -> (len <= 40)%nat -> cg_find f q len = Ok e -> entry_of f e
| eo_parent e0 n e : entry_of f e0 -> 0 <= n -> cg_parent f e0 n = Ok e -> entry_of f e.
(** Ordinary outcomes: success, an invalid file, not found, ambiguous. *)
Definition ordinary {A} (r : res A) : Prop := match r with Ok _ => True | Err e => e = -1 \/ e = -3 \/ e = -5 | _ => False end.
