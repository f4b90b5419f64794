(** Dangerous path components, independently of the code. *)
From Verif Require Import Base Str Utf8Spec.

(** ASCII lower case. *)
Definition lower1 (c : Z) : Z := if (65 <=? c) && (c <=? 90) then c + 32 else c.
Definition lower (s : list Z) : list Z := map lower1 s.

(** The components of a path. *)
Definition components (p : list Z) : list (list Z) := split 47 p.

(** NTFS opens [base] for [base] in any case followed by dots and spaces, or
    by a stream or directory separator. *)
Definition dot_or_space (c : Z) : Prop := c = 46 \/ c = 32.
Definition ntfs_alias (base c : list Z) : Prop :=
  exists b t, c = b ++ t /\ lower b = base /\
    (Forall dot_or_space t \/ exists x t', t = x :: t' /\ (x = 58 \/ x = 92)).
Definition ntfs_dotgit (c : list Z) : Prop := ntfs_alias (bs ".git") c \/ ntfs_alias (bs "git~1") c.

(** HFS+ ignores these code points (zero-width and directional marks) and
    case. *)
Definition ignorable (u : Z) : Prop :=
  8204 <= u <= 8207 \/ 8234 <= u <= 8238 \/ 8298 <= u <= 8303 \/ u = 65279.
(** [visible us vs]: [vs] is [us] without its ignorable code points, in lower
    case. *)
Inductive visible : list Z -> list Z -> Prop :=
| vis_nil : visible [] []
| vis_skip u us vs : ignorable u -> visible us vs -> visible (u :: us) vs
| vis_keep u us vs : ~ ignorable u -> visible us vs -> visible (u :: us) (lower1 u :: vs).
Definition hfs_alias (base c : list Z) : Prop :=
  exists us, Forall accepted us /\ c = concat (map encode_cp us) /\ visible us base.

(** The rest of an NTFS file name that Windows drops: dots and spaces up to the
    end or a stream separator. *)
Definition ntfs_tail (t : list Z) : Prop :=
  exists u v, t = u ++ v /\ Forall dot_or_space u /\ (v = [] \/ exists v', v = 58 :: v').
Definition digit (c : Z) : Prop := 48 <= c <= 57.
(** Windows names of a git file ".[file]": the name itself, its 8.3 name with
    a counter up to 4, or the hashed 8.3 name.  [s] is the path from the start
    of the component. *)
Definition ntfs_gitfile (file hash s : list Z) : Prop :=
  exists b t, s = b ++ t /\ ntfs_tail t /\
   (lower b = 46 :: file \/
    (exists d, 49 <= d <= 52 /\ lower b = firstn 6 file ++ [126; d]) \/
    (exists k d ds, (k <= 6)%nat /\ 49 <= d <= 57 /\ Forall digit ds /\ lower b = firstn k hash ++ 126 :: d :: ds /\ length b = 8%nat)).
