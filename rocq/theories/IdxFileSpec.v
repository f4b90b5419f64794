(** What survives in the index file. *)
From Verif Require Import Base WildModel IndexModel IdxFileModel.

(** An entry a caller can hold: fields in the range of their C types, the
    object id of the right size, a path without NUL accepted by the path check,
    and the path length in the flags as index_insert puts it there. *)
Definition int32 (v : Z) : Prop := -2147483648 <= v < 2147483648.
Definition uint32 (v : Z) : Prop := 0 <= v < 4294967296.
Definition stat_ok (l : list Z) : Prop :=
  exists a b c d r, l = [a; b; c; d] ++ r /\ int32 a /\ uint32 b /\ int32 c /\ uint32 d /\ length r = 6%nat /\ Forall uint32 r.
Definition good (path_ok : list Z -> bool) (osz : nat) (e : dentry) : Prop :=
  stat_ok (d_stat e) /\ length (d_id e) = osz /\ bytes (d_id e) /\ 0 <= d_flags e < 65536 /\ 0 <= d_ext e < 65536 /\
  Z.land (d_flags e) 4095 = Z.min (Z.of_nat (length (d_path e))) 4095 /\
  Forall (fun c => 0 < c < 256) (d_path e) /\ path_ok (d_path e) = true.

(** Everything that is kept on disk: path, id, stat data, stage, the
    assume-valid bit, and the intent-to-add and skip-worktree bits.  Only the
    bit saying whether extended flags are present (0x4000) may differ. *)
Definition saved (e e' : dentry) : Prop :=
  d_path e' = d_path e /\ d_id e' = d_id e /\ d_stat e' = d_stat e /\
  Z.ldiff (d_flags e') 16384 = Z.ldiff (d_flags e) 16384 /\
  d_ext e' = Z.land (d_ext e) 24576.

Definition good_ext (ext_ok : list Z -> list Z -> bool) (x : list Z * list Z) : Prop :=
  length (fst x) = 4%nat /\ 65 <= nth 0 (fst x) 0 <= 90 /\ ext_ok (fst x) (snd x) = true /\
  Z.of_nat (length (snd x)) < 4294967296.
