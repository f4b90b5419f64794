(** The ident filter (ident.c) and the binary test it uses (str.c). *)
From Verif Require Import Base CStr Str WildModel FheadModel.

(** The loop of ident_find_id, ident.c:15-29: [acc] has been passed, [s] is from [start] on ([len] is its
    length), [last] is what stands before [found].  What stands before the $ and what is behind it. *)
Fixpoint id_loop (fuel : nat) (acc s : list Z) (last : option (list Z)) : option (list Z * list Z) :=
  match fuel with
  | O => None
  | S f =>
    if (length s <=? 3)%nat then
      if (length s <? 3)%nat then None else match last with None => None | Some a => Some (a, s) end
    else
      match strsep 36 s with
      | None => None
      | Some (p, r) =>
        if (length r <? 3)%nat then None
        else if prefixb (bs "Id") r then Some (acc ++ p, r)
        else id_loop f (acc ++ p ++ [36]) r (Some (acc ++ p))
      end
  end.
(** ident_find_id, ident.c:13-41: what stands before [id_start] and what from [id_end] on. *)
Definition find_id (s : list Z) : option (list Z * list Z) :=
  match id_loop (S (length s)) [] s None with
  | None => None
  | Some (a, r) => match strsep 36 (skipn 2 r) with None => None | Some (_, b) => Some (a, b) end
  end.
(** ident_insert_id, ident.c:43-74: [None] is GIT_PASSTHROUGH; [oid] is the text of the blob's id (a
    source without id is outside). *)
Definition insert_id (oid from : list Z) : option (list Z) :=
  match find_id from with
  | None => None
  | Some (a, b) => Some (a ++ bs "$Id: " ++ oid ++ bs " $" ++ b)
  end.
(** ident_remove_id, ident.c:76-96 *)
Definition remove_id (from : list Z) : option (list Z) :=
  match find_id from with
  | None => None
  | Some (a, b) => Some (a ++ bs "$Id$" ++ b)
  end.
(** git_str_detect_bom, str.c:1274-1322: whether there is a byte order mark other than that of UTF-8, and
    the number of bytes to pass. *)
Definition bom (s : list Z) : bool * nat :=
  if prefixb [0; 0; 254; 255] s then (true, 4%nat)
  else if prefixb [239; 187; 191] s then (false, 3%nat)
  else if prefixb [254; 255] s then (true, 2%nat)
  else if prefixb [255; 254; 0; 0] s then (true, 4%nat)
  else if prefixb [255; 254] s then (true, 2%nat)
  else (false, 0%nat).
(** The classes of bytes in git_str_is_binary, str.c:1253-1263. *)
Definition printable (c : Z) : bool := ((31 <? c) && negb (c =? 127)) || (c =? 8) || (c =? 27) || (c =? 12).
Fixpoint count (p : Z -> bool) (s : list Z) : Z := match s with [] => 0 | c :: r => (if p c then 1 else 0) + count p r end.
(** git_str_is_binary, str.c:1241-1267 (the counters are ints; they do not overflow below 2 GiB). *)
Definition is_binary (s : list Z) : bool :=
  let '(wide, n) := bom s in
  if wide then true
  else
    let s := skipn n s in
    if existsb (Z.eqb 0) s then true
    else Z.shiftr (count printable s) 7 <? count (fun c => negb (printable c) && negb (isspace c)) s.
(** ident_apply, ident.c:98-115: what the file or blob becomes. *)
Definition ident_apply (smudge : bool) (oid from : list Z) : list Z :=
  if is_binary from then from
  else match (if smudge then insert_id oid from else remove_id from) with
       | None => from
       | Some to => to
       end.
