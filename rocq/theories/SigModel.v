(** Signatures, src/libgit2/signature.c.  A string is the list of its bytes up to the
    terminating NUL; a buffer is the list of its bytes. *)
From Verif Require Import Base Str IntModel.
Local Open Scope Z_scope.

(** git_signature, include/git2/types.h:195-214, and its git_time. *)
Record sig := mksig { s_name : list Z; s_email : list Z; s_time : Z; s_offset : Z; s_sign : Z }.

(** contains_angle_brackets, signature.c:39-42. *)
Definition has_angle (s : list Z) : bool := existsb (fun c => (c =? 60) || (c =? 62)) s.

(** is_crud, signature.c:44-55. *)
Definition is_crud (c : Z) : bool :=
  (c <=? 32) || (c =? 44) || (c =? 58) || (c =? 59) || (c =? 60) || (c =? 62) || (c =? 34) || (c =? 92) || (c =? 39).

(** extract_trimmed, signature.c:57-68: both loops, then the copy. *)
Fixpoint ltrim (s : list Z) : list Z := match s with c :: r => if is_crud c then ltrim r else s | [] => [] end.
Definition rtrim (s : list Z) : list Z := rev (ltrim (rev s)).
Definition extract_trimmed (s : list Z) : list Z := rtrim (ltrim s).

(** git_signature_new, signature.c:70-103. *)
Definition signature_new (name email : list Z) (time offset : Z) : res sig :=
  if has_angle name || has_angle email then Err (-1)
  else
    let n := extract_trimmed name in
    let e := extract_trimmed email in
    match n, e with
    | [], _ => Err (-1)
    | _, [] => Err (-1)
    | _, _ => Ok (mksig n e time offset (if offset <? 0 then 45 else 43))
    end.

(** printf's %u: the decimal digits ([fuel] at least their number). *)
Fixpoint dec (fuel : nat) (n : Z) : list Z :=
  match fuel with
  | O => []
  | S f => if n <? 10 then [48 + n] else dec f (n / 10) ++ [48 + n mod 10]
  end.
(** printf's %02d for a number that is not negative. *)
Definition pad2 (n : Z) : list Z := if n <? 10 then [48; 48 + n] else dec 20 n.

(** git_signature__writebuf, signature.c:424-442.  Negating the smallest int is
    undefined. *)
Definition writebuf (header : list Z) (s : sig) : res (list Z) :=
  let sign := if (s_offset s <? 0) || (s_sign s =? 45) then 45 else 43 in
  if s_offset s =? -2147483648 then UB
  else
    let offset := if s_offset s <? 0 then - s_offset s else s_offset s in
    Ok (header ++ s_name s ++ [32; 60] ++ s_email s ++ [62; 32] ++ dec 20 (s_time s mod two32) ++ [32; sign] ++ pad2 (offset / 60) ++ pad2 (offset mod 60) ++ [10]).

(** memchr and git__memrchr (src/util/util.h:95-108): position of the first and of the last. *)
Fixpoint memchr (s : list Z) (c : Z) : option nat :=
  match s with [] => None | x :: r => if x =? c then Some 0%nat else option_map S (memchr r c) end.
Fixpoint memrchr (s : list Z) (c : Z) : option nat :=
  match s with
  | [] => None
  | x :: r => match memrchr r c with Some i => Some (S i) | None => if x =? c then Some 0%nat else None end
  end.
(** What a C string made of these bytes reads as. *)
Fixpoint cut0 (s : list Z) : list Z := match s with [] => [] | c :: r => if c =? 0 then [] else c :: cut0 r end.

Definition EINVALID : Z := -21.

(** The part after the e-mail, signature.c:355-396: time, offset, sign from the text
    that starts two bytes after the closing bracket. *)
Definition parse_when (t : list Z) : res (Z * Z * Z) :=
  match t with
  | [] => Ok (0, 0, 0)
  | _ =>
      match strntol64 t 10 with
      | Ok (time, after) =>
          match after with
          | _ :: (tz0 :: tz1) =>
              let offset :=
                if (tz0 =? 45) || (tz0 =? 43)
                then match strntol32 tz1 10 with Ok (o, _) => o | _ => 0 end
                else 0 in
              let hours := Z.quot offset 100 in
              let mins := Z.rem offset 100 in
              if (hours <=? 14) && (mins <=? 59)
              then Ok (time, (if tz0 =? 45 then - (hours * 60 + mins) else hours * 60 + mins), tz0)
              else Ok (time, 0, 0)
          | _ => Ok (time, 0, 0)
          end
      | _ => Err EINVALID
      end
  end.

(** git_signature__parse, signature.c:326-400, on the bytes from *buffer_out to
    buffer_end; [ender] 0 means none.  Returns the signature and what follows
    buffer_end + 1. *)
Definition sig_parse (buf : list Z) (header : option (list Z)) (ender : Z) : res (sig * list Z) :=
  match (if ender =? 0 then Some (length buf) else memchr buf ender) with
  | None => Err EINVALID
  | Some e =>
      let line := firstn e buf in
      match (match header with
             | None => Some line
             | Some h => if (length line <=? length h)%nat || negb (prefixb h line) then None else Some (skipn (length h) line)
             end) with
      | None => Err EINVALID
      | Some b =>
          match memrchr b 60, memrchr b 62 with
          | Some i, Some j =>
              if (j <=? i)%nat then Err EINVALID
              else
                let name := extract_trimmed (firstn i b) in
                let email := extract_trimmed (firstn (j - (i + 1)) (skipn (i + 1) b)) in
                do (w, sg) <- parse_when (skipn (j + 2) b) ;;
                Ok (mksig (cut0 name) (cut0 email) (fst w) (snd w) sg, skipn (e + 1) buf)
          | _, _ => Err EINVALID
          end
      end
  end.
