(** Model of reference-name validation and normalisation in src/libgit2/refs.c.
    Strings are byte lists without NUL; reading at the end of the list yields the
    terminating NUL.  [char] is signed in C; the comparisons below (<= ' ' after a cast to
    unsigned, and range tests on 'A'..'Z') give the same answer for bytes >= 128 when bytes
    are taken as unsigned.  The iconv precomposition branch is not compiled by default and
    is not modelled.  Allocation succeeds. *)
From Verif Require Import Base Str CStr.

(** include/git2/errors.h: GIT_EINVALIDSPEC, GIT_EBUFS *)
Definition EINVALIDSPEC : Z := -12.
Definition EBUFS : Z := -6.

(** include/git2/refs.h:666-692 and refs.h:57: the flag bits. *)
Record rflags : Type := mkf { f_onelevel : bool; f_pattern : bool; f_shorthand : bool; f_novalidate : bool }.

(** refs.c:820-836 *)
Definition valid_ref_char (c : Z) : bool :=
  if c <=? 32 then false
  else negb ((c =? 126) || (c =? 94) || (c =? 58) || (c =? 92) || (c =? 63) || (c =? 91)).

(** refs.c:851-870, the loop of ensure_segment_validity; [n] = current - name. *)
Fixpoint seg_loop (cur : list Z) (prev : Z) (glob : bool) (n : nat) : option nat :=
  match cur with
  | [] => Some n
  | c :: r =>
      if c =? 47 then Some n
      else if negb (valid_ref_char c) then None
      else if (prev =? 46) && (c =? 46) then None
      else if (prev =? 64) && (c =? 123) then None
      else if c =? 42 then (if glob then seg_loop r c false (S n) else None)
      else seg_loop r c glob (S n)
  end.

(** refs.c:838-881 ensure_segment_validity; [None] is the -1 result. *)
Definition ensure_segment (name : list Z) (glob caret : bool) : option nat :=
  let c0 := hd 0 name in
  if c0 =? 46 then None
  else
    let start := if caret && (c0 =? 94) then 1%nat else 0%nat in
    match seg_loop (skipn start name) 0 glob start with
    | None => None
    | Some len =>
        if (5 <=? len)%nat && (match memcmp (skipn (len - 5) name) (bs ".lock") 5 with Ok 0 => true | _ => false end)
        then None else Some len
    end.

(** refs.c:883-905 is_valid_normalized_name; [len] > 0 *)
Definition valid_normalized (name : list Z) (len : nat) : bool :=
  let p := firstn len name in
  let body := match p with c :: r => if c =? 94 then r else p | [] => [] end in
  forallb (fun c => ((65 <=? c) && (c <=? 90)) || (c =? 95)) body
  && negb (hd 0 name =? 95) && negb (nth (len - 1) name 0 =? 95).

(** str.c:760-807 git_str_join with separator '/', [a] the buffer itself, followed by
    git_str_truncate (str.c:537-548) to [n] bytes. *)
Fixpoint strip_sl (b : list Z) : list Z := match b with c :: r => if c =? 47 then strip_sl r else b | [] => [] end.
Definition joinpath (a b : list Z) : list Z :=
  match a with
  | [] => b
  | _ => let b' := strip_sl b in if last a 0 =? 47 then a ++ b' else a ++ 47 :: b'
  end.

Record nst : Type := mkn { n_pos : nat; n_len : nat; n_segs : nat; n_buf : list Z }.

(** refs.c:948-996, the segment loop.  [norm]: a buffer was passed.  The result carries
    the position of the last segment, its length, the number of segments and the buffer. *)
Fixpoint norm_loop (fuel : nat) (name : list Z) (norm pat caret : bool) (pos segs : nat) (buf : list Z) : res nst :=
  match fuel with
  | O => NoFuel
  | S f =>
      let current := skipn pos name in
      match ensure_segment current pat caret with
      | None => Err EINVALIDSPEC
      | Some len =>
          let nonempty := negb (len =? 0)%nat in
          let pat' := if nonempty && existsb (Z.eqb 42) (firstn len current) then false else pat in
          let buf' := if nonempty && norm
                      then firstn (length buf + len + (if (segs =? 0)%nat then 0 else 1)) (joinpath buf current)
                      else buf in
          let segs' := if nonempty then S segs else segs in
          if (len =? 0)%nat && negb norm then Err EINVALIDSPEC
          else match nth_error current len with
               | None => Ok (mkn pos len segs' buf')
               | Some _ => norm_loop f name norm pat' false (pos + len + 1) segs' buf'
               end
      end
  end.

(** refs.c:908-1040 git_reference__normalize_name.  With validation disabled and no
    buffer the C code passes a NULL buffer on ([UB]). *)
Definition normalize_name (norm : bool) (name : list Z) (fl : rflags) : res (list Z) :=
  let validate := negb (f_novalidate fl) in
  if validate && (hd 0 name =? 47) then Err EINVALIDSPEC
  else if negb validate then (if norm then Ok name else UB)
  else
    do st <- norm_loop (S (length name)) name norm (f_pattern fl) true 0 0 [] ;;
    if (n_len st =? 0)%nat && (n_segs st =? 0)%nat then Err EINVALIDSPEC
    else if (n_pos st + n_len st =? 0)%nat then UB
    else
      do lastc <- rd name (n_pos st + n_len st - 1) ;;
      if lastc =? 46 then Err EINVALIDSPEC
      else if lastc =? 47 then Err EINVALIDSPEC
      else if (n_segs st =? 1)%nat && negb (f_onelevel fl) then Err EINVALIDSPEC
      else if (n_segs st =? 1)%nat && negb (f_shorthand fl)
              && negb (valid_normalized name (n_len st) || (f_pattern fl && leqb name (bs "*")))
      then Err EINVALIDSPEC
      else if (1 <? n_segs st)%nat && valid_normalized name (length (hd [] (split 47 name)))   (* strchr(name, '/') - name *)
      then Err EINVALIDSPEC
      else Ok (n_buf st).

(** refs.c:1341-1360 git_reference__name_is_valid *)
Definition name_is_valid (name : list Z) (fl : rflags) : res bool :=
  match normalize_name false name fl with
  | Ok _ => Ok true
  | Err c => if c =? EINVALIDSPEC then Ok false else Err c
  | UB => UB
  | NoFuel => NoFuel
  end.

(** refs.c:1362-1365 git_reference_name_is_valid *)
Definition reference_name_is_valid (name : list Z) : res bool :=
  name_is_valid name (mkf true false false false).

(** refs.c:1042-1070 git_reference_normalize_name: the bytes written to the caller's
    buffer; [bufsize] is a size_t (the subtraction wraps).  git_str_copy_cstr
    (str.c:511-535) rejects a zero size with -1. *)
Definition reference_normalize_name (bufsize : Z) (name : list Z) (fl : rflags) : res (list Z) :=
  do b <- normalize_name true name fl ;;
  if Z.of_nat (length b) >? (bufsize - 1) mod two64 then Err EBUFS
  else if bufsize =? 0 then Err (-1)
  else if Z.of_nat (length b) + 1 <=? bufsize then Ok (b ++ [0]) else UB.
