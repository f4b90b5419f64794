(** Model of the integer parsers of src/util/util.c and of src/libgit2/config.c.  A text is
    the list of the [nptr_len] bytes that may be read. *)
From Verif Require Import Base Str.

Definition int64_min : Z := -9223372036854775808.
Definition int64_max : Z := 9223372036854775807.
Definition fits64 (v : Z) : bool := (int64_min <=? v) && (v <=? int64_max).
Definition wrap64 (v : Z) : Z := (v + 9223372036854775808) mod two64 - 9223372036854775808.
Definition fits32 (v : Z) : bool := (-2147483648 <=? v) && (v <=? 2147483647).

(** ctype_compat.h:43-46 (git__isspace) *)
Definition isspc (c : Z) : bool := (c =? 32) || (c =? 9) || (c =? 10) || (c =? 12) || (c =? 13) || (c =? 11).
(** util.c:47-48 *)
Fixpoint skip_ws (s : list Z) : list Z := match s with c :: r => if isspc c then skip_ws r else s | [] => [] end.

(** util.c:99-107: the digit's value, [base] when it is none *)
Definition digit (base c : Z) : Z :=
  if (48 <=? c) && (c <=? 57) then c - 48
  else if (97 <=? c) && (c <=? 122) then c - 97 + 10
  else if (65 <=? c) && (c <=? 90) then c - 65 + 10
  else base.

(** util.c:99-115.  git__multiply_int64_overflow / git__add_int64_overflow are the compiler
    builtins (integer.h:76-87): exact test, wrapped result. *)
Fixpoint digits_loop (neg : bool) (base : Z) (s : list Z) (n : Z) (ovfl : bool) (ndig : nat) : Z * bool * nat * list Z :=
  match s with
  | [] => (n, ovfl, ndig, s)
  | c :: r =>
      let v := digit base c in
      if base <=? v then (n, ovfl, ndig, s)
      else
        let v := if neg then - v else v in
        if negb (fits64 (n * base)) then digits_loop neg base r n true (S ndig)
        else let nn := n * base in
             if negb (fits64 (nn + v)) then digits_loop neg base r (wrap64 (nn + v)) true (S ndig)
             else digits_loop neg base r (nn + v) ovfl (S ndig)
  end.

(** util.c:32-136 git__strntol64: the value and where parsing stopped. *)
Definition strntol64 (s : list Z) (base : Z) : res (Z * list Z) :=
  let p := skip_ws s in
  match p with
  | [] => Err (-1)
  | c :: _ =>
      let neg := c =? 45 in
      let p := if (c =? 45) || (c =? 43) then tl p else p in
      match p with
      | [] => Err (-1)
      | c :: _ =>
          let x := (2 <? length p)%nat && ((nth 1 p 0 =? 120) || (nth 1 p 0 =? 88)) in
          let base := if base =? 0 then (if negb (c =? 48) then 10 else if x then 16 else 8) else base in
          if (base <? 0) || (36 <? base) then Err (-1)
          else
            let p := if (base =? 16) && x && (c =? 48) then skipn 2 p else p in
            let '(n, ovfl, ndig, rest) := digits_loop neg base p 0 false 0 in
            if (ndig =? 0)%nat then Err (-1)
            else if (ovfl : bool) then Err (-1) else Ok (n, rest)
      end
  end.

(** util.c:138-160 git__strntol32 *)
Definition strntol32 (s : list Z) (base : Z) : res (Z * list Z) :=
  do (v, rest) <- strntol64 s base ;;
  if fits32 v then Ok (v, rest) else Err (-1).

(** A signed 64-bit product; overflow is undefined. *)
Definition mul64 (a b : Z) : res Z := if fits64 (a * b) then Ok (a * b) else UB.

(** config.c:1454-1495 git_config_parse_int64 on a string (no NUL inside) *)
Definition config_parse_int64 (s : list Z) : res Z :=
  do (num, e) <- strntol64 s 0 ;;
  match e with
  | [] => Ok num
  | c :: r =>
      let k (num : Z) : res Z :=
        do num <- mul64 num 1024 ;; match r with [] => Ok num | _ => Err (-1) end in
      if (c =? 103) || (c =? 71) then do num <- mul64 num 1024 ;; do num <- mul64 num 1024 ;; k num
      else if (c =? 109) || (c =? 77) then do num <- mul64 num 1024 ;; k num
      else if (c =? 107) || (c =? 75) then k num
      else Err (-1)
  end.
(** config.c:1497-1515 git_config_parse_int32 *)
Definition config_parse_int32 (s : list Z) : res Z :=
  do v <- config_parse_int64 s ;; if fits32 v then Ok v else Err (-1).

(** strcasecmp(value, word) == 0 for a lower-case ASCII word, C locale *)
Definition lower (c : Z) : Z := if (65 <=? c) && (c <=? 90) then c + 32 else c.
Definition eqcase (s w : list Z) : bool := leqb (map lower s) w.
(** util.c:634-653 git__parse_bool; [None] is a missing value *)
Definition parse_bool_word (v : option (list Z)) : option bool :=
  match v with
  | None => Some true
  | Some s =>
      if eqcase s (bs "true") || eqcase s (bs "yes") || eqcase s (bs "on") then Some true
      else if eqcase s (bs "false") || eqcase s (bs "no") || eqcase s (bs "off") || leqb s [] then Some false
      else None
  end.
(** config.c:1439-1452 git_config_parse_bool *)
Definition config_parse_bool (v : option (list Z)) : res bool :=
  match parse_bool_word v, v with
  | Some b, _ => Ok b
  | None, Some s => match config_parse_int32 s with Ok n => Ok (negb (n =? 0)) | UB => UB | NoFuel => NoFuel | Err _ => Err (-1) end
  | None, None => UB
  end.
