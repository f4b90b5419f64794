(** Merging the contents of a file: deps/xdiff/xmerge.c and its caller merge_file.c, without the
    whitespace flags and GIT_MERGE_FILE_DIFF_PATIENCE.  Allocations succeed.  Numbers of lines fit in
    an int (a text of at most GIT_XDIFF_MAX_SIZE = 1023 MB is merged line by line). *)
From Verif Require Import Base CStr Str ApplyModel XdiffModel.
Local Open Scope Z_scope.

(** xdl_do_diff, xdl_change_compact twice and xdl_build_script, as xdl_merge (xmerge.c:700-716) and
    xdl_refine_conflicts (xmerge.c:387-393) call them: the lines of both texts and the script.
    merge_file.c never sets XDF_INDENT_HEURISTIC. *)
Definition script_with (split : list nat -> list nat -> xenv -> box -> bool -> res spl) (hr : heuristics) (minimal : bool) (old new : list Z) : res (list (list Z) * list (list Z) * list xdchange) :=
  do p <- prepare_ctx (length old) 1 old [] ;;
  let '(l1, h1, cf) := p in
  do p <- prepare_ctx (length new) 2 new cf ;;
  let '(l2, h2, cf) := p in
  do rr <- do_diff split hr (mkopts 0 0 minimal false) cf h1 h2 ;;
  let '(r1, r2) := rr in
  do r1 <- change_compact false (better1 hr l1) h1 r1 r2 ;;
  do r2 <- change_compact false (better2 hr l2) h2 r2 r1 ;;
  do xscr <- build_script r1 r2 ;;
  Ok (l1, l2, xscr).
(** The scores of shifts are not used without XDF_INDENT_HEURISTIC. *)
Definition script_of (minimal : bool) : list Z -> list Z -> res (list (list Z) * list (list Z) * list xdchange) :=
  script_with split_of (heur_of (fun _ _ _ _ => true)) minimal.

(** xdmerge_t, xmerge.c:25-48.  [base] is i0 and chg0, which xdl_refine_conflicts leaves undefined in
    the structs it allocates. *)
Record xdmerge := mkm { mode : Z; base : option (Z * Z); m1 : Z; n1 : Z; m2 : Z; n2 : Z }.
(** xdl_append_merge, xmerge.c:50-79; the list is kept with the last struct first. *)
Definition append_merge (acc : list xdmerge) (md i0 chg0 i1 chg1 i2 chg2 : Z) : res (list xdmerge) :=
  match acc with
  | m :: r => if (i1 <=? m1 m + n1 m) || (i2 <=? m2 m + n2 m) then
                match base m with
                | None => UB
                | Some (b, _) => Ok (mkm (if md =? mode m then mode m else 0) (Some (b, i0 + chg0 - b)) (m1 m) (i1 + chg1 - m1 m) (m2 m) (i2 + chg2 - m2 m) :: r)
                end
              else Ok (mkm md (Some (i0, chg0)) i1 chg1 i2 chg2 :: acc)
  | [] => Ok [mkm md (Some (i0, chg0)) i1 chg1 i2 chg2]
  end.
(** The lines i .. i + n - 1 of a file. *)
Definition lines_at (recs : list (list Z)) (i n : Z) : res (list (list Z)) :=
  if (0 <=? i) && (0 <=? n) && (i + n <=? Z.of_nat (length recs)) then Ok (firstn (Z.to_nat n) (skipn (Z.to_nat i) recs)) else UB.
(** xdl_merge_cmp_lines, xmerge.c:96-110: true for 0. *)
Definition same_lines (a t : list (list Z)) (i1 i2 n : Z) : res bool :=
  do x <- lines_at a i1 n ;; do y <- lines_at t i2 n ;;
  Ok ((length x =? length y)%nat && forallb (fun p => recmatch (fst p) (snd p)) (combine x y)).

Section Merge.
(** The lines of the two sides, the number of lines of the ancestor; xmp->level != XDL_MERGE_MINIMAL. *)
Variables (a t : list (list Z)) (nb : nat).
Definition zi1 x := Z.of_nat (XdiffModel.i1 x). Definition zi2 x := Z.of_nat (XdiffModel.i2 x).
Definition zc1 x := Z.of_nat (XdiffModel.chg1 x). Definition zc2 x := Z.of_nat (XdiffModel.chg2 x).
(** xmerge.c:630-645. *)
Fixpoint only1 (s : list xdchange) (acc : list xdmerge) : res (list xdmerge) :=
  match s with
  | [] => Ok acc
  | x :: r => do acc <- append_merge acc 1 (zi1 x) (zc1 x) (zi2 x) (zc2 x) (zi1 x + Z.of_nat (length t) - Z.of_nat nb) (zc1 x) ;; only1 r acc
  end.
(** xmerge.c:646-661. *)
Fixpoint only2 (s : list xdchange) (acc : list xdmerge) : res (list xdmerge) :=
  match s with
  | [] => Ok acc
  | y :: r => do acc <- append_merge acc 2 (zi1 y) (zc1 y) (zi1 y + Z.of_nat (length a) - Z.of_nat nb) (zc1 y) (zi2 y) (zc2 y) ;; only2 r acc
  end.
(** xmerge.c:560-629: the loop over both scripts; then the other two loops. *)
Fixpoint merge_loop (fuel : nat) (s1 s2 : list xdchange) (acc : list xdmerge) : res (list xdmerge) :=
  match s1, s2 with
  | x :: r1, y :: r2 =>
    match fuel with
    | O => NoFuel
    | S f =>
      if zi1 x + zc1 x <? zi1 y then
        do acc <- append_merge acc 1 (zi1 x) (zc1 x) (zi2 x) (zc2 x) (zi2 y - zi1 y + zi1 x) (zc1 x) ;; merge_loop f r1 s2 acc
      else if zi1 y + zc1 y <? zi1 x then
        do acc <- append_merge acc 2 (zi1 y) (zc1 y) (zi2 x - zi1 x + zi1 y) (zc1 y) (zi2 y) (zc2 y) ;; merge_loop f s1 r2 acc
      else
        do same <- (if (zi1 x =? zi1 y) && (zc1 x =? zc1 y) && (zc2 x =? zc2 y) then same_lines a t (zi2 x) (zi2 y) (zc2 x) else Ok false) ;;
        do acc <- (if same : bool then Ok acc
                   else
                     let off := zi1 x - zi1 y in
                     let ffo := off + zc1 x - zc1 y in
                     let i0 := if 0 <? off then zi1 x - off else zi1 x in
                     let i1 := if 0 <? off then zi2 x - off else zi2 x in
                     let i2 := if 0 <? off then zi2 y else zi2 y + off in
                     let chg0 := zi1 x + zc1 x - i0 in
                     let chg1 := zi2 x + zc2 x - i1 in
                     let chg2 := zi2 y + zc2 y - i2 in
                     let '(chg0, chg1, chg2) := if ffo <? 0 then (chg0 - ffo, chg1 - ffo, chg2) else (chg0, chg1, chg2 + ffo) in
                     append_merge acc 0 i0 chg0 i1 chg1 i2 chg2) ;;
        let e1 := zi1 x + zc1 x in
        let e2 := zi1 y + zc1 y in
        merge_loop f (if e1 <=? e2 then r1 else s1) (if e2 <=? e1 then r2 else s2) acc
    end
  | s1, [] => only1 s1 acc
  | [], s2 => only2 s2 acc
  end.
End Merge.

(** xdl_refine_zdiff3_conflicts, xmerge.c:335-357. *)
Fixpoint drop_front (fuel : nat) (a t : list (list Z)) (m : xdmerge) : res xdmerge :=
  if (n1 m =? 0) || (n2 m =? 0) then Ok m
  else
    do x <- lines_at a (m1 m) 1 ;; do y <- lines_at t (m2 m) 1 ;;
    if forallb (fun p => recmatch (fst p) (snd p)) (combine x y) then
      match fuel with O => NoFuel | S f => drop_front f a t (mkm (mode m) (base m) (m1 m + 1) (n1 m - 1) (m2 m + 1) (n2 m - 1)) end
    else Ok m.
Fixpoint drop_back (fuel : nat) (a t : list (list Z)) (m : xdmerge) : res xdmerge :=
  if (n1 m =? 0) || (n2 m =? 0) then Ok m
  else
    do x <- lines_at a (m1 m + n1 m - 1) 1 ;; do y <- lines_at t (m2 m + n2 m - 1) 1 ;;
    if forallb (fun p => recmatch (fst p) (snd p)) (combine x y) then
      match fuel with O => NoFuel | S f => drop_back f a t (mkm (mode m) (base m) (m1 m) (n1 m - 1) (m2 m) (n2 m - 1)) end
    else Ok m.
Fixpoint refine_zdiff3 (a t : list (list Z)) (ms : list xdmerge) : res (list xdmerge) :=
  match ms with
  | [] => Ok []
  | m :: r => do m <- (if mode m =? 0 then do m <- drop_front (length a) a t m ;; drop_back (length a) a t m else Ok m) ;;
              do r <- refine_zdiff3 a t r ;; Ok (m :: r)
  end.
(** xdl_refine_conflicts, xmerge.c:363-424. *)
Definition refine_one (script : list Z -> list Z -> res (list (list Z) * list (list Z) * list xdchange)) (a t : list (list Z)) (m : xdmerge) : res (list xdmerge) :=
  if negb (mode m =? 0) then Ok [m]
  else if (n1 m =? 0) || (n2 m =? 0) then Ok [m]
  else
    do x <- lines_at a (m1 m) (n1 m) ;;
    do y <- lines_at t (m2 m) (n2 m) ;;
    do r <- script (concat x) (concat y) ;;
    let '(_, _, xscr) := r in
    match xscr with
    | [] => Ok [mkm 4 (base m) (m1 m) (n1 m) (m2 m) (n2 m)]
    | x :: r => Ok (mkm 0 (base m) (zi1 x + m1 m) (zc1 x) (zi2 x + m2 m) (zc2 x) ::
                    map (fun x => mkm 0 None (zi1 x + m1 m) (zc1 x) (zi2 x + m2 m) (zc2 x)) r)
    end.
Fixpoint refine_conflicts (script : list Z -> list Z -> res (list (list Z) * list (list Z) * list xdchange)) (a t : list (list Z)) (ms : list xdmerge) : res (list xdmerge) :=
  match ms with
  | [] => Ok []
  | m :: r => do p <- refine_one script a t m ;; do q <- refine_conflicts script a t r ;; Ok (p ++ q)
  end.
(** line_contains_alnum, lines_contain_alnum, xmerge.c:426-441, in the C locale. *)
Definition alnum (c : Z) : bool := ((48 <=? c) && (c <=? 57)) || ((65 <=? c) && (c <=? 90)) || ((97 <=? c) && (c <=? 122)).
Definition lines_contain_alnum (a : list (list Z)) (i n : Z) : res bool := do ls <- lines_at a i n ;; Ok (existsb (existsb alnum) ls).
(** xdl_merge_two_conflicts, xmerge.c:447-454. *)
Definition merge_two (m n : xdmerge) : xdmerge := mkm (mode m) (base m) (m1 m) (m1 n + n1 n - m1 m) (m2 m) (m2 n + n2 n - m2 m).
(** xdl_simplify_non_conflicts, xmerge.c:461-490; [m] is the current struct. *)
Fixpoint simplify_from (alnum : bool) (a : list (list Z)) (m : xdmerge) (rest : list xdmerge) : res (list xdmerge) :=
  match rest with
  | [] => Ok [m]
  | n :: r =>
    let bg := m1 m + n1 m in let ed := m1 n in
    do apart <- (if negb (mode m =? 0) || negb (mode n =? 0) then Ok true
                 else if 3 <? ed - bg then (if alnum then lines_contain_alnum a bg (ed - bg) else Ok true)
                 else Ok false) ;;
    if apart : bool then do q <- simplify_from alnum a n r ;; Ok (m :: q)
    else simplify_from alnum a (merge_two m n) r
  end.
Definition simplify (alnum : bool) (a : list (list Z)) (ms : list xdmerge) : res (list xdmerge) :=
  match ms with [] => Ok [] | m :: r => simplify_from alnum a m r end.

(** ** The result *)

(** The options of a merge: xmp->style, xmp->favor, the labels, marker_size. *)
Inductive style := StyleMerge | StyleDiff3 | StyleZdiff3.
Record mopts := mkmopts { m_style : style; m_favor : Z; m_alnum : bool; m_minimal : bool; name1 : option (list Z); name2 : option (list Z); name3 : option (list Z); marker_size : Z }.
(** xdl_recs_copy_0, xmerge.c:112-142, with a dest and without. *)
Definition ends_nl (l : list Z) : bool := match l with [] => false | _ => nth (length l - 1) l 0 =? 10 end.
Definition copy (recs : list (list Z)) (i n : Z) (needs_cr add_nl : bool) : res (list Z) :=
  if n <? 1 then Ok []
  else
    do ls <- lines_at recs i n ;;
    Ok (concat ls ++ (if add_nl && negb (ends_nl (last ls [])) then (if needs_cr then [13] else []) ++ [10] else [])).
Definition b2z (b : bool) : Z := if b then 1 else 0.
Definition copy_size (recs : list (list Z)) (i n : Z) (needs_cr add_nl : bool) : res Z :=
  if n <? 1 then Ok 0
  else
    do ls <- lines_at recs i n ;;
    Ok (fold_right (fun l s => Z.of_nat (length l) + s) 0 ls + (if add_nl && negb (ends_nl (last ls [])) then b2z needs_cr + 1 else 0)).
(** is_eol_crlf, xmerge.c:159-182: 1, 0 or -1. *)
Definition crlf_at (l : list Z) : Z := b2z ((1 <? length l)%nat && (nth (length l - 2) l 0 =? 13)).
Definition eol_crlf (recs : list (list Z)) (i : Z) : res Z :=
  let n := Z.of_nat (length recs) in
  if i <? n - 1 then do l <- lines_at recs i 1 ;; Ok (crlf_at (concat l))
  else if n =? 0 then Ok (-1)
  else
    do l <- lines_at recs i 1 ;;
    if ends_nl (concat l) then Ok (crlf_at (concat l))
    else if i =? 0 then Ok (-1)
    else do l <- lines_at recs (i - 1) 1 ;; Ok (crlf_at (concat l)).
(** is_cr_needed, xmerge.c:184-198. *)
Definition cr_needed (b a t : list (list Z)) (m : xdmerge) : res bool :=
  do c <- eol_crlf a (if m1 m =? 0 then 0 else m1 m - 1) ;;
  do c <- (if c =? 0 then Ok c else eol_crlf t (if m2 m =? 0 then 0 else m2 m - 1)) ;;
  do c <- (if c =? 0 then Ok c else eol_crlf b 0) ;;
  Ok (if c <? 0 then false else negb (c =? 0)).
(** fill_conflict_hunk, xmerge.c:200-290: what is written to dest + size ... *)
Definition marker (c : Z) (sz : Z) (name : option (list Z)) (cr : bool) : list Z :=
  repeat c (Z.to_nat sz) ++ match name with Some n => 32 :: n | None => [] end ++ (if cr then [13] else []) ++ [10].
Definition msize (o : mopts) : Z := if marker_size o <=? 0 then 7 else marker_size o.
Definition shows_base (o : mopts) : bool := match m_style o with StyleMerge => false | _ => true end.
Definition conflict_bytes (o : mopts) (b a t : list (list Z)) (i : Z) (m : xdmerge) : res (list Z) :=
  do cr <- cr_needed b a t m ;;
  do w <- copy a i (m1 m - i) false false ;;
  do x <- copy a (m1 m) (n1 m) cr true ;;
  do y <- (if shows_base o then
             match base m with
             | None => UB
             | Some (i0, c0) => do z <- copy b i0 c0 cr true ;; Ok (marker 124 (msize o) (name3 o) cr ++ z)
             end
           else Ok []) ;;
  do z <- copy t (m2 m) (n2 m) cr true ;;
  Ok (w ++ marker 60 (msize o) (name1 o) cr ++ x ++ y ++ marker 61 (msize o) None cr ++ z ++ marker 62 (msize o) (name2 o) cr).
(** ... and by how much size grows when dest is NULL. *)
Definition msz (name : option (list Z)) : Z := match name with Some n => Z.of_nat (length n) + 1 | None => 0 end.
Definition conflict_size (o : mopts) (b a t : list (list Z)) (i : Z) (m : xdmerge) : res Z :=
  do cr <- cr_needed b a t m ;;
  do w <- copy_size a i (m1 m - i) false false ;;
  do x <- copy_size a (m1 m) (n1 m) cr true ;;
  do y <- (if shows_base o then
             match base m with
             | None => UB
             | Some (i0, c0) => do z <- copy_size b i0 c0 cr true ;; Ok (msize o + 1 + b2z cr + msz (name3 o) + z)
             end
           else Ok 0) ;;
  do z <- copy_size t (m2 m) (n2 m) cr true ;;
  Ok (w + (msize o + 1 + b2z cr + msz (name1 o)) + x + y + (msize o + 1 + b2z cr) + z + (msize o + 1 + b2z cr + msz (name2 o))).
(** The body of the loop of xdl_fill_merge_buffer, xmerge.c:303-324, after favor: what is added, and the new i. *)
Definition chunk {A} (cat : A -> A -> A) (nil : A) (conflict : Z -> xdmerge -> res A) (cp : list (list Z) -> Z -> Z -> bool -> bool -> res A) (b a t : list (list Z)) (i : Z) (m : xdmerge) : res (A * Z) :=
  if mode m =? 0 then do x <- conflict i m ;; Ok (x, m1 m + n1 m)
  else if Z.land (mode m) 3 =? 0 then Ok (nil, i)
  else
    do w <- cp a i (m1 m - i) false false ;;
    do x <- (if Z.land (mode m) 1 =? 0 then Ok nil else do cr <- cr_needed b a t m ;; cp a (m1 m) (n1 m) cr (negb (Z.land (mode m) 2 =? 0))) ;;
    do y <- (if Z.land (mode m) 2 =? 0 then Ok nil else cp t (m2 m) (n2 m) false false) ;;
    Ok (cat w (cat x y), m1 m + n1 m).
(** xdl_fill_merge_buffer, xmerge.c:292-329. *)
Fixpoint fill {A} (cat : A -> A -> A) (nil : A) (conflict : Z -> xdmerge -> res A) (cp : list (list Z) -> Z -> Z -> bool -> bool -> res A) (b a t : list (list Z)) (i : Z) (ms : list xdmerge) : res A :=
  match ms with
  | [] => cp a i (Z.of_nat (length a) - i) false false
  | m :: r => do p <- chunk cat nil conflict cp b a t i m ;;
              let '(x, i) := p in
              do y <- fill cat nil conflict cp b a t i r ;; Ok (cat x y)
  end.
Definition fill_bytes (o : mopts) (b a t : list (list Z)) (ms : list xdmerge) : res (list Z) := fill (@app Z) [] (conflict_bytes o b a t) copy b a t 0 ms.
Definition fill_size (o : mopts) (b a t : list (list Z)) (ms : list xdmerge) : res Z := fill Z.add 0 (conflict_size o b a t) copy_size b a t 0 ms.
(** xmerge.c:304-305. *)
Definition favour (f : Z) (m : xdmerge) : xdmerge := if negb (f =? 0) && (mode m =? 0) then mkm f (base m) (m1 m) (n1 m) (m2 m) (n2 m) else m.
(** xdl_do_merge, xmerge.c:500-687: the buffer and the number of conflicts.  The size is an int; a
    larger one is taken to be undefined behaviour (the buffer is then too small, or the additions overflow). *)
Definition INT_MAX : Z := 2 ^ 31 - 1.
Definition do_merge (o : mopts) (b a t : list (list Z)) (s1 s2 : list xdchange) : res (list Z * Z) :=
  do acc <- merge_loop a t (length b) (length s1 + length s2) s1 s2 [] ;;
  let ms := rev acc in
  do ms <- (match m_style o with
            | StyleZdiff3 => refine_zdiff3 a t ms
            | StyleDiff3 => Ok ms
            | StyleMerge => do ms <- refine_conflicts (script_of (m_minimal o)) a t ms ;; simplify (m_alnum o) a ms
            end) ;;
  let ms := map (favour (m_favor o)) ms in
  do size <- fill_size o b a t ms ;;
  if INT_MAX <? size then UB
  else
    do out <- fill_bytes o b a t ms ;;
    if Z.of_nat (length out) =? size then Ok (out, Z.of_nat (length (filter (fun m => mode m =? 0) ms))) else UB.
(** xdl_merge, xmerge.c:689-739. *)
Definition xdl_merge (o : mopts) (orig mf1 mf2 : list Z) : res (list Z * Z) :=
  do p <- script_of (m_minimal o) orig mf1 ;;
  let '(b, a, s1) := p in
  do p <- script_of (m_minimal o) orig mf2 ;;
  let '(_, t, s2) := p in
  match s1, s2 with
  | [], _ => Ok (mf2, 0)
  | _, [] => Ok (mf1, 0)
  | _, _ => do_merge o b a t s1 s2
  end.

(** ** merge_file.c *)

(** git_merge_file_input without the path; git_merge_file_result. *)
Record minput := mkin { in_mode : Z; in_data : list Z }.
Record mresult := mkres { automergeable : bool; r_mode : Z; r_data : option (list Z) }.
Definition MODE_BLOB : Z := 33188.
Definition MODE_EXE : Z := 33261.
(** git_merge_file__best_mode, merge.h:180-202. *)
Definition best_mode (anc ours theirs : Z) : Z :=
  if anc =? 0 then if (ours =? MODE_EXE) || (theirs =? MODE_EXE) then MODE_EXE else MODE_BLOB
  else if negb (ours =? 0) && negb (theirs =? 0) then if anc =? ours then theirs else ours
  else 0.
(** merge_file__is_binary, merge_file.c:176-186. *)
Definition XDIFF_MAX : Z := 1024 * 1024 * 1023.
Definition is_binary (d : list Z) : bool := (XDIFF_MAX <? Z.of_nat (length d)) || existsb (Z.eqb 0) (firstn (Z.to_nat 8000) d).
(** git_merge_file__normalize_inputs, merge_file.c:232-246. *)
Definition normalize (i : minput) : minput := if in_mode i =? 0 then mkin MODE_BLOB (in_data i) else i.
(** merge_file__binary, merge_file.c:188-216. *)
Definition merge_binary (favor : Z) (ours theirs : minput) : mresult :=
  if favor =? 1 then mkres true (in_mode ours) (Some (in_data ours))
  else if favor =? 2 then mkres true (in_mode theirs) (Some (in_data theirs))
  else mkres false 0 None.
(** git_merge_file, merge_file.c:248-270, with merge_file__from_inputs and merge_file__xdiff (69-174).
    The labels of [o] are those of the options, or the paths. *)
Definition merge_file (o : mopts) (anc : option minput) (ours theirs : minput) : res mresult :=
  let anc := option_map normalize anc in
  let ours := normalize ours in
  let theirs := normalize theirs in
  let orig := match anc with Some i => in_data i | None => [] end in
  if is_binary orig || is_binary (in_data ours) || is_binary (in_data theirs) then Ok (merge_binary (m_favor o) ours theirs)
  else
    do r <- xdl_merge o orig (in_data ours) (in_data theirs) ;;
    Ok (mkres (snd r =? 0) (best_mode (match anc with Some i => in_mode i | None => 0 end) (in_mode ours) (in_mode theirs)) (Some (fst r))).
