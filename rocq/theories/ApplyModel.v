(** Applying a patch to the contents of a file, src/libgit2/apply.c. *)
From Verif Require Import Base CStr Str DeltaModel.
Local Open Scope Z_scope.

Definition EAPPLYFAIL : Z := -35.
Definition wrap64 (z : Z) : Z := z mod 2 ^ 64.

(** git_diff_line, include/git2/diff.h: its origin and content (content_len bytes).
    The three GIT_DIFF_LINE_..._EOFNL origins are treated alike by apply.c:222-227. *)
Inductive origin := Context | Deletion | Addition | Eofnl.
Record pline := mkline { l_origin : origin; l_content : list Z }.
(** git_patch_hunk and git_diff_hunk: the numbers of the header that are used, and the lines
    line_start .. line_start + line_count of the patch. *)
Record hunk := mkhunk { h_new_start : Z; h_old_lines : Z; h_new_lines : Z; h_lines : list pline }.

(** patch_image_init_fromstr, apply.c:58-90: the lines of the text, each with its newline. *)
Fixpoint cut_line (s : list Z) : list Z * list Z :=
  match s with
  | [] => ([], [])
  | c :: r => if c =? 10 then ([c], r) else let '(a, b) := cut_line r in (c :: a, b)
  end.
Fixpoint image_loop (fuel : nat) (s : list Z) : res (list (list Z)) :=
  match s with
  | [] => Ok []
  | _ => match fuel with
         | O => NoFuel
         | S n => let '(a, b) := cut_line s in do r <- image_loop n b ;; Ok (a :: r)
         end
  end.
Definition image_of (s : list Z) : res (list (list Z)) := image_loop (length s) s.

(** match_hunk, apply.c:101-127: bounds, then line by line. *)
Fixpoint match_lines (image pre : list (list Z)) (linenum i : nat) (todo : list (list Z)) : bool :=
  match todo with
  | [] => true
  | p :: r => if leqb p (nth (linenum + i) image []) then match_lines image pre linenum (S i) r else false
  end.
Definition match_hunk (image pre : list (list Z)) (linenum : nat) : bool :=
  if (length image <? length pre + linenum)%nat then false else match_lines image pre linenum 0 pre.

(** find_hunk_linenum, apply.c:129-146. *)
Definition find_hunk_linenum (image pre : list (list Z)) (linenum : Z) : bool * nat :=
  let n := if Z.of_nat (length image) <? linenum then length image else Z.to_nat linenum in
  (match_hunk image pre n, n).

(** git_vector_insert_null, src/util/vector.c:342-360; a null is the empty line here. *)
Definition insert_null (v : list (list Z)) (idx n : nat) : list (list Z) := firstn idx v ++ repeat [] n ++ skipn idx v.
(** git_vector_remove_range, src/util/vector.c:362-382. *)
Definition remove_range (v : list (list Z)) (idx n : nat) : list (list Z) := firstn idx v ++ skipn (idx + n) v.
(** update_hunk, apply.c:148-178. *)
Fixpoint put_lines (v : list (list Z)) (linenum i : nat) (post : list (list Z)) : list (list Z) :=
  match post with
  | [] => v
  | p :: r => put_lines (upd v (linenum + i) p) linenum (S i) r
  end.
Definition update_hunk (image : list (list Z)) (linenum : nat) (pre post : list (list Z)) : list (list Z) :=
  let v := if (length pre <? length post)%nat then insert_null image linenum (length post - length pre)
           else if (length post <? length pre)%nat then remove_range image linenum (length pre - length post)
           else image in
  put_lines v linenum 0 post.

(** The loop over the lines of a hunk, apply.c:210-245.  A marker line takes the newline off the
    line before it in the patch, which may already be in the images: the images keep pointers.  So
    a line's content is what it is after the next line was looked at.  A line of no bytes before a
    marker is read out of bounds, 226. *)
Definition settled (l : pline) (rest : list pline) : res (list Z) :=
  match rest with
  | mkline Eofnl _ :: _ =>
      match l_content l with
      | [] => UB
      | _ => if nth (length (l_content l) - 1) (l_content l) 0 =? 10 then Ok (firstn (length (l_content l) - 1) (l_content l)) else Ok (l_content l)
      end
  | _ => Ok (l_content l)
  end.
Fixpoint images (ls : list pline) : res (list (list Z) * list (list Z)) :=
  match ls with
  | [] => Ok ([], [])
  | l :: r =>
      do c <- settled l r ;;
      do ab <- images r ;;
      let '(a, b) := ab in
      match l_origin l with
      | Context => Ok (c :: a, c :: b)
      | Deletion => Ok (c :: a, b)
      | Addition => Ok (a, c :: b)
      | Eofnl => Ok (a, b)
      end
  end.

(** apply_hunks_ctx, apply.c:180-184, without the options. *)
Record ctx := mkctx { skipped_new : Z; skipped_old : Z }.
(** apply_hunk, apply.c:186-265; [cb] is the hunk callback (always 0 when there is none). *)
Definition apply_hunk (cb : hunk -> Z) (image : list (list Z)) (h : hunk) (c : ctx) : res (list (list Z) * ctx) :=
  if 0 <? cb h then Ok (image, mkctx (wrap64 (skipped_new c + h_new_lines h)) (wrap64 (skipped_old c + h_old_lines h)))
  else if cb h <? 0 then Err (cb h)
  else
    do pp <- images (h_lines h) ;;
    let '(pre, post) := pp in
    let line_num := if h_new_start h =? 0 then 0 else wrap64 (h_new_start h - skipped_new c + skipped_old c - 1) in
    let '(found, n) := find_hunk_linenum image pre line_num in
    if found then Ok (update_hunk image n pre post, c) else Err EAPPLYFAIL.
Fixpoint hunks_loop (cb : hunk -> Z) (image : list (list Z)) (hs : list hunk) (c : ctx) : res (list (list Z)) :=
  match hs with
  | [] => Ok image
  | h :: r => do ic <- apply_hunk cb image h c ;; let '(image', c') := ic in hunks_loop cb image' r c'
  end.
(** apply_hunks, apply.c:267-295. *)
Definition apply_hunks (cb : hunk -> Z) (source : list Z) (hs : list hunk) : res (list Z) :=
  do image <- image_of source ;;
  do image' <- hunks_loop cb image hs (mkctx 0 0) ;;
  Ok (concat image').

(** git_diff_binary_file, include/git2/diff.h. *)
Inductive binary_type := BNone | BLiteral | BDelta.
Record binary_file := mkbinfile { b_type : binary_type; b_data : list Z; b_inflatedlen : Z }.
Record binary := mkbinary { contains_data : bool; old_file : binary_file; new_file : binary_file }.
(** apply_binary_delta, apply.c:297-341; [inflate] is git_zstream_inflatebuf. *)
Definition apply_binary_delta (inflate : list Z -> option (list Z)) (source : list Z) (b : binary_file) : res (list Z) :=
  match b_data b with
  | [] => Ok source
  | _ =>
      match inflate (b_data b) with
      | None => Err (-1)
      | Some inf =>
          if negb (Z.of_nat (length inf) =? b_inflatedlen b) then Err EAPPLYFAIL
          else match b_type b with
               | BDelta => delta_apply source inf
               | BLiteral => Ok inf
               | BNone => Err EAPPLYFAIL
               end
      end
  end.
(** apply_binary, apply.c:343-385. *)
Definition apply_binary (inflate : list Z -> option (list Z)) (source : list Z) (b : binary) : res (list Z) :=
  if negb (contains_data b) then Err EAPPLYFAIL
  else match b_data (old_file b), b_data (new_file b) with
       | [], [] => Ok []
       | _, _ =>
           do out <- apply_binary_delta inflate source (new_file b) ;;
           do back <- apply_binary_delta inflate out (old_file b) ;;
           if leqb source back then Ok out else Err EAPPLYFAIL
       end.

(** The parts of a git_patch that are used. *)
Record patch := mkpatch { p_deleted : bool; p_binary : option binary; p_hunks : list hunk }.
(** git_apply__patch, apply.c:387-446: the contents; the filename and mode are copied from the patch. *)
Definition apply_patch (inflate : list Z -> option (list Z)) (cb : hunk -> Z) (source : list Z) (p : patch) : res (list Z) :=
  do out <- match p_binary p with
            | Some b => apply_binary inflate source b
            | None => match p_hunks p with [] => Ok source | hs => apply_hunks cb source hs end
            end ;;
  if p_deleted p && (0 <? Z.of_nat (length out)) then Err EAPPLYFAIL else Ok out.
