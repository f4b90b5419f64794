(** The line differ, deps/xdiff: xprepare.c, xdiffi.c, xemit.c and its caller diff_xdiff.c, for the
    flags that git_xdiff_init sets without a whitespace flag, GIT_DIFF_IGNORE_BLANK_LINES or
    GIT_DIFF_PATIENCE.  Allocations succeed.  [long] is 64 bits wide and the numbers stay far below
    its limits (the inputs are at most GIT_XDIFF_MAX_SIZE = 1023 MB, diff_xdiff.h). *)
From Verif Require Import Base CStr Str ApplyModel.
Local Open Scope Z_scope.

(** XDL_BUG, git-xdiff.h:34: GIT_ASSERT(!msg), the function returns -1. *)
Definition EBUG : Z := -1.

(** ** xprepare.c *)

(** A plain char is signed on the usual targets; [(unsigned long) *ptr] extends the sign. *)
Definition ulong_of_char (c : Z) : Z := if c <? 128 then c else 2 ^ 64 - 256 + c.
(** xdl_hash_record, xutils.c:297-311: the hash of the line without its newline, the line (which is
    ptr .. *data) and what is left. *)
Fixpoint hash_record (s : list Z) (ha : Z) : Z * list Z * list Z :=
  match s with
  | [] => (ha, [], [])
  | c :: r => if c =? 10 then (ha, [c], r)
              else let '(h, l, t) := hash_record r (Z.lxor (wrap64 (ha + wrap64 (Z.shiftl ha 5))) (ulong_of_char c)) in (h, c :: l, t)
  end.
(** xdl_recmatch, xutils.c:173-180. *)
Definition recmatch (l1 l2 : list Z) : bool := leqb l1 l2.

(** xdlclass_t, xprepare.c:33-40.  The classes are kept in the order of their [idx] (rcrecs); the
    hash chains are left out: a class is looked for by its full hash and its line, and all classes
    with one hash are in one chain. *)
Record xclass := mkclass { c_ha : Z; c_line : list Z; c_len1 : Z; c_len2 : Z }.
Fixpoint find_class (cf : list xclass) (ha : Z) (line : list Z) (i : nat) : option nat :=
  match cf with
  | [] => None
  | c :: r => if (c_ha c =? ha) && recmatch (c_line c) line then Some i else find_class r ha line (S i)
  end.
Definition bump (pass : Z) (c : xclass) : xclass :=
  if pass =? 1 then mkclass (c_ha c) (c_line c) (c_len1 c + 1) (c_len2 c) else mkclass (c_ha c) (c_line c) (c_len1 c) (c_len2 c + 1).
(** xdl_classify_record, xprepare.c:110-151: the index of the record's class, and the classifier. *)
Definition classify_record (pass : Z) (cf : list xclass) (ha : Z) (line : list Z) : nat * list xclass :=
  let '(i, cf) := match find_class cf ha line 0 with
                  | Some i => (i, cf)
                  | None => (length cf, cf ++ [mkclass ha line 0 0])
                  end in
  (i, match nth_error cf i with Some c => upd cf i (bump pass c) | None => cf end).
(** The loop of xdl_prepare_ctx, xprepare.c:181-195: the lines and their classes. *)
Fixpoint prepare_ctx (fuel : nat) (pass : Z) (s : list Z) (cf : list xclass) : res (list (list Z) * list nat * list xclass) :=
  match s with
  | [] => Ok ([], [], cf)
  | _ => match fuel with
         | O => NoFuel
         | S n => let '(ha, line, rest) := hash_record s 5381 in
                  let '(i, cf) := classify_record pass cf ha line in
                  do r <- prepare_ctx n pass rest cf ;;
                  let '(ls, is, cf) := r in Ok (line :: ls, i :: is, cf)
         end
  end.

(** rchg, an array of nrec + 2 zeros with a pointer to its second element (xprepare.c:197, 212): the
    elements -1 and nrec are the zeros around the marks of the nrec lines.  [rchg_at] reads
    rchg[i], [rchg_before] rchg[i - 1]; [mark] writes to one of the lines. *)
Definition rchg_at (m : list bool) (i : nat) : res bool := if (i <=? length m)%nat then Ok (nth i m false) else UB.
Definition rchg_before (m : list bool) (i : nat) : res bool := match i with O => Ok false | S j => rchg_at m j end.
Definition mark (m : list bool) (i : nat) (b : bool) : res (list bool) := if (i <? length m)%nat then Ok (upd m i b) else UB.
Definition getc {A} (l : list A) (i : nat) : res A := match nth_error l i with Some x => Ok x | None => UB end.

(** xdl_trim_ends, xprepare.c:418-444: how many records are equal at the start, and then at the end. *)
Fixpoint trim (a b : list nat) (lim : nat) {struct lim} : nat :=
  match lim, a, b with
  | S n, x :: a', y :: b' => if (x =? y)%nat then S (trim a' b' n) else O
  | _, _, _ => O
  end.
Definition trim_ends (h1 h2 : list nat) : nat * nat :=
  let lim := Nat.min (length h1) (length h2) in
  let s := trim h1 h2 lim in
  (s, trim (rev h1) (rev h2) (lim - s)).

(** xdl_bogosqrt, xutils.c:26-36. *)
Fixpoint bogosqrt_loop (fuel : nat) (i n : Z) : Z :=
  match fuel with O => i | S f => if 0 <? n then bogosqrt_loop f (Z.shiftl i 1) (Z.shiftr n 2) else i end.
Definition bogosqrt (n : Z) : Z := bogosqrt_loop 64 1 n.

(** dis1/dis2, xprepare.c:357-373: 0 for a line that is not in the other file, 2 for one that is
    there often. *)
Definition dis_of (mlim nm : Z) : Z := if nm =? 0 then 0 else if mlim <=? nm then 2 else 1.
(** xdl_clean_mmatch, xprepare.c:274-332.  [run]: the two loops, over the lines in the order they
    are looked at; the numbers of lines without and with many matches. *)
Fixpoint run (ds : list Z) (rdis rpdis : Z) : Z * Z :=
  match ds with
  | [] => (rdis, rpdis)
  | d :: r => if d =? 0 then run r (rdis + 1) rpdis else if d =? 2 then run r rdis (rpdis + 1) else (rdis, rpdis)
  end.
Definition clean_mmatch (dis : list Z) (i s e : nat) : bool :=
  let s := if (100 <? i - s)%nat then (i - 100)%nat else s in
  let e := if (100 <? e - i)%nat then (i + 100)%nat else e in
  let '(rdis0, rpdis0) := run (rev (firstn (i - s) (skipn s dis))) 0 1 in
  if rdis0 =? 0 then false
  else
    let '(rdis1, rpdis1) := run (firstn (e - i) (skipn (S i) dis)) 0 1 in
    if rdis1 =? 0 then false
    else (rpdis1 + rpdis0) * 4 <? (rpdis1 + rpdis0) + (rdis1 + rdis0).
(** The second pair of loops of xdl_cleanup_records, xprepare.c:375-399, over the lines from [i] =
    dstart to dend, whose classes are [hs]: rchg of the lines, rindex and ha.  [keepable i]: the
    condition of the if. *)
Fixpoint cleanup_loop (keepable : nat -> bool) (i : nat) (hs : list nat) : list bool * list nat * list nat :=
  match hs with
  | [] => ([], [], [])
  | h :: r => let '(m, ix, ha) := cleanup_loop keepable (S i) r in
              if keepable i then (false :: m, i :: ix, h :: ha) else (true :: m, ix, ha)
  end.
(** xdl_cleanup_records for one file, xprepare.c:341-402: [nm h] is the number of lines of class [h]
    in the other file; s lines at the start and e lines at the end are not looked at. *)
Definition keepable (nm : nat -> Z) (hs : list nat) (s e : nat) : nat -> bool :=
  let mlim := Z.min (bogosqrt (Z.of_nat (length hs))) 1024 in
  let dis := repeat 0 s ++ map (fun h => dis_of mlim (nm h)) (firstn (length hs - s - e) (skipn s hs)) ++ repeat 0 (S e) in
  fun i => let d := nth i dis 0 in (d =? 1) || ((d =? 2) && negb (clean_mmatch dis i s (length hs - e - 1))).
Definition cleanup_records (keepable : nat -> bool) (hs : list nat) (s e : nat) : list bool * list nat * list nat :=
  let '(m, ix, ha) := cleanup_loop keepable s (firstn (length hs - s - e) (skipn s hs)) in
  (repeat false s ++ m ++ repeat false e, ix, ha).

(** ** xdiffi.c: marking the changed lines *)

(** kvdf and kvdb, xdiffi.c:337-347: an array of longs that malloc leaves undefined ([None]); an index
    below [-(n2+1)] or above [n1+1] is outside of kvdf (kvdb is two longer). *)
Record kvd := mkkvd { k_lo : Z; k_hi : Z; k_at : Z -> option Z }.
Definition kget (k : kvd) (i : Z) : res Z :=
  if (k_lo k <=? i) && (i <=? k_hi k) then match k_at k i with Some v => Ok v | None => UB end else UB.
Definition kset (k : kvd) (i v : Z) : res kvd :=
  if (k_lo k <=? i) && (i <=? k_hi k) then Ok (mkkvd (k_lo k) (k_hi k) (fun j => if j =? i then Some v else k_at k j)) else UB.
(** ha1[i], ha2[i]. *)
Definition haget (ha : list nat) (i : Z) : res nat := if i <? 0 then UB else getc ha (Z.to_nat i).

(** xdalgoenv_t, xdiffi.h:38-42. *)
Record xenv := mkenv { mxcost : Z; snake_cnt : Z; heur_min : Z }.
Definition LINE_MAX : Z := 2 ^ 63 - 1.
(** The box of xdl_split. *)
Record box := mkbox { off1 : Z; lim1 : Z; off2 : Z; lim2 : Z }.

Section Split.
Variables (ha1 ha2 : list nat) (bx : box) (env : xenv).

(** xdiffi.c:96: the snake from (i1,i2) on. *)
Fixpoint snake_fwd (fuel : nat) (i1 i2 : Z) : res (Z * Z) :=
  if (i1 <? lim1 bx) && (i2 <? lim2 bx) then
    do a <- haget ha1 i1 ;; do b <- haget ha2 i2 ;;
    if (a =? b)%nat then match fuel with O => NoFuel | S f => snake_fwd f (i1 + 1) (i2 + 1) end else Ok (i1, i2)
  else Ok (i1, i2).
(** xdiffi.c:133: the snake from (i1,i2) back. *)
Fixpoint snake_bwd (fuel : nat) (i1 i2 : Z) : res (Z * Z) :=
  if (off1 bx <? i1) && (off2 bx <? i2) then
    do a <- haget ha1 (i1 - 1) ;; do b <- haget ha2 (i2 - 1) ;;
    if (a =? b)%nat then match fuel with O => NoFuel | S f => snake_bwd f (i1 - 1) (i2 - 1) end else Ok (i1, i2)
  else Ok (i1, i2).
(** Fuel for any loop along the box. *)
Definition span : nat := S (Z.to_nat ((lim1 bx - off1 bx) + (lim2 bx - off2 bx))).

(** xdpsplit_t, xdiffi.c:31-34. *)
Record spl := mkspl { s_i1 : Z; s_i2 : Z; min_lo : bool; min_hi : bool }.
(** The forward loop, xdiffi.c:88-107: a split, or the K vector and got_snake. *)
Fixpoint fwd_loop (fuel : nat) (odd : bool) (kf kb : kvd) (fmin bmin bmax d : Z) (got : bool) : res (spl + kvd * bool) :=
  if d <? fmin then Ok (inr (kf, got))
  else match fuel with
  | O => NoFuel
  | S f =>
    do l <- kget kf (d - 1) ;;
    do r <- kget kf (d + 1) ;;
    let i1 := if r <=? l then l + 1 else r in
    let i2 := i1 - d in
    do p <- snake_fwd span i1 i2 ;;
    let '(j1, j2) := p in
    let got := got || (snake_cnt env <? j1 - i1) in
    do kf <- kset kf d j1 ;;
    if odd && (bmin <=? d) && (d <=? bmax) then
      do b <- kget kb d ;;
      if b <=? j1 then Ok (inl (mkspl j1 j2 true true)) else fwd_loop f odd kf kb fmin bmin bmax (d - 2) got
    else fwd_loop f odd kf kb fmin bmin bmax (d - 2) got
  end.
(** The backward loop, xdiffi.c:127-146. *)
Fixpoint bwd_loop (fuel : nat) (odd : bool) (kf kb : kvd) (bmin fmin fmax d : Z) (got : bool) : res (spl + kvd * bool) :=
  if d <? bmin then Ok (inr (kb, got))
  else match fuel with
  | O => NoFuel
  | S f =>
    do l <- kget kb (d - 1) ;;
    do r <- kget kb (d + 1) ;;
    let i1 := if l <? r then l else r - 1 in
    let i2 := i1 - d in
    do p <- snake_bwd span i1 i2 ;;
    let '(j1, j2) := p in
    let got := got || (snake_cnt env <? i1 - j1) in
    do kb <- kset kb d j1 ;;
    if negb odd && (fmin <=? d) && (d <=? fmax) then
      do v <- kget kf d ;;
      if j1 <=? v then Ok (inl (mkspl j1 j2 true true)) else bwd_loop f odd kf kb bmin fmin fmax (d - 2) got
    else bwd_loop f odd kf kb bmin fmin fmax (d - 2) got
  end.

(** xdiffi.c:171-178: are the snake_cnt lines before (i1,i2) equal? *)
Fixpoint good_fwd (fuel : nat) (k i1 i2 : Z) : res bool :=
  do a <- haget ha1 (i1 - k) ;; do b <- haget ha2 (i2 - k) ;;
  if (a =? b)%nat then if k =? snake_cnt env then Ok true else match fuel with O => NoFuel | S f => good_fwd f (k + 1) i1 i2 end
  else Ok false.
(** xdiffi.c:196-203. *)
Fixpoint good_bwd (fuel : nat) (k i1 i2 : Z) : res bool :=
  do a <- haget ha1 (i1 + k) ;; do b <- haget ha2 (i2 + k) ;;
  if (a =? b)%nat then if k =? snake_cnt env - 1 then Ok true else match fuel with O => NoFuel | S f => good_bwd f (k + 1) i1 i2 end
  else Ok false.
(** xdiffi.c:162-180: the best forward diagonal that looks interesting. *)
Fixpoint heur_fwd (fuel : nat) (kf : kvd) (ec fmin fmid d best : Z) (at_ : Z * Z) : res (Z * (Z * Z)) :=
  if d <? fmin then Ok (best, at_)
  else match fuel with
  | O => NoFuel
  | S f =>
    let dd := if fmid <? d then d - fmid else fmid - d in
    do i1 <- kget kf d ;;
    let i2 := i1 - d in
    let v := (i1 - off1 bx) + (i2 - off2 bx) - dd in
    if (4 * ec <? v) && (best <? v) && (off1 bx + snake_cnt env <=? i1) && (i1 <? lim1 bx) && (off2 bx + snake_cnt env <=? i2) && (i2 <? lim2 bx) then
      do g <- good_fwd (Z.to_nat (snake_cnt env)) 1 i1 i2 ;;
      if g then heur_fwd f kf ec fmin fmid (d - 2) v (i1, i2) else heur_fwd f kf ec fmin fmid (d - 2) best at_
    else heur_fwd f kf ec fmin fmid (d - 2) best at_
  end.
(** xdiffi.c:187-205. *)
Fixpoint heur_bwd (fuel : nat) (kb : kvd) (ec bmin bmid d best : Z) (at_ : Z * Z) : res (Z * (Z * Z)) :=
  if d <? bmin then Ok (best, at_)
  else match fuel with
  | O => NoFuel
  | S f =>
    let dd := if bmid <? d then d - bmid else bmid - d in
    do i1 <- kget kb d ;;
    let i2 := i1 - d in
    let v := (lim1 bx - i1) + (lim2 bx - i2) - dd in
    if (4 * ec <? v) && (best <? v) && (off1 bx <? i1) && (i1 <=? lim1 bx - snake_cnt env) && (off2 bx <? i2) && (i2 <=? lim2 bx - snake_cnt env) then
      do g <- good_bwd (Z.to_nat (snake_cnt env)) 0 i1 i2 ;;
      if g then heur_bwd f kb ec bmin bmid (d - 2) v (i1, i2) else heur_bwd f kb ec bmin bmid (d - 2) best at_
    else heur_bwd f kb ec bmin bmid (d - 2) best at_
  end.
(** xdiffi.c:222-231: the furthest forward point, by i1 + i2. *)
Fixpoint far_fwd (fuel : nat) (kf : kvd) (fmin d fbest fbest1 : Z) : res (Z * Z) :=
  if d <? fmin then Ok (fbest, fbest1)
  else match fuel with
  | O => NoFuel
  | S f =>
    do v <- kget kf d ;;
    let i1 := Z.min v (lim1 bx) in
    let i2 := i1 - d in
    let '(i1, i2) := if lim2 bx <? i2 then (lim2 bx + d, lim2 bx) else (i1, i2) in
    if fbest <? i1 + i2 then far_fwd f kf fmin (d - 2) (i1 + i2) i1 else far_fwd f kf fmin (d - 2) fbest fbest1
  end.
(** xdiffi.c:233-243. *)
Fixpoint far_bwd (fuel : nat) (kb : kvd) (bmin d bbest bbest1 : Z) : res (Z * Z) :=
  if d <? bmin then Ok (bbest, bbest1)
  else match fuel with
  | O => NoFuel
  | S f =>
    do v <- kget kb d ;;
    let i1 := Z.max (off1 bx) v in
    let i2 := i1 - d in
    let '(i1, i2) := if i2 <? off2 bx then (off2 bx + d, off2 bx) else (i1, i2) in
    if i1 + i2 <? bbest then far_bwd f kb bmin (d - 2) (i1 + i2) i1 else far_bwd f kb bmin (d - 2) bbest bbest1
  end.

(** The loop over the edit cost, xdiffi.c:64-259. *)
Fixpoint split_loop (fuel : nat) (need_min : bool) (ec : Z) (kf kb : kvd) (fmin fmax bmin bmax : Z) : res spl :=
  match fuel with
  | O => NoFuel
  | S f =>
    let dmin := off1 bx - lim2 bx in let dmax := lim1 bx - off2 bx in
    let fmid := off1 bx - off2 bx in let bmid := lim1 bx - lim2 bx in
    let odd := Z.odd (fmid - bmid) in
    do fk <- (if dmin <? fmin then do k <- kset kf (fmin - 1 - 1) (-1) ;; Ok (fmin - 1, k) else Ok (fmin + 1, kf)) ;;
    let '(fmin, kf) := fk in
    do fk <- (if fmax <? dmax then do k <- kset kf (fmax + 1 + 1) (-1) ;; Ok (fmax + 1, k) else Ok (fmax - 1, kf)) ;;
    let '(fmax, kf) := fk in
    do x <- fwd_loop span odd kf kb fmin bmin bmax fmax false ;;
    match x with
    | inl s => Ok s
    | inr (kf, got) =>
      do bk <- (if dmin <? bmin then do k <- kset kb (bmin - 1 - 1) LINE_MAX ;; Ok (bmin - 1, k) else Ok (bmin + 1, kb)) ;;
      let '(bmin, kb) := bk in
      do bk <- (if bmax <? dmax then do k <- kset kb (bmax + 1 + 1) LINE_MAX ;; Ok (bmax + 1, k) else Ok (bmax - 1, kb)) ;;
      let '(bmax, kb) := bk in
      do y <- bwd_loop span odd kf kb bmin fmin fmax bmax got ;;
      match y with
      | inl s => Ok s
      | inr (kb, got) =>
        if need_min then split_loop f need_min (ec + 1) kf kb fmin fmax bmin bmax
        else
          do h <- (if got && (heur_min env <? ec) then
                     do hf <- heur_fwd span kf ec fmin fmid fmax 0 (0, 0) ;;
                     let '(best, (i1, i2)) := hf in
                     if 0 <? best then Ok (Some (mkspl i1 i2 true false))
                     else
                       do hb <- heur_bwd span kb ec bmin bmid bmax 0 (0, 0) ;;
                       let '(best, (i1, i2)) := hb in
                       if 0 <? best then Ok (Some (mkspl i1 i2 false true)) else Ok None
                   else Ok None) ;;
          match h with
          | Some s => Ok s
          | None =>
            if mxcost env <=? ec then
              do ff <- far_fwd span kf fmin fmax (-1) (-1) ;;
              let '(fbest, fbest1) := ff in
              do bb <- far_bwd span kb bmin bmax LINE_MAX LINE_MAX ;;
              let '(bbest, bbest1) := bb in
              if (lim1 bx + lim2 bx) - bbest <? fbest - (off1 bx + off2 bx) then Ok (mkspl fbest1 (fbest - fbest1) true false)
              else Ok (mkspl bbest1 (bbest - bbest1) false true)
            else split_loop f need_min (ec + 1) kf kb fmin fmax bmin bmax
          end
      end
    end
  end.
(** xdl_split, xdiffi.c:46-260, with K vectors whose contents do not matter. *)
Definition xdl_split (need_min : bool) : res spl :=
  let fmid := off1 bx - off2 bx in let bmid := lim1 bx - lim2 bx in
  let n1 := Z.of_nat (length ha1) in let n2 := Z.of_nat (length ha2) in
  do kf <- kset (mkkvd (- (n2 + 1)) (n1 + 1) (fun _ => None)) fmid (off1 bx) ;;
  do kb <- kset (mkkvd (- (n2 + 1)) (n1 + 3) (fun _ => None)) bmid (lim1 bx) ;;
  split_loop span need_min 1 kf kb fmid fmid bmid bmid.
End Split.

(** xdl_recs_cmp, xdiffi.c:277-280: the snakes at the start and at the end of the box. *)
Fixpoint shrink_lo (fuel : nat) (ha1 ha2 : list nat) (o1 l1 o2 l2 : nat) : res (nat * nat) :=
  if (o1 <? l1)%nat && (o2 <? l2)%nat then
    do a <- getc ha1 o1 ;; do b <- getc ha2 o2 ;;
    if (a =? b)%nat then match fuel with O => NoFuel | S f => shrink_lo f ha1 ha2 (S o1) l1 (S o2) l2 end else Ok (o1, o2)
  else Ok (o1, o2).
Fixpoint shrink_hi (fuel : nat) (ha1 ha2 : list nat) (o1 l1 o2 l2 : nat) : res (nat * nat) :=
  if (o1 <? l1)%nat && (o2 <? l2)%nat then
    do a <- getc ha1 (l1 - 1) ;; do b <- getc ha2 (l2 - 1) ;;
    if (a =? b)%nat then match fuel with O => NoFuel | S f => shrink_hi f ha1 ha2 o1 (l1 - 1) o2 (l2 - 1) end else Ok (l1, l2)
  else Ok (l1, l2).
(** xdiffi.c:286-298: for (; off < lim; off++) rchg[rindex[off]] = 1. *)
Fixpoint mark_all (n : nat) (r : list bool) (ix : list nat) (o : nat) : res (list bool) :=
  match n with
  | O => Ok r
  | S n' => do i <- getc ix o ;; do r <- mark r i true ;; mark_all n' r ix (S o)
  end.
(** xdl_recs_cmp, xdiffi.c:268-321; diffdata_t is ha and rindex here, rchg1 and rchg2 are passed on.
    [split] is xdl_split. *)
Fixpoint recs_cmp (split : box -> bool -> res spl) (fuel : nat) (ha1 ha2 ix1 ix2 : list nat) (o1 l1 o2 l2 : nat) (need_min : bool)
    (r1 r2 : list bool) : res (list bool * list bool) :=
  match fuel with
  | O => NoFuel
  | S f =>
    do p <- shrink_lo (length ha1) ha1 ha2 o1 l1 o2 l2 ;;
    let '(o1, o2) := p in
    do p <- shrink_hi (length ha1) ha1 ha2 o1 l1 o2 l2 ;;
    let '(l1, l2) := p in
    if (o1 =? l1)%nat then do r2 <- mark_all (l2 - o2) r2 ix2 o2 ;; Ok (r1, r2)
    else if (o2 =? l2)%nat then do r1 <- mark_all (l1 - o1) r1 ix1 o1 ;; Ok (r1, r2)
    else
      do s <- split (mkbox (Z.of_nat o1) (Z.of_nat l1) (Z.of_nat o2) (Z.of_nat l2)) need_min ;;
      if (s_i1 s <? 0) || (s_i2 s <? 0) then UB
      else
        let m1 := Z.to_nat (s_i1 s) in let m2 := Z.to_nat (s_i2 s) in
        do rr <- recs_cmp split f ha1 ha2 ix1 ix2 o1 m1 o2 m2 (min_lo s) r1 r2 ;;
        let '(r1, r2) := rr in
        recs_cmp split f ha1 ha2 ix1 ix2 m1 l1 m2 l2 (min_hi s) r1 r2
  end.

(** ** xdiffi.c: sliding the groups of changed lines *)

(** struct xdlgroup, xdiffi.c:706-718. *)
Record group := mkgroup { g_start : nat; g_end : nat }.
(** while (rchg[e]) e++. *)
Fixpoint scan_down (fuel : nat) (m : list bool) (e : nat) : res nat :=
  do b <- rchg_at m e ;;
  if b then match fuel with O => NoFuel | S f => scan_down f m (S e) end else Ok e.
(** while (rchg[s - 1]) s--. *)
Fixpoint scan_up (fuel : nat) (m : list bool) (s : nat) : res nat :=
  do b <- rchg_before m s ;;
  if b then match fuel with O => NoFuel | S f => scan_up f m (s - 1) end else Ok s.
(** group_init, xdiffi.c:723-728. *)
Definition group_init (m : list bool) : res group := do e <- scan_down (length m) m 0 ;; Ok (mkgroup 0 e).
(** group_next, xdiffi.c:734-744; [None] for -1. *)
Definition group_next (m : list bool) (g : group) : res (option group) :=
  if (g_end g =? length m)%nat then Ok None
  else do e <- scan_down (length m) m (S (g_end g)) ;; Ok (Some (mkgroup (S (g_end g)) e)).
(** group_previous, xdiffi.c:750-760. *)
Definition group_previous (m : list bool) (g : group) : res (option group) :=
  if (g_start g =? 0)%nat then Ok None
  else let e := (g_start g - 1)%nat in do s <- scan_up (length m) m e ;; Ok (Some (mkgroup s e)).
(** group_slide_down, xdiffi.c:767-781; [hs] are the classes of the lines. *)
Definition slide_down (hs : list nat) (m : list bool) (g : group) : res (option (list bool * group)) :=
  if (g_end g <? length m)%nat then
    do a <- getc hs (g_start g) ;; do b <- getc hs (g_end g) ;;
    if (a =? b)%nat then
      do m <- mark m (g_start g) false ;;
      do m <- mark m (g_end g) true ;;
      do e <- scan_down (length m) m (S (g_end g)) ;;
      Ok (Some (m, mkgroup (S (g_start g)) e))
    else Ok None
  else Ok None.
(** group_slide_up, xdiffi.c:788-802. *)
Definition slide_up (hs : list nat) (m : list bool) (g : group) : res (option (list bool * group)) :=
  if (0 <? g_start g)%nat then
    if (g_end g =? 0)%nat then UB
    else
      do a <- getc hs (g_start g - 1) ;; do b <- getc hs (g_end g - 1) ;;
      if (a =? b)%nat then
        do m <- mark m (g_start g - 1) true ;;
        do m <- mark m (g_end g - 1) false ;;
        do s <- scan_up (length m) m (g_start g - 1) ;;
        Ok (Some (m, mkgroup s (g_end g - 1)))
      else Ok None
  else Ok None.

Definition state := (list bool * group * group)%type.
Definition empty_group (g : group) : bool := (g_end g =? g_start g)%nat.
(** xdiffi.c:843-845. *)
Fixpoint all_up (fuel : nat) (hs : list nat) (mo : list bool) (st : state) : res state :=
  let '(m, g, go) := st in
  do r <- slide_up hs m g ;;
  match r with
  | None => Ok st
  | Some (m, g) =>
      do p <- group_previous mo go ;;
      match p with
      | None => Err EBUG
      | Some go => match fuel with O => NoFuel | S f => all_up f hs mo (m, g, go) end
      end
  end.
(** xdiffi.c:857-865, with end_matching_other. *)
Fixpoint all_down (fuel : nat) (hs : list nat) (mo : list bool) (st : state) (em : option nat) : res (state * option nat) :=
  let '(m, g, go) := st in
  do r <- slide_down hs m g ;;
  match r with
  | None => Ok (st, em)
  | Some (m, g) =>
      do p <- group_next mo go ;;
      match p with
      | None => Err EBUG
      | Some go =>
          let em := if empty_group go then em else Some (g_end g) in
          match fuel with O => NoFuel | S f => all_down f hs mo (m, g, go) em end
      end
  end.
(** xdiffi.c:831-866: the do loop; also earliest_end, end_matching_other and groupsize. *)
Fixpoint shift_loop (fuel : nat) (hs : list nat) (mo : list bool) (st : state) : res (state * nat * option nat * nat) :=
  let '(_, g0, _) := st in
  let groupsize := (g_end g0 - g_start g0)%nat in
  do st1 <- all_up (length hs) hs mo st ;;
  let '(_, g1, go1) := st1 in
  let em := if empty_group go1 then None else Some (g_end g1) in
  do r <- all_down (length hs) hs mo st1 em ;;
  let '(st2, em) := r in
  let '(_, g2, _) := st2 in
  if (groupsize =? g_end g2 - g_start g2)%nat then Ok (st2, g_end g1, em, groupsize)
  else match fuel with O => NoFuel | S f => shift_loop f hs mo st2 end.
(** xdiffi.c:884-889. *)
Fixpoint back_to_match (fuel : nat) (hs : list nat) (mo : list bool) (st : state) : res state :=
  let '(m, g, go) := st in
  if empty_group go then
    do r <- slide_up hs m g ;;
    match r with
    | None => Err EBUG
    | Some (m, g) =>
        do p <- group_previous mo go ;;
        match p with
        | None => Err EBUG
        | Some go => match fuel with O => NoFuel | S f => back_to_match f hs mo (m, g, go) end
        end
    end
  else Ok st.
(** xdiffi.c:926-931. *)
Fixpoint back_to_shift (fuel : nat) (hs : list nat) (mo : list bool) (best : nat) (st : state) : res state :=
  let '(m, g, go) := st in
  if (best <? g_end g)%nat then
    do r <- slide_up hs m g ;;
    match r with
    | None => Err EBUG
    | Some (m, g) =>
        do p <- group_previous mo go ;;
        match p with
        | None => Err EBUG
        | Some go => match fuel with O => NoFuel | S f => back_to_shift f hs mo best (m, g, go) end
        end
    end
  else Ok st.
(** xdiffi.c:904-924: the shift with the best score.  [better groupsize shift best] stands for
    score_cmp(&score, &best_score) <= 0, where the scores (measure_split, score_add_split,
    xdiffi.c:456-680) are functions of the lines of the file and of the two split positions. *)
Fixpoint best_loop (n : nat) (better : nat -> nat -> nat -> bool) (groupsize shift : nat) (best : option nat) : option nat :=
  match n with
  | O => best
  | S n' => best_loop n' better groupsize (S shift)
              (match best with
               | None => Some shift
               | Some b => if better groupsize shift b then Some shift else best
               end)
  end.
Definition best_shift (better : nat -> nat -> nat -> bool) (earliest groupsize g_end : nat) : nat :=
  let shift := Nat.max (Nat.max earliest (g_end - groupsize - 1)) (g_end - 100) in
  match best_loop (S g_end - shift) better groupsize shift None with Some b => b | None => 0 end.
(** xdl_change_compact, xdiffi.c:809-949.  [indent]: XDF_INDENT_HEURISTIC. *)
Fixpoint compact_loop (fuel : nat) (indent : bool) (better : nat -> nat -> nat -> bool) (hs : list nat) (mo : list bool) (st : state) : res (list bool) :=
  match fuel with
  | O => NoFuel
  | S f =>
    do st <- (let '(m, g, go) := st in
              if empty_group g then Ok st
              else
                do r <- shift_loop (length hs) hs mo st ;;
                let '(st, earliest, em, groupsize) := r in
                let '(_, g, _) := st in
                if (g_end g =? earliest)%nat then Ok st
                else match em with
                     | Some _ => back_to_match (length hs) hs mo st
                     | None => if indent then back_to_shift (length hs) hs mo (best_shift better earliest groupsize (g_end g)) st else Ok st
                     end) ;;
    let '(m, g, go) := st in
    do p <- group_next m g ;;
    do po <- group_next mo go ;;
    match p with
    | None => match po with None => Ok m | Some _ => Err EBUG end
    | Some g => match po with
                | None => Err EBUG
                | Some go => compact_loop f indent better hs mo (m, g, go)
                end
    end
  end.
Definition change_compact (indent : bool) (better : nat -> nat -> nat -> bool) (hs : list nat) (m mo : list bool) : res (list bool) :=
  do g <- group_init m ;;
  do go <- group_init mo ;;
  compact_loop (S ((length m + 1) * (length m + 1))) indent better hs mo (m, g, go).

(** ** xdiffi.c: the edit script *)

(** xdchange_t, without [ignore], which is 0. *)
Record xdchange := mkxch { i1 : nat; i2 : nat; chg1 : nat; chg2 : nat }.
(** xdl_build_script, xdiffi.c:952-975.  When one of i1 and i2 becomes -1 before the other, the next
    read is out of bounds. *)
Fixpoint build_loop (fuel : nat) (m1 m2 : list bool) (a b : nat) (cscr : list xdchange) : res (list xdchange) :=
  do x <- rchg_before m1 a ;;
  do y <- rchg_before m2 b ;;
  do r <- (if x || y then
             do a' <- scan_up (length m1) m1 a ;;
             do b' <- scan_up (length m2) m2 b ;;
             Ok (a', b', mkxch a' b' (a - a') (b - b') :: cscr)
           else Ok (a, b, cscr)) ;;
  let '(a, b, cscr) := r in
  match a, b with
  | O, O => Ok cscr
  | S a, S b => match fuel with O => NoFuel | S f => build_loop f m1 m2 a b cscr end
  | _, _ => UB
  end.
Definition build_script (m1 m2 : list bool) : res (list xdchange) := build_loop (length m1) m1 m2 (length m1) (length m2) [].

(** ** xemit.c and diff_xdiff.c *)

(** xdl_get_hunk, xemit.c:51-93, when no change is ignorable: the changes of the first hunk after
    its first change [xchp], and the others. *)
Fixpoint get_hunk (max_common : nat) (xchp : xdchange) (rest : list xdchange) : list xdchange * list xdchange :=
  match rest with
  | [] => ([], [])
  | xch :: r => if (max_common <? i1 xch - (i1 xchp + chg1 xchp))%nat then ([], rest)
                else let '(a, b) := get_hunk max_common xch r in (xch :: a, b)
  end.
(** git_diff_hunk: the header of a hunk, and its lines. *)
Record dhunk := mkdhunk { old_start : Z; old_lines : Z; new_start : Z; new_lines : Z; d_lines : list pline }.
(** "\n\\ No newline at end of file\n", xutils.c:49. *)
Definition no_newline : list Z := bs (String (Ascii.ascii_of_nat 10) "\ No newline at end of file"%string) ++ [10].
(** xdl_emit_record, xemit.c:33-44, xdl_emit_diffrec, xutils.c:39-59, and git_xdiff_cb with two or
    three buffers, diff_xdiff.c:155-199: a line, and a second one if it does not end in a newline. *)
Definition emit_record (recs : list (list Z)) (ri : nat) (o : origin) : res (list pline) :=
  do rec <- getc recs ri ;;
  if (0 <? Z.of_nat (length rec)) && negb (nth (length rec - 1) rec 0 =? 10) then Ok [mkline o rec; mkline Eofnl no_newline]
  else Ok [mkline o rec].
Fixpoint emit_range (n : nat) (recs : list (list Z)) (ri : nat) (o : origin) : res (list pline) :=
  match n with
  | O => Ok []
  | S n' => do a <- emit_record recs ri o ;; do b <- emit_range n' recs (S ri) o ;; Ok (a ++ b)
  end.
(** xemit.c:293-318: the changes of a hunk, from (s1,s2) on. *)
Fixpoint emit_changes (l1 l2 : list (list Z)) (s1 s2 : nat) (xs : list xdchange) : res (list pline) :=
  match xs with
  | [] => Ok []
  | x :: r =>
      do c <- emit_range (Nat.min (i1 x - s1) (i2 x - s2)) l2 s2 Context ;;
      do d <- emit_range (chg1 x) l1 (i1 x) Deletion ;;
      do a <- emit_range (chg2 x) l2 (i2 x) Addition ;;
      do rest <- emit_changes l1 l2 (i1 x + chg1 x) (i2 x + chg2 x) r ;;
      Ok (c ++ d ++ a ++ rest)
  end.
(** xdl_emit_hunk_hdr, xutils.c:343-403, and git_xdiff_parse_hunk, diff_xdiff.c:31-59: the numbers
    that come out of printing and scanning the header are taken to be the ones put in. *)
Definition hunk_start (s c : nat) : Z := if (c =? 0)%nat then Z.of_nat s else Z.of_nat s + 1.
(** The body of the loop of xdl_emit_diff, xemit.c:171-326, without XDL_EMIT_FUNCCONTEXT (libgit2
    never sets it) and the name of the function in the header. *)
Definition emit_hunk (ctxlen : nat) (l1 l2 : list (list Z)) (xch : xdchange) (more : list xdchange) : res dhunk :=
  let xche := last more xch in
  let s1 := (i1 xch - ctxlen)%nat in
  let s2 := (i2 xch - ctxlen)%nat in
  let f1 := (i1 xche + chg1 xche)%nat in
  let f2 := (i2 xche + chg2 xche)%nat in
  let lctx := Nat.min (Nat.min ctxlen (length l1 - f1)) (length l2 - f2) in
  let e1 := (f1 + lctx)%nat in
  let e2 := (f2 + lctx)%nat in
  do pre <- emit_range (i2 xch - s2) l2 s2 Context ;;
  do mid <- emit_changes l1 l2 (i1 xch) (i2 xch) (xch :: more) ;;
  do post <- emit_range (e2 - f2) l2 f2 Context ;;
  Ok (mkdhunk (hunk_start s1 (e1 - s1)) (Z.of_nat (e1 - s1)) (hunk_start s2 (e2 - s2)) (Z.of_nat (e2 - s2)) (pre ++ mid ++ post)).
Fixpoint emit_diff (fuel : nat) (ctxlen interhunk : nat) (l1 l2 : list (list Z)) (xscr : list xdchange) : res (list dhunk) :=
  match xscr with
  | [] => Ok []
  | xch :: r =>
      match fuel with
      | O => NoFuel
      | S f =>
          let '(more, rest) := get_hunk (2 * ctxlen + interhunk) xch r in
          do h <- emit_hunk ctxlen l1 l2 xch more ;;
          do hs <- emit_diff f ctxlen interhunk l1 l2 rest ;;
          Ok (h :: hs)
      end
  end.

(** diff_update_lines, diff_xdiff.c:69-111: the numbers of a line, -1 for none, and those of the next. *)
Definition newlines (s : list Z) : Z := Z.of_nat (length (filter (Z.eqb 10) s)).
Definition update_lines (prev : origin) (l : pline) (old_no new_no : Z) : (Z * Z) * (Z * Z) :=
  let n := newlines (l_content l) in
  let o := match l_origin l with
           | Eofnl => match prev with Addition => Addition (* DEL_EOFNL *) | Deletion => Deletion (* ADD_EOFNL *) | _ => Context end
           | o => o
           end in
  match o with
  | Addition => ((-1, new_no), (old_no, new_no + n))
  | Deletion => ((old_no, -1), (old_no + n, new_no))
  | _ => ((old_no, new_no), (old_no + n, new_no + n))
  end.
Fixpoint number_lines (prev : origin) (ls : list pline) (old_no new_no : Z) : list (Z * Z) :=
  match ls with
  | [] => []
  | l :: r => let '(p, (o, n)) := update_lines prev l old_no new_no in p :: number_lines (l_origin l) r o n
  end.
(** old_lineno and new_lineno of each line of a hunk. *)
Definition line_numbers (h : dhunk) : list (Z * Z) := number_lines Context (d_lines h) (old_start h) (new_start h).

(** ** xdl_diff *)

(** The options: context_lines, interhunk_lines, GIT_DIFF_MINIMAL, GIT_DIFF_INDENT_HEURISTIC. *)
Record options := mkopts { context_lines : nat; interhunk_lines : nat; minimal : bool; indent : bool }.
(** The parts that have no bearing on the result being right: which lines to leave out (as in
    [keepable]), for each file, and which of two shifts looks better. *)
Record heuristics := mkheur { leave1 : list xclass -> list nat -> nat -> nat -> nat -> bool; leave2 : list xclass -> list nat -> nat -> nat -> nat -> bool;
  better1 : list (list Z) -> nat -> nat -> nat -> bool; better2 : list (list Z) -> nat -> nat -> nat -> bool }.
Definition len2_of (cf : list xclass) (h : nat) : Z := match nth_error cf h with Some c => c_len2 c | None => 0 end.
Definition len1_of (cf : list xclass) (h : nat) : Z := match nth_error cf h with Some c => c_len1 c | None => 0 end.
(** xdl_do_diff, xdiffi.c:323-373, after xdl_prepare_env. *)
Definition do_diff (split : list nat -> list nat -> xenv -> box -> bool -> res spl) (hr : heuristics) (op : options) (cf : list xclass) (h1 h2 : list nat) : res (list bool * list bool) :=
  let '(s, e) := trim_ends h1 h2 in
  let '(r1, ix1, ha1) := cleanup_records (leave1 hr cf h1 s e) h1 s e in
  let '(r2, ix2, ha2) := cleanup_records (leave2 hr cf h2 s e) h2 s e in
  let env := mkenv (Z.max (bogosqrt (Z.of_nat (length ha1 + length ha2) + 3)) 256) 20 256 in
  recs_cmp (split ha1 ha2 env) (2 * (length ha1 + length ha2) + 2) ha1 ha2 ix1 ix2 0 (length ha1) 0 (length ha2) (minimal op) r1 r2.
(** xdl_diff, xdiffi.c:1055-1089, called by git_xdiff, diff_xdiff.c:209-245. *)
Definition diff_with (split : list nat -> list nat -> xenv -> box -> bool -> res spl) (hr : heuristics) (op : options) (old new : list Z) : res (list dhunk) :=
  do p <- prepare_ctx (length old) 1 old [] ;;
  let '(l1, h1, cf) := p in
  do p <- prepare_ctx (length new) 2 new cf ;;
  let '(l2, h2, cf) := p in
  do rr <- do_diff split hr op cf h1 h2 ;;
  let '(r1, r2) := rr in
  do r1 <- change_compact (indent op) (better1 hr l1) h1 r1 r2 ;;
  do r2 <- change_compact (indent op) (better2 hr l2) h2 r2 r1 ;;
  do xscr <- build_script r1 r2 ;;
  emit_diff (length xscr) (context_lines op) (interhunk_lines op) l1 l2 xscr.
Definition split_of (ha1 ha2 : list nat) (env : xenv) (bx : box) (need_min : bool) : res spl := xdl_split ha1 ha2 bx env need_min.
(** The differ with the heuristics of xdl_cleanup_records; [better]: any way of scoring the shifts. *)
Definition heur_of (better : list (list Z) -> nat -> nat -> nat -> bool) : heuristics :=
  mkheur (fun cf => keepable (len2_of cf)) (fun cf => keepable (len1_of cf)) better better.
Definition diff (better : list (list Z) -> nat -> nat -> nat -> bool) (op : options) (old new : list Z) : res (list dhunk) :=
  diff_with split_of (heur_of better) op old new.
