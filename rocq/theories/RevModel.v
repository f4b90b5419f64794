(** Model of the revision walker: src/libgit2/revwalk.c.  A commit is a number; the
    graph is that of [GraphModel]; a node's fields (commit_list.h:25-41) are the maps
    of [nst].  Object ids given to the walker are commit ids (peeling a tag to a
    commit, revwalk.c:51-69, is not modelled); memory allocation succeeds. *)
From Verif Require Import Base PQueueModel GraphModel.

(** commit_list.h:27-40: the bit fields and the 16-bit [in_degree] of every node.
    Allocation zeroes them (commit_list.c:77-80). *)
Record nst := mkN {
  n_unint : nat -> bool;
  n_seen : nat -> bool;
  n_added : nat -> bool;
  n_parsed : nat -> bool;
  n_indeg : nat -> Z
}.
Definition fset {A} (f : nat -> A) (n : nat) (v : A) : nat -> A := fun m => if (m =? n)%nat then v else f m.
Definition set_unint (s : nst) (u : nat -> bool) := mkN u (n_seen s) (n_added s) (n_parsed s) (n_indeg s).
Definition set_seen (s : nst) n := mkN (n_unint s) (fset (n_seen s) n true) (n_added s) (n_parsed s) (n_indeg s).
Definition set_added (s : nst) n := mkN (n_unint s) (n_seen s) (fset (n_added s) n true) (n_parsed s) (n_indeg s).
Definition set_parsed (s : nst) n := mkN (n_unint s) (n_seen s) (n_added s) (fset (n_parsed s) n true) (n_indeg s).
Definition set_indeg (s : nst) d := mkN (n_unint s) (n_seen s) (n_added s) (n_parsed s) d.

(** revwalk.h:24-61 [struct git_revwalk]; the three bits of [sorting]
    (include/git2/revwalk.h: TOPOLOGICAL, TIME, REVERSE); [get_next] is the function
    pointer. *)
Inductive getter := GUnsorted | GTime | GTopo | GReverse.
Record rwalk := mkR {
  r_nodes : nst;
  r_input : list nat;                 (* user_input *)
  r_topo : bool; r_time : bool; r_reverse : bool;    (* sorting *)
  r_first : bool;                     (* first_parent *)
  r_limited : bool;
  r_push : bool;                      (* did_push *)
  r_hidecb : option (nat -> bool);
  r_walking : bool;
  r_it_time : list nat;
  r_it_topo : list nat;
  r_it_rand : list nat;
  r_it_rev : list nat;
  r_get : getter
}.
Definition GIT_ITEROVER : Z := -31.
Definition SLOP : Z := 5.
Definition INT64_MAX : Z := 9223372036854775807.
Definition u16 (z : Z) : Z := z mod 65536.

(** revwalk.c:644-668 [git_revwalk_new]. *)
Definition nst0 : nst := mkN (fun _ => false) (fun _ => false) (fun _ => false) (fun _ => false) (fun _ => 0).
Definition rwalk0 : rwalk := mkR nst0 [] false false false false false false None false [] [] [] [] GUnsorted.

Definition with_nodes (w : rwalk) (s : nst) : rwalk :=
  mkR s (r_input w) (r_topo w) (r_time w) (r_reverse w) (r_first w) (r_limited w) (r_push w) (r_hidecb w)
      (r_walking w) (r_it_time w) (r_it_topo w) (r_it_rand w) (r_it_rev w) (r_get w).
Definition with_iters (w : rwalk) (t p r v : list nat) : rwalk :=
  mkR (r_nodes w) (r_input w) (r_topo w) (r_time w) (r_reverse w) (r_first w) (r_limited w) (r_push w) (r_hidecb w)
      (r_walking w) t p r v (r_get w).
Definition with_get (w : rwalk) (g : getter) : rwalk :=
  mkR (r_nodes w) (r_input w) (r_topo w) (r_time w) (r_reverse w) (r_first w) (r_limited w) (r_push w) (r_hidecb w)
      (r_walking w) (r_it_time w) (r_it_topo w) (r_it_rand w) (r_it_rev w) g.
Definition with_walking (w : rwalk) (b : bool) : rwalk :=
  mkR (r_nodes w) (r_input w) (r_topo w) (r_time w) (r_reverse w) (r_first w) (r_limited w) (r_push w) (r_hidecb w)
      b (r_it_time w) (r_it_topo w) (r_it_rand w) (r_it_rev w) (r_get w).

(** revwalk.c:801-830 [git_revwalk_reset]: the parsed state of the nodes, the
    callback and [get_next] stay. *)
Definition rev_reset (w : rwalk) : rwalk :=
  mkR (mkN (fun _ => false) (fun _ => false) (fun _ => false) (n_parsed (r_nodes w)) (fun _ => 0))
      [] false false false false false false (r_hidecb w) false [] [] [] [] (r_get w).

(** revwalk.c:747-767 [git_revwalk_sorting]. *)
Definition rev_sorting (w0 : rwalk) (topo time reverse : bool) : rwalk :=
  let w := if r_walking w0 then rev_reset w0 else w0 in
  mkR (r_nodes w) (r_input w) topo time reverse (r_first w) (r_limited w || (topo || time || reverse)) (r_push w)
      (r_hidecb w) (r_walking w) (r_it_time w) (r_it_topo w) (r_it_rand w) (r_it_rev w)
      (if time then GTime else GUnsorted).
(** revwalk.c:769-773 [git_revwalk_simplify_first_parent]. *)
Definition rev_first_parent (w : rwalk) : rwalk :=
  mkR (r_nodes w) (r_input w) (r_topo w) (r_time w) (r_reverse w) true (r_limited w) (r_push w) (r_hidecb w)
      (r_walking w) (r_it_time w) (r_it_topo w) (r_it_rand w) (r_it_rev w) (r_get w).
(** revwalk.c:832-849 [git_revwalk_add_hide_cb] (the callback is a pure function of the id). *)
Definition rev_add_hide_cb (w0 : rwalk) (cb : option (nat -> bool)) : rwalk :=
  let w := if r_walking w0 then rev_reset w0 else w0 in
  mkR (r_nodes w) (r_input w) (r_topo w) (r_time w) (r_reverse w) (r_first w)
      (r_limited w || match cb with Some _ => true | None => false end) (r_push w) cb
      (r_walking w) (r_it_time w) (r_it_topo w) (r_it_rand w) (r_it_rev w) (r_get w).

Section RW.
  Context (g : graph).
  Local Notation parents := (g_parents g).

  (** revwalk.c:44-104 [git_revwalk__push_commit] with [insert_by_date] 0, for
      [git_revwalk_push] and [git_revwalk_hide] (revwalk.c:106-129). *)
  Definition rev_push_commit (w : rwalk) (uninteresting : bool) (c : nat) : res rwalk :=
    if negb (g_ok g c) then Err GIT_ENOTFOUND
    else if n_unint (r_nodes w) c then Ok w
    else
      Ok (mkR (set_unint (r_nodes w) (fset (n_unint (r_nodes w)) c uninteresting)) (c :: r_input w)
              (r_topo w) (r_time w) (r_reverse w) (r_first w)
              (if uninteresting then true else r_limited w)
              (if uninteresting then r_push w else true)
              (r_hidecb w) (r_walking w) (r_it_time w) (r_it_topo w) (r_it_rand w) (r_it_rev w) (r_get w)).
  Definition rev_push (w : rwalk) (c : nat) := rev_push_commit w false c.
  Definition rev_hide (w : rwalk) (c : nat) := rev_push_commit w true c.

  (** commit_list.c:170-218 [git_commit_list_parse]. *)
  Definition nparse (s : nst) (n : nat) : res nst :=
    if n_parsed s n then Ok s else if g_ok g n then Ok (set_parsed s n) else Err (-1).

  (** revwalk.c:354-375, the [while (parents)] loop of [mark_parents_uninteresting];
      the current commit of the inner loop is the head of [stack].  A parsed node
      without parents has a NULL in parents[0] (zeroed, in-node array). *)
  Fixpoint mark_loop (fuel : nat) (parsed u : nat -> bool) (stack : list nat) : res (nat -> bool) :=
    match stack with
    | [] => Ok u
    | c :: rest =>
        match fuel with
        | O => NoFuel
        | S f =>
            if u c then mark_loop f parsed u rest
            else
              let u1 := fset u c true in
              if parsed c then
                match parents c with
                | [] => mark_loop f parsed u1 rest
                | p0 :: ps => mark_loop f parsed u1 (p0 :: rev (p0 :: ps) ++ rest)
                end
              else mark_loop f parsed u1 rest
        end
    end.
  (** revwalk.c:347-376 [mark_parents_uninteresting]: [commit] is parsed wherever it is called. *)
  Definition mark_parents (fuel : nat) (s : nst) (c : nat) : res nst :=
    do u <- mark_loop fuel (n_parsed s) (n_unint s) (rev (parents c)) ;; Ok (set_unint s u).

  (** revwalk.c:396-410: the parents of an uninteresting commit. *)
  Fixpoint add_unint (fuel : nat) (ps : list nat) (s : nst) (l : list nat) : res (nst * list nat) :=
    match ps with
    | [] => Ok (s, l)
    | p :: r =>
        let s1 := set_unint s (fset (n_unint s) p true) in
        do s2 <- nparse s1 p ;;
        do s3 <- mark_parents fuel s2 p ;;
        let s4 := set_seen s3 p in
        add_unint fuel r s4 (insert_by_date g p l)
    end.

  (** revwalk.c:420-436: the parents of an interesting commit. *)
  Fixpoint add_int (first : bool) (cb : option (nat -> bool)) (ps : list nat) (s : nst) (l : list nat)
    : res (nst * list nat) :=
    match ps with
    | [] => Ok (s, l)
    | p :: r =>
        do s1 <- nparse s p ;;
        if (match cb with Some h => h p | None => false end) then add_int first cb r s1 l
        else
          let (s2, l2) := if n_seen s1 p then (s1, l) else (set_seen s1 p, insert_by_date g p l) in
          if first then Ok (s2, l2) else add_int first cb r s2 l2
    end.

  (** revwalk.c:378-439 [add_parents_to_list]. *)
  Definition add_parents (fuel : nat) (first : bool) (cb : option (nat -> bool)) (s : nst) (c : nat) (l : list nat)
    : res (nst * list nat) :=
    if n_added s c then Ok (s, l)
    else
      let s1 := set_added s c in
      if n_unint s1 c then add_unint fuel (parents c) s1 l
      else add_int first cb (parents c) s1 l.

  (** revwalk.c:444-470 [still_interesting]. *)
  Definition still_interesting (u : nat -> bool) (l : list nat) (time slop : Z) : Z :=
    match l with
    | [] => 0
    | x :: _ =>
        if time <=? g_time g x then SLOP
        else if existsb (fun y => negb (u y) || (time <? g_time g y)) l then SLOP
        else slop - 1
    end.

  (** revwalk.c:472-505 [limit_list]: [out] is the new list in reverse. *)
  Fixpoint limit_loop (fuel mfuel : nat) (first : bool) (cb : option (nat -> bool)) (s : nst) (l : list nat)
      (out : list nat) (time slop : Z) : res (nst * list nat) :=
    match l with
    | [] => Ok (s, rev out)
    | c :: rest =>
        match fuel with
        | O => NoFuel
        | S f =>
            do (s1, l1) <- add_parents mfuel first cb s c rest ;;
            if n_unint s1 c then
              do s2 <- mark_parents mfuel s1 c ;;
              let slop1 := still_interesting (n_unint s2) l1 time slop in
              if slop1 =? 0 then Ok (s2, rev out)
              else limit_loop f mfuel first cb s2 l1 out time slop1
            else if (match cb with Some h => h c | None => false end) then limit_loop f mfuel first cb s1 l1 out time slop
            else limit_loop f mfuel first cb s1 l1 (c :: out) (g_time g c) slop
        end
    end.
  Definition limit_list (fuel : nat) (first : bool) (cb : option (nat -> bool)) (s : nst) (l : list nat) :=
    limit_loop fuel fuel first cb s l [] INT64_MAX SLOP.

  (** revwalk.c:507-530 [get_revision]: the commit, the nodes and the list left. *)
  Definition get_revision (fuel : nat) (w : rwalk) (s : nst) (l : list nat) : res (nat * nst * list nat) :=
    match l with
    | [] => Err GIT_ITEROVER
    | c :: rest =>
        if r_limited w then Ok (c, s, rest)
        else do (s1, l1) <- add_parents fuel (r_first w) (r_hidecb w) s c rest ;; Ok (c, s1, l1)
    end.

  (** pqueue.c:82-125 with or without a comparison function. *)
  Definition pq_insert (cmp : option (nat -> nat -> Z)) (q : list nat) (x : nat) : res (list nat) :=
    match cmp with Some f => pqueue_insert f None q x | None => Ok (q ++ [x]) end.
  Definition pq_pop (cmp : option (nat -> nat -> Z)) (q : list nat) : res (option nat * list nat) :=
    match cmp with
    | Some f => pqueue_pop f q
    | None => Ok (nth_error q (length q - 1), removelast q)
    end.

  (** revwalk.c:553-570: resetting and counting the in-degrees. *)
  Definition indeg_reset (l : list nat) (d : nat -> Z) : nat -> Z := fold_left (fun d x => fset d x 1) l d.
  Definition indeg_inc (d : nat -> Z) (p : nat) : nat -> Z := if d p =? 0 then d else fset d p (u16 (d p + 1)).
  Definition indeg_count (l : list nat) (d : nat -> Z) : nat -> Z :=
    fold_left (fun d x => fold_left indeg_inc (parents x) d) l d.
  (** revwalk.c:576-581. *)
  Fixpoint topo_tips (cmp : option (nat -> nat -> Z)) (l : list nat) (d : nat -> Z) (q : list nat) : res (list nat) :=
    match l with
    | [] => Ok q
    | x :: r =>
        if d x =? 1 then do q1 <- pq_insert cmp q x ;; topo_tips cmp r d q1 else topo_tips cmp r d q
    end.
  (** revwalk.c:594-604: releasing the parents of an emitted commit. *)
  Fixpoint topo_parents (cmp : option (nat -> nat -> Z)) (ps : list nat) (d : nat -> Z) (q : list nat)
    : res ((nat -> Z) * list nat) :=
    match ps with
    | [] => Ok (d, q)
    | p :: r =>
        if d p =? 0 then topo_parents cmp r d q
        else
          let d1 := fset d p (u16 (d p - 1)) in
          if d1 p =? 1 then do q1 <- pq_insert cmp q p ;; topo_parents cmp r d1 q1
          else topo_parents cmp r d1 q
    end.
  (** revwalk.c:593-611. *)
  Fixpoint topo_loop (fuel : nat) (cmp : option (nat -> nat -> Z)) (d : nat -> Z) (q out : list nat)
    : res ((nat -> Z) * list nat) :=
    match q with
    | [] => Ok (d, rev out)
    | _ =>
        match fuel with
        | O => NoFuel
        | S f =>
            do (top, q1) <- pq_pop cmp q ;;
            match top with
            | None => Ok (d, rev out)
            | Some x =>
                do (d1, q2) <- topo_parents cmp (parents x) d q1 ;;
                topo_loop f cmp (fset d1 x 0) q2 (x :: out)
            end
        end
    end.
  (** revwalk.c:532-619 [sort_in_topological_order]. *)
  Definition topo_sort (fuel : nat) (time : bool) (s : nst) (l : list nat) : res (nst * list nat) :=
    let cmp := if time then Some (time_cmp g) else None in
    let d := indeg_count l (indeg_reset l (n_indeg s)) in
    do q <- topo_tips cmp l d [] ;;
    let q1 := if time then q else rev q in
    do (d1, out) <- topo_loop fuel cmp d q1 [] ;;
    Ok (set_indeg s d1, out).

  (** revwalk.c:296-345: the four [get_next] functions; the commit and the walk left. *)
  Fixpoint next_time (fuel : nat) (w : rwalk) : res (nat * rwalk) :=
    do (top, q) <- pqueue_pop (time_cmp g) (r_it_time w) ;;
    let w1 := with_iters w q (r_it_topo w) (r_it_rand w) (r_it_rev w) in
    match top with
    | None => Err GIT_ITEROVER
    | Some c =>
        if n_unint (r_nodes w) c then match fuel with O => NoFuel | S f => next_time f w1 end
        else Ok (c, w1)
    end.
  Fixpoint next_unsorted (fuel gf : nat) (w : rwalk) : res (nat * rwalk) :=
    do (cs, l) <- get_revision gf w (r_nodes w) (r_it_rand w) ;;
    let w1 := with_iters (with_nodes w (snd cs)) (r_it_time w) (r_it_topo w) l (r_it_rev w) in
    if n_unint (snd cs) (fst cs) then match fuel with O => NoFuel | S f => next_unsorted f gf w1 end
    else Ok (fst cs, w1).
  Fixpoint next_topo (fuel gf : nat) (w : rwalk) : res (nat * rwalk) :=
    do (cs, l) <- get_revision gf w (r_nodes w) (r_it_topo w) ;;
    let w1 := with_iters (with_nodes w (snd cs)) (r_it_time w) l (r_it_rand w) (r_it_rev w) in
    if n_unint (snd cs) (fst cs) then match fuel with O => NoFuel | S f => next_topo f gf w1 end
    else Ok (fst cs, w1).
  Definition next_reverse (w : rwalk) : res (nat * rwalk) :=
    match r_it_rev w with
    | [] => Err GIT_ITEROVER
    | c :: r => Ok (c, with_iters w (r_it_time w) (r_it_topo w) (r_it_rand w) r)
    end.
  Definition get_next (fuel : nat) (w : rwalk) : res (nat * rwalk) :=
    match r_get w with
    | GUnsorted => next_unsorted fuel fuel w
    | GTime => next_time fuel w
    | GTopo => next_topo fuel fuel w
    | GReverse => next_reverse w
    end.

  (** revwalk.c:633-655: the list of starting commits; [acc] is reversed. *)
  Fixpoint prepare_list (fuel : nat) (input : list nat) (s : nst) (acc : list nat) : res (nst * list nat) :=
    match input with
    | [] => Ok (s, rev acc)
    | c :: r =>
        do s1 <- nparse s c ;;
        do s2 <- (if n_unint s1 c then mark_parents fuel s1 c else Ok s1) ;;
        if n_seen s2 c then prepare_list fuel r s2 acc
        else prepare_list fuel r (set_seen s2 c) (c :: acc)
    end.

  (** revwalk.c:668-669: [walk->enqueue]. *)
  Fixpoint enqueue_all (l q : list nat) : res (list nat) :=
    match l with [] => Ok q | c :: r => do q1 <- pqueue_insert (time_cmp g) None q c ;; enqueue_all r q1 end.

  (** revwalk.c:680-686: collecting in reverse. *)
  Fixpoint collect_reverse (n fuel : nat) (w : rwalk) : res rwalk :=
    match get_next fuel w with
    | Ok (c, w1) =>
        match n with
        | O => NoFuel
        | S n' => collect_reverse n' fuel (with_iters w1 (r_it_time w1) (r_it_topo w1) (r_it_rand w1) (c :: r_it_rev w1))
        end
    | Err e => if e =? GIT_ITEROVER then Ok w else Err e
    | UB => UB
    | NoFuel => NoFuel
    end.

  (** revwalk.c:621-693 [prepare_walk]. *)
  Definition prepare_walk (fuel : nat) (w : rwalk) : res rwalk :=
    if negb (r_push w) then Err GIT_ITEROVER
    else
      do (s, commits0) <- prepare_list fuel (r_input w) (r_nodes w) [] ;;
      do (s1, commits) <- (if r_limited w then limit_list fuel (r_first w) (r_hidecb w) s commits0 else Ok (s, commits0)) ;;
      let w1 := with_nodes w s1 in
      do w2 <-
        (if r_topo w then
           do (s2, out) <- topo_sort fuel (r_time w) s1 commits ;;
           Ok (with_get (with_iters (with_nodes w s2) (r_it_time w) out (r_it_rand w) (r_it_rev w)) GTopo)
         else if r_time w then
           do q <- enqueue_all commits (r_it_time w) ;;
           Ok (with_iters w1 q (r_it_topo w) (r_it_rand w) (r_it_rev w))
         else Ok (with_get (with_iters w1 (r_it_time w) (r_it_topo w) commits (r_it_rev w)) GUnsorted)) ;;
      do w3 <-
        (if r_reverse w then do w3 <- collect_reverse fuel fuel w2 ;; Ok (with_get w3 GReverse) else Ok w2) ;;
      Ok (with_walking w3 true).

  (** revwalk.c:775-799 [git_revwalk_next]: the commit, or [None] for GIT_ITEROVER
      (from [prepare_walk], returned directly; from [get_next], after a reset). *)
  Definition rev_next (fuel : nat) (w : rwalk) : res (option nat * rwalk) :=
    match (if r_walking w then Ok w else prepare_walk fuel w) with
    | Ok w1 =>
        match get_next fuel w1 with
        | Ok (c, w2) => Ok (Some c, w2)
        | Err e => if e =? GIT_ITEROVER then Ok (None, rev_reset w1) else Err e
        | UB => UB
        | NoFuel => NoFuel
        end
    | Err e => if e =? GIT_ITEROVER then Ok (None, w) else Err e
    | UB => UB
    | NoFuel => NoFuel
    end.

  (** The caller's loop: [while (git_revwalk_next(&oid, walk) == 0)]; the commits
      seen and the walk left. *)
  Fixpoint rev_all (n fuel : nat) (w : rwalk) : res (list nat * rwalk) :=
    match n with
    | O => NoFuel
    | S n' =>
        do (c, w1) <- rev_next fuel w ;;
        match c with
        | None => Ok ([], w1)
        | Some c => do (l, w2) <- rev_all n' fuel w1 ;; Ok (c :: l, w2)
        end
    end.

  (** The pushes and hides of a caller, in order. *)
  Fixpoint rev_inputs (w : rwalk) (ins : list (bool * nat)) : res rwalk :=
    match ins with
    | [] => Ok w
    | (h, c) :: r => do w1 <- rev_push_commit w h c ;; rev_inputs w1 r
    end.
End RW.
