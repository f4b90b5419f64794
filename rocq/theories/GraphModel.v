(** Model of merge-base and ancestry computation:
    src/libgit2/merge.c:82-586, src/libgit2/graph.c, src/libgit2/commit_list.c.
    A commit is a number; the nodes of the walker (revwalk.c:24-42: one node per id)
    are that number together with the per-walk state below. *)
From Verif Require Import Base Arr PQueueModel.

(** What the object database (or the commit-graph file) says about a commit:
    commit_list.c:125-218.  [g_gen] is the generation number read from a commit-graph
    file and 0 when the commit was read from the object database; [g_ok] is false
    when the object is missing or is no commit. *)
Record graph := mkG {
  g_parents : nat -> list nat;
  g_time : nat -> Z;
  g_gen : nat -> Z;
  g_ok : nat -> bool
}.

(** commit_list.h:14-17 PARENT1, PARENT2, RESULT, STALE: the [flags] bit field. *)
Record flags := mkF { fP1 : bool; fP2 : bool; fRES : bool; fSTALE : bool }.
Definition f0 : flags := mkF false false false false.
Definition f_or (a b : flags) : flags :=
  mkF (fP1 a || fP1 b) (fP2 a || fP2 b) (fRES a || fRES b) (fSTALE a || fSTALE b).
Definition f_and (a b : flags) : flags :=
  mkF (fP1 a && fP1 b) (fP2 a && fP2 b) (fRES a && fRES b) (fSTALE a && fSTALE b).
Definition f_eqb (a b : flags) : bool :=
  Bool.eqb (fP1 a) (fP1 b) && Bool.eqb (fP2 a) (fP2 b) && Bool.eqb (fRES a) (fRES b) && Bool.eqb (fSTALE a) (fSTALE b).
Definition PARENT1 := mkF true false false false.
Definition PARENT2 := mkF false true false false.
Definition RESULT := mkF false false true false.
Definition STALE := mkF false false false true.

(** The walker: flags of every node, and which nodes have been parsed. *)
Record walk := mkW { w_fl : nat -> flags; w_parsed : nat -> bool }.
Definition walk0 : walk := mkW (fun _ => f0) (fun _ => false).
Definition w_set (w : walk) (n : nat) (f : flags) : walk :=
  mkW (fun m => if (m =? n)%nat then f else w_fl w m) (w_parsed w).
Definition w_or (w : walk) (n : nat) (f : flags) : walk := w_set w n (f_or (w_fl w n) f).

Definition GIT_ENOTFOUND : Z := -3.

Section G.
  Context (g : graph).

  (** commit_list.c:170-218 [git_commit_list_parse]. *)
  Definition parse (w : walk) (n : nat) : res walk :=
    if w_parsed w n then Ok w
    else if g_ok g n then Ok (mkW (w_fl w) (fun m => if (m =? n)%nat then true else w_parsed w m))
    else Err (-1).

  (** The [generation] field: 0 until the node is parsed (zeroed allocation,
      commit_list.c:77-80). *)
  Definition generation (w : walk) (n : nat) : Z := if w_parsed w n then g_gen g n else 0.

  (** commit_list.c:33-44. *)
  Definition time_cmp (a b : nat) : Z :=
    if g_time g a <? g_time g b then 1 else if g_time g b <? g_time g a then -1 else 0.
  (** commit_list.c:15-31.  Only parsed nodes are ever put in a queue, so the
      generation field is [g_gen]. *)
  Definition generation_cmp (a b : nat) : Z :=
    if (g_gen g a =? 0) || (g_gen g b =? 0) then time_cmp a b
    else if g_gen g a <? g_gen g b then 1 else if g_gen g b <? g_gen g a then -1 else 0.

  (** commit_list.c:62-75 [git_commit_list_insert_by_date]. *)
  Fixpoint insert_by_date (item : nat) (l : list nat) : list nat :=
    match l with
    | [] => [item]
    | p :: r => if 0 <? time_cmp p item then item :: p :: r else p :: insert_by_date item r
    end.

  (** merge.c:315-326 [interesting]. *)
  Definition interesting (w : walk) (q : list nat) : bool :=
    existsb (fun c => negb (fSTALE (w_fl w c))) q.

  (** merge.c:424-441 and graph.c:76-88: the loop over the parents of a popped commit. *)
  Fixpoint paint_parents (mingen : Z) (fl : flags) (ps : list nat) (w : walk) (q : list nat)
    : res (walk * list nat) :=
    match ps with
    | [] => Ok (w, q)
    | p :: ps' =>
        if f_eqb (f_and (w_fl w p) fl) fl then paint_parents mingen fl ps' w q
        else if generation w p <? mingen then paint_parents mingen fl ps' w q
        else
          do w1 <- parse w p ;;
          let w2 := w_or w1 p fl in
          do q' <- pqueue_insert generation_cmp None q p ;;
          paint_parents mingen fl ps' w2 q'
    end.

  (** merge.c:412-442: what happens to one popped commit: new state, queue, and
      whether it was newly marked RESULT.  graph.c:68-88 is the same with mingen 0. *)
  Definition expand (mingen : Z) (c : nat) (w : walk) (q : list nat) : res (walk * list nat * bool) :=
    let fl := f_and (w_fl w c) (f_or PARENT1 (f_or PARENT2 STALE)) in
    let both := f_eqb fl (f_or PARENT1 PARENT2) in
    let fresh := both && negb (fRES (w_fl w c)) in
    let w1 := if fresh then w_or w c RESULT else w in
    let fl1 := if both then f_or fl STALE else fl in
    do (w2, q2) <- paint_parents mingen fl1 (g_parents g c) w1 q ;;
    Ok (w2, q2, fresh).

  (** merge.c:408-442, the main loop of [paint_down_to_common]. *)
  Fixpoint paint_loop (fuel : nat) (mingen : Z) (w : walk) (q result : list nat) : res (walk * list nat) :=
    if interesting w q then
      match fuel with
      | O => NoFuel
      | S f =>
          do (top, q1) <- pqueue_pop generation_cmp q ;;
          match top with
          | None => Ok (w, result)
          | Some c =>
              do (wq, fresh) <- expand mingen c w q1 ;;
              paint_loop f mingen (fst wq) (snd wq) (if fresh : bool then c :: result else result)
          end
      end
    else Ok (w, result).

  (** merge.c:398-406: seeding the queue with [twos]. *)
  Fixpoint paint_seed (twos : list nat) (w : walk) (q : list nat) : res (walk * list nat) :=
    match twos with
    | [] => Ok (w, q)
    | two :: r =>
        do w1 <- parse w two ;;
        let w2 := w_or w1 two PARENT2 in
        do q' <- pqueue_insert generation_cmp None q two ;;
        paint_seed r w2 q'
    end.

  (** merge.c:379-447 [paint_down_to_common]. *)
  Definition paint_down_to_common (fuel : nat) (mingen : Z) (w : walk) (one : nat) (twos : list nat)
    : res (walk * list nat) :=
    let w1 := w_or w one PARENT1 in
    do q <- pqueue_insert generation_cmp None [] one ;;
    do (w2, q2) <- paint_seed twos w1 q ;;
    paint_loop fuel mingen w2 q2 [].

  (** merge.c:328-349 with the [while (list)] loops of its two callers
      (merge.c:351-377): [stack] is the current commit followed by the list; the
      mark is always ALL_FLAGS. *)
  Fixpoint clear_marks (fuel : nat) (w : walk) (stack : list nat) : res walk :=
    match stack with
    | [] => Ok w
    | c :: rest =>
        match fuel with
        | O => NoFuel
        | S f =>
            if f_eqb (w_fl w c) f0 then clear_marks f w rest
            else
              let w1 := w_set w c f0 in
              match g_parents g c with
              | [] => clear_marks f w1 rest
              | p0 :: ps => clear_marks f w1 (p0 :: rev ps ++ rest)
              end
        end
    end.

  (** merge.c:480-499, one round of [remove_redundant]. *)
  Definition redundant_round (fuel : nat) (mingen : Z) (commits : list nat) (i : nat) (w : walk) (red : list bool)
    : res (walk * list bool) :=
    if nth i red false then Ok (w, red)
    else
      let commit := nth i commits 0%nat in
      let filled := filter (fun j => negb ((i =? j)%nat || nth j red false)) (seq 0 (length commits)) in
      let work := map (fun j => nth j commits 0%nat) filled in
      do (w1, _) <- paint_down_to_common fuel mingen w commit work ;;
      let red1 := if fP2 (w_fl w1 commit) then upd red i true else red in
      let red2 := fold_left (fun r j => if fP1 (w_fl w1 (nth j commits 0%nat)) then upd r j true else r) filled red1 in
      do w2 <- clear_marks fuel w1 [commit] ;;
      do w3 <- clear_marks fuel w2 (rev work) ;;
      Ok (w3, red2).

  (** merge.c:467-502, the loop of [remove_redundant]. *)
  Fixpoint redundant_loop (fuel : nat) (mingen : Z) (commits : list nat) (is : list nat) (w : walk) (red : list bool)
    : res (walk * list bool) :=
    match is with
    | [] => Ok (w, red)
    | i :: is' =>
        do (w1, red1) <- redundant_round fuel mingen commits i w red ;;
        redundant_loop fuel mingen commits is' w1 red1
    end.

  (** merge.c:462-465. *)
  Fixpoint parse_all (cs : list nat) (w : walk) : res walk :=
    match cs with [] => Ok w | c :: r => do w1 <- parse w c ;; parse_all r w1 end.

  (** merge.c:449-515 [remove_redundant]: the commits not set to NULL, in order. *)
  Definition remove_redundant (fuel : nat) (mingen : Z) (w : walk) (commits : list nat) : res (list nat) :=
    do w1 <- parse_all commits w ;;
    do (_, red) <- redundant_loop fuel mingen commits (seq 0 (length commits)) w1 (repeat false (length commits)) ;;
    Ok (map (fun j => nth j commits 0%nat) (filter (fun j => negb (nth j red false)) (seq 0 (length commits)))).

  (** merge.c:517-586 [git_merge__bases_many]. *)
  Definition bases_many (fuel : nat) (w : walk) (one : nat) (twos : list nat) (mingen : Z) : res (list nat) :=
    match twos with
    | [] => Ok []
    | _ =>
        if existsb (fun two => (one =? two)%nat) twos then Ok [one]
        else
          do w1 <- parse w one ;;
          do (w2, result) <- paint_down_to_common fuel mingen w1 one twos ;;
          (* merge.c:549-558 *)
          let live := fold_left (fun acc c => if fSTALE (w_fl w2 c) then acc else insert_by_date c acc) result [] in
          if (1 <? length live)%nat then
            do w3 <- clear_marks fuel w2 [one] ;;
            do w4 <- clear_marks fuel w3 (rev twos) ;;
            do kept <- remove_redundant fuel mingen w4 live ;;
            Ok (fold_left (fun acc c => insert_by_date c acc) kept [])
          else Ok live
    end.

  (** merge.c:220-263, 281-313 [git_merge_bases]: all of them. *)
  Definition git_merge_bases (fuel : nat) (one two : nat) : res (list nat) :=
    do r <- bases_many fuel walk0 one [two] 0 ;;
    match r with [] => Err GIT_ENOTFOUND | _ => Ok r end.
  (** merge.c:265-279 [git_merge_base]: the first of them. *)
  Definition git_merge_base (fuel : nat) (one two : nat) : res nat :=
    do r <- git_merge_bases fuel one two ;;
    match r with [] => UB | c :: _ => Ok c end.
  (** merge.c:82-133, 156-191 [git_merge_bases_many]. *)
  Definition git_merge_bases_many (fuel : nat) (input : list nat) : res (list nat) :=
    match input with
    | one :: (_ :: _) as twos =>
        do r <- bases_many fuel walk0 one (tl input) 0 ;;
        match r with [] => Err GIT_ENOTFOUND | _ => Ok r end
    | _ => Err (-1)
    end.
  (** merge.c:193-218 [git_merge_base_octopus]. *)
  Fixpoint octopus_loop (fuel : nat) (result : nat) (rest : list nat) : res nat :=
    match rest with
    | [] => Ok result
    | c :: r => do result' <- git_merge_base fuel result c ;; octopus_loop fuel result' r
    end.
  Definition git_merge_base_octopus (fuel : nat) (input : list nat) : res nat :=
    match input with
    | one :: ((_ :: _) as rest) => octopus_loop fuel one rest
    | _ => Err (-1)
    end.

  (** graph.c:185-249 [git_graph_reachable_from_any]: [true] for 1, [false] for 0.
      The nodes have just been allocated, so their generation field is 0. *)
  Definition git_graph_reachable_from_any (fuel : nat) (commit : nat) (descendants : list nat) : res bool :=
    match descendants with
    | [] => Ok false
    | _ =>
        if existsb (fun d => (commit =? d)%nat) descendants then Ok true
        else
          let lower m n := if generation walk0 n <? m then generation walk0 n else m in
          let mingen := lower (fold_left lower descendants 4294967295) commit in
          do r <- bases_many fuel walk0 commit descendants mingen ;;
          match r with [] => Ok false | c :: _ => Ok (commit =? c)%nat end
    end.

  (** graph.c:177-183 [git_graph_descendant_of]. *)
  Definition git_graph_descendant_of (fuel : nat) (commit ancestor : nat) : res bool :=
    if (commit =? ancestor)%nat then Ok false
    else git_graph_reachable_from_any fuel ancestor [commit].

  (** graph.c:62-96, the loop of [mark_parents]. *)
  Fixpoint mark_loop (fuel : nat) (w : walk) (q roots : list nat) : res walk :=
    if interesting w q || interesting w roots then
      match fuel with
      | O => NoFuel
      | S f =>
          do (top, q1) <- pqueue_pop generation_cmp q ;;
          match top with
          | None => Ok w
          | Some c =>
              do (wq, _) <- expand 0 c w q1 ;;
              mark_loop f (fst wq) (snd wq) (match g_parents g c with [] => c :: roots | _ => roots end)
          end
      end
    else Ok w.

  (** graph.c:33-105 [mark_parents]. *)
  Definition mark_parents (fuel : nat) (w : walk) (one two : nat) : res walk :=
    if (one =? two)%nat then Ok (w_or w one (f_or PARENT1 (f_or PARENT2 RESULT)))
    else
      do w1 <- parse w one ;;
      let w2 := w_or w1 one PARENT1 in
      do q1 <- pqueue_insert generation_cmp None [] one ;;
      do w3 <- parse w2 two ;;
      let w4 := w_or w3 two PARENT2 in
      do q2 <- pqueue_insert generation_cmp None q1 two ;;
      mark_loop fuel w4 q2 [].

  (** graph.c:133-137. *)
  Fixpoint push_all (ps q : list nat) : res (list nat) :=
    match ps with [] => Ok q | p :: r => do q' <- pqueue_insert time_cmp None q p ;; push_all r q' end.

  (** graph.c:124-139, the loop of [ahead_behind].  An unparsed node has no parents;
      every node reached here was parsed by [mark_parents] or carries no flag. *)
  Fixpoint count_loop (fuel : nat) (w : walk) (q : list nat) (ahead behind : Z) : res (Z * Z) :=
    match fuel with
    | O => NoFuel
    | S f =>
        do (top, q1) <- pqueue_pop time_cmp q ;;
        match top with
        | None => Ok (ahead, behind)
        | Some c =>
            let fl := w_fl w c in
            if fRES fl || (fP1 fl && fP2 fl) then count_loop f w q1 ahead behind
            else
              let ahead' := if fP1 fl then ahead + 1 else ahead in
              let behind' := if fP1 fl then behind else if fP2 fl then behind + 1 else behind in
              do q2 <- push_all (if w_parsed w c then g_parents g c else []) q1 ;;
              count_loop f (w_or w c RESULT) q2 ahead' behind'
        end
    end.

  (** graph.c:108-144 [ahead_behind]. *)
  Definition ahead_behind (fuel : nat) (w : walk) (one two : nat) : res (Z * Z) :=
    do q <- push_all [one; two] [] ;;
    count_loop fuel w q 0 0.

  (** graph.c:146-175 [git_graph_ahead_behind]. *)
  Definition git_graph_ahead_behind (fuel : nat) (local upstream : nat) : res (Z * Z) :=
    do w <- mark_parents fuel walk0 local upstream ;;
    ahead_behind fuel w local upstream.
End G.
