(** Model of src/util/tsort.c (timsort).  The array is a list with checked access;
    allocation of merge storage (tsort.c:182-202) is assumed to succeed. *)
From Verif Require Import Base Arr.

Section Tsort.
  Context {A : Type} (cmp : A -> A -> Z).

  Definition INT_MAX : Z := 2147483647.

  (** tsort.c:43-44 and 60-62: [i] advances while [dst[b + i]] equals [x]. *)
  Fixpoint eq_scan (fuel : nat) (dst : list A) (b : nat) (x : A) (i : nat) : res nat :=
    do y <- aget dst (b + i) ;;
    if cmp x y =? 0
    then match fuel with O => NoFuel | S f => eq_scan f dst b x (S i) end
    else Ok i.

  (** tsort.c:49-67, the bisection; [l <= c <= r] are non-negative ints. *)
  Fixpoint bs_loop (fuel : nat) (dst : list A) (b : nat) (x : A) (l c r : nat) : res nat :=
    match fuel with
    | O => NoFuel
    | S f =>
        do cx <- aget dst (b + c) ;;
        let val := cmp x cx in
        if val <? 0 then
          if (c - l <=? 1)%nat then Ok c
          else bs_loop f dst b x l (l + (c - l) / 2)%nat c
        else if 0 <? val then
          if (r - c <=? 1)%nat then Ok (c + 1)%nat
          else bs_loop f dst b x c (c + (r - c) / 2)%nat r
        else eq_scan (length dst) dst b x (c + 1)
    end.

  (** tsort.c:26-68 [binsearch(dst + b, x, size)]. *)
  Definition binsearch (dst : list A) (b : nat) (x : A) (size : nat) : res nat :=
    if INT_MAX <? Z.of_nat size then UB
    else
      let r := (size - 1)%nat in
      do lx <- aget dst b ;;
      if cmp x lx <? 0 then Ok 0%nat
      else if cmp x lx =? 0 then eq_scan (length dst) dst b x 1
      else bs_loop (S size) dst b x 0 (r / 2)%nat r.

  (** tsort.c:87-89: [n] elements ending just before [b + hi] move up by one. *)
  Fixpoint shift_loop (n : nat) (dst : list A) (b hi : nat) : res (list A) :=
    match n with
    | O => Ok dst
    | S n' =>
        do y <- aget dst (b + (hi - 1)) ;;
        do dst' <- aset dst (b + hi) y ;;
        shift_loop n' dst' b (hi - 1)
    end.

  (** tsort.c:78-91, [n] more iterations starting at index [i >= 1]. *)
  Fixpoint bisort_loop (n : nat) (dst : list A) (b i : nat) : res (list A) :=
    match n with
    | O => Ok dst
    | S n' =>
        do p <- aget dst (b + (i - 1)) ;;
        do x <- aget dst (b + i) ;;
        if cmp p x <=? 0 then bisort_loop n' dst b (S i)
        else
          do loc <- binsearch dst b x i ;;
          do dst1 <- shift_loop (i - loc) dst b i ;;
          do dst2 <- aset dst1 (b + loc) x ;;
          bisort_loop n' dst2 b (S i)
    end.

  (** tsort.c:71-92 [bisort(dst + b, start, size)]. *)
  Definition bisort (dst : list A) (b start size : nat) : res (list A) :=
    bisort_loop (size - start) dst b start.

  (** tsort.c:108-118 [reverse_elements], [fuel >= end - start]. *)
  Fixpoint reverse_loop (fuel : nat) (dst : list A) (s e : nat) : res (list A) :=
    if (s <? e)%nat then
      match fuel with
      | O => NoFuel
      | S f =>
          do x <- aget dst s ;;
          do y <- aget dst e ;;
          do d1 <- aset dst s y ;;
          do d2 <- aset d1 e x ;;
          reverse_loop f d2 (S s) (e - 1)
      end
    else Ok dst.

  (** tsort.c:139-141 and 145-147: advance [curr] while [curr < size - 1] and the
      pair ([curr - 1], [curr]) is ascending ([desc = false]) resp. strictly
      descending. *)
  Fixpoint run_scan (fuel : nat) (desc : bool) (dst : list A) (curr size : nat) : res nat :=
    if (curr <? size - 1)%nat then
      do p <- aget dst (curr - 1) ;;
      do q <- aget dst curr ;;
      if (if desc then 0 <? cmp p q else cmp p q <=? 0)
      then match fuel with O => NoFuel | S f => run_scan f desc dst (S curr) size end
      else Ok curr
    else Ok curr.

  (** tsort.c:120-153 [count_run]; [start < size]. *)
  Definition count_run (dst : list A) (start size : nat) : res (nat * list A) :=
    if (size - start =? 1)%nat then Ok (1%nat, dst)
    else if (size - 2 <=? start)%nat then
      do p <- aget dst (size - 2) ;;
      do q <- aget dst (size - 1) ;;
      if 0 <? cmp p q then
        do d1 <- aset dst (size - 1) p ;;
        do d2 <- aset d1 (size - 2) q ;;
        Ok (2%nat, d2)
      else Ok (2%nat, dst)
    else
      do p <- aget dst start ;;
      do q <- aget dst (start + 1) ;;
      if cmp p q <=? 0 then
        do curr <- run_scan size false dst (start + 2) size ;;
        Ok ((curr - start)%nat, dst)
      else
        do curr <- run_scan size true dst (start + 2) size ;;
        do d' <- reverse_loop size dst start (curr - 1) ;;
        Ok ((curr - start)%nat, d').

  (** tsort.c:155-163 [compute_minrun]. *)
  Fixpoint minrun_loop (fuel n r : nat) : nat :=
    match fuel with
    | O => (n + r)%nat
    | S f => if (64 <=? n)%nat then minrun_loop f (n / 2) (Nat.max r (n mod 2)) else (n + r)%nat
    end.
  Definition compute_minrun (n : nat) : nat := minrun_loop n n 0.

  (** A run: (start, length).  The stack is a list, top first. *)
  Definition run : Type := (nat * nat)%type.

  (** tsort.c:165-180 [check_invariant]. *)
  Definition check_invariant (stack : list run) : bool :=
    match stack with
    | (_, lc) :: (_, lb) :: (_, la) :: _ => negb ((la <=? lb + lc)%nat || (lb <=? lc)%nat)
    | [(_, lb); (_, la)] => (lb <? la)%nat
    | _ => true
    end.

  (** tsort.c:224-234, left merge: [n] iterations left. *)
  Fixpoint merge_left (n : nat) (dst storage : list A) (i j k a last : nat) : res (list A) :=
    match n with
    | O => Ok dst
    | S n' =>
        if (i <? a)%nat && (j <? last)%nat then
          do x <- aget storage i ;;
          do y <- aget dst j ;;
          if cmp x y <=? 0
          then do d <- aset dst k x ;; merge_left n' d storage (S i) j (S k) a last
          else do d <- aset dst k y ;; merge_left n' d storage i (S j) (S k) a last
        else if (i <? a)%nat then
          do x <- aget storage i ;;
          do d <- aset dst k x ;; merge_left n' d storage (S i) j (S k) a last
        else
          do y <- aget dst j ;;
          do d <- aset dst k y ;; merge_left n' d storage i (S j) (S k) a last
    end.

  (** tsort.c:240-250, right merge.  [ri] and [rj] are the numbers of elements left in
      the storage and in the left run, i.e. the C variables are [i = ri - 1] and
      [j = curr + rj - 1]; [n] iterations left, [k = curr + n - 1]. *)
  Fixpoint merge_right (n : nat) (dst storage : list A) (ri rj curr : nat) : res (list A) :=
    match n with
    | O => Ok dst
    | S n' =>
        if (0 <? ri)%nat && (0 <? rj)%nat then
          do x <- aget dst (curr + rj - 1) ;;
          do y <- aget storage (ri - 1) ;;
          if 0 <? cmp x y
          then do d <- aset dst (curr + n') x ;; merge_right n' d storage ri (rj - 1) curr
          else do d <- aset dst (curr + n') y ;; merge_right n' d storage (ri - 1) rj curr
        else if (0 <? ri)%nat then
          do y <- aget storage (ri - 1) ;;
          do d <- aset dst (curr + n') y ;; merge_right n' d storage (ri - 1) rj curr
        else
          do x <- aget dst (curr + rj - 1) ;;
          do d <- aset dst (curr + n') x ;; merge_right n' d storage ri (rj - 1) curr
    end.

  (** memcpy of [n] elements out of the array. *)
  Definition slice (dst : list A) (off n : nat) : res (list A) :=
    if (off + n <=? length dst)%nat then Ok (sub dst off n) else UB.

  (** tsort.c:204-252 [merge] of run [ra] (below) and [rb] (above). *)
  Definition merge (dst : list A) (ra rb : run) : res (list A) :=
    let a := snd ra in
    let b := snd rb in
    let curr := fst ra in
    if (a <? b)%nat then
      do st <- slice dst curr a ;;
      merge_left (a + b) dst st 0 (curr + a) curr a (curr + a + b)
    else
      do st <- slice dst (curr + a) b ;;
      merge_right (a + b) dst st b a curr.

  (** tsort.c:254-306 [collapse]; fuel: each round removes a run. *)
  Fixpoint collapse (fuel : nat) (dst : list A) (stack : list run) (size : nat)
    : res (list A * list run) :=
    match fuel with
    | O => NoFuel
    | S f =>
        match stack with
        | [] | [_] => Ok (dst, stack)
        | [r1; r0] =>
            if (snd r0 + snd r1 =? size)%nat || (snd r0 <=? snd r1)%nat then
              do d <- merge dst r0 r1 ;;
              Ok (d, [(fst r0, (snd r0 + snd r1)%nat)])
            else Ok (dst, stack)
        | rc :: rb :: ra :: rest =>
            let a := snd ra in let b := snd rb in let c := snd rc in
            if (a <=? b + c)%nat then
              if (a <? c)%nat then
                do d <- merge dst ra rb ;;
                collapse f d (rc :: (fst ra, (a + b)%nat) :: rest) size
              else
                do d <- merge dst rb rc ;;
                collapse f d ((fst rb, (b + c)%nat) :: ra :: rest) size
            else if (b <=? c)%nat then
              do d <- merge dst rb rc ;;
              collapse f d ((fst rb, (b + c)%nat) :: ra :: rest) size
            else Ok (dst, stack)
        end
    end.

  (** tsort.c:321-325: merge everything. *)
  Fixpoint finish (fuel : nat) (dst : list A) (stack : list run) : res (list A) :=
    match stack with
    | r1 :: r0 :: rest =>
        match fuel with
        | O => NoFuel
        | S f => do d <- merge dst r0 r1 ;; finish f d ((fst r0, (snd r0 + snd r1)%nat) :: rest)
        end
    | _ => Ok dst
    end.

  Definition STACK_MAX : nat := 128.

  (** tsort.c:308-333 PUSH_NEXT.  [inl dst]: sorting is finished.  Storing into
      [run_stack] beyond its 128 entries is [UB]. *)
  Definition push_next (dst : list A) (stack : list run) (curr size minrun : nat)
    : res (list A + (list A * list run * nat)) :=
    do (len, dst1) <- count_run dst curr size ;;
    let run := if (size - curr <? minrun)%nat then (size - curr)%nat else minrun in
    do (len, dst2) <- (if (len <? run)%nat
                       then do d <- bisort dst1 curr len run ;; Ok (run, d)
                       else Ok (len, dst1)) ;;
    if (STACK_MAX <=? length stack)%nat then UB
    else
      let stack1 := (curr, len) :: stack in
      let curr1 := (curr + len)%nat in
      if (curr1 =? size)%nat
      then do d <- finish (length stack1) dst2 stack1 ;; Ok (inl d)
      else Ok (inr (dst2, stack1, curr1)).

  (** tsort.c:364-371, the main loop.  Fuel: a round either pushes a non-empty run
      or removes one from the stack. *)
  Fixpoint main_loop (fuel : nat) (dst : list A) (stack : list run) (curr size minrun : nat)
    : res (list A) :=
    match fuel with
    | O => NoFuel
    | S f =>
        if check_invariant stack then
          do st <- push_next dst stack curr size minrun ;;
          match st with
          | inl d => Ok d
          | inr (d, s, c) => main_loop f d s c size minrun
          end
        else
          do (d, s) <- collapse (S (length stack)) dst stack size ;;
          main_loop f d s curr size minrun
    end.

  (** tsort.c:335-372 [git__tsort_r]: three unconditional PUSH_NEXT, then the loop. *)
  Definition tsort (dst : list A) : res (list A) :=
    let size := length dst in
    if (size <? 64)%nat then bisort dst 0 1 size
    else
      let minrun := compute_minrun size in
      do s1 <- push_next dst [] 0 size minrun ;;
      match s1 with
      | inl d => Ok d
      | inr (d, st, c) =>
          do s2 <- push_next d st c size minrun ;;
          match s2 with
          | inl d => Ok d
          | inr (d, st, c) =>
              do s3 <- push_next d st c size minrun ;;
              match s3 with
              | inl d => Ok d
              | inr (d, st, c) => main_loop (4 * size) d st c size minrun
              end
          end
      end.
End Tsort.
