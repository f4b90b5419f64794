(** Model of src/util/hashmap.h (the generic open-addressing hash map).
    Slots carry their two flag bits ("empty", "deleted") and, when in use, the key and
    value; keys and values of slots not in use are never read.  Allocation succeeds. *)
From Verif Require Import Base Arr.

Section H.
  Context {K V : Type} (hash : K -> nat) (eqk : K -> K -> bool).

  (** hashmap.h:48-50: IS_EMPTY / IS_DELETE / neither. *)
  Inductive slot : Type := SEmpty | SDel | SFull (k : K) (v : V).

  (** hashmap.h:67-74 *)
  Record table : Type := mktable { slots : list slot; size : nat; n_occupied : nat; upper : nat }.
  Definition n_buckets (t : table) : nat := length (slots t).

  (** hashmap.h:44 GIT_HASHMAP_INIT *)
  Definition hinit : table := mktable [] 0 0 0.

  (** hashmap.h:57-58 GIT_HASHMAP_ROUNDUP on uint32_t *)
  Definition roundup (x : Z) : Z :=
    let x := (x - 1) mod two32 in
    let x := Z.lor x (Z.shiftr x 1) in
    let x := Z.lor x (Z.shiftr x 2) in
    let x := Z.lor x (Z.shiftr x 4) in
    let x := Z.lor x (Z.shiftr x 8) in
    let x := Z.lor x (Z.shiftr x 16) in
    (x + 1) mod two32.

  (** hashmap.h:157, 173, 237: (uint32_t)(n * 0.77 + 0.5).  The double computation equals
      this integer expression for every power of two below 2^32 (77 n + 50 is never a
      multiple of 100, and the rounding error is far below 1/100). *)
  Definition bound77 (n : nat) : nat := ((77 * n + 50) / 100)%nat.

  Definition maskn (i n : nat) : nat := Nat.land i (n - 1).

  (** hashmap.h:108-131 [name##__idx]; the loop of lines 116-121. *)
  Fixpoint idx_loop (fuel : nat) (s : list slot) (key : K) (i last step : nat) : res (option nat) :=
    do f <- aget s i ;;
    let continue :=
      match f with SEmpty => false | SDel => true | SFull k _ => negb (eqk k key) end in
    if continue then
      let i' := maskn (i + (step + 1)) (length s) in
      if (i' =? last)%nat then Ok None
      else match fuel with O => NoFuel | S f' => idx_loop f' s key i' last (step + 1) end
    else
      match f with SFull _ _ => Ok (Some i) | _ => Ok None end.
  Definition hidx (t : table) (key : K) : res (option nat) :=
    if (n_buckets t =? 0)%nat then Ok None
    else let i := maskn (hash key) (n_buckets t) in idx_loop (n_buckets t) (slots t) key i i 0.

  (** hashmap.h:132-136 *)
  Definition hcontains (t : table) (key : K) : res bool :=
    do i <- hidx t key ;; Ok (match i with Some _ => true | None => false end).

  (** hashmap.h:332-339 [name##_get] *)
  Definition hget (t : table) (key : K) : res (option V) :=
    do i <- hidx t key ;;
    match i with
    | None => Ok None
    | Some i => do s <- aget (slots t) i ;; match s with SFull _ v => Ok (Some v) | _ => UB end
    end.

  (** hashmap.h:137-153 [name##__remove_at_idx], [name##_remove]; the result says whether
      0 rather than GIT_ENOTFOUND is returned. *)
  Definition hremove (t : table) (key : K) : res (bool * table) :=
    do i <- hidx t key ;;
    match i with
    | None => Ok (false, t)
    | Some i =>
        do s <- aget (slots t) i ;;
        match s with
        | SFull _ _ => do sl <- aset (slots t) i SDel ;; Ok (true, mktable sl (size t - 1) (n_occupied t) (upper t))
        | _ => Ok (false, t)
        end
    end.

  (** hashmap.h:205-206: find a slot that is empty in the new flags. *)
  Fixpoint probe_new (fuel : nat) (nf : list bool) (i step : nat) : res nat :=
    do used <- aget nf i ;;
    if (used : bool)
    then match fuel with O => NoFuel | S f => probe_new f nf (maskn (i + (step + 1)) (length nf)) (step + 1) end
    else Ok i.

  (** hashmap.h:200-230, the kick-out loop.  [old]: slot not yet moved (old flags say in
      use); [nf]: slot in use according to the new flags; [kv]: the shared key/value
      arrays. *)
  Fixpoint kick (fuel : nat) (old nf : list bool) (kv : list (option (K * V))) (e : K * V)
    : res (list bool * list bool * list (option (K * V))) :=
    match fuel with
    | O => NoFuel
    | S f =>
        do i <- probe_new (length nf) nf (maskn (hash (fst e)) (length nf)) 0 ;;
        do nf' <- aset nf i true ;;
        do kicked <- (if (i <? length old)%nat then aget old i else Ok false) ;;
        if (kicked : bool) then
          do tmp <- aget kv i ;;
          match tmp with
          | None => UB
          | Some tmp =>
              do kv' <- aset kv i (Some e) ;;
              do old' <- aset old i false ;;
              kick f old' nf' kv' tmp
          end
        else
          do kv' <- aset kv i (Some e) ;;
          Ok (old, nf', kv')
    end.

  (** hashmap.h:190-232, [n] buckets left from [j]. *)
  Fixpoint rehash (n j : nat) (old nf : list bool) (kv : list (option (K * V)))
    : res (list bool * list bool * list (option (K * V))) :=
    match n with
    | O => Ok (old, nf, kv)
    | S n' =>
        do u <- aget old j ;;
        if (u : bool) then
          do e <- aget kv j ;;
          match e with
          | None => UB
          | Some e =>
              do old1 <- aset old j false ;;
              do (p, kv2) <- kick (S (length nf)) old1 nf kv e ;;
              let '(old2, nf2) := p in
              rehash n' (S j) old2 nf2 kv2
          end
        else rehash n' (S j) old nf kv
    end.

  Definition is_full (s : slot) : bool := match s with SFull _ _ => true | _ => false end.
  Definition slot_kv (s : slot) : option (K * V) := match s with SFull k v => Some (k, v) | _ => None end.
  Definition mk_slot (p : bool * option (K * V)) : slot :=
    match p with (true, Some (k, v)) => SFull k v | _ => SEmpty end.

  (** hashmap.h:154-240 [name##__resize] *)
  Definition hresize (t : table) (want : Z) : res table :=
    let r := roundup want in
    let nn := Z.to_nat (if r <? 4 then 4 else r) in
    if (bound77 nn <=? size t)%nat then Ok t
    else
      let old := map is_full (slots t) in
      let nf := repeat false nn in
      let kv := map slot_kv (slots t) ++ repeat None (nn - n_buckets t) in
      do (p, kv') <- rehash (n_buckets t) 0 old nf kv ;;
      let '(_, nf') := p in
      Ok (mktable (map mk_slot (combine nf' (firstn nn kv'))) (size t) (size t) (bound77 nn)).

  (** hashmap.h:269-283: the search of put; returns the slot to use. *)
  Fixpoint put_loop (fuel : nat) (s : list slot) (key : K) (i last step : nat) (site : option nat) : res nat :=
    do f <- aget s i ;;
    let continue :=
      match f with SEmpty => false | SDel => true | SFull k _ => negb (eqk k key) end in
    if continue then
      let site' := match f with SDel => Some i | _ => site end in
      let i' := maskn (i + (step + 1)) (length s) in
      if (i' =? last)%nat then
        match site' with
        | Some x => Ok x
        | None => Ok i'        (* x = site = n_buckets: falls to line 284-289 *)
        end
      else match fuel with O => NoFuel | S f' => put_loop f' s key i' last (step + 1) site' end
    else
      match f, site with
      | SEmpty, Some x => Ok x
      | _, _ => Ok i
      end.

  (** hashmap.h:241-314 [name##__put_idx] and 340-352 [name##_put]. *)
  Definition hput (t : table) (key : K) (val : V) : res table :=
    do t1 <- (if (upper t <=? n_occupied t)%nat then
                if (2 * size t <? n_buckets t)%nat
                then hresize t (Z.of_nat (n_buckets t) - 1)
                else hresize t (Z.of_nat (n_buckets t) + 1)
              else Ok t) ;;
    if (n_buckets t1 =? 0)%nat then UB    (* assertion on flags/keys *)
    else
      let i := maskn (hash key) (n_buckets t1) in
      do s0 <- aget (slots t1) i ;;
      do x <- match s0 with
              | SEmpty => Ok i
              | _ => put_loop (n_buckets t1) (slots t1) key i i 0 None
              end ;;
      do sx <- aget (slots t1) x ;;
      do sl <- aset (slots t1) x (SFull key val) ;;
      match sx with
      | SEmpty => Ok (mktable sl (size t1 + 1) (n_occupied t1 + 1) (upper t1))
      | SDel => Ok (mktable sl (size t1 + 1) (n_occupied t1) (upper t1))
      | SFull _ _ => Ok (mktable sl (size t1) (n_occupied t1) (upper t1))
      end.

  (** hashmap.h:315-321 [name##_clear] *)
  Definition hclear (t : table) : table := mktable (map (fun _ => SEmpty) (slots t)) 0 0 (upper t).

  (** hashmap.h:353-366 [name##_iterate] of a map: one call with the iterator at [i];
      [n] = buckets left. *)
  Fixpoint iter_next (n : nat) (s : list slot) (i : nat) : res (option (K * V * nat)) :=
    match n with
    | O => Ok None
    | S n' =>
        do f <- aget s i ;;
        match f with
        | SFull k v => Ok (Some (k, v, S i))
        | _ => iter_next n' s (S i)
        end
    end.
  (** Calling iterate until it reports GIT_ITEROVER. *)
  Fixpoint iter_all (fuel : nat) (t : table) (i : nat) : res (list (K * V)) :=
    match fuel with
    | O => NoFuel
    | S f =>
        do r <- iter_next (n_buckets t - i) (slots t) i ;;
        match r with
        | None => Ok []
        | Some (k, v, i') => do l <- iter_all f t i' ;; Ok ((k, v) :: l)
        end
    end.
  Definition hiter (t : table) : res (list (K * V)) := iter_all (S (n_buckets t)) t 0.

  (** hashmap.h:393-402 [name##_iterate] of a set: the iterator is not advanced past the
      slot that is returned. *)
  Fixpoint set_iter_next (n : nat) (s : list slot) (i : nat) : res (option (K * nat)) :=
    match n with
    | O => Ok None
    | S n' =>
        do f <- aget s i ;;
        match f with
        | SFull k _ => Ok (Some (k, i))
        | _ => set_iter_next n' s (S i)
        end
    end.
  (** hashmap.h:403-413 [name##_foreach] of a set with a callback that returns 0: the list
      of keys the callback has seen within [fuel] rounds and whether the loop ended. *)
  Fixpoint set_foreach (fuel : nat) (t : table) (i : nat) : res (list K * bool) :=
    match fuel with
    | O => Ok ([], false)
    | S f =>
        do r <- set_iter_next (n_buckets t - i) (slots t) i ;;
        match r with
        | None => Ok ([], true)
        | Some (k, i') => do (l, e) <- set_foreach f t i' ;; Ok (k :: l, e)
        end
    end.
End H.
