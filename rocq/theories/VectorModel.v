(** Model of src/util/vector.c and of the binary search of src/util/util.c.
    A vector's live part [contents[0..length)] is a list; capacity management
    (vector.c:15-52) is not modelled and allocation succeeds. *)
From Verif Require Import Base Arr TsortModel.

Definition ENOTFOUND : Z := -3.

(** util.c:564-584 (git__bsearch; git__bsearch_r at 587-617 is the same loop).  [cmp e]
    is [compare(key, e)].  Result: (comparison result is zero, position). *)
Fixpoint bsearch_loop {A} (fuel : nat) (a : list A) (cmp : A -> Z) (base lim : nat) : res (bool * nat) :=
  match lim with
  | O => Ok (false, base)
  | _ =>
      match fuel with
      | O => NoFuel
      | S f =>
          let part := (base + lim / 2)%nat in
          do e <- aget a part ;;
          if cmp e =? 0 then Ok (true, part)
          else if 0 <? cmp e then bsearch_loop f a cmp (part + 1) ((lim - 1) / 2)
          else bsearch_loop f a cmp base (lim / 2)
      end
  end.
Definition bsearch {A} (a : list A) (cmp : A -> Z) : res (bool * nat) :=
  bsearch_loop (S (length a)) a cmp 0 (length a).

Record vec (A : Type) : Type := mkvec { items : list A; flag : bool }.
Arguments mkvec {A}. Arguments items {A}. Arguments flag {A}.

Section V.
  Context {A : Type} (cmp : A -> A -> Z).

  (** vector.c:104-116 *)
  Definition vinit : vec A := mkvec [] true.

  (** vector.c:134-147; vector.h:107-109 *)
  Definition vinsert (v : vec A) (x : A) : vec A :=
    mkvec (items v ++ [x]) (length (items v ++ [x]) <=? 1)%nat.

  (** vector.c:184-192 (the vector has a comparison function) *)
  Definition vsort (v : vec A) : res (vec A) :=
    if flag v then Ok v
    else if (1 <? length (items v))%nat
         then do l <- tsort cmp (items v) ;; Ok (mkvec l true)
         else Ok (mkvec (items v) true).

  (** vector.c:149-182.  [on_dup] is modelled as a pure function of the two elements
      (libgit2's handlers that replace the old element in place are outside). *)
  Definition vinsert_sorted (v : vec A) (x : A) (on_dup : option (A -> A -> Z)) : res (Z * vec A) :=
    do v1 <- vsort v ;;
    do (found, pos) <- bsearch (items v1) (cmp x) ;;
    do r <- (if found
             then match on_dup with
                  | None => Ok 0
                  | Some f => do old <- aget (items v1) pos ;; Ok (f old x)
                  end
             else Ok 0) ;;
    if r <? 0 then Ok (r, v1)
    else Ok (0, mkvec (firstn pos (items v1) ++ x :: skipn pos (items v1)) (flag v1)).

  (** vector.c:194-211; [key_cmp e] is [key_lookup(key, e)]. *)
  Definition vbsearch (v : vec A) (key_cmp : A -> Z) : res (bool * nat * vec A) :=
    do v1 <- vsort v ;;
    do (found, pos) <- bsearch (items v1) key_cmp ;;
    Ok (found, pos, v1).

  (** vector.c:213-233 *)
  Fixpoint vsearch_from (l : list A) (key_cmp : A -> Z) (i : nat) : option nat :=
    match l with
    | [] => None
    | e :: r => if key_cmp e =? 0 then Some i else vsearch_from r key_cmp (S i)
    end.
  Definition vsearch (v : vec A) (key_cmp : A -> Z) : option nat := vsearch_from (items v) key_cmp 0.

  (** vector.c:245-263 *)
  Definition vremove (v : vec A) (idx : nat) : Z * vec A :=
    if (length (items v) <=? idx)%nat then (ENOTFOUND, v)
    else (0, mkvec (firstn idx (items v) ++ skipn (idx + 1) (items v)) (flag v)).

  (** vector.c:265-269 *)
  Definition vpop (v : vec A) : vec A := mkvec (firstn (length (items v) - 1) (items v)) (flag v).

  (** vector.c:282-290: in place, [n] elements left to look at. *)
  Fixpoint uniq_loop (n : nat) (a : list A) (i j : nat) : res (list A * nat) :=
    match n with
    | O => Ok (a, i)
    | S n' =>
        do x <- aget a i ;;
        do y <- aget a j ;;
        if cmp x y =? 0
        then do a' <- aset a i y ;; uniq_loop n' a' i (S j)
        else do a' <- aset a (S i) y ;; uniq_loop n' a' (S i) (S j)
    end.

  (** vector.c:271-293 *)
  Definition vuniq (v : vec A) : res (vec A) :=
    if (length (items v) <=? 1)%nat then Ok v
    else
      do v1 <- vsort v ;;
      do (a, i) <- uniq_loop (length (items v1) - 1) (items v1) 0 1 ;;
      Ok (mkvec (firstn (length (items v1) - (length (items v1) - i - 1)) a) (flag v1)).

  (** vector.c:295-310; the callback looks at [contents[idx]] only. *)
  Fixpoint rm_loop (n : nat) (a : list A) (p : A -> bool) (i j : nat) : res (list A * nat) :=
    match n with
    | O => Ok (a, i)
    | S n' =>
        do x <- aget a j ;;
        do a' <- aset a i x ;;
        do y <- aget a' i ;;
        if p y then rm_loop n' a' p i (S j) else rm_loop n' a' p (S i) (S j)
    end.
  Definition vremove_matching (v : vec A) (p : A -> bool) : res (vec A) :=
    do (a, i) <- rm_loop (length (items v)) (items v) p 0 0 ;;
    Ok (mkvec (firstn i a) (flag v)).

  (** vector.c:312-316 *)
  Definition vclear (v : vec A) : vec A := mkvec [] true.

  (** vector.c:368-388; [None]: assertion failed. *)
  Definition vremove_range (v : vec A) (idx n : nat) : option (vec A) :=
    if (n =? 0)%nat then None
    else if (length (items v) <? idx + n)%nat then None
    else Some (mkvec (firstn idx (items v) ++ skipn (idx + n) (items v)) (flag v)).

  (** vector.c:390-403, for a position inside the vector. *)
  Definition vset (v : vec A) (pos : nat) (x : A) : res (vec A) :=
    do l <- aset (items v) pos x ;; Ok (mkvec l (flag v)).

  (** vector.c:420-437 *)
  Definition vreverse (v : vec A) : res (vec A) :=
    if (length (items v) =? 0)%nat then Ok v
    else do l <- reverse_loop (length (items v)) (items v) 0 (length (items v) - 1) ;; Ok (mkvec l (flag v)).

  (** vector.c:405-418 *)
  Fixpoint verify_from (l : list A) : bool :=
    match l with
    | x :: ((y :: _) as t) => if 0 <? cmp x y then false else verify_from t
    | _ => true
    end.
  Definition vverify (v : vec A) : bool := flag v && verify_from (items v).
End V.
