(** Model of src/util/pqueue.c.  The queue is its vector of (non-NULL) elements.
    [cmp] is the comparison function given at creation. *)
From Verif Require Import Base Arr.

Section PQ.
  Context {A : Type} (cmp : A -> A -> Z).

  (** pqueue.c:41-53, the loop of [pqueue_up].  Fuel: [el] strictly decreases. *)
  Fixpoint up_loop (fuel : nat) (l : list A) (el : nat) (kid : A) : res (list A) :=
    if (el =? 0)%nat then aset l el kid
    else
      match fuel with
      | O => NoFuel
      | S f =>
          let parent_el := Nat.div (el - 1) 2 in                 (* pqueue.c:14 *)
          do parent <- aget l parent_el ;;
          if cmp parent kid <=? 0 then aset l el kid
          else do l' <- aset l el parent ;; up_loop f l' parent_el kid
      end.

  (** pqueue.c:36-54 [pqueue_up]. *)
  Definition pqueue_up (l : list A) (el : nat) : res (list A) :=
    do kid <- aget l el ;; up_loop el l el kid.

  (** pqueue.c:60-79, the loop of [pqueue_down]; [git_vector_get] past the end is NULL. *)
  Fixpoint down_loop (fuel : nat) (l : list A) (el : nat) (parent : A) : res (list A) :=
    match fuel with
    | O => NoFuel
    | S f =>
        let kid_el := (2 * el + 1)%nat in                        (* pqueue.c:12 *)
        match nth_error l kid_el with
        | None => aset l el parent
        | Some kid =>
            let (kid, kid_el) :=
              match nth_error l (kid_el + 1) with
              | Some rkid => if 0 <? cmp kid rkid then (rkid, (kid_el + 1)%nat) else (kid, kid_el)
              | None => (kid, kid_el)
              end in
            if cmp parent kid <=? 0 then aset l el parent
            else do l' <- aset l el kid ;; down_loop f l' kid_el parent
        end
    end.

  (** pqueue.c:56-80 [pqueue_down]. *)
  Definition pqueue_down (l : list A) (el : nat) : res (list A) :=
    do parent <- aget l el ;; down_loop (S (length l)) l el parent.

  (** pqueue.c:104-125 [git_pqueue_pop] with a comparison function: the element
      returned ([None] for NULL) and the queue left. *)
  Definition pqueue_pop (l : list A) : res (option A * list A) :=
    let rval := nth_error l 0 in
    if (1 <? length l)%nat then
      do last <- aget l (length l - 1) ;;
      do l1 <- aset l 0 last ;;
      do l2 <- pqueue_down (removelast l1) 0 ;;
      Ok (rval, l2)
    else Ok (rval, removelast l).

  (** pqueue.c:82-102 [git_pqueue_insert]; [cap] is [Some n] for a queue created
      with GIT_PQUEUE_FIXED_SIZE and size n > 0 (pqueue.c:28-30).  Growing the
      vector is assumed to succeed. *)
  Definition pqueue_insert (cap : option nat) (l : list A) (item : A) : res (list A) :=
    let full := match cap with Some n => (n <=? length l)%nat | None => false end in
    if full then
      do top <- aget l 0 ;;
      if cmp item top <=? 0 then Ok l
      else
        do (_, l1) <- pqueue_pop l ;;
        pqueue_up (l1 ++ [item]) (length l1)
    else pqueue_up (l ++ [item]) (length l).
End PQ.
