(** Model of the id shortener, src/libgit2/oid.c:317-508. *)
From Verif Require Import Base OidModel.

(** trie_node, oid.c:319-322: a union of a pointer into the text of an id and 16
    child indexes.  A node is the member last written; reading or writing the
    other member is [UB].  Storing NULL in [tail] leaves 16 zero children, because
    new nodes are zeroed (oid.c:334-336) and only the first 8 bytes are ever
    overwritten by the pointer. *)
Inductive node : Type := Leaf (tail : list Z) | Kids (children : list Z).
Definition zeros : node := Kids (repeat 0 16).

(** struct git_oid_shorten, oid.c:324-328; [size] is the length of [s_nodes]. *)
Record shorten := { s_nodes : list node; s_count : nat; s_min : Z; s_full : bool }.
Definition with_nodes (os : shorten) (n : list node) : shorten :=
  {| s_nodes := n; s_count := s_count os; s_min := s_min os; s_full := s_full os |}.

Definition get (os : shorten) (idx : nat) : res node :=
  match nth_error (s_nodes os) idx with Some n => Ok n | None => UB end.

(** node->children[c] = v *)
Definition set_child (os : shorten) (idx : nat) (c v : Z) : res shorten :=
  do nd <- get os idx ;;
  match nd with
  | Leaf _ => UB
  | Kids ch => if (c <? 0) || (16 <=? c) then UB
               else Ok (with_nodes os (upd (s_nodes os) idx (Kids (upd ch (Z.to_nat c) v))))
  end.

(** SHRT_MAX *)
Definition SHRT_MAX : Z := 32767.

(** push_leaf, oid.c:343-367; allocation does not fail.  [false] is NULL. *)
Definition push_leaf (os : shorten) (idx : nat) (push_at : Z) (oid : list Z) : res (bool * shorten) :=
  let nodes := if (length (s_nodes os) <=? s_count os)%nat then s_nodes os ++ repeat zeros (length (s_nodes os)) else s_nodes os in
  let leaf := s_count os in
  let count := S (s_count os) in
  if Z.of_nat count =? SHRT_MAX
  then Ok (false, {| s_nodes := nodes; s_count := count; s_min := s_min os; s_full := true |})
  else
    let os := {| s_nodes := nodes; s_count := count; s_min := s_min os; s_full := s_full os |} in
    do os <- set_child os idx push_at (- Z.of_nat leaf) ;;
    do _ <- get os leaf ;;
    Ok (true, with_nodes os (upd (s_nodes os) leaf (Leaf oid))).

(** git_oid_shorten_new, oid.c:369-388 (min_length fits an int). *)
Definition shorten_new (min_length : Z) : shorten :=
  {| s_nodes := repeat zeros 16; s_count := 1; s_min := min_length; s_full := false |}.

(** The loop of git_oid_shorten_add, oid.c:461-502, from position [i] with [n]
    rounds left.  The result is the value of [i] when it stops, or [None] when the
    function returns -1. *)
Fixpoint add_loop (n i idx : nat) (is_leaf : bool) (text : list Z) (os : shorten) : res (option nat * shorten) :=
  match n with
  | O => Ok (Some i, os)
  | S n' =>
      do ch <- rd text i ;;
      do c <- fromhex ch ;;
      if c =? -1 then Ok (None, os)
      else
        do (ok, os) <-
          (if is_leaf then
             do nd <- get os idx ;;
             match nd with
             | Kids _ => UB
             | Leaf tail =>
                 let os := with_nodes os (upd (s_nodes os) idx zeros) in
                 do t0 <- rd tail 0 ;;
                 do d <- fromhex t0 ;;
                 push_leaf os idx d (tl tail)
             end
           else Ok (true, os)) ;;
        if negb ok then Ok (None, os)
        else
          do nd <- get os idx ;;
          match nd with
          | Leaf _ => UB
          | Kids kids =>
              do k <- rd kids (Z.to_nat c) ;;
              if k =? 0 then
                do (ok, os) <- push_leaf os idx c (skipn (S i) text) ;;
                Ok (if (ok : bool) then Some i else None, os)
              else if k <? 0 then
                do os <- set_child os idx c (- k) ;;
                add_loop n' (S i) (Z.to_nat (- k)) true text os
              else add_loop n' (S i) (Z.to_nat k) false text os
          end
  end.

(** git_oid_shorten_add, oid.c:444-508, with a non-NULL text: return value and new
    state. *)
Definition shorten_add (os : shorten) (text : list Z) : res (Z * shorten) :=
  if s_full os then Ok (-1, os)
  else
    do (r, os) <- add_loop 40 0 0 false text os ;;
    match r with
    | None => Ok (-1, os)
    | Some i =>
        let m := if s_min os <? Z.of_nat (S i) then Z.of_nat (S i) else s_min os in
        Ok (m, {| s_nodes := s_nodes os; s_count := s_count os; s_min := m; s_full := s_full os |})
    end.

(** A series of additions: the last return value. *)
Fixpoint shorten_all (os : shorten) (texts : list (list Z)) (last : Z) : res (Z * shorten) :=
  match texts with
  | [] => Ok (last, os)
  | t :: r => do (v, os) <- shorten_add os t ;; if v <? 0 then Ok (v, os) else shorten_all os r v
  end.
