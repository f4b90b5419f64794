(** Line endings, independently of the code. *)
From Verif Require Import Base.

(** Remove every CR that stands right before an LF. *)
Fixpoint unix (s : list Z) : list Z :=
  match s with
  | [] => []
  | c :: r => match r with
              | d :: _ => if (c =? 13) && (d =? 10) then unix r else c :: unix r
              | [] => [c]
              end
  end.
(** Put a CR before every LF that has none; [prev] is the preceding byte. *)
Fixpoint dos (prev : Z) (s : list Z) : list Z :=
  match s with
  | [] => []
  | c :: r => if (c =? 10) && negb (prev =? 13) then 13 :: 10 :: dos 10 r else c :: dos c r
  end.
(** Numbers of CR, LF and CR-LF pairs. *)
Definition num (c : Z) (s : list Z) : nat := count_occ Z.eq_dec s c.
Fixpoint pairs (s : list Z) : nat :=
  match s with
  | c :: r => match r with d :: _ => ((if ((c =? 13) && (d =? 10))%Z then 1 else 0) + pairs r)%nat | [] => O end
  | [] => O
  end.
