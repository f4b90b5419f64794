(** C05: git_vector_sort / git__tsort_r. *)
From Verif Require Import Base Arr TsortModel TsortSpec TsortProofs TsortTop.

(** Whenever the sort returns, the array holds a stable sort of its previous contents,
    for every comparison function that is a total preorder. *)
Theorem tsort_stable_sort : forall (A : Type) (cmp : A -> A -> Z) (l l' : list A),
  cmp_ok cmp -> tsort cmp l = Ok l' -> is_stable_sort cmp l l'.
Proof.
  intros A cmp l l' Hc H. destruct (tsort_spec cmp Hc l) as [(d & Hd & Hs & Hp & Hst)|[Hu _]]; [|congruence].
  assert (d = l') by congruence. subst. exact (conj Hs (conj Hp Hst)).
Qed.

(** No out-of-bounds access and termination, for arrays below 2^33 elements (64 GiB of pointers); beyond
    that the only possible failure is overflowing the 128-entry run stack.  (Missing:
    a proof that the stack cannot overflow for larger arrays.) *)
Theorem tsort_safe_partial : forall (A : Type) (cmp : A -> A -> Z) (l : list A),
  cmp_ok cmp ->
  (Z.of_nat (length l) < 8589934592 -> exists l', tsort cmp l = Ok l') /\
  tsort cmp l <> NoFuel /\ (forall e, tsort cmp l <> Err e).
Proof.
  intros A cmp l Hc. destruct (tsort_spec cmp Hc l) as [(d & Hd & _)|[Hu Hl]].
  - split; [eauto|]. split; [congruence|]. intros e. congruence.
  - split; [lia|]. split; [congruence|]. intros e. congruence.
Qed.
Print Assumptions tsort_stable_sort.
Print Assumptions tsort_safe_partial.

(** Non-vacuity: a comparison on pairs that looks at the key only; 200 elements, so
    run detection, insertion sort, stack collapse and both merges are exercised. *)
Definition keycmp (a b : Z * Z) : Z := fst a - fst b.
Example keycmp_ok : cmp_ok keycmp.
Proof. constructor; unfold keycmp; intros; lia. Qed.

Fixpoint lcg (n : nat) (x i : Z) : list (Z * Z) :=
  match n with O => [] | S n' => ((x / 64) mod 37, i) :: lcg n' ((x * 1103 + 12345) mod 65536) (i + 1) end.
Definition sortedb (l : list (Z * Z)) : bool :=
  (fix go l := match l with a :: ((b :: _) as t) => ((fst a <? fst b) || ((fst a =? fst b) && (snd a <? snd b))) && go t | _ => true end) l.
Example tsort_200 : match tsort keycmp (lcg 200 7 0) with Ok l' => sortedb l' && (length l' =? 200)%nat | _ => false end = true.
Proof. vm_compute. reflexivity. Qed.
Example tsort_200_input_unsorted : sortedb (lcg 200 7 0) = false.
Proof. vm_compute. reflexivity. Qed.
Example tsort_small : tsort keycmp [(3,0);(1,1);(3,2);(2,3);(1,4)] = Ok [(1,1);(1,4);(2,3);(3,0);(3,2)].
Proof. vm_compute. reflexivity. Qed.
