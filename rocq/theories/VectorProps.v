(** C06: binary search and sorted vectors. *)
From Verif Require Import Base Arr TsortModel TsortSpec TsortProofs TsortTop VectorModel VectorSpec VectorProofs.

(** git__bsearch answers exactly, terminates and stays in bounds on every array that is
    ordered with respect to the key. *)
Theorem bsearch_exact : forall (A : Type) (l : list A) (cmp : A -> Z), ordered_for l cmp ->
  exists found pos, bsearch l cmp = Ok (found, pos) /\ search_answer l cmp found pos /\
    (found = true <-> exists e, In e l /\ cmp e = 0).
Proof.
  intros A l cmp Ho. destruct (bsearch_spec l cmp Ho) as (f & p & H1 & H2). exists f, p. split; [exact H1|]. split; [exact H2|].
  split.
  - intros ->. destruct H2 as (e & He & E). exists e. split; [eapply nth_error_In, He|exact E].
  - intros (e & He & E). destruct f; [reflexivity|exfalso]. destruct H2 as (_ & Hlo & Hhi).
    apply In_nth_error in He. destruct He as (i & Hi). destruct (Nat.lt_ge_cases i p) as [L|L].
    + specialize (Hlo i e L Hi). lia.
    + specialize (Hhi i e L Hi). lia.
Qed.

(** A vector ordered by its own comparison function is ordered for every key. *)
Theorem sorted_is_ordered_for : forall (A : Type) (cmp : A -> A -> Z) (l : list A) (k : A),
  cmp_ok cmp -> sorted cmp l -> ordered_for l (cmp k).
Proof. intros A cmp l k Hc Hs. exact (sorted_ordered cmp Hc l k Hs). Qed.

(** Any history of operations, starting from an initialised vector: each operation has
    its effect on the sequence of elements, a search answers exactly for the contents,
    and insert-sorted keeps the order. *)
Inductive history {A} (cmp : A -> A -> Z) : vec A -> list (vop A) -> vec A -> Prop :=
| h_nil v : history cmp v [] v
| h_cons v o v1 a os v2 : vstep cmp v o = Ok (v1, a) -> history cmp v1 os v2 -> history cmp v (o :: os) v2.

Theorem vector_history : forall (A : Type) (cmp : A -> A -> Z) (ops : list (vop A)) (o : vop A) (v v' : vec A) (a : answer),
  cmp_ok cmp -> history cmp vinit ops v -> vstep cmp v o = Ok (v', a) ->
  step_spec cmp o (items v) (items v') /\
  (forall k, o = OSearch k -> exists found pos, a = ASearch found pos /\ search_answer (items v') (cmp k) found pos) /\
  (flag v' = true -> sorted cmp (items v')).
Proof.
  intros A cmp ops o v v' a Hc Hh Hs.
  assert (Hi : vinv cmp v).
  { assert (Hg : forall v0, vinv cmp v0 -> history cmp v0 ops v -> vinv cmp v).
    { clear Hh Hs. induction ops as [|o1 ops IH]; intros v0 H0 H; inversion H as [|? ? ? ? ? ? Ha Hb]; subst; [exact H0|].
      destruct (vstep_spec cmp Hc _ _ _ _ H0 Ha) as [H7 _]. eapply IH; [exact H7|exact Hb]. }
    apply (Hg vinit); [|exact Hh]. intros _. exact I. }
  destruct (vstep_spec cmp Hc _ _ _ _ Hi Hs) as (H1 & H2 & H3). split; [exact H2|]. split; [|exact H1].
  intros k ->. destruct a; cbn in H3; try contradiction. eauto.
Qed.

(** Operations never go out of bounds or diverge on vectors of fewer than 2^33 elements
    (the bound comes from the sort, see [tsort_safe_partial]). *)
Theorem vector_step_safe_partial : forall (A : Type) (cmp : A -> A -> Z) (v : vec A) (o : vop A),
  cmp_ok cmp -> (flag v = true -> sorted cmp (items v)) -> Z.of_nat (length (items v)) < 8589934592 ->
  exists v' a, vstep cmp v o = Ok (v', a).
Proof.
  intros A cmp v o Hc Hi Hl.
  assert (Hs : exists v1, vsort cmp v = Ok v1).
  { unfold vsort. destruct (flag v); [eauto|]. destruct (_ <? _)%nat; [|eauto].
    destruct (tsort_spec cmp Hc (items v)) as [(d & Hd & _)|[_ Hx]]; [|lia]. rewrite Hd. cbn. eauto. }
  destruct Hs as (v1 & Hs). pose proof (vsort_spec cmp Hc v v1 Hi Hs) as (Hso & _ & _ & Hp & _).
  destruct o as [x|x d| |k|i| | |p| |i n]; cbn [vstep].
  - eauto.
  - unfold vinsert_sorted. rewrite Hs. cbn [bindr].
    destruct (bsearch_spec (items v1) (cmp x) (sorted_ordered cmp Hc _ x Hso)) as (f & pos & -> & Ha). cbn [bindr].
    destruct f; [destruct d as [g|]|]; cbn [bindr].
    + destruct Ha as (e & He & _). rewrite (aget_some _ _ _ He). cbn [bindr]. destruct (g e x <? 0); cbn; eauto.
    + cbn. eauto.
    + cbn. eauto.
  - rewrite Hs. cbn. eauto.
  - unfold vbsearch. rewrite Hs. cbn [bindr].
    destruct (bsearch_spec (items v1) (cmp k) (sorted_ordered cmp Hc _ k Hso)) as (f & pos & -> & _). cbn. eauto.
  - destruct (vremove v i). eauto.
  - eauto.
  - unfold vuniq. destruct (Nat.leb_spec (length (items v)) 1); [cbn; eauto|]. rewrite Hs. cbn [bindr].
    destruct (items v1) as [|x r] eqn:E; [apply Permutation_length in Hp; cbn in Hp; lia|].
    destruct (uniq_loop_spec cmp r [] x []) as (junk & Hu). cbn [app length Nat.add] in Hu.
    replace (length (x :: r) - 1)%nat with (length r) by (cbn; lia). rewrite Hu. cbn. eauto.
  - rewrite remove_matching_spec. cbn. eauto.
  - eauto.
  - destruct (vremove_range v i n); eauto.
Qed.

(** git_vector_reverse and git_vector_set leave the "sorted" flag set: a later search then
    misses elements that are present.  (Claim refuted: "every operation keeps the flag
    truthful".) *)
Theorem vector_reverse_search_refuted : exists (v v' : vec Z) pos,
  (flag v = true -> sorted Z.sub (items v)) /\ vreverse v = Ok v' /\
  In 1 (items v') /\ vbsearch Z.sub v' (Z.sub 1) = Ok (false, pos, v').
Proof.
  exists (mkvec [1;2;3;4] true), (mkvec [4;3;2;1] true), 0%nat.
  split; [intros _; cbn; intuition lia|]. split; [reflexivity|]. split; [cbn; auto|reflexivity].
Qed.
Theorem vector_set_search_refuted : exists (v v' : vec Z) pos,
  (flag v = true -> sorted Z.sub (items v)) /\ vset v 0 9 = Ok v' /\
  In 9 (items v') /\ vbsearch Z.sub v' (Z.sub 9) = Ok (false, pos, v').
Proof.
  exists (mkvec [1;2;3;4] true), (mkvec [9;2;3;4] true), 4%nat.
  split; [intros _; cbn; intuition lia|]. split; [reflexivity|]. split; [cbn; auto|reflexivity].
Qed.
(** git_vector_reverse does reverse. *)
Theorem vector_reverse_exact : forall (A : Type) (v : vec A), vreverse v = Ok (mkvec (rev (items v)) (flag v)).
Proof.
  intros A [l f]. unfold vreverse. cbn [items flag]. destruct l as [|x l]; [reflexivity|].
  cbn [length Nat.eqb].
  pose proof (reverse_spec (S (length l)) (x :: l) [] [] 0 (S (length l) - 1)) as H. cbn [app] in H. rewrite !app_nil_r in H.
  rewrite H; [reflexivity|cbn; lia|discriminate|reflexivity|reflexivity].
Qed.
Print Assumptions bsearch_exact.
Print Assumptions vector_history.
Print Assumptions vector_step_safe_partial.
Print Assumptions vector_reverse_search_refuted.
Print Assumptions vector_set_search_refuted.
Print Assumptions vector_reverse_exact.

(** Non-vacuity. *)
Example zsub_ok : cmp_ok Z.sub. Proof. constructor; intros; lia. Qed.
Fixpoint runv (v : vec Z) (os : list (vop Z)) : res (vec Z * list answer) :=
  match os with [] => Ok (v, []) | o :: r => do (v1, a) <- vstep Z.sub v o ;; do (v2, t) <- runv v1 r ;; Ok (v2, a :: t) end.
Example vector_run :
  runv vinit [OInsert 5; OInsert 3; OInsert 9; OInsert 3; OSearch 9; OInsertSorted 4 None; OSearch 6; OUniq; ORemove 1; OSearch 4]
  = Ok (mkvec [3;5;9] true, [ANone; ANone; ANone; ANone; ASearch true 3; ACode 0; ASearch false 4; ANone; ACode 0; ASearch false 1]).
Proof. vm_compute. reflexivity. Qed.
