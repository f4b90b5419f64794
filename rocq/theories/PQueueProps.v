(** C07: priority queue. *)
From Verif Require Import Base Arr PQueueModel PQueueProofs.

(** ** Specification: a bag from which a minimal element is taken *)
Inductive pq_op (A : Type) := Insert (x : A) | Pop.
Arguments Insert {A} x. Arguments Pop {A}.

(** [bag_run bag ops outs bag']: from the bag (a list up to permutation) the
    operations may answer [outs] (one answer per Pop) and leave [bag']. *)
Inductive bag_run {A} (cmp : A -> A -> Z) : list A -> list (pq_op A) -> list (option A) -> list A -> Prop :=
| br_nil bag bag' : Permutation bag bag' -> bag_run cmp bag [] [] bag'
| br_insert bag x ops outs bag' : bag_run cmp (x :: bag) ops outs bag' ->
    bag_run cmp bag (Insert x :: ops) outs bag'
| br_pop_empty ops outs bag' : bag_run cmp [] ops outs bag' ->
    bag_run cmp [] (Pop :: ops) (None :: outs) bag'
| br_pop bag m rest ops outs bag' :
    Permutation bag (m :: rest) -> (forall y, In y rest -> cmp m y <= 0) ->
    bag_run cmp rest ops outs bag' ->
    bag_run cmp bag (Pop :: ops) (Some m :: outs) bag'.

(** The program, run on a sequence of calls. *)
Fixpoint pq_run {A} (cmp : A -> A -> Z) (cap : option nat) (l : list A) (ops : list (pq_op A))
  : res (list (option A) * list A) :=
  match ops with
  | [] => Ok ([], l)
  | Insert x :: ops' => do l' <- pqueue_insert cmp cap l x ;; pq_run cmp cap l' ops'
  | Pop :: ops' => do (r, l') <- pqueue_pop cmp l ;; do (outs, l2) <- pq_run cmp cap l' ops' ;; Ok (r :: outs, l2)
  end.

Lemma bag_run_perm {A} (cmp : A -> A -> Z) bag ops outs bag' : bag_run cmp bag ops outs bag' ->
  forall bag2, Permutation bag2 bag -> bag_run cmp bag2 ops outs bag'.
Proof.
  induction 1; intros bag2 HP.
  - constructor. eapply perm_trans; eauto.
  - constructor. apply IHbag_run. constructor. exact HP.
  - apply Permutation_sym, Permutation_nil in HP. subst. constructor. exact H.
  - eapply br_pop; [eapply perm_trans; eauto|eassumption|assumption].
Qed.

Lemma pq_run_bag {A} (cmp : A -> A -> Z) : cmp_ok cmp -> forall ops l, heap cmp l ->
  exists outs l', pq_run cmp None l ops = Ok (outs, l') /\ heap cmp l' /\ bag_run cmp l ops outs l'.
Proof.
  intros C. induction ops as [|[x|] ops IH]; intros l Hh; cbn [pq_run].
  - exists [], l. repeat split; auto. constructor. apply Permutation_refl.
  - destruct (insert_ok cmp C None l x Hh) as (l1 & -> & Hh1 & HP); [discriminate|]. cbn [bindr].
    destruct (IH l1 Hh1) as (outs & l2 & -> & Hh2 & Hb). exists outs, l2. repeat split; auto. constructor.
    eapply bag_run_perm; [exact Hb|]. apply Permutation_sym. exact HP.
  - pose proof (pop_ok cmp C l Hh) as Hp. destruct l as [|a r].
    + rewrite Hp. cbn [bindr]. destruct (IH [] Hh) as (outs & l2 & -> & Hh2 & Hb). cbn [bindr].
      exists (None :: outs), l2. repeat split; auto. constructor. exact Hb.
    + destruct Hp as (m & l1 & -> & Hh1 & HP & Hm). cbn [bindr].
      destruct (IH l1 Hh1) as (outs & l2 & -> & Hh2 & Hb). cbn [bindr].
      exists (Some m :: outs), l2. repeat split; auto. eapply br_pop; eauto.
Qed.

(** Any history of an unbounded queue is a history of the bag: nothing is lost or
    invented, and each pop gives an element no remaining one precedes. *)
Theorem pqueue_history : forall (A : Type) (cmp : A -> A -> Z), cmp_ok cmp ->
  forall ops, exists outs l, pq_run cmp None [] ops = Ok (outs, l) /\ bag_run cmp [] ops outs l.
Proof.
  intros A cmp C ops. destruct (pq_run_bag cmp C ops []) as (outs & l & E & _ & Hb).
  - intros [|i] x p Hi Hx; [lia|]. destruct i; discriminate.
  - eauto.
Qed.
Print Assumptions pqueue_history.

(** A queue of fixed size [n] fed with any sequence holds at most [n] elements, and
    exactly the [n] largest: everything it dropped is at most everything it holds. *)
Theorem pqueue_fixed_keeps_largest : forall (A : Type) (cmp : A -> A -> Z), cmp_ok cmp ->
  forall n xs, (0 < n)%nat ->
  exists l dropped, pq_run cmp (Some n) [] (map Insert xs) = Ok ([], l) /\
    Permutation xs (dropped ++ l) /\ length l = Nat.min n (length xs) /\
    forall d y, In d dropped -> In y l -> cmp d y <= 0.
Proof.
  intros A cmp C n xs Hn.
  assert (G : forall xs l dropped0, heap cmp l -> (length l <= n)%nat ->
     (dropped0 = [] \/ length l = n) -> (forall d y, In d dropped0 -> In y l -> cmp d y <= 0) ->
     exists l' dropped, pq_run cmp (Some n) l (map Insert xs) = Ok ([], l') /\
       Permutation (dropped0 ++ l ++ xs) (dropped ++ l') /\ length l' = Nat.min n (length l + length xs) /\
       forall d y, In d dropped -> In y l' -> cmp d y <= 0).
  { clear xs. induction xs as [|x xs IH]; intros l d0 Hh Hl Hd Hle; cbn [map pq_run].
    - exists l, d0. rewrite app_nil_r, Nat.add_0_r. repeat split; auto. lia.
    - destruct (insert_ok cmp C (Some n) l x Hh) as (l1 & E1 & Hh1 & Hl1 & dr & HP & Hdr).
      { intros m [= <-]. auto. }
      rewrite E1. cbn [bindr].
      destruct (IH l1 (d0 ++ dr) Hh1 Hl1) as (l' & dropped & -> & HP' & Hlen & Hle').
      + destruct Hdr as [->|(Hn1 & _)]; [|right; exact Hn1]. rewrite app_nil_r.
        destruct Hd as [->|Hd]; [left; reflexivity|right]. apply Permutation_length in HP. cbn in HP. lia.
      + intros d y Hd' Hy. apply in_app_or in Hd'. destruct Hd' as [Hd0|Hd1].
        * destruct Hdr as [->|(Hn1 & dd & -> & Hdd)].
          -- exfalso. destruct Hd as [->|Hd]; [destruct Hd0|]. apply Permutation_length in HP. cbn in HP. lia.
          -- assert (Hin : In dd (x :: l)) by (eapply Permutation_in; [apply Permutation_sym; exact HP|left; reflexivity]).
             destruct Hin as [->|Hin].
             ++ cbn [app] in HP. apply Permutation_cons_inv in HP. apply (Hle d y Hd0).
                eapply Permutation_in; [apply Permutation_sym; exact HP|exact Hy].
             ++ eapply (cmp_trans cmp C); [apply (Hle d dd Hd0 Hin)|apply Hdd; exact Hy].
        * destruct Hdr as [->|(_ & dd & -> & Hdd)]; [destruct Hd1|]. destruct Hd1 as [<-|[]]. auto.
      + exists l', dropped. split; [reflexivity|]. split.
        * eapply perm_trans; [|exact HP'].
          rewrite <- app_assoc. apply Permutation_app_head.
          apply perm_trans with ((x :: l) ++ xs); [|rewrite app_assoc; apply Permutation_app_tail; exact HP].
          cbn. apply Permutation_sym, Permutation_middle.
        * split; [|exact Hle']. rewrite Hlen. pose proof (Permutation_length HP) as L1. rewrite app_length in L1.
          cbn [length] in *. destruct Hdr as [->|(Hn1 & dd & -> & _)]; cbn [length] in L1; lia. }
  destruct (G xs [] []) as (l & dropped & E & HP & Hlen & Hle).
  - intros [|i] x p Hi Hx; [lia|]. destruct i; discriminate.
  - cbn. lia.
  - auto.
  - intros d y [].
  - exists l, dropped. auto.
Qed.
Print Assumptions pqueue_fixed_keeps_largest.

(** ** Non-vacuity *)
Example pq_cmp_ok : cmp_ok Z.sub.
Proof. split; intros; lia. Qed.
Example pq_example :
  pq_run Z.sub None [] [Insert 5; Insert 3; Insert 9; Pop; Insert 1; Insert 4; Pop; Pop; Pop; Pop; Pop]
  = Ok ([Some 3; Some 1; Some 4; Some 5; Some 9; None], []).
Proof. vm_compute. reflexivity. Qed.
Example pq_fixed_example :
  match pq_run Z.sub (Some 3%nat) [] (map Insert [5; 3; 9; 1; 7; 4]) with
  | Ok (_, l) => l = [5; 9; 7] | _ => False end.
Proof. vm_compute. reflexivity. Qed.
