(** Arrays as lists with checked access, comparison functions, sorted lists. *)
From Verif Require Import Base.
From Coq Require Export Permutation.

Definition aget {A} (l : list A) (i : nat) : res A :=
  match nth_error l i with Some x => Ok x | None => UB end.
Definition aset {A} (l : list A) (i : nat) (x : A) : res (list A) :=
  if (i <? length l)%nat then Ok (upd l i x) else UB.

Lemma aget_ok {A} (l : list A) i : (i < length l)%nat -> exists x, aget l i = Ok x /\ nth_error l i = Some x.
Proof.
  intros H. unfold aget. destruct (nth_error l i) eqn:E; [eauto|]. apply nth_error_None in E. lia.
Qed.
Lemma aset_ok {A} (l : list A) i x : (i < length l)%nat -> aset l i x = Ok (upd l i x).
Proof. intros H. unfold aset. destruct (Nat.ltb_spec i (length l)); [reflexivity|lia]. Qed.
Lemma aget_some {A} (l : list A) i x : nth_error l i = Some x -> aget l i = Ok x.
Proof. intros H. unfold aget. rewrite H. reflexivity. Qed.

(** A comparison function in the C style: the sign of the result orders the
    arguments; it is a total preorder. *)
Record cmp_ok {A} (cmp : A -> A -> Z) : Prop := {
  cmp_sym : forall a b, Z.sgn (cmp b a) = - Z.sgn (cmp a b);
  cmp_trans : forall a b c, cmp a b <= 0 -> cmp b c <= 0 -> cmp a c <= 0
}.

Section Cmp.
  Context {A : Type} (cmp : A -> A -> Z) (H : cmp_ok cmp).
  Lemma cmp_refl a : cmp a a = 0.
  Proof. pose proof (cmp_sym cmp H a a). destruct (cmp a a); cbn in *; lia. Qed.
  Lemma cmp_le_ge a b : cmp a b <= 0 <-> 0 <= cmp b a.
  Proof. pose proof (cmp_sym cmp H a b). destruct (cmp a b), (cmp b a); cbn in *; lia. Qed.
  Lemma cmp_lt_gt a b : cmp a b < 0 <-> 0 < cmp b a.
  Proof. pose proof (cmp_sym cmp H a b). destruct (cmp a b), (cmp b a); cbn in *; lia. Qed.
  Lemma cmp_eq_sym a b : cmp a b = 0 <-> cmp b a = 0.
  Proof. pose proof (cmp_sym cmp H a b). destruct (cmp a b), (cmp b a); cbn in *; lia. Qed.
  Lemma cmp_total a b : cmp a b <= 0 \/ cmp b a <= 0.
  Proof. pose proof (cmp_sym cmp H a b). destruct (cmp a b), (cmp b a); cbn in *; lia. Qed.
  Lemma cmp_lt_le_trans a b c : cmp a b < 0 -> cmp b c <= 0 -> cmp a c < 0.
  Proof.
    intros H1 H2. assert (cmp a c <= 0) by (eapply (cmp_trans cmp H); [|exact H2]; lia).
    destruct (Z.eq_dec (cmp a c) 0) as [E|]; [|lia]. apply cmp_eq_sym in E.
    assert (cmp b a <= 0) by (eapply (cmp_trans cmp H); [exact H2|lia]). apply cmp_le_ge in H3. lia.
  Qed.
  Lemma cmp_le_lt_trans a b c : cmp a b <= 0 -> cmp b c < 0 -> cmp a c < 0.
  Proof.
    intros H1 H2. assert (cmp a c <= 0) by (eapply (cmp_trans cmp H); [exact H1|]; lia).
    destruct (Z.eq_dec (cmp a c) 0) as [E|]; [|lia]. apply cmp_eq_sym in E.
    assert (cmp c b <= 0) by (eapply (cmp_trans cmp H); [|exact H1]; lia). apply cmp_le_ge in H3. lia.
  Qed.
  Lemma cmp_eq_trans a b c : cmp a b = 0 -> cmp b c = 0 -> cmp a c = 0.
  Proof.
    intros H1 H2. assert (cmp a c <= 0) by (eapply (cmp_trans cmp H); [|apply Z.eq_le_incl; exact H2]; lia).
    apply cmp_eq_sym in H1, H2.
    assert (cmp c a <= 0) by (eapply (cmp_trans cmp H); [|apply Z.eq_le_incl; exact H1]; lia).
    apply cmp_le_ge in H3. lia.
  Qed.

  (** Sorted: every earlier element is <= every later one. *)
  Fixpoint sorted (l : list A) : Prop :=
    match l with [] => True | x :: r => (forall y, In y r -> cmp x y <= 0) /\ sorted r end.

  Lemma sorted_app a b : sorted (a ++ b) <-> sorted a /\ sorted b /\ (forall x y, In x a -> In y b -> cmp x y <= 0).
  Proof.
    induction a as [|x a IH]; cbn.
    - split; [intros; repeat split; auto; contradiction|tauto].
    - rewrite IH. split.
      + intros (H1 & H2 & H3 & H4). repeat split; auto.
        * intros y Hy. apply H1, in_or_app. auto.
        * intros u v [<-|Hu] Hv; [apply H1, in_or_app; auto|auto].
      + intros ((H1 & H2) & H3 & H4). repeat split; auto.
        intros y Hy. apply in_app_or in Hy. destruct Hy; auto.
  Qed.

  Lemma sorted_nth l : sorted l <-> forall i j x y, (i < j)%nat -> nth_error l i = Some x -> nth_error l j = Some y -> cmp x y <= 0.
  Proof.
    induction l as [|a l IH]; cbn.
    - split; [|auto]. intros _ i j x y _ E. destruct i; discriminate.
    - rewrite IH. split.
      + intros (H1 & H2) [|i] [|j] x y Hij Hi Hj; try lia; cbn in *.
        * injection Hi as <-. apply H1. eapply nth_error_In; eassumption.
        * eapply H2; [|eassumption|eassumption]. lia.
      + intros H1. split.
        * intros y Hy. apply In_nth_error in Hy. destruct Hy as (j & Hj). apply (H1 O (S j)); cbn; auto. lia.
        * intros i j x y Hij Hi Hj. apply (H1 (S i) (S j)); auto. lia.
  Qed.
End Cmp.

Lemma perm_upd {A} (l : list A) : forall i x y, nth_error l i = Some x -> Permutation (y :: l) (x :: upd l i y).
Proof.
  induction l as [|a l IH]; intros [|i] x y H; try discriminate; cbn in *.
  - injection H as ->. apply perm_swap.
  - apply perm_trans with (a :: y :: l); [apply perm_swap|].
    apply perm_trans with (a :: x :: upd l i y); [constructor; apply IH; exact H|apply perm_swap].
Qed.

Lemma perm_swap_upd {A} (l : list A) i j x y : nth_error l i = Some x -> nth_error l j = Some y ->
  Permutation (upd (upd l i y) j x) l.
Proof.
  intros Hi Hj. destruct (Nat.eq_dec i j) as [->|N].
  - assert (x = y) by congruence. subst.
    replace (upd (upd l j y) j y) with l; [apply Permutation_refl|].
    apply list_ext. intros k. rewrite !nth_error_upd, upd_length.
    destruct (Nat.eqb_spec j k) as [->|]; [|reflexivity].
    destruct (Nat.ltb_spec k (length l)); [congruence|]. apply nth_error_None. lia.
  - apply Permutation_cons_inv with (a := y).
    apply perm_trans with (x :: upd l i y).
    + apply Permutation_sym. apply perm_upd. rewrite nth_error_upd. destruct (Nat.eqb_spec i j); [contradiction|exact Hj].
    + apply Permutation_sym. apply perm_upd. exact Hi.
Qed.

Lemma upd_upd {A} (l : list A) i x y : upd (upd l i x) i y = upd l i y.
Proof. revert i. induction l as [|a l IH]; intros [|i]; cbn; auto. rewrite IH. reflexivity. Qed.
Lemma upd_comm {A} (l : list A) i j x y : i <> j -> upd (upd l i x) j y = upd (upd l j y) i x.
Proof. revert i j. induction l as [|a l IH]; intros [|i] [|j] H; cbn; auto; try congruence. rewrite IH by lia. reflexivity. Qed.
Lemma upd_self {A} (l : list A) i x : nth_error l i = Some x -> upd l i x = l.
Proof. revert i. induction l as [|a l IH]; intros [|i] H; try discriminate; cbn in *; [congruence|]. rewrite IH; auto. Qed.
