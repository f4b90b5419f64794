(** C library string primitives over byte lists, and the lexicographic order. *)
From Verif Require Import Base.

(** memcmp(a, b, n): the sign convention used is the byte difference; reading past
    either buffer is [UB]. *)
Fixpoint memcmp (a b : list Z) (n : nat) : res Z :=
  match n with
  | O => Ok 0
  | S n' =>
      match a, b with
      | x :: a', y :: b' => if x =? y then memcmp a' b' n' else Ok (x - y)
      | _, _ => UB
      end
  end.

(** Lexicographic comparison of sequences of numbers (specification). *)
Fixpoint lex (a b : list Z) : comparison :=
  match a, b with
  | [], [] => Eq
  | [], _ => Lt
  | _, [] => Gt
  | x :: a', y :: b' => match x ?= y with Eq => lex a' b' | c => c end
  end.

Definition sgn_cmp (z : Z) : comparison := z ?= 0.

Lemma memcmp_lex a : forall b, length a = length b ->
  exists z, memcmp a b (length a) = Ok z /\ sgn_cmp z = lex a b.
Proof.
  induction a as [|x a IH]; intros [|y b] H; try discriminate; cbn.
  - exists 0. auto.
  - injection H as H. destruct (Z.eqb_spec x y) as [->|N].
    + rewrite Z.compare_refl. apply IH. exact H.
    + exists (x - y). split; [reflexivity|]. unfold sgn_cmp.
      destruct (Z.compare_spec x y), (Z.compare_spec (x - y) 0); try reflexivity; lia.
Qed.

Lemma lex_refl a : lex a a = Eq.
Proof. induction a as [|x a IH]; cbn; [reflexivity|]. rewrite Z.compare_refl. exact IH. Qed.

Lemma lex_eq a : forall b, lex a b = Eq <-> a = b.
Proof.
  induction a as [|x a IH]; intros [|y b]; cbn; try (split; congruence).
  destruct (Z.compare_spec x y) as [->| |].
  - rewrite IH. split; [intros ->; reflexivity|congruence].
  - split; [discriminate|]. intros [= -> _]. lia.
  - split; [discriminate|]. intros [= -> _]. lia.
Qed.

Lemma lex_antisym a : forall b, lex b a = CompOpp (lex a b).
Proof.
  induction a as [|x a IH]; intros [|y b]; cbn; try reflexivity.
  rewrite (Z.compare_antisym x y). destruct (x ?= y); cbn; auto.
Qed.

Lemma lex_lt_trans a : forall b c, lex a b = Lt -> lex b c = Lt -> lex a c = Lt.
Proof.
  induction a as [|x a IH]; intros [|y b] [|z c]; cbn; try discriminate; auto.
  destruct (Z.compare_spec x y), (Z.compare_spec y z); try discriminate; intros H1 H2; subst.
  - rewrite Z.compare_refl. eauto.
  - destruct (Z.compare_spec y z); auto; lia.
  - destruct (Z.compare_spec x z); auto; lia.
  - destruct (Z.compare_spec x z); auto; lia.
Qed.

Lemma lex_app_common p a b : lex (p ++ a) (p ++ b) = lex a b.
Proof. induction p as [|x p IH]; cbn; [reflexivity|]. rewrite Z.compare_refl. exact IH. Qed.
