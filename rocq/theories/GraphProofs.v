(** Proofs about painting and merge bases. *)
From Coq Require Import Permutation.
From Verif Require Import Base Arr PQueueModel GraphModel GraphSpec.

(** ** The queue as a bag, for an arbitrary comparison function *)
Section PQAny.
  Context {A : Type} (cmp : A -> A -> Z).
  Lemma up_any fuel : forall l el kid, (el <= fuel)%nat -> (el < length l)%nat ->
    exists l', up_loop cmp fuel l el kid = Ok l' /\ Permutation l' (upd l el kid).
  Proof.
    induction fuel as [|fuel IH]; intros l el kid Hf Hl.
    - assert (el = 0)%nat by lia. subst. cbn. rewrite aset_ok by lia. eauto.
    - cbn [up_loop]. destruct (Nat.eqb_spec el 0) as [->|N]; [rewrite aset_ok by lia; eauto|].
      set (pe := Nat.div (el - 1) 2).
      assert (Hpe : (pe < el)%nat) by (apply Nat.div_lt_upper_bound; lia).
      destruct (aget_ok l pe ltac:(lia)) as (pa & -> & Ep). cbn [bindr].
      destruct (cmp pa kid <=? 0); [rewrite aset_ok by lia; eauto|].
      rewrite aset_ok by lia. cbn [bindr].
      destruct (IH (upd l el pa) pe kid ltac:(lia) ltac:(rewrite upd_length; lia)) as (l' & -> & Hp).
      exists l'. split; [reflexivity|]. eapply perm_trans; [exact Hp|].
      rewrite <- (upd_upd l el kid pa). apply perm_swap_upd.
      + rewrite nth_error_upd, Nat.eqb_refl. destruct (Nat.ltb_spec el (length l)); [reflexivity|lia].
      + rewrite nth_error_upd. destruct (Nat.eqb_spec el pe); [lia|exact Ep].
  Qed.
  Lemma insert_any l x : exists l', pqueue_insert cmp None l x = Ok l' /\ Permutation l' (x :: l).
  Proof.
    unfold pqueue_insert, pqueue_up.
    assert (E : nth_error (l ++ [x]) (length l) = Some x) by (rewrite nth_error_app2, Nat.sub_diag by lia; reflexivity).
    rewrite (aget_some _ _ _ E). cbn [bindr].
    destruct (up_any (length l) (l ++ [x]) (length l) x) as (l' & -> & Hp); [lia|rewrite app_length; cbn; lia|].
    exists l'. split; [reflexivity|]. rewrite upd_self in Hp by exact E.
    eapply perm_trans; [exact Hp|]. apply Permutation_sym, Permutation_cons_append.
  Qed.
  Lemma down_any fuel : forall l el pa, (length l < fuel + el)%nat -> (el < length l)%nat ->
    exists l', down_loop cmp fuel l el pa = Ok l' /\ Permutation l' (upd l el pa).
  Proof.
    induction fuel as [|fuel IH]; intros l el pa Hf Hl; [lia|]. cbn [down_loop]. cbv zeta.
    destruct (nth_error l (2 * el + 1)) as [kid|] eqn:Ek; [|rewrite aset_ok by lia; eauto].
    assert (exists k ke, (match nth_error l (2 * el + 1 + 1) with
              | Some rkid => if 0 <? cmp kid rkid then (rkid, (2 * el + 1 + 1)%nat) else (kid, (2 * el + 1)%nat)
              | None => (kid, (2 * el + 1)%nat) end) = (k, ke) /\ nth_error l ke = Some k /\ (el < ke)%nat) as (k & ke & -> & Eke & Hke).
    { destruct (nth_error l (2 * el + 1 + 1)) as [rk|] eqn:Er; [destruct (0 <? _)|]; eexists _, _; (split; [reflexivity|]); split; auto; lia. }
    assert (Hkl : (ke < length l)%nat) by (apply nth_error_Some; congruence).
    destruct (cmp pa k <=? 0); [rewrite aset_ok by lia; eauto|].
    rewrite aset_ok by lia. cbn [bindr].
    destruct (IH (upd l el k) ke pa ltac:(rewrite upd_length; lia) ltac:(rewrite upd_length; lia)) as (l' & -> & Hp).
    exists l'. split; [reflexivity|]. eapply perm_trans; [exact Hp|].
    rewrite <- (upd_upd l el pa k). apply perm_swap_upd.
    - rewrite nth_error_upd, Nat.eqb_refl. destruct (Nat.ltb_spec el (length l)); [reflexivity|lia].
    - rewrite nth_error_upd. destruct (Nat.eqb_spec el ke); [lia|exact Eke].
  Qed.
  Lemma pop_any l :
    match l with
    | [] => pqueue_pop cmp l = Ok (None, [])
    | _ => exists m l', pqueue_pop cmp l = Ok (Some m, l') /\ Permutation l (m :: l')
    end.
  Proof.
    destruct l as [|m r]; [reflexivity|]. unfold pqueue_pop. destruct r as [|x r].
    - cbn. exists m, []. auto.
    - set (l := m :: x :: r) in *. assert (Hlen : (2 <= length l)%nat) by (cbn; lia).
      rewrite (proj2 (Nat.ltb_lt 1 (length l))) by lia.
      destruct (aget_ok l (length l - 1) ltac:(lia)) as (la & -> & Ela). cbn [bindr].
      rewrite aset_ok by lia. cbn [bindr].
      assert (Hrl : exists s, x :: r = s ++ [la]).
      { destruct (exists_last (l := x :: r)) as (s & z & Es); [discriminate|]. exists s. rewrite Es. do 2 f_equal.
        unfold l in Ela. rewrite Es in Ela. cbn [length] in Ela. rewrite app_length in Ela. cbn [length] in Ela.
        replace (S (length s + 1) - 1)%nat with (S (length s)) in Ela by lia.
        cbn [nth_error] in Ela. rewrite nth_error_app2, Nat.sub_diag in Ela by lia. cbn in Ela. congruence. }
      destruct Hrl as (s & Es).
      assert (El : l = m :: s ++ [la]) by (unfold l; f_equal; exact Es).
      replace (removelast (upd l 0 la)) with (la :: s).
      2:{ rewrite El. cbn [upd]. change (la :: s ++ [la]) with ((la :: s) ++ [la]). rewrite removelast_last. reflexivity. }
      unfold pqueue_down. cbn [aget nth_error bindr].
      destruct (down_any (S (length (la :: s))) (la :: s) 0 la) as (l' & -> & Hp); [lia|cbn; lia|].
      cbn [bindr]. exists m, l'. split; [rewrite El; reflexivity|]. cbn [upd] in Hp. rewrite El.
      constructor. eapply perm_trans; [|apply Permutation_sym; exact Hp]. apply Permutation_sym, Permutation_cons_append.
  Qed.
End PQAny.

Lemma reach_trans P a b c : reach P a b -> reach P b c -> reach P a c.
Proof. induction 1; intros; auto. econstructor; eauto. Qed.
Lemma reach_snoc P a b c : reach P a b -> In c (P b) -> reach P a c.
Proof. intros H1 H2. eapply reach_trans; [exact H1|]. econstructor; [exact H2|constructor]. Qed.
Lemma reach_antisym P : acyclic P -> forall a b, reach P a b -> reach P b a -> a = b.
Proof.
  intros AC a b H1 H2. destruct H1 as [|c p a Hp Hr]; [reflexivity|]. exfalso.
  apply (AC c p Hp). eapply reach_trans; eauto.
Qed.
Lemma history_reach P V tips : history P V tips -> forall t x, In t tips -> reach P t x -> In x V.
Proof. intros (H1 & H2) t x Ht. specialize (H1 t Ht). clear Ht. induction 1; auto. apply IHreach. eauto. Qed.

(** ** Flags *)
Definition fle (a b : flags) : Prop :=
  (fP1 a = true -> fP1 b = true) /\ (fP2 a = true -> fP2 b = true) /\
  (fRES a = true -> fRES b = true) /\ (fSTALE a = true -> fSTALE b = true).
Lemma fle_refl a : fle a a. Proof. repeat split; auto. Qed.
Lemma fle_trans a b c : fle a b -> fle b c -> fle a c.
Proof. intros (?&?&?&?) (?&?&?&?). repeat split; auto. Qed.
Lemma fle_or_l a b : fle a (f_or a b).
Proof. repeat split; cbn; intros ->; reflexivity. Qed.
Lemma fle_or_r a b : fle b (f_or a b).
Proof. repeat split; cbn; intros ->; apply orb_true_r. Qed.
Lemma f_eqb_spec a b : reflect (a = b) (f_eqb a b).
Proof.
  destruct a as [[] [] [] []], b as [[] [] [] []]; cbn; constructor; congruence.
Qed.
Lemma f_sub_spec a fl : f_eqb (f_and a fl) fl = true <-> fle fl a.
Proof.
  destruct a as [[] [] [] []], fl as [[] [] [] []]; cbn; unfold fle; cbn; intuition congruence.
Qed.
Lemma f_or_inv1 a b : fP1 (f_or a b) = true -> fP1 a = true \/ fP1 b = true.
Proof. cbn. apply orb_true_iff. Qed.

Lemma both_spec F : f_eqb (f_and F (f_or PARENT1 (f_or PARENT2 STALE))) (f_or PARENT1 PARENT2) = true <->
  fP1 F = true /\ fP2 F = true /\ fSTALE F = false.
Proof. destruct F as [[] [] [] []]; cbn; intuition congruence. Qed.

Definition flagged (w : walk) x := fP1 (w_fl w x) = true \/ fP2 (w_fl w x) = true.
Definition W (g : graph) := g_parents g.

Lemma w_set_eq w n f : w_fl (w_set w n f) n = f.
Proof. cbn. rewrite Nat.eqb_refl. reflexivity. Qed.
Lemma w_set_neq w n f m : m <> n -> w_fl (w_set w n f) m = w_fl w m.
Proof. intros H. cbn. destruct (Nat.eqb_spec m n); [contradiction|reflexivity]. Qed.
Lemma parse_fl g w n w' : parse g w n = Ok w' -> w_fl w' = w_fl w.
Proof. unfold parse. destruct (w_parsed w n); [congruence|]. destruct (g_ok g n); [|discriminate]. intros [= <-]. reflexivity. Qed.
Lemma parse_ok g w n : g_ok g n = true -> exists w', parse g w n = Ok w' /\ w_fl w' = w_fl w.
Proof. intros H. unfold parse. destruct (w_parsed w n); [eauto|]. rewrite H. eauto. Qed.

Section Paint.
  Context (g : graph) (Hgen : forall n, 0 <= g_gen g n).
  Notation P := (g_parents g).

  Lemma paint_parents_spec fl : fRES fl = false -> forall ps w q w' q', paint_parents g 0 fl ps w q = Ok (w', q') ->
    (forall x, fle (w_fl w x) (w_fl w' x)) /\
    (forall x, fle (w_fl w' x) (f_or (w_fl w x) fl)) /\
    (forall x, ~ In x ps -> w_fl w' x = w_fl w x) /\
    (forall x, In x ps -> fle fl (w_fl w' x)) /\
    (forall x, In x q -> In x q') /\
    (forall x, w_fl w' x <> w_fl w x -> In x q') /\
    (forall x, In x q' -> In x q \/ (In x ps /\ w_fl w' x <> w_fl w x)).
  Proof.
    intros Hres. induction ps as [|p ps IH]; intros w q w' q' H; cbn [paint_parents] in H.
    - injection H as <- <-. split; [intros; apply fle_refl|]. split; [intros; apply fle_or_l|].
      split; [auto|]. split; [intros x []|]. split; [auto|]. split; [congruence|auto].
    - destruct (f_eqb (f_and (w_fl w p) fl) fl) eqn:E.
      + apply f_sub_spec in E. specialize (IH _ _ _ _ H). destruct IH as (I1 & I2 & I3 & I4 & I5 & I6 & I7).
        split; [exact I1|]. split; [exact I2|]. split; [|split; [|split; [exact I5|split; [exact I6|]]]].
        * intros x Hx. apply I3. cbn in Hx. tauto.
        * intros x [<-|Hx]; [eapply fle_trans; eauto|auto].
        * intros x Hx. destruct (I7 x Hx) as [?|(? & ?)]; [auto|right; cbn; auto].
      + replace (generation g w p <? 0) with false in H
          by (unfold generation; destruct (w_parsed w p); [specialize (Hgen p)|]; lia).
        destruct (parse g w p) as [w1| | |] eqn:Ep; try discriminate. cbn [bindr] in H.
        destruct (insert_any (generation_cmp g) q p) as (q1 & Eq & HP). rewrite Eq in H. cbn [bindr] in H.
        specialize (IH _ _ _ _ H). destruct IH as (I1 & I2 & I3 & I4 & I5 & I6 & I7).
        pose proof (parse_fl _ _ _ _ Ep) as EF.
        assert (Hs : forall x, w_fl (w_or w1 p fl) x = if (x =? p)%nat then f_or (w_fl w p) fl else w_fl w x).
        { intros x. unfold w_or. cbn. rewrite EF. reflexivity. }
        assert (Hin : In p q1) by (eapply Permutation_in; [apply Permutation_sym; exact HP|left; reflexivity]).
        assert (Hnp : f_or (w_fl w p) fl <> w_fl w p).
        { intros EE. assert (fle fl (w_fl w p)) by (rewrite <- EE; apply fle_or_r).
          apply f_sub_spec in H0. congruence. }
        assert (Hnp' : w_fl w' p <> w_fl w p).
        { intros EE. assert (fle (f_or (w_fl w p) fl) (w_fl w p)).
          { rewrite <- EE at 2. specialize (I1 p). rewrite Hs, Nat.eqb_refl in I1. exact I1. }
          apply Hnp. clear - H0. destruct (w_fl w p) as [[] [] [] []], fl as [[] [] [] []]; cbn in *; unfold fle in H0; cbn in H0; intuition congruence. }
        split; [|split; [|split; [|split; [|split; [|split]]]]].
        * intros x. specialize (I1 x). rewrite Hs in I1. destruct (Nat.eqb_spec x p) as [->|]; [eapply fle_trans; [apply fle_or_l|exact I1]|exact I1].
        * intros x. specialize (I2 x). rewrite Hs in I2. destruct (Nat.eqb_spec x p) as [->|]; [|exact I2].
          eapply fle_trans; [exact I2|]. clear. destruct (w_fl w p) as [[] [] [] []], fl as [[] [] [] []]; cbn; apply fle_refl.
        * intros x Hx. rewrite I3 by (cbn in Hx; tauto). rewrite Hs. destruct (Nat.eqb_spec x p) as [->|]; [cbn in Hx; tauto|reflexivity].
        * intros x [<-|Hx]; [|apply I4; exact Hx]. specialize (I1 p). rewrite Hs, Nat.eqb_refl in I1. eapply fle_trans; [apply fle_or_r|exact I1].
        * intros x Hx. apply I5. eapply Permutation_in; [apply Permutation_sym; exact HP|right; exact Hx].
        * intros x Hx. destruct (Nat.eq_dec x p) as [->|N]; [apply I5; exact Hin|]. apply I6. rewrite Hs.
          destruct (Nat.eqb_spec x p); [contradiction|exact Hx].
        * intros x Hx. destruct (I7 x Hx) as [Hq|(Hq & Hd)].
          -- apply (Permutation_in _ HP) in Hq. destruct Hq as [<-|Hq]; [|left; exact Hq]. right. split; [left; reflexivity|exact Hnp'].
          -- right. split; [right; exact Hq|]. rewrite Hs in Hd. destruct (Nat.eqb_spec x p) as [->|]; [exact Hnp'|exact Hd].
  Qed.

  Context (AC : acyclic P).

  Section Inv.
  Context (one : nat) (twos : list nat).

  Definition below (x : nat) : Prop := exists c p, common P one twos c /\ In p (P c) /\ reach P p x.

  Inductive fpath (w : walk) : nat -> Prop :=
  | fp_start x : (x = one \/ In x twos) -> flagged w x -> fpath w x
  | fp_step c x : fpath w c -> In x (P c) -> flagged w x -> fpath w x.

  Definition done (w : walk) (x : nat) : Prop :=
    (forall p, In p (P x) -> (fP1 (w_fl w x) = true -> fP1 (w_fl w p) = true) /\ (fP2 (w_fl w x) = true -> fP2 (w_fl w p) = true) /\ (fP1 (w_fl w x) = true -> fP2 (w_fl w x) = true -> fSTALE (w_fl w p) = true)) /\ (fP1 (w_fl w x) = true -> fP2 (w_fl w x) = true -> fRES (w_fl w x) = true \/ fSTALE (w_fl w x) = true).

  Record inv (w : walk) (q r : list nat) : Prop := {
    i_P1 : forall x, fP1 (w_fl w x) = true -> reach P one x;
    i_P2 : forall x, fP2 (w_fl w x) = true -> exists t, In t twos /\ reach P t x;
    i_st : forall x, fSTALE (w_fl w x) = true -> below x /\ fP1 (w_fl w x) = true /\ fP2 (w_fl w x) = true;
    i_res : forall x, fRES (w_fl w x) = true -> fP1 (w_fl w x) = true /\ fP2 (w_fl w x) = true;
    i_r : forall x, In x r <-> fRES (w_fl w x) = true;
    i_nd : NoDup r;
    i_q : forall x, flagged w x -> In x q \/ done w x;
    i_path : forall x, flagged w x -> fpath w x;
    i_qf : forall x, In x q -> flagged w x;
    i_one : fP1 (w_fl w one) = true;
    i_twos : forall t, In t twos -> fP2 (w_fl w t) = true
  }.

  Lemma fpath_mono w w' : (forall x, fle (w_fl w x) (w_fl w' x)) -> forall x, fpath w x -> fpath w' x.
  Proof.
    intros M. assert (F : forall x, flagged w x -> flagged w' x).
    { intros x [H|H]; [left|right]; apply M; exact H. }
    induction 1; [apply fp_start; auto|eapply fp_step; eauto].
  Qed.

  Lemma expand_inv w q r c q1 w2 q2 fresh : inv w q r -> Permutation q (c :: q1) ->
    expand g 0 c w q1 = Ok (w2, q2, fresh) ->
    inv w2 q2 (if fresh : bool then c :: r else r) /\ (forall x, fle (w_fl w x) (w_fl w2 x)) /\ (forall x, w_fl w2 x <> w_fl w x -> x = c \/ In x (P c)) /\ (forall x, In x q2 -> In x q1 \/ In x (P c)) /\ done w2 c /\ (forall x, In x q1 -> In x q2) /\ (forall x, w_fl w2 x = w_fl w x \/ x = c \/ In x q2).
  Proof.
    intros I HP H. unfold expand in H. cbv zeta in H.
    set (fl := f_and (w_fl w c) (f_or PARENT1 (f_or PARENT2 STALE))) in H.
    set (both := f_eqb fl (f_or PARENT1 PARENT2)) in H.
    set (fr := both && negb (fRES (w_fl w c))) in H.
    set (w1 := if fr then w_or w c RESULT else w) in H.
    set (fl1 := if both then f_or fl STALE else fl) in H.
    destruct (paint_parents g 0 fl1 (P c) w1 q1) as [[w2' q2']| | |] eqn:E; try discriminate.
    cbn [bindr] in H. injection H as <- <- <-.
    assert (Hr : fRES fl1 = false).
    { unfold fl1. destruct both; unfold fl; cbn; rewrite ?andb_false_r; reflexivity. }
    destruct (paint_parents_spec fl1 Hr _ _ _ _ _ E) as (I1 & I2 & I3 & I4 & I5 & I6 & I7).
    rename w2' into w2, q2' into q2.
    assert (Hc : ~ In c (P c)) by (intros Hc; apply (AC c c Hc); constructor).
    assert (cf : flagged w c) by (apply (i_qf _ _ _ I); eapply Permutation_in; [apply Permutation_sym; exact HP|left; reflexivity]).
    assert (F1 : fP1 fl1 = fP1 (w_fl w c)).
    { unfold fl1. destruct both; unfold fl; cbn; rewrite ?andb_true_r, ?orb_false_r; reflexivity. }
    assert (F2 : fP2 fl1 = fP2 (w_fl w c)).
    { unfold fl1. destruct both; unfold fl; cbn; rewrite ?andb_true_r, ?orb_false_r; reflexivity. }
    assert (FS : fSTALE fl1 = true <-> fP1 (w_fl w c) = true /\ fP2 (w_fl w c) = true).
    { pose proof (both_spec (w_fl w c)) as Hb. fold fl in Hb. fold both in Hb. unfold fl1. destruct both.
      - destruct (proj1 Hb eq_refl) as (Ha & Hb' & Hc'). cbn. rewrite orb_true_r. tauto.
      - unfold fl. cbn. rewrite andb_true_r. split.
        + intros Hs. apply (i_st _ _ _ I) in Hs. tauto.
        + intros (Ha & Hb'). destruct (fSTALE (w_fl w c)) eqn:Es; [reflexivity|]. apply Hb. auto. }
    assert (Hfr : fr = true <-> fP1 (w_fl w c) = true /\ fP2 (w_fl w c) = true /\ fSTALE (w_fl w c) = false /\ fRES (w_fl w c) = false).
    { pose proof (both_spec (w_fl w c)) as Hb. fold fl in Hb. fold both in Hb. unfold fr. rewrite andb_true_iff, Hb, negb_true_iff. tauto. }
    assert (W1 : forall x, w_fl w1 x = if (x =? c)%nat && fr then f_or (w_fl w c) RESULT else w_fl w x).
    { intros x. unfold w1. destruct fr; cbn; [|rewrite andb_false_r; reflexivity]. destruct (x =? c)%nat; reflexivity. }
    assert (M1 : forall x, fle (w_fl w x) (w_fl w1 x)).
    { intros x. rewrite W1. destruct (Nat.eqb_spec x c) as [->|]; [destruct fr|]; cbn [andb]; auto using fle_refl, fle_or_l. }
    assert (M : forall x, fle (w_fl w x) (w_fl w2 x)) by (intros x; eapply fle_trans; eauto).
    assert (B1 : forall x, fP1 (w_fl w1 x) = fP1 (w_fl w x)).
    { intros x. rewrite W1. destruct (Nat.eqb_spec x c) as [->|]; [destruct fr|]; cbn; rewrite ?orb_false_r; reflexivity. }
    assert (B2 : forall x, fP2 (w_fl w1 x) = fP2 (w_fl w x)).
    { intros x. rewrite W1. destruct (Nat.eqb_spec x c) as [->|]; [destruct fr|]; cbn; rewrite ?orb_false_r; reflexivity. }
    assert (BS : forall x, fSTALE (w_fl w1 x) = fSTALE (w_fl w x)).
    { intros x. rewrite W1. destruct (Nat.eqb_spec x c) as [->|]; [destruct fr|]; cbn; rewrite ?orb_false_r; reflexivity. }
    assert (N1 : forall x, fP1 (w_fl w2 x) = true -> fP1 (w_fl w x) = true \/ In x (P c) /\ fP1 (w_fl w c) = true).
    { intros x Hx. destruct (in_dec Nat.eq_dec x (P c)) as [Hi|Hn].
      - apply I2 in Hx. apply f_or_inv1 in Hx. rewrite B1, F1 in Hx. tauto.
      - rewrite I3, B1 in Hx by exact Hn. auto. }
    assert (N2 : forall x, fP2 (w_fl w2 x) = true -> fP2 (w_fl w x) = true \/ In x (P c) /\ fP2 (w_fl w c) = true).
    { intros x Hx. destruct (in_dec Nat.eq_dec x (P c)) as [Hi|Hn].
      - apply I2 in Hx. cbn in Hx. apply orb_true_iff in Hx. rewrite B2, F2 in Hx. tauto.
      - rewrite I3, B2 in Hx by exact Hn. auto. }
    assert (NS : forall x, fSTALE (w_fl w2 x) = true -> fSTALE (w_fl w x) = true \/ In x (P c) /\ fP1 (w_fl w c) = true /\ fP2 (w_fl w c) = true).
    { intros x Hx. destruct (in_dec Nat.eq_dec x (P c)) as [Hi|Hn].
      - apply I2 in Hx. cbn in Hx. apply orb_true_iff in Hx. rewrite BS, FS in Hx. tauto.
      - rewrite I3, BS in Hx by exact Hn. auto. }
    assert (NR : forall x, fRES (w_fl w2 x) = true <-> fRES (w_fl w x) = true \/ x = c /\ fr = true).
    { intros x. split.
      - intros Hx. apply I2 in Hx. cbn in Hx. rewrite Hr, orb_false_r, W1 in Hx. destruct (Nat.eqb_spec x c) as [Ex|Nx]; [|cbn in Hx; auto]. rewrite Ex in *. destruct fr; cbn in Hx; auto.
      - intros [Hx|(-> & Hf)]; [apply M; exact Hx|]. apply I1. rewrite W1, Nat.eqb_refl, Hf. cbn. apply orb_true_r. }
    assert (Wc : w_fl w2 c = w_fl w1 c) by (apply I3; exact Hc).
    assert (DC : done w2 c).
    { split.
      - intros p Hp. specialize (I4 p Hp). destruct I4 as (L1 & L2 & _ & L4). rewrite F1 in L1. rewrite F2 in L2.
        rewrite Wc, B1, B2. repeat split; auto. intros Ha Hb. apply L4, FS. auto.
      - rewrite Wc, B1, B2, BS. intros Ha Hb. destruct (fSTALE (w_fl w c)) eqn:Es; [auto|left].
        destruct (fRES (w_fl w c)) eqn:Er.
        + apply M1. exact Er.
        + rewrite W1, Nat.eqb_refl, (proj2 Hfr) by auto. cbn. apply orb_true_r. }
    split; [|split; [exact M|split; [|split; [|split; [exact DC|split; [exact I5|]]]]]].
    - split.
      + intros x Hx. destruct (N1 x Hx) as [Hy|(Hi & Hy)]; apply (i_P1 _ _ _ I) in Hy; [exact Hy|]. eapply reach_snoc; eauto.
      + intros x Hx. destruct (N2 x Hx) as [Hy|(Hi & Hy)]; apply (i_P2 _ _ _ I) in Hy; [exact Hy|].
        destruct Hy as (t & Ht & Hy). exists t. split; [exact Ht|]. eapply reach_snoc; eauto.
      + intros x Hx. destruct (NS x Hx) as [Hy|(Hi & Ha & Hb)].
        * apply (i_st _ _ _ I) in Hy. destruct Hy as (B & H1 & H2). split; [exact B|]. split; apply M; assumption.
        * split; [|split; apply (I4 x Hi); congruence].
          exists c, x. split; [|split; [exact Hi|constructor]]. split; [apply (i_P1 _ _ _ I), Ha|apply (i_P2 _ _ _ I), Hb].
      + intros x Hx. apply NR in Hx. destruct Hx as [Hx|(-> & Hx)].
        * apply (i_res _ _ _ I) in Hx. destruct Hx. split; apply M; assumption.
        * apply Hfr in Hx. split; apply M; tauto.
      + intros x. rewrite NR. rewrite <- (i_r _ _ _ I x). destruct fr; cbn; intuition congruence.
      + destruct fr eqn:Ef; [|apply (i_nd _ _ _ I)]. constructor; [|apply (i_nd _ _ _ I)].
        rewrite (i_r _ _ _ I). destruct (proj1 Hfr eq_refl) as (_ & _ & _ & Hq). congruence.
      + intros x Hx. destruct (f_eqb_spec (w_fl w2 x) (w_fl w1 x)) as [Ex|Nx]; [|left; apply I6; exact Nx].
        destruct (Nat.eq_dec x c) as [->|Nc]; [right; exact DC|].
        assert (E1 : w_fl w1 x = w_fl w x) by (rewrite W1; destruct (Nat.eqb_spec x c); [contradiction|reflexivity]).
        rewrite E1 in Ex. assert (Hf : flagged w x) by (unfold flagged in *; rewrite <- Ex; exact Hx).
        destruct (i_q _ _ _ I x Hf) as [Hq|(D1 & D2)].
        * left. apply I5. apply (Permutation_in _ HP) in Hq. destruct Hq as [<-|Hq]; [contradiction|exact Hq].
        * right. split; rewrite Ex; [|exact D2]. intros p Hp. destruct (D1 p Hp) as (X1 & X2 & X3).
          repeat split; intros; apply M; auto.
      + intros x Hx. assert (Hd : flagged w x \/ In x (P c)).
        { destruct Hx as [Hx|Hx]; [apply N1 in Hx|apply N2 in Hx]; unfold flagged; tauto. }
        destruct Hd as [Hd|Hd]; [eapply fpath_mono; [exact M|apply (i_path _ _ _ I), Hd]|].
        eapply fp_step; [|exact Hd|exact Hx]. eapply fpath_mono; [exact M|]. apply (i_path _ _ _ I), cf.
      + intros x Hx. destruct (I7 x Hx) as [Hq|(Hq & _)].
        * assert (flagged w x) by (apply (i_qf _ _ _ I); eapply Permutation_in; [apply Permutation_sym; exact HP|right; exact Hq]).
          destruct H as [H|H]; [left|right]; apply M; exact H.
        * destruct (I4 x Hq) as (L1 & L2 & _). destruct cf as [cf|cf]; [left; apply L1; congruence|right; apply L2; congruence].
      + apply M, (i_one _ _ _ I).
      + intros t Ht. apply M, (i_twos _ _ _ I), Ht.
    - intros x Hx. destruct (Nat.eq_dec x c) as [->|Nc]; [auto|right].
      destruct (in_dec Nat.eq_dec x (P c)); [assumption|]. exfalso. apply Hx. rewrite I3 by assumption. rewrite W1.
      destruct (Nat.eqb_spec x c); [contradiction|reflexivity].
    - intros x Hx. destruct (I7 x Hx) as [Hq|(Hq & _)]; auto.
    - intros x. destruct (Nat.eq_dec x c) as [->|Nc]; [auto|].
      destruct (f_eqb_spec (w_fl w2 x) (w_fl w1 x)) as [Ex|Nx]; [left|right; right; apply I6; exact Nx].
      rewrite Ex, W1. destruct (Nat.eqb_spec x c); [contradiction|reflexivity].
  Qed.

  Lemma paint_loop_inv fuel : forall w q r w' r', inv w q r -> paint_loop g fuel 0 w q r = Ok (w', r') ->
    exists q', inv w' q' r' /\ (forall x, In x q' -> fSTALE (w_fl w' x) = true).
  Proof.
    induction fuel as [|fuel IH]; intros w q r w' r' I H; cbn [paint_loop] in H.
    - destruct (interesting w q) eqn:E; [discriminate|]. injection H as <- <-. exists q. split; [exact I|].
      intros x Hx. destruct (fSTALE (w_fl w x)) eqn:Es; [reflexivity|]. exfalso.
      assert (interesting w q = true); [|congruence]. apply existsb_exists. exists x. rewrite Es. auto.
    - destruct (interesting w q) eqn:E.
      + pose proof (pop_any (generation_cmp g) q) as Hp. destruct q as [|a q]; [discriminate E|].
        destruct Hp as (m & q1 & Epop & HP). rewrite Epop in H. cbn [bindr] in H.
        destruct (expand g 0 m w q1) as [[[w2 q2] fresh]| | |] eqn:Ee; try discriminate. cbn [bindr fst snd] in H.
        destruct (expand_inv _ _ _ _ _ _ _ _ I HP Ee) as (I' & _). eapply IH; eauto.
      + injection H as <- <-. exists q. split; [exact I|].
        intros x Hx. destruct (fSTALE (w_fl w x)) eqn:Es; [reflexivity|]. exfalso.
        assert (interesting w q = true); [|congruence]. apply existsb_exists. exists x. rewrite Es. auto.
  Qed.

  Lemma seed_inv ts : forall w q w' q', paint_seed g ts w q = Ok (w', q') ->
    (forall x, w_fl w' x = if existsb (Nat.eqb x) ts then f_or (w_fl w x) PARENT2 else w_fl w x) /\
    Permutation q' (ts ++ q).
  Proof.
    induction ts as [|t ts IH]; intros w q w' q' H; cbn [paint_seed] in H.
    - injection H as <- <-. cbn. auto.
    - destruct (parse g w t) as [w1| | |] eqn:Ep; try discriminate. cbn [bindr] in H.
      destruct (insert_any (generation_cmp g) q t) as (q1 & Eq & HP). rewrite Eq in H. cbn [bindr] in H.
      destruct (IH _ _ _ _ H) as (A & B). pose proof (parse_fl _ _ _ _ Ep) as EF. split.
      + intros x. rewrite A. cbn. rewrite EF. destruct (Nat.eqb_spec x t) as [->|]; cbn.
        * destruct (existsb _ ts); [|reflexivity]. destruct (w_fl w t) as [[] [] [] []]; reflexivity.
        * reflexivity.
      + eapply perm_trans; [exact B|]. cbn. eapply perm_trans; [apply Permutation_app_head; exact HP|].
        apply Permutation_sym, Permutation_middle.
  Qed.

  Definition clean (w : walk) : Prop := forall x, w_fl w x = f0.

  Lemma start_inv w w' q q' : clean w -> Permutation q [one] -> paint_seed g twos (w_or w one PARENT1) q = Ok (w', q') ->
    inv w' q' [].
  Proof.
    intros C Hq H. destruct (seed_inv _ _ _ _ _ H) as (A & B).
    assert (A1 : forall x, w_fl w' x = mkF (x =? one)%nat (existsb (Nat.eqb x) twos) false false).
    { intros x. rewrite A. cbn. rewrite !C. destruct (x =? one)%nat, (existsb _ twos); reflexivity. }
    assert (Hin : forall x, existsb (Nat.eqb x) twos = true <-> In x twos).
    { intros x. rewrite existsb_exists. split; [intros (y & Hy & E); apply Nat.eqb_eq in E; subst; auto|].
      intros Hx. exists x. split; [exact Hx|apply Nat.eqb_refl]. }
    assert (Hst : forall x, flagged w' x <-> x = one \/ In x twos).
    { intros x. unfold flagged. rewrite A1. cbn. rewrite Hin, Nat.eqb_eq. reflexivity. }
    assert (HQ : forall x, In x q' <-> In x twos \/ x = one).
    { intros x. split.
      - intros Hx. apply (Permutation_in _ B) in Hx. apply in_app_or in Hx. destruct Hx as [|Hx]; [auto|].
        apply (Permutation_in _ Hq) in Hx. destruct Hx as [<-|[]]. auto.
      - intros Hx. eapply Permutation_in; [apply Permutation_sym; exact B|]. apply in_or_app. destruct Hx as [|Hx]; [auto|right].
        eapply Permutation_in; [apply Permutation_sym; exact Hq|]. left. auto. }
    split.
    - intros x. rewrite A1. cbn. rewrite Nat.eqb_eq. intros ->. constructor.
    - intros x. rewrite A1. cbn. rewrite Hin. intros Hx. exists x. split; [exact Hx|constructor].
    - intros x. rewrite A1. discriminate.
    - intros x. rewrite A1. discriminate.
    - intros x. rewrite A1. cbn. split; [destruct 1|discriminate].
    - constructor.
    - intros x Hx. left. apply HQ. apply Hst in Hx. tauto.
    - intros x Hx. apply fp_start; [apply Hst, Hx|exact Hx].
    - intros x Hx. apply Hst. apply HQ in Hx. tauto.
    - rewrite A1. cbn. apply Nat.eqb_refl.
    - intros t Ht. rewrite A1. cbn. apply Hin, Ht.
  Qed.

  Lemma paint_inv fuel w w' r : clean w -> paint_down_to_common g fuel 0 w one twos = Ok (w', r) ->
    exists q, inv w' q r /\ (forall x, In x q -> fSTALE (w_fl w' x) = true).
  Proof.
    intros C H. unfold paint_down_to_common in H. cbv zeta in H.
    destruct (insert_any (generation_cmp g) [] one) as (q & Eq & HP). rewrite Eq in H. cbn [bindr] in H.
    destruct (paint_seed g twos (w_or w one PARENT1) q) as [[w2 q2]| | |] eqn:Es; try discriminate. cbn [bindr] in H.
    eapply paint_loop_inv; [|exact H]. eapply start_inv; eauto.
  Qed.

  (** Flags travel along paths that meet no commit of the other side. *)
  Lemma travel1 w q r : inv w q r -> (forall x, In x q -> fSTALE (w_fl w x) = true) ->
    forall a x, reach P a x -> fP1 (w_fl w a) = true ->
    (forall y, reach P a y -> reach P y x -> y <> x -> ~ (exists t, In t twos /\ reach P t y)) -> fP1 (w_fl w x) = true.
  Proof.
    intros I Q a x H. induction H as [|a p x Hp Hr IH]; intros Ha Hn; [exact Ha|].
    destruct (Nat.eq_dec a x) as [->|N]; [exact Ha|].
    assert (Hna : fP2 (w_fl w a) <> true).
    { intros F. apply (Hn a); [constructor|econstructor; eauto|exact N|]. apply (i_P2 _ _ _ I), F. }
    apply IH.
    - destruct (i_q _ _ _ I a) as [Hq|(D & _)]; [left; exact Ha| |apply (D p Hp), Ha].
      exfalso. apply Hna. apply (i_st _ _ _ I). apply Q, Hq.
    - intros y H1 H2 H3. apply Hn; auto. econstructor; eauto.
  Qed.
  Lemma travel2 w q r : inv w q r -> (forall x, In x q -> fSTALE (w_fl w x) = true) ->
    forall a x, reach P a x -> fP2 (w_fl w a) = true ->
    (forall y, reach P a y -> reach P y x -> y <> x -> ~ reach P one y) -> fP2 (w_fl w x) = true.
  Proof.
    intros I Q a x H. induction H as [|a p x Hp Hr IH]; intros Ha Hn; [exact Ha|].
    destruct (Nat.eq_dec a x) as [->|N]; [exact Ha|].
    assert (Hna : fP1 (w_fl w a) <> true).
    { intros F. apply (Hn a); [constructor|econstructor; eauto|exact N|]. apply (i_P1 _ _ _ I), F. }
    apply IH.
    - destruct (i_q _ _ _ I a) as [Hq|(D & _)]; [right; exact Ha| |apply (D p Hp), Ha].
      exfalso. apply Hna. apply (i_st _ _ _ I). apply Q, Hq.
    - intros y H1 H2 H3. apply Hn; auto. econstructor; eauto.
  Qed.

  Lemma best_is_result w q r : inv w q r -> (forall x, In x q -> fSTALE (w_fl w x) = true) ->
    forall m, best_common P one twos m -> In m r /\ fSTALE (w_fl w m) = false.
  Proof.
    intros I Q m ((H1 & t & Ht & H2) & Hb).
    assert (Hs : fSTALE (w_fl w m) = false).
    { destruct (fSTALE (w_fl w m)) eqn:E; [|reflexivity]. apply (i_st _ _ _ I) in E.
      destruct E as ((c & p & Hc & Hp & Hr) & _). assert (c = m) by (apply Hb; [exact Hc|econstructor; eauto]). subst c.
      exfalso. exact (AC m p Hp Hr). }
    assert (F1 : fP1 (w_fl w m) = true).
    { apply (travel1 w q r I Q one m H1 (i_one _ _ _ I)). intros y Hy1 Hy2 Hy3 (t' & Ht' & Hy4). apply Hy3, Hb; [|exact Hy2]. split; eauto. }
    assert (F2 : fP2 (w_fl w m) = true).
    { apply (travel2 w q r I Q t m H2 (i_twos _ _ _ I t Ht)). intros y Hy1 Hy2 Hy3 Hy4. apply Hy3, Hb; [|exact Hy2]. split; eauto. }
    split; [|exact Hs]. apply (i_r _ _ _ I).
    destruct (i_q _ _ _ I m) as [Hq|(_ & D)]; [left; exact F1| |].
    - rewrite (Q m Hq) in Hs. discriminate.
    - destruct (D F1 F2) as [|E]; [assumption|congruence].
  Qed.
  End Inv.
End Paint.
