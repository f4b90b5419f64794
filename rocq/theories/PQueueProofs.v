(** Proofs about the priority queue. *)
From Verif Require Import Base Arr PQueueModel.

Section PQ.
  Context {A : Type} (cmp : A -> A -> Z) (C : cmp_ok cmp).

  Definition parent (i : nat) := Nat.div (i - 1) 2.
  Definition heap (l : list A) : Prop :=
    forall i x p, (0 < i)%nat -> nth_error l i = Some x -> nth_error l (parent i) = Some p -> cmp p x <= 0.

  Lemma parent_lt i : (0 < i)%nat -> (parent i < i)%nat.
  Proof. intros H. unfold parent. apply Nat.div_lt_upper_bound; lia. Qed.
  Lemma parent_child i k : (0 < i)%nat -> parent i = k <-> i = (2 * k + 1)%nat \/ i = (2 * k + 2)%nat.
  Proof.
    intros H. unfold parent. pose proof (Nat.div_mod (i - 1) 2 ltac:(lia)).
    pose proof (Nat.mod_upper_bound (i - 1) 2 ltac:(lia)). lia.
  Qed.

  (** Heap order everywhere except on the edge into [el]; the kids of [el] are above
      the parent of [el]. *)
  Definition up_inv (l : list A) (el : nat) : Prop :=
    (forall i x p, (0 < i)%nat -> i <> el -> nth_error l i = Some x -> nth_error l (parent i) = Some p -> cmp p x <= 0) /\
    (forall i x p, (0 < i)%nat -> parent i = el -> (0 < el)%nat -> nth_error l i = Some x ->
        nth_error l (parent el) = Some p -> cmp p x <= 0).

  Lemma up_loop_ok fuel : forall l el kid, (el <= fuel)%nat -> (el < length l)%nat ->
    up_inv (upd l el kid) el ->
    exists l', up_loop cmp fuel l el kid = Ok l' /\ heap l' /\ Permutation l' (upd l el kid).
  Proof.
    induction fuel as [|fuel IH]; intros l el kid Hf Hl [H1 H2].
    - assert (el = 0)%nat by lia. subst. cbn. rewrite aset_ok by lia. eexists. split; [reflexivity|].
      split; [|apply Permutation_refl]. intros i x p Hi Hx Hp. eapply H1; eauto. lia.
    - cbn [up_loop]. destruct (Nat.eqb_spec el 0) as [->|N].
      + rewrite aset_ok by lia. eexists. split; [reflexivity|]. split; [|apply Permutation_refl].
        intros i x p Hi Hx Hp. eapply H1; eauto. lia.
      + fold (parent el). set (pe := parent el). assert (Hpe : (pe < el)%nat) by (apply parent_lt; lia).
        destruct (aget_ok l pe ltac:(lia)) as (pa & -> & Ep). cbn [bindr].
        assert (Ep' : nth_error (upd l el kid) pe = Some pa).
        { rewrite nth_error_upd. destruct (Nat.eqb_spec el pe); [lia|exact Ep]. }
        assert (Ek' : nth_error (upd l el kid) el = Some kid).
        { rewrite nth_error_upd, Nat.eqb_refl. destruct (Nat.ltb_spec el (length l)); [reflexivity|lia]. }
        destruct (Z.leb_spec (cmp pa kid) 0) as [Hle|Hgt].
        * rewrite aset_ok by lia. eexists. split; [reflexivity|]. split; [|apply Permutation_refl].
          intros i x p Hi Hx Hp. destruct (Nat.eq_dec i el) as [->|Ni].
          -- fold pe in Hp. congruence.
          -- eapply H1; eauto.
        * rewrite aset_ok by lia. cbn [bindr].
          destruct (IH (upd l el pa) pe kid ltac:(lia) ltac:(rewrite upd_length; lia)) as (l' & -> & Hh & Hp).
          2:{ exists l'. split; [reflexivity|]. split; [exact Hh|].
              eapply perm_trans; [exact Hp|].
              rewrite <- (upd_upd l el kid pa). apply perm_swap_upd; assumption. }
          set (l2 := upd (upd l el pa) pe kid).
          assert (G : forall i, nth_error l2 i = if (i =? pe)%nat then Some kid else if (i =? el)%nat then Some pa else nth_error (upd l el kid) i).
          { intros i. unfold l2. rewrite !nth_error_upd, upd_length.
            destruct (Nat.eqb_spec pe i) as [<-|Np].
            - rewrite Nat.eqb_refl. destruct (Nat.ltb_spec pe (length l)); [reflexivity|lia].
            - destruct (Nat.eqb_spec i pe); [congruence|]. destruct (Nat.eqb_spec el i) as [<-|Ne].
              + rewrite Nat.eqb_refl. destruct (Nat.ltb_spec el (length l)); [reflexivity|lia].
              + destruct (Nat.eqb_spec i el); [congruence|reflexivity]. }
          assert (Hpp : forall q, (0 < pe)%nat -> nth_error (upd l el kid) (parent pe) = Some q -> cmp q pa <= 0).
          { intros q H0 Hq. eapply (H1 pe); eauto. lia. }
          split.
          -- intros i x p Hi Ni Hx Hp. rewrite G in Hx, Hp.
             destruct (Nat.eqb_spec i pe); [contradiction|].
             destruct (Nat.eqb_spec (parent i) pe) as [Epi|Npi].
             ++ injection Hp as <-. destruct (Nat.eqb_spec i el).
                ** injection Hx as <-. apply (cmp_le_ge cmp C). lia.
                ** assert (cmp pa x <= 0) by (eapply (H1 i); eauto; rewrite Epi; exact Ep').
                   eapply (cmp_trans cmp C); [|exact H]. apply (cmp_le_ge cmp C). lia.
             ++ destruct (Nat.eqb_spec (parent i) el) as [Epe|Npe].
                ** injection Hp as <-. destruct (Nat.eqb_spec i el); [pose proof (parent_lt i Hi); lia|].
                   eapply (H2 i); eauto; lia.
                ** destruct (Nat.eqb_spec i el); [subst i; contradiction|]. eapply (H1 i); eauto.
          -- intros i x p Hi Epi H0 Hx Hp. rewrite G in Hx, Hp.
             pose proof (parent_lt pe H0). destruct (Nat.eqb_spec (parent pe) pe); [lia|].
             destruct (Nat.eqb_spec (parent pe) el); [lia|].
             specialize (Hpp _ H0 Hp).
             destruct (Nat.eqb_spec i pe); [subst; pose proof (parent_lt pe H0); lia|].
             destruct (Nat.eqb_spec i el).
             ++ injection Hx as <-. exact Hpp.
             ++ eapply (cmp_trans cmp C); [exact Hpp|]. eapply (H1 i); eauto. rewrite Epi. exact Ep'.
  Qed.

  Lemma push_ok l x : heap l ->
    exists l', pqueue_up cmp (l ++ [x]) (length l) = Ok l' /\ heap l' /\ Permutation l' (x :: l).
  Proof.
    intros Hh. unfold pqueue_up.
    assert (E : nth_error (l ++ [x]) (length l) = Some x) by (rewrite nth_error_app2, Nat.sub_diag by lia; reflexivity).
    rewrite (aget_some _ _ _ E). cbn [bindr].
    destruct (up_loop_ok (length l) (l ++ [x]) (length l) x) as (l' & -> & Hh' & Hp).
    - lia.
    - rewrite app_length. cbn. lia.
    - rewrite upd_self by exact E. split.
      + intros i y p Hi Ni Hy Hp. assert (i < length l)%nat.
        { assert (i < length (l ++ [x]))%nat by (apply nth_error_Some; congruence). rewrite app_length in H. cbn in H. lia. }
        pose proof (parent_lt i Hi). rewrite nth_error_app1 in Hy, Hp by lia. eapply Hh; eauto.
      + intros i y p Hi Epi _ Hy. assert (i < length (l ++ [x]))%nat by (apply nth_error_Some; congruence).
        rewrite app_length in H. cbn in H. pose proof (parent_lt i Hi). lia.
    - exists l'. split; [reflexivity|]. split; [exact Hh'|]. rewrite upd_self in Hp by exact E.
      eapply perm_trans; [exact Hp|]. apply Permutation_sym, Permutation_cons_append.
  Qed.

  (** Heap order everywhere except on the edges out of [el]; the parent of [el] is
      below the kids of [el]. *)
  Definition down_inv (l : list A) (el : nat) : Prop :=
    (forall i x p, (0 < i)%nat -> parent i <> el -> nth_error l i = Some x -> nth_error l (parent i) = Some p -> cmp p x <= 0) /\
    (forall i x p, (0 < i)%nat -> parent i = el -> (0 < el)%nat -> nth_error l i = Some x ->
        nth_error l (parent el) = Some p -> cmp p x <= 0).

  Lemma down_loop_ok fuel : forall l el pa, (length l < fuel + el)%nat -> (el < length l)%nat ->
    down_inv (upd l el pa) el ->
    exists l', down_loop cmp fuel l el pa = Ok l' /\ heap l' /\ Permutation l' (upd l el pa).
  Proof.
    induction fuel as [|fuel IH]; intros l el pa Hf Hl [H1 H2]; [lia|].
    cbn [down_loop]. cbv zeta.
    assert (Epa : nth_error (upd l el pa) el = Some pa).
    { rewrite nth_error_upd, Nat.eqb_refl. destruct (Nat.ltb_spec el (length l)); [reflexivity|lia]. }
    assert (G0 : forall i, i <> el -> nth_error (upd l el pa) i = nth_error l i).
    { intros i Hi. rewrite nth_error_upd. destruct (Nat.eqb_spec el i); [congruence|reflexivity]. }
    set (k1 := (2 * el + 1)%nat).
    assert (Hdone : (forall i x, (0 < i)%nat -> parent i = el -> nth_error l i = Some x -> cmp pa x <= 0) ->
       exists l', aset l el pa = Ok l' /\ heap l' /\ Permutation l' (upd l el pa)).
    { intros Hk. rewrite aset_ok by lia. eexists. split; [reflexivity|]. split; [|apply Permutation_refl].
      intros i x p Hi Hx Hp. destruct (Nat.eq_dec (parent i) el) as [E|N].
      - rewrite E, Epa in Hp. injection Hp as <-. apply (Hk i); auto. rewrite <- G0; auto.
        intros ->. pose proof (parent_lt el Hi). lia.
      - eapply H1; eauto. }
    destruct (nth_error l k1) as [kid|] eqn:Ek.
    2:{ apply Hdone. intros i x Hi Epi Hx. apply (parent_child i el Hi) in Epi.
        apply nth_error_None in Ek. assert (i < length l)%nat by (apply nth_error_Some; congruence). lia. }
    set (sel := match nth_error l (k1 + 1) with
              | Some rkid => if 0 <? cmp kid rkid then (rkid, (k1 + 1)%nat) else (kid, k1)
              | None => (kid, k1) end).
    assert (Hsel : exists k ke, sel = (k, ke) /\ nth_error l ke = Some k /\ (ke = k1 \/ ke = k1 + 1)%nat /\
       forall i x, (0 < i)%nat -> parent i = el -> nth_error l i = Some x -> cmp k x <= 0).
    { unfold sel. destruct (nth_error l (k1 + 1)) as [rk|] eqn:Er.
      - destruct (Z.ltb_spec 0 (cmp kid rk)).
        + exists rk, (k1 + 1)%nat. repeat split; auto. intros i x Hi Epi Hx. apply (parent_child i el Hi) in Epi.
          destruct Epi as [->| ->].
          * fold k1 in Hx. rewrite Ek in Hx. injection Hx as <-. apply (cmp_le_ge cmp C). lia.
          * replace (2 * el + 2)%nat with (k1 + 1)%nat in Hx by (unfold k1; lia). rewrite Er in Hx. injection Hx as <-.
            rewrite (cmp_refl cmp C). lia.
        + exists kid, k1. repeat split; auto. intros i x Hi Epi Hx. apply (parent_child i el Hi) in Epi.
          destruct Epi as [->| ->].
          * fold k1 in Hx. rewrite Ek in Hx. injection Hx as <-. rewrite (cmp_refl cmp C). lia.
          * replace (2 * el + 2)%nat with (k1 + 1)%nat in Hx by (unfold k1; lia). rewrite Er in Hx. injection Hx as <-. lia.
      - exists kid, k1. repeat split; auto. intros i x Hi Epi Hx. apply (parent_child i el Hi) in Epi.
        destruct Epi as [->| ->].
        + fold k1 in Hx. rewrite Ek in Hx. injection Hx as <-. rewrite (cmp_refl cmp C). lia.
        + replace (2 * el + 2)%nat with (k1 + 1)%nat in Hx by (unfold k1; lia). congruence. }
    destruct Hsel as (k & ke & -> & Eke & Hke & Hmin).
    assert (Pke : parent ke = el) by (apply parent_child; unfold k1 in *; lia).
    assert (Hke0 : (0 < ke)%nat) by (unfold k1 in *; lia).
    assert (Hkl : (ke < length l)%nat) by (apply nth_error_Some; congruence).
    destruct (Z.leb_spec (cmp pa k) 0) as [Hle|Hgt].
    - apply Hdone. intros i x Hi Epi Hx. eapply (cmp_trans cmp C); [exact Hle|]. eapply Hmin; eauto.
    - rewrite aset_ok by lia. cbn [bindr].
      destruct (IH (upd l el k) ke pa ltac:(rewrite upd_length; unfold k1 in *; lia) ltac:(rewrite upd_length; lia)) as (l' & -> & Hh & Hp).
      2:{ exists l'. split; [reflexivity|]. split; [exact Hh|]. eapply perm_trans; [exact Hp|].
          rewrite <- (upd_upd l el pa k). apply perm_swap_upd; [exact Epa|]. rewrite G0; auto. unfold k1 in *; lia. }
      set (l2 := upd (upd l el k) ke pa).
      assert (Nek : el <> ke) by (unfold k1 in *; lia).
      assert (G : forall i, nth_error l2 i = if (i =? ke)%nat then Some pa else if (i =? el)%nat then Some k else nth_error l i).
      { intros i. unfold l2. rewrite !nth_error_upd, upd_length.
        destruct (Nat.eqb_spec ke i) as [<-|].
        - rewrite Nat.eqb_refl. destruct (Nat.ltb_spec ke (length l)); [reflexivity|lia].
        - destruct (Nat.eqb_spec i ke); [congruence|]. destruct (Nat.eqb_spec el i) as [<-|].
          + rewrite Nat.eqb_refl. destruct (Nat.ltb_spec el (length l)); [reflexivity|lia].
          + destruct (Nat.eqb_spec i el); [congruence|reflexivity]. }
      split.
      + intros i x p Hi Ni Hx Hp. rewrite G in Hx, Hp.
        destruct (Nat.eqb_spec (parent i) ke); [contradiction|].
        destruct (Nat.eqb_spec (parent i) el) as [Epi|Npi].
        * injection Hp as <-. destruct (Nat.eqb_spec i ke).
          -- injection Hx as <-. apply (cmp_le_ge cmp C). lia.
          -- destruct (Nat.eqb_spec i el); [pose proof (parent_lt i Hi); lia|]. eapply Hmin; eauto.
        * destruct (Nat.eqb_spec i ke); [subst; contradiction|].
          destruct (Nat.eqb_spec i el) as [->|Ne].
          -- injection Hx as <-. eapply (H2 ke); auto.
             ++ rewrite G0; auto.
             ++ rewrite G0; auto.
          -- eapply (H1 i); auto; rewrite G0; auto.
      + intros i x p Hi Epi _ Hx Hp. rewrite G in Hx, Hp. rewrite Pke in Hp.
        destruct (Nat.eqb_spec el ke); [contradiction|]. rewrite Nat.eqb_refl in Hp. injection Hp as <-.
        pose proof (parent_lt i Hi).
        destruct (Nat.eqb_spec i ke); [lia|].
        destruct (Nat.eqb_spec i el); [unfold k1 in *; lia|].
        eapply (H1 i); auto; [lia|rewrite G0; auto|]. rewrite Epi, G0; auto.
  Qed.

  Lemma heap_top l top y : heap l -> nth_error l 0 = Some top -> In y l -> cmp top y <= 0.
  Proof.
    intros Hh Ht Hy. apply In_nth_error in Hy. destruct Hy as (i & Hi). revert y Hi.
    induction i as [i IH] using lt_wf_ind. intros y Hi. destruct (Nat.eq_dec i 0) as [->|N].
    - rewrite Ht in Hi. injection Hi as <-. rewrite (cmp_refl cmp C). lia.
    - pose proof (parent_lt i ltac:(lia)) as Hp.
      assert (i < length l)%nat by (apply nth_error_Some; congruence).
      destruct (nth_error l (parent i)) as [p|] eqn:Ep; [|apply nth_error_None in Ep; lia].
      eapply (cmp_trans cmp C); [apply (IH _ Hp _ Ep)|]. apply (Hh i); auto. lia.
  Qed.

  Lemma pop_ok l : heap l ->
    match l with
    | [] => pqueue_pop cmp l = Ok (None, [])
    | _ => exists m l', pqueue_pop cmp l = Ok (Some m, l') /\ heap l' /\ Permutation l (m :: l') /\
           (forall y, In y l' -> cmp m y <= 0)
    end.
  Proof.
    intros Hh. destruct l as [|m r]; [reflexivity|].
    unfold pqueue_pop. destruct r as [|x r].
    - cbn. exists m, []. repeat split; auto. + intros [|i] x p Hi Hx; [lia|]. destruct i; discriminate. + intros y [].
    - set (l := m :: x :: r) in *.
      assert (Hlen : (2 <= length l)%nat) by (cbn; lia).
      rewrite (proj2 (Nat.ltb_lt 1 (length l))) by lia.
      destruct (aget_ok l (length l - 1) ltac:(lia)) as (la & -> & Ela). cbn [bindr].
      rewrite aset_ok by lia. cbn [bindr].
      assert (Hrl : exists s, x :: r = s ++ [la]).
      { destruct (exists_last (l := x :: r)) as (s & z & Es); [discriminate|]. exists s. rewrite Es. do 2 f_equal.
        unfold l in Ela. rewrite Es in Ela. cbn [length] in Ela. rewrite app_length in Ela. cbn [length] in Ela.
        replace (S (length s + 1) - 1)%nat with (S (length s)) in Ela by lia.
        cbn [nth_error] in Ela. rewrite nth_error_app2, Nat.sub_diag in Ela by lia. cbn in Ela. congruence. }
      destruct Hrl as (s & Es).
      assert (El : l = m :: s ++ [la]) by (unfold l; f_equal; exact Es).
      replace (removelast (upd l 0 la)) with (la :: s).
      2:{ rewrite El. cbn [upd]. change (la :: s ++ [la]) with ((la :: s) ++ [la]). rewrite removelast_last. reflexivity. }
      unfold pqueue_down. cbn [aget nth_error bindr].
      assert (Hd : down_inv (upd (la :: s) 0 la) 0).
      { cbn [upd]. split; [|lia].
        intros i y p Hi Npi Hy Hp. assert (i < length (la :: s))%nat by (apply nth_error_Some; congruence).
        destruct i as [|i]; [lia|]. cbn [length] in H.
        assert (exists q, parent (S i) = S q) by (destruct (parent (S i)); [congruence|eauto]). destruct H0 as (q & Eq).
        pose proof (parent_lt (S i) Hi). rewrite Eq in Hp. cbn [nth_error] in Hy, Hp.
        eapply (Hh (S i)); [lia| |].
        - rewrite El. cbn [nth_error]. rewrite nth_error_app1 by lia. exact Hy.
        - rewrite Eq, El. cbn [nth_error]. rewrite nth_error_app1 by lia. exact Hp. }
      destruct (down_loop_ok (S (length (la :: s))) (la :: s) 0 la) as (l' & E & Hh' & Hp); [lia|cbn; lia|exact Hd|].
      rewrite E. cbn [bindr]. exists m, l'. split; [reflexivity|]. split; [exact Hh'|].
      cbn [upd] in Hp.
      assert (HP : Permutation l (m :: l')).
      { rewrite El. constructor. eapply perm_trans; [|apply Permutation_sym; exact Hp]. apply Permutation_sym, Permutation_cons_append. }
      split; [exact HP|]. intros y Hy. apply (heap_top l); auto.
      eapply Permutation_in; [apply Permutation_sym; exact HP|]. right. exact Hy.
  Qed.

  Lemma insert_ok cap l x : heap l -> (forall n, cap = Some n -> (0 < n)%nat /\ (length l <= n)%nat) ->
    exists l', pqueue_insert cmp cap l x = Ok l' /\ heap l' /\
      match cap with
      | None => Permutation l' (x :: l)
      | Some n => (length l' <= n)%nat /\ exists dropped, Permutation (x :: l) (dropped ++ l') /\
           (dropped = [] \/ (length l' = n /\ exists d, dropped = [d] /\ forall y, In y l' -> cmp d y <= 0))
      end.
  Proof.
    intros Hh Hcap. unfold pqueue_insert. destruct cap as [n|].
    2:{ destruct (push_ok l x Hh) as (l' & -> & Hh' & Hp). eauto. }
    destruct (Hcap n eq_refl) as (Hn & Hl).
    destruct (Nat.leb_spec n (length l)) as [Hfull|Hroom].
    2:{ destruct (push_ok l x Hh) as (l' & -> & Hh' & Hp). exists l'. split; [reflexivity|]. split; [exact Hh'|].
        split; [apply Permutation_length in Hp; cbn in Hp; lia|]. exists []. split; [apply Permutation_sym; exact Hp|auto]. }
    destruct (aget_ok l 0 ltac:(lia)) as (top & -> & Et). cbn [bindr].
    destruct (Z.leb_spec (cmp x top) 0) as [Hle|Hgt].
    - exists l. split; [reflexivity|]. split; [exact Hh|]. split; [lia|]. exists [x]. split; [apply Permutation_refl|].
      right. split; [lia|]. exists x. split; [reflexivity|]. intros y Hy. eapply (cmp_trans cmp C); [exact Hle|]. eapply heap_top; eauto.
    - pose proof (pop_ok l Hh) as Hp. destruct l as [|a r]; [discriminate|]. cbn in Et. injection Et as ->.
      destruct Hp as (m & l1 & E & Hh1 & HP & Hmin). rewrite E. cbn [bindr].
      assert (m = top).
      { unfold pqueue_pop in E. destruct (1 <? _)%nat; [|cbn in E; congruence].
        destruct (aget _ _); cbn [bindr] in E; try discriminate. destruct (aset _ _ _); cbn [bindr] in E; try discriminate.
        destruct (pqueue_down _ _ _); cbn [bindr nth_error] in E; try discriminate. congruence. }
      subst m.
      destruct (push_ok l1 x Hh1) as (l' & -> & Hh' & HP'). exists l'. split; [reflexivity|]. split; [exact Hh'|].
      pose proof (Permutation_length HP) as L1. pose proof (Permutation_length HP') as L2. cbn [length] in L1, L2, Hl, Hfull.
      split; [lia|]. exists [top]. split.
      + apply perm_trans with (x :: top :: l1); [constructor; exact HP|].
        apply perm_trans with (top :: x :: l1); [apply perm_swap|]. constructor. apply Permutation_sym. exact HP'.
      + right. split; [lia|]. exists top. split; [reflexivity|]. intros y Hy.
        apply (Permutation_in _ HP') in Hy. destruct Hy as [<-|Hy]; [apply (cmp_le_ge cmp C); lia|auto].
  Qed.
End PQ.
