(** Proofs about the revision walk: which commits [limit_list] keeps. *)
From Verif Require Import Base GraphModel GraphSpec GraphBases GraphTotal RevModel RevSpec.
From Coq Require Import Permutation.

Lemma fset_eq {A} (f : nat -> A) n v : fset f n v n = v.
Proof. unfold fset. rewrite Nat.eqb_refl. reflexivity. Qed.
Lemma fset_neq {A} (f : nat -> A) n v m : m <> n -> fset f n v m = f m.
Proof. intros H. unfold fset. apply Nat.eqb_neq in H. rewrite H. reflexivity. Qed.
Lemma fset_true f n x : fset f n true x = true <-> f x = true \/ x = n.
Proof. unfold fset. destruct (Nat.eqb_spec x n); split; auto; intros [|]; congruence. Qed.

Lemma reach_trans P a b c : reach P a b -> reach P b c -> reach P a c.
Proof. induction 1; auto. intros. eapply reach_step; eauto. Qed.
Lemma reach_one P a b c : reach P a b -> In c (P b) -> reach P a c.
Proof. intros. eapply reach_trans; eauto. eapply reach_step; eauto. constructor. Qed.

Lemma NoDup_app_iff_local {A} (l l' : list A) : NoDup l -> NoDup l' -> (forall x, In x l -> ~ In x l') -> NoDup (l ++ l').
Proof.
  induction l; cbn; auto. intros H1 H2 H3. apply NoDup_cons_iff in H1. destruct H1. constructor.
  - rewrite in_app_iff. intros [|]; auto. eapply H3; eauto.
  - apply IHl; auto.
Qed.

Section RP.
  Context (g : graph).
  Local Notation P := (g_parents g).
  Local Notation tm := (g_time g).

  Definition ins (ns l : list nat) : list nat := fold_left (fun l p => insert_by_date g p l) ns l.
  Lemma ins_perm ns : forall l, Permutation (ins ns l) (ns ++ l).
  Proof.
    induction ns as [|n ns IH]; intros l; cbn; [reflexivity|].
    etransitivity; [apply IH|]. etransitivity; [apply Permutation_app_head, insert_by_date_perm|].
    symmetry. apply Permutation_middle.
  Qed.
  Lemma ins_in ns l x : In x (ins ns l) <-> In x ns \/ In x l.
  Proof.
    rewrite <- in_app_iff. split; apply Permutation_in; [|apply Permutation_sym]; apply ins_perm.
  Qed.
  Lemma ins_length ns l : length (ins ns l) = (length ns + length l)%nat.
  Proof. rewrite (Permutation_length (ins_perm ns l)), app_length. reflexivity. Qed.

  (** Everything before an interesting commit is at least as recent. *)
  Fixpoint ord (u : nat -> bool) (l : list nat) : Prop :=
    match l with [] => True | z :: r => (forall y, In y r -> u y = false -> tm y <= tm z) /\ ord u r end.
  Lemma insert_cmp p x : (0 <? time_cmp g p x) = true <-> tm p < tm x.
  Proof. unfold time_cmp. destruct (Z.ltb_spec (tm p) (tm x)); [cbn; split; auto|]. destruct (Z.ltb_spec (tm x) (tm p)); cbn; split; intros; (discriminate || lia). Qed.
  Lemma by_date_sorted x l : newest_first tm l -> newest_first tm (insert_by_date g x l).
  Proof.
    induction l as [|p r IH]; cbn [insert_by_date newest_first].
    - intros _. split; [intros y []|exact I].
    - intros (A & B). destruct (0 <? time_cmp g p x) eqn:E.
      + apply insert_cmp in E. cbn [newest_first]. split; [|auto]. intros y [<- | Hy]; [lia|]. specialize (A y Hy). lia.
      + cbn [newest_first]. split; [|auto]. intros y Hy.
        apply (Permutation_in _ (insert_by_date_perm g x r)) in Hy. destruct Hy as [<- | Hy]; [|auto].
        destruct (Z_lt_le_dec (tm p) (tm x)) as [C|C]; [apply insert_cmp in C; congruence|exact C].
  Qed.
  Lemma ins_sorted ns : forall l, newest_first tm l -> newest_first tm (ins ns l).
  Proof. induction ns as [|n ns IH]; intros l H; cbn; auto. apply IH, by_date_sorted, H. Qed.
  Lemma ord_insert u x l : ord u l -> ord u (insert_by_date g x l).
  Proof.
    induction l as [|p r IH]; cbn [insert_by_date ord].
    - intros _. split; [intros y []|exact I].
    - intros (A & B). destruct (0 <? time_cmp g p x) eqn:E.
      + apply insert_cmp in E. cbn [ord]. split; [|auto]. intros y [<- | Hy] Hu; [lia|]. specialize (A y Hy Hu). lia.
      + cbn [ord]. split; [|auto]. intros y Hy Hu.
        apply (Permutation_in _ (insert_by_date_perm g x r)) in Hy. destruct Hy as [<- | Hy]; [|auto].
        destruct (Z_lt_le_dec (tm p) (tm x)) as [C|C]; [apply insert_cmp in C; congruence|exact C].
  Qed.
  Lemma ord_ins u ns : forall l, ord u l -> ord u (ins ns l).
  Proof. induction ns as [|n ns IH]; intros l H; cbn; auto. apply IH, ord_insert, H. Qed.
  Lemma ord_mono (u u' : nat -> bool) l : (forall x, u x = true -> u' x = true) -> ord u l -> ord u' l.
  Proof.
    intros M. induction l; cbn; auto. intros (A & B). split; auto. intros y Hy Hu. apply A; auto.
    destruct (u y) eqn:E; auto. apply M in E. congruence.
  Qed.
  Lemma ord_none u l : (forall y, In y l -> u y = true) -> ord u l.
  Proof. induction l; cbn; auto. intros H. split; auto. intros y Hy Hu. rewrite (H y) in Hu by auto. discriminate. Qed.
  Lemma ord_sorted u l : newest_first tm l -> ord u l.
  Proof. induction l; cbn; auto. intros (A & B). split; auto. Qed.

  Lemma nparse_spec s n s' : nparse g s n = Ok s' ->
    n_unint s' = n_unint s /\ n_seen s' = n_seen s /\ n_added s' = n_added s /\ n_indeg s' = n_indeg s /\
    (forall x, n_parsed s' x = true <-> n_parsed s x = true \/ x = n).
  Proof.
    unfold nparse. destruct (n_parsed s n) eqn:E; [intros [= <-]|destruct (g_ok g n); [intros [= <-]|discriminate]];
      repeat (split; [reflexivity|]); intros x; cbn.
    - split; auto. intros [|]; subst; auto.
    - apply fset_true.
  Qed.

  Lemma mark_loop_spec fuel parsed : forall u stack u', mark_loop g fuel parsed u stack = Ok u' ->
    (forall x, u x = true -> u' x = true) /\
    (forall x, u' x = true -> u x = true \/ exists s, In s stack /\ reach P s x) /\
    (forall s, In s stack -> u' s = true) /\
    (forall x p, parsed x = true -> u' x = true -> u x = false -> In p (P x) -> u' p = true).
  Proof.
    induction fuel as [|fuel IH]; intros u stack u'.
    - destruct stack; [|discriminate]. intros [= <-]. repeat split; auto; try (intros; congruence); try (intros ? []).
    - destruct stack as [|c rest]; cbn [mark_loop].
      { intros [= <-]. repeat split; auto; try (intros; congruence); try (intros ? []). }
      destruct (u c) eqn:Eu.
      { intros H. apply IH in H. destruct H as (A & B & C & D). repeat split; auto.
        - intros x Hx. destruct (B x Hx) as [|(s & Hs & Hr)]; auto. right. exists s. cbn. auto.
        - intros s [<- | Hs]; auto. }
      assert (G : forall stack', (forall x, In x stack' -> In x rest \/ In x (P c)) -> (forall x, In x rest -> In x stack') ->
        (parsed c = true -> forall p, In p (P c) -> In p stack') ->
        mark_loop g fuel parsed (fset u c true) stack' = Ok u' ->
        (forall x, u x = true -> u' x = true) /\
        (forall x, u' x = true -> u x = true \/ exists s, In s (c :: rest) /\ reach P s x) /\
        (forall s, In s (c :: rest) -> u' s = true) /\
        (forall x p, parsed x = true -> u' x = true -> u x = false -> In p (P x) -> u' p = true)).
      { intros st H1 H2 H3 H. apply IH in H. destruct H as (A & B & C & D).
        assert (Hc : u' c = true) by (apply A; apply fset_eq).
        repeat split.
        - intros x Hx. apply A. apply fset_true. auto.
        - intros x Hx. destruct (B x Hx) as [H|(s & Hs & Hr)].
          + apply fset_true in H. destruct H as [| ->]; auto. right. exists c. split; [left; auto|constructor].
          + right. destruct (H1 s Hs).
            * exists s. cbn; auto.
            * exists c. split; [left; auto|]. eapply reach_step; eauto.
        - intros s [<- | Hs]; auto.
        - intros x p Hp Hu Hn Hin. destruct (Nat.eq_dec x c) as [-> |].
          + apply C. apply H3; auto.
          + apply (D x p); auto. rewrite fset_neq; auto. }
      destruct (parsed c) eqn:Ep.
      + destruct (P c) as [|p0 ps] eqn:Epc.
        * apply G; auto. intros _ p [].
        * apply G.
          -- intros x [<- | Hx]; [right; left; auto|]. rewrite in_app_iff, <- in_rev in Hx. destruct Hx; auto.
          -- intros x Hx. right. apply in_or_app. auto.
          -- intros _ p Hp. right. apply in_or_app. left. apply -> in_rev. exact Hp.
      + apply G; auto; discriminate.
  Qed.

  Lemma mark_parents_spec fuel s c s' : mark_parents g fuel s c = Ok s' ->
    n_seen s' = n_seen s /\ n_added s' = n_added s /\ n_indeg s' = n_indeg s /\ n_parsed s' = n_parsed s /\
    (forall x, n_unint s x = true -> n_unint s' x = true) /\
    (forall x, n_unint s' x = true -> n_unint s x = true \/ exists p, In p (P c) /\ reach P p x) /\
    (forall p, In p (P c) -> n_unint s' p = true) /\
    (forall x p, n_parsed s x = true -> n_unint s' x = true -> n_unint s x = false -> In p (P x) -> n_unint s' p = true).
  Proof.
    unfold mark_parents. destruct (mark_loop _ _ _ _ _) as [u| | |] eqn:E; cbn [bindr]; try discriminate.
    intros [= <-]. destruct (mark_loop_spec _ _ _ _ _ E) as (A & B & C & D). cbn.
    repeat (split; [reflexivity|]). repeat split; auto.
    - intros x Hx. destruct (B x Hx) as [|(p & Hp & Hr)]; auto. right. exists p. rewrite in_rev. auto.
    - intros p Hp. apply C. rewrite <- in_rev. auto.
  Qed.

  Lemma add_unint_spec (D : nat -> Prop) fuel ps : forall s l s' l', add_unint g fuel ps s l = Ok (s', l') ->
    (forall x, D x -> n_parsed s x = true) ->
    (forall x p, D x -> n_unint s x = true -> In p (P x) -> n_unint s p = true) ->
    n_added s' = n_added s /\ n_indeg s' = n_indeg s /\ l' = ins ps l /\
    (forall x, n_seen s' x = true <-> n_seen s x = true \/ In x ps) /\
    (forall x, n_parsed s' x = true <-> n_parsed s x = true \/ In x ps) /\
    (forall x, n_unint s x = true -> n_unint s' x = true) /\
    (forall x, n_unint s' x = true -> n_unint s x = true \/ exists p, In p ps /\ reach P p x) /\
    (forall p, In p ps -> n_unint s' p = true) /\
    (forall x p, D x -> n_unint s' x = true -> In p (P x) -> n_unint s' p = true).
  Proof.
    induction ps as [|p ps IH]; intros s l s' l' H HD HM; cbn [add_unint] in H.
    - injection H as <- <-. repeat (split; [reflexivity|]). repeat split; auto; try (intros [|[]]; auto); try (intros ? []).
    - destruct (nparse g _ p) as [s2| | |] eqn:E2; cbn [bindr] in H; try discriminate.
      destruct (mark_parents g fuel s2 p) as [s3| | |] eqn:E3; cbn [bindr] in H; try discriminate.
      apply nparse_spec in E2. destruct E2 as (A1 & A2 & A3 & A4 & A5). cbn in A1, A2, A3, A4, A5.
      apply mark_parents_spec in E3. destruct E3 as (B1 & B2 & B3 & B4 & B5 & B6 & B7 & B8).
      apply IH in H; clear IH.
      + destruct H as (C1 & C2 & C3 & C4 & C5 & C6 & C7 & C8 & C9). cbn in C1, C2, C4, C5, C6, C7.
        assert (U : forall x, n_unint s2 x = true <-> n_unint s x = true \/ x = p) by (intros x; rewrite A1; apply fset_true).
        split; [congruence|]. split; [congruence|]. split; [exact C3|].
        split. { intros x. rewrite C4, fset_true, B1, A2. cbn. intuition congruence. }
        split. { intros x. rewrite C5, B4, A5. cbn. intuition congruence. }
        split. { intros x Hx. apply C6, B5, U. auto. }
        split. { intros x Hx. destruct (C7 x Hx) as [H|(q & Hq & Hr)].
          - apply B6 in H. destruct H as [H|(q & Hq & Hr)].
            + apply U in H. destruct H as [| ->]; auto. right. exists p. split; [left; auto|constructor].
            + right. exists p. split; [left; auto|]. eapply reach_step; eauto.
          - right. exists q. split; [right|]; auto. }
        split; [|exact C9].
        intros q [<- | Hq]; auto. apply C6, B5, U. auto.
      + intros x Hx. cbn. rewrite B4. apply A5. auto.
      + cbn. intros x q Hx Hu Hq.
        destruct (n_unint s2 x) eqn:E.
        * rewrite A1 in E. apply fset_true in E. destruct E as [E | ->].
          -- apply B5. rewrite A1. apply fset_true. left. eapply HM; eauto.
          -- apply B7, Hq.
        * eapply B8; eauto. apply A5. auto.
  Qed.

  Context (first : bool) (cb : option (nat -> bool)).
  Definition hcb (x : nat) : bool := match cb with Some h => h x | None => false end.
  Definition effl (ps : list nat) : list nat := let l := filter (fun p => negb (hcb p)) ps in if first then firstn 1 l else l.
  Definition eff (c : nat) : list nat := effl (P c).
  Lemma effl_incl ps p : In p (effl ps) -> In p ps /\ hcb p = false.
  Proof.
    unfold effl. intros H. assert (In p (filter (fun p => negb (hcb p)) ps)).
    { destruct first; auto. destruct (filter _ ps); cbn in H; [tauto|]. destruct H as [<- |[]]. left. auto. }
    apply filter_In in H0. destruct H0 as (A & B). split; auto. destruct (hcb p); auto; discriminate.
  Qed.

  Lemma add_int_spec ps : forall s l s' l', add_int g first cb ps s l = Ok (s', l') ->
    exists ns, l' = ins ns l /\ NoDup ns /\ n_unint s' = n_unint s /\ n_added s' = n_added s /\ n_indeg s' = n_indeg s /\
    (forall x, In x ns -> In x (effl ps) /\ n_seen s x = false /\ n_parsed s' x = true) /\
    (forall x, n_seen s' x = true <-> n_seen s x = true \/ In x ns) /\
    (forall x, n_parsed s x = true -> n_parsed s' x = true) /\
    (forall x, In x (effl ps) -> n_seen s' x = true) /\
    (length ns <= length ps)%nat.
  Proof.
    induction ps as [|p ps IH]; intros s l s' l' H; cbn [add_int] in H.
    - injection H as <- <-. exists []. cbn. split; [reflexivity|]. split; [constructor|]. do 3 (split; [reflexivity|]). split; [intros ? []|].
      split; [intuition|]. split; auto. unfold effl. cbn. destruct first; cbn; split; auto; intros ? [].
    - destruct (nparse g s p) as [s1| | |] eqn:E1; cbn [bindr] in H; try discriminate.
      apply nparse_spec in E1. destruct E1 as (A1 & A2 & A3 & A4 & A5).
      change (match cb with Some h => h p | None => false end) with (hcb p) in H.
      destruct (hcb p) eqn:Eh.
      + apply IH in H. destruct H as (ns & B1 & B2 & B3 & B4 & B5 & B6 & B7 & B8 & B9 & B10).
        assert (Ee : effl (p :: ps) = effl ps) by (unfold effl; cbn; rewrite Eh; reflexivity).
        exists ns. rewrite Ee. rewrite A1 in B3. rewrite A3 in B4. rewrite A4 in B5. rewrite A2 in B6, B7.
        repeat (split; [assumption|]). split. { intros x Hx. apply B8, A5. auto. } split; [exact B9|]. cbn; lia.
      + assert (Ef : In p (effl (p :: ps))).
        { unfold effl. cbn. rewrite Eh. cbn. destruct first; cbn; auto. }
        destruct (n_seen s1 p) eqn:Es.
        * destruct first eqn:Ef1.
          -- injection H as <- <-. exists []. cbn. split; [congruence|]. split; [constructor|]. do 3 (split; [congruence|]). split; [intros ? []|].
             rewrite A2. split; [intuition|]. split. { intros x Hx. apply A5. auto. } split; [|lia].
             unfold effl. rewrite Ef1. cbn. rewrite Eh. cbn. intros x [<- |[]]. congruence.
          -- apply IH in H. destruct H as (ns & B1 & B2 & B3 & B4 & B5 & B6 & B7 & B8 & B9 & B10).
             assert (Ee : forall x, In x (effl (p :: ps)) <-> x = p \/ In x (effl ps)).
             { intros x. unfold effl. rewrite Ef1. cbn. rewrite Eh. cbn. intuition. }
             exists ns. rewrite A1 in B3. rewrite A3 in B4. rewrite A4 in B5. rewrite A2 in B6, B7, Es.
             repeat (split; [assumption|]). split. { intros x Hx. apply B6 in Hx. rewrite Ee. intuition. }
             split; [exact B7|]. split. { intros x Hx. apply B8, A5. auto. }
             split. { intros x Hx. apply Ee in Hx. destruct Hx as [-> | Hx]; [|auto]. apply B7. auto. } cbn; lia.
        * destruct first eqn:Ef1.
          -- injection H as <- <-. exists [p]. cbn. split; [reflexivity|]. split; [constructor; [intros []|constructor]|]. do 3 (split; [congruence|]).
             split. { intros x [<- |[]]. split; auto. split; [congruence|]. apply A5. auto. }
             rewrite A2. split. { intros x. rewrite fset_true. intuition. } split. { intros x Hx. apply A5. auto. } split; [|lia].
             unfold effl. rewrite Ef1. cbn. rewrite Eh. cbn. intros x [<- |[]]. apply fset_eq.
          -- apply IH in H. destruct H as (ns & B1 & B2 & B3 & B4 & B5 & B6 & B7 & B8 & B9 & B10). cbn in B3, B4, B5, B6, B7, B8.
             assert (Ee : forall x, In x (effl (p :: ps)) <-> x = p \/ In x (effl ps)).
             { intros x. unfold effl. rewrite Ef1. cbn. rewrite Eh. cbn. intuition. }
             assert (Hnp : ~ In p ns). { intros Hp. apply B6 in Hp. rewrite fset_eq in Hp. destruct Hp as (_ & Hp & _). discriminate. }
             exists (p :: ns). split; [exact B1|]. split; [constructor; auto|]. split; [congruence|]. split; [congruence|]. split; [congruence|].
             split. { intros x [<- | Hx].
               - split; [apply Ee; auto|]. split; [congruence|]. apply B8, A5. auto.
               - specialize (B6 x Hx). rewrite fset_neq in B6 by (intros ->; auto). rewrite Ee, <- A2. intuition. }
             split. { intros x. rewrite B7, fset_true, A2. cbn. intuition congruence. }
             split. { intros x Hx. apply B8, A5. auto. }
             split. { intros x Hx. apply Ee in Hx. destruct Hx as [-> | Hx]; [|auto]. apply B7. left. apply fset_eq. } cbn; lia.
  Qed.

  Context (PS HS : nat -> Prop).
  Definition hidden x := exists h, HS h /\ reach P h x.
  Definition pushed x := exists p, PS p /\ reach eff p x.
  Lemma hidden_step x p : hidden x -> In p (P x) -> hidden p.
  Proof. intros (h & A & B) C. exists h. split; auto. eapply reach_one; eauto. Qed.
  Lemma hidden_reach x p : hidden x -> reach P x p -> hidden p.
  Proof. intros (h & A & B) C. exists h. split; auto. eapply reach_trans; eauto. Qed.

  Definition live (s : nst) (l : list nat) := filter (fun x => negb (n_unint s x)) l.
  Lemma live_in s l x : In x (live s l) <-> In x l /\ n_unint s x = false.
  Proof. unfold live. rewrite filter_In. destruct (n_unint s x); cbn; intuition congruence. Qed.
  Lemma live_mono s s' l : (forall x, n_unint s x = true -> n_unint s' x = true) -> NoDup (live s l) -> NoDup (live s' l).
  Proof.
    intros M H. replace (live s' l) with (live s' (live s l)); [apply NoDup_filter, H|].
    unfold live. clear H. induction l; cbn; auto. destruct (n_unint s a) eqn:E; cbn.
    - rewrite (M a E). cbn. auto.
    - rewrite IHl. reflexivity.
  Qed.
  Lemma perm_filter {A} (f : A -> bool) l l' : Permutation l l' -> Permutation (filter f l) (filter f l').
  Proof.
    induction 1; cbn; auto.
    - destruct (f x); auto.
    - destruct (f x), (f y); auto. constructor.
    - etransitivity; eauto.
  Qed.

  Record inv (s : nst) (L out : list nat) : Prop := {
    iU : forall x, n_unint s x = true -> hidden x;
    iS : forall x, n_seen s x = true <-> In x L \/ n_added s x = true;
    iP : forall x, n_seen s x = true -> n_parsed s x = true;
    iM : forall x p, n_added s x = true -> n_unint s x = true -> In p (P x) -> n_unint s p = true;
    iK : forall x p, n_added s x = true -> In p (eff x) -> n_seen s p = true;
    iR : forall x, n_seen s x = true -> n_unint s x = false -> pushed x;
    iO1 : forall x, n_added s x = true -> n_unint s x = false -> hcb x = false -> In x out;
    iO2 : forall x, In x out -> n_added s x = true /\ hcb x = false /\ pushed x;
    iD1 : NoDup out;
    iD2 : forall x, n_unint s x = false -> n_added s x = true -> ~ In x L;
    iD3 : NoDup (live s L);
    iI1 : forall p, PS p -> n_seen s p = true;
    iI2 : forall h, HS h -> n_seen s h = true /\ n_unint s h = true
  }.

  Lemma inv_mark fuel s L out c s' : inv s L out -> n_unint s c = true -> mark_parents g fuel s c = Ok s' ->
    inv s' L out /\ (forall x, n_unint s x = true -> n_unint s' x = true) /\ n_added s' = n_added s /\ n_parsed s' = n_parsed s.
  Proof.
    intros I Hc E. apply mark_parents_spec in E. destruct E as (A1 & A2 & A3 & A4 & A5 & A6 & A7 & A8). destruct I.
    split; [|auto]. constructor; auto.
    - intros x Hx. apply A6 in Hx. destruct Hx as [Hx|(p & Hp & Hr)]; auto.
      eapply hidden_reach; [|exact Hr]. eapply hidden_step; eauto.
    - rewrite A1, A2. auto.
    - rewrite A1, A4. auto.
    - rewrite A2. intros x p Ha Hu Hp. destruct (n_unint s x) eqn:E; [apply A5; eauto|].
      eapply A8; eauto. apply iP0, iS0. auto.
    - rewrite A1, A2. auto.
    - rewrite A1. intros x Hs Hu. apply iR0; auto. destruct (n_unint s x) eqn:E; auto. apply A5 in E. congruence.
    - rewrite A2. intros x Ha Hu. apply iO3; auto. destruct (n_unint s x) eqn:E; auto. apply A5 in E. congruence.
    - rewrite A2. auto.
    - rewrite A2. intros x Hu. apply iD5. destruct (n_unint s x) eqn:E; auto. apply A5 in E. congruence.
    - eapply live_mono; eauto.
    - rewrite A1. auto.
    - rewrite A1. intros h Hh. destruct (iI4 h Hh). auto.
  Qed.

  Lemma step_unint fuel s c rest out s1 l1 : inv s (c :: rest) out -> n_unint s c = true ->
    add_parents g fuel first cb s c rest = Ok (s1, l1) ->
    inv s1 l1 out /\ n_unint s1 c = true /\ (forall x, n_unint s x = true -> n_unint s1 x = true) /\
    (forall x, n_parsed s x = true -> n_parsed s1 x = true) /\
    exists ns, l1 = ins ns rest /\ (forall x, In x ns -> n_unint s1 x = true) /\
      (if n_added s c then ns = [] /\ n_added s1 = n_added s else ns = P c /\ n_added s1 = fset (n_added s) c true).
  Proof.
    intros I Hc H. unfold add_parents in H. destruct (n_added s c) eqn:Ea.
    - injection H as <- <-. split; [|split; [auto|split; [auto|split; [auto|exists []; split; [reflexivity|split; [intros ? []|auto]]]]]].
      destruct I. constructor; auto.
      + intros x. rewrite iS0. cbn. intuition; subst; auto.
      + intros x Hu Ha Hin. eapply iD5; eauto. right. auto.
      + unfold live in *. cbn in iD6. rewrite Hc in iD6. exact iD6.
    - cbn [set_added n_unint] in H. rewrite Hc in H.
      apply (add_unint_spec (fun x => n_added s x = true)) in H; cbn [set_added n_unint n_seen n_parsed n_added n_indeg] in *.
      + destruct H as (A1 & A2 & A3 & A4 & A5 & A6 & A7 & A8 & A9). destruct I.
        split; [|split; [auto|split; [auto|split; [|exists (P c); rewrite A1; auto]]]].
        2: { intros x Hx. apply A5. auto. }
        constructor; auto.
        * intros x Hx. apply A7 in Hx. destruct Hx as [|(p & Hp & Hr)]; auto.
          eapply hidden_reach; [|exact Hr]. eapply hidden_step; eauto.
        * intros x. rewrite A4, A3, A1, ins_in, fset_true, iS0. cbn. intuition.
        * intros x. rewrite A4, A5. intros [|]; auto.
        * rewrite A1. intros x p Ha Hu Hp. apply fset_true in Ha. destruct Ha as [Ha | ->]; [|auto]. eapply A9; eauto.
        * rewrite A1. intros x p Ha Hp. apply A4. apply fset_true in Ha. destruct Ha as [Ha | ->]; [left; eauto|].
          right. apply effl_incl in Hp. tauto.
        * intros x Hs Hu. apply A4 in Hs. destruct Hs as [Hs|Hs]; [|rewrite A8 in Hu by auto; discriminate].
          apply iR0; auto. destruct (n_unint s x) eqn:E; auto. apply A6 in E. congruence.
        * rewrite A1. intros x Ha Hu Hh. apply fset_true in Ha. destruct Ha as [Ha | ->]; [|apply A6 in Hc; congruence].
          apply iO3; auto. destruct (n_unint s x) eqn:E; auto. apply A6 in E. congruence.
        * rewrite A1. intros x Hx. destruct (iO4 x Hx) as (B1 & B2 & B3). repeat split; auto. apply fset_true. auto.
        * rewrite A1, A3. intros x Hu Ha Hin. apply fset_true in Ha. destruct Ha as [Ha | ->]; [|apply A6 in Hc; congruence].
          apply ins_in in Hin. destruct Hin as [Hin|Hin]; [rewrite A8 in Hu by auto; discriminate|].
          eapply iD5; eauto. 2: right; auto. destruct (n_unint s x) eqn:E; auto. apply A6 in E. congruence.
        * rewrite A3. eapply Permutation_NoDup; [apply Permutation_sym, perm_filter, ins_perm|].
          rewrite filter_app. replace (filter _ (P c)) with (@nil nat).
          -- cbn [app]. assert (NoDup (live s rest)) by (unfold live in *; cbn in iD6; rewrite Hc in iD6; exact iD6).
             change (NoDup (live s1 rest)). eapply live_mono; eauto.
          -- symmetry. clear - A8. induction (P c); cbn; auto. rewrite A8 by (left; auto). cbn. apply IHl. intros; apply A8; right; auto.
        * intros p Hp. apply A4. auto.
        * intros h Hh. destruct (iI4 h Hh). split; auto. apply A4. auto.
      + destruct I. intros x Hx. apply iP0, iS0. auto.
      + destruct I. eauto.
  Qed.

  Lemma step_int fuel s c rest out s1 l1 : inv s (c :: rest) out -> n_unint s c = false ->
    add_parents g fuel first cb s c rest = Ok (s1, l1) ->
    inv s1 l1 (if hcb c then out else c :: out) /\ n_unint s1 = n_unint s /\ n_added s c = false /\ n_added s1 = fset (n_added s) c true /\
    (forall x, n_parsed s x = true -> n_parsed s1 x = true) /\
    exists ns, l1 = ins ns rest /\ (forall x, In x ns -> In x (eff c)) /\ (length ns <= length (P c))%nat.
  Proof.
    intros I Hc H. unfold add_parents in H. destruct (n_added s c) eqn:Ea.
    { exfalso. eapply (iD2 _ _ _ I); eauto. left. auto. }
    cbn [set_added n_unint] in H. rewrite Hc in H. apply add_int_spec in H.
    destruct H as (ns & B1 & B2 & B3 & B4 & B5 & B6 & B7 & B8 & B9 & B10). cbn in B3, B4, B5, B6, B7, B8.
    split; [|split; [auto|split; [auto|split; [auto|split; [auto|exists ns; split; [auto|split; [intros x Hx; apply B6 in Hx; unfold eff; tauto|auto]]]]]]].
    destruct I.
    assert (Hpc : pushed c). { apply iR0; auto. apply iS0. left. left. auto. }
    constructor; auto.
    - rewrite B3. auto.
    - intros x. rewrite B7, B1, B4, ins_in, fset_true, iS0. cbn. intuition.
    - intros x Hx. apply B7 in Hx. destruct Hx as [Hx|Hx]; [apply B8; auto|]. apply B6 in Hx. tauto.
    - rewrite B4, B3. intros x p Ha Hu Hp. apply fset_true in Ha. destruct Ha as [Ha | ->]; [eauto|congruence].
    - rewrite B4. intros x p Ha Hp. apply fset_true in Ha. destruct Ha as [Ha | ->].
      + apply B7. left. eauto.
      + apply B9. exact Hp.
    - rewrite B3. intros x Hs Hu. apply B7 in Hs. destruct Hs as [Hs|Hs]; auto.
      apply B6 in Hs. destruct Hs as (Hs & _). destruct Hpc as (p & Hp & Hr). exists p. split; auto. eapply reach_one; eauto.
    - rewrite B4, B3. intros x Ha Hu Hh. apply fset_true in Ha. destruct Ha as [Ha | ->].
      + destruct (hcb c); [|right]; auto.
      + rewrite Hh. left. auto.
    - intros x Hx. rewrite B4. destruct (hcb c) eqn:Eh.
      + destruct (iO4 x Hx) as (C1 & C2 & C3). repeat split; auto. apply fset_true. auto.
      + destruct Hx as [<- | Hx].
        * repeat split; auto. apply fset_eq.
        * destruct (iO4 x Hx) as (C1 & C2 & C3). repeat split; auto. apply fset_true. auto.
    - destruct (hcb c); auto. constructor; auto. intros Hin. apply iO4 in Hin. destruct Hin as (Hin & _). congruence.
    - rewrite B3, B4, B1. intros x Hu Ha Hin. apply ins_in in Hin. apply fset_true in Ha. destruct Hin as [Hin|Hin].
      + apply B6 in Hin. destruct Hin as (_ & Hin & _).
        assert (n_seen s x = true); [|congruence]. apply iS0. destruct Ha as [| ->]; auto. left. left. auto.
      + destruct Ha as [Ha | ->].
        * eapply iD5; eauto. right. auto.
        * unfold live in iD6. cbn in iD6. rewrite Hc in iD6. cbn in iD6. apply NoDup_cons_iff in iD6. destruct iD6 as (C & _).
          apply C. apply filter_In. rewrite Hc. auto.
    - rewrite B1. eapply Permutation_NoDup; [apply Permutation_sym, perm_filter, ins_perm|].
      rewrite filter_app. rewrite B3.
      assert (Hl : NoDup (live s rest)).
      { unfold live in *. cbn in iD6. rewrite Hc in iD6. cbn in iD6. apply NoDup_cons_iff in iD6. tauto. }
      apply NoDup_app_iff_local; [apply NoDup_filter; auto|exact Hl|].
      intros x Hx Hy. apply filter_In in Hx. apply filter_In in Hy. destruct Hx as (Hx & _), Hy as (Hy & _).
      apply B6 in Hx. destruct Hx as (_ & Hx & _). assert (n_seen s x = true); [|congruence]. apply iS0. left. right. auto.
    - intros p Hp. apply B7. auto.
    - intros h Hh. rewrite B3. destruct (iI4 h Hh). split; auto. apply B7. auto.
  Qed.
End RP.
