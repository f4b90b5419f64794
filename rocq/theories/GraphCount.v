(** C15: ahead/behind counting. *)
From Coq Require Import Permutation.
From Verif Require Import Base Arr PQueueModel PQueueProofs GraphModel GraphSpec GraphProofs GraphBases GraphTotal GraphProps.

Section Mark.
  Context (g : graph) (Hgen : forall n, 0 <= g_gen g n).
  Notation P := (g_parents g).
  Context (AC : acyclic P).
  Context (CO : cmp_ok (generation_cmp g)).
  Context (ORD : forall c p, In p (P c) -> generation_cmp g c p < 0).
  Context (one two : nat).
  Notation inv' := (inv g one [two]).

  Lemma ord_reach a b : reach P a b -> a <> b -> generation_cmp g a b < 0.
  Proof.
    induction 1 as [|c p a Hp Hr IH]; intros N; [congruence|].
    destruct (Nat.eq_dec p a) as [->|Np]; [apply ORD, Hp|].
    eapply cmp_lt_le_trans; [exact CO|apply ORD, Hp|]. specialize (IH Np). lia.
  Qed.

  (** Extra invariant: the expanded commits [E] come before everything queued, and are
      finished. *)
  Record jnv (w : walk) (q : list nat) (E : nat -> Prop) : Prop := {
    j_heap : heap (generation_cmp g) q;
    j_ord : forall e y, E e -> In y q -> generation_cmp g e y <= 0;
    j_all : forall x, flagged w x -> In x q \/ E x;
    j_done : forall e, E e -> done g w e;
    j_parsed : forall x, flagged w x -> w_parsed w x = true
  }.

  Lemma paint_parents_heap fl ps : forall w q w' q', heap (generation_cmp g) q -> paint_parents g 0 fl ps w q = Ok (w', q') ->
    heap (generation_cmp g) q' /\ (forall x, w_parsed w x = true -> w_parsed w' x = true) /\
    (forall x, w_fl w' x <> w_fl w x -> w_parsed w' x = true).
  Proof.
    induction ps as [|p ps IH]; intros w q w' q' Hh H; cbn [paint_parents] in H.
    - injection H as <- <-. split; [exact Hh|]. split; [auto|congruence].
    - destruct (f_eqb _ _); [eapply IH; eauto|]. destruct (generation g w p <? 0); [eapply IH; eauto|].
      destruct (parse g w p) as [w1| | |] eqn:Ep; try discriminate. cbn [bindr] in H.
      destruct (insert_ok (generation_cmp g) CO None q p Hh) as (q1 & Eq & Hh1 & _); [discriminate|].
      rewrite Eq in H. cbn [bindr] in H. destruct (IH _ _ _ _ Hh1 H) as (A1 & A2 & A3).
      assert (Hp : w_parsed w1 p = true /\ forall x, w_parsed w x = true -> w_parsed w1 x = true).
      { unfold parse in Ep. destruct (w_parsed w p) eqn:E1; [injection Ep as <-; auto|]. destruct (g_ok g p); [|discriminate].
        injection Ep as <-. cbn. rewrite Nat.eqb_refl. split; [reflexivity|]. intros x ->. destruct (x =? p)%nat; reflexivity. }
      destruct Hp as (Hp1 & Hp2). pose proof (parse_fl _ _ _ _ Ep) as EF.
      split; [exact A1|]. split.
      + intros x Hx. apply A2. cbn. apply Hp2, Hx.
      + intros x Hx. destruct (Nat.eq_dec x p) as [->|N]; [apply A2; exact Hp1|].
        apply A3. unfold w_or. rewrite w_set_neq by exact N. rewrite EF. exact Hx.
  Qed.

  Lemma expand_j w q r c q1 w2 q2 b E : inv' w q r -> jnv w q E -> Permutation q (c :: q1) ->
    heap (generation_cmp g) q1 -> (forall y, In y q1 -> generation_cmp g c y <= 0) ->
    expand g 0 c w q1 = Ok (w2, q2, b) ->
    jnv w2 q2 (fun x => E x \/ x = c).
  Proof.
    intros I J HP Hh Hm H.
    destruct (expand_inv g Hgen AC one [two] w q r c q1 w2 q2 b I HP H) as (I2 & M & Hch & Hq2 & Dc & Hq & Hfl).
    assert (Hcq : In c q) by (eapply Permutation_in; [apply Permutation_sym; exact HP|left; reflexivity]).
    assert (Hq1 : forall y, In y q1 -> In y q) by (intros y Hy; eapply Permutation_in; [apply Permutation_sym; exact HP|right; exact Hy]).
    assert (HH : heap (generation_cmp g) q2 /\ (forall x, w_parsed w x = true -> w_parsed w2 x = true) /\
       (forall x, flagged w2 x -> ~ flagged w x -> w_parsed w2 x = true)).
    { unfold expand in H. cbv zeta in H.
      match type of H with context [paint_parents g 0 ?f (P c) ?ww q1] => set (fl1 := f) in H; set (w1 := ww) in H end.
      destruct (paint_parents g 0 fl1 (P c) w1 q1) as [[w2' q2']| | |] eqn:Ep; try discriminate. cbn [bindr] in H.
      injection H as -> -> _. destruct (paint_parents_heap _ _ _ _ _ _ Hh Ep) as (A1 & A2 & A3).
      assert (Hw1 : w_parsed w1 = w_parsed w) by (unfold w1; destruct (_ && _); reflexivity).
      assert (Hf1 : forall x, flagged w1 x -> flagged w x).
      { intros x. unfold flagged, w1. destruct (_ && _); [|auto]. unfold w_or. destruct (Nat.eq_dec x c) as [->|N];
          [rewrite w_set_eq|rewrite w_set_neq by exact N; auto]. cbn. rewrite !orb_false_r. auto. }
      split; [exact A1|]. split; [intros x Hx; apply A2; rewrite Hw1; exact Hx|].
      intros x Hx Nx. apply A3. intros Ee. apply Nx, Hf1. unfold flagged in *. rewrite <- Ee. exact Hx. }
    destruct HH as (H1 & H2 & H3).
    split.
    - exact H1.
    - intros e y He Hy. destruct (Hq2 y Hy) as [Hy1|Hy1].
      + destruct He as [He| ->]; [apply (j_ord _ _ _ J); auto|auto].
      + pose proof (ORD c y Hy1). destruct He as [He| ->]; [|lia].
        assert (generation_cmp g e c <= 0) by (apply (j_ord _ _ _ J); auto).
        eapply (cmp_trans _ CO); eauto. lia.
    - intros x Hx. destruct (Hfl x) as [Ex|[->|Hx2]]; [|right; right; reflexivity|left; exact Hx2].
      assert (Hf : flagged w x) by (unfold flagged in *; rewrite <- Ex; exact Hx).
      destruct (j_all _ _ _ J x Hf) as [Hx2|Hx2]; [|auto].
      apply (Permutation_in _ HP) in Hx2. destruct Hx2 as [<-|Hx2]; [right; right; reflexivity|left; auto].
    - intros e [He| ->]; [|exact Dc]. destruct (f_eqb_spec (w_fl w2 e) (w_fl w e)) as [Ee|Ne].
      + destruct (j_done _ _ _ J e He) as (D1 & D2). split; rewrite Ee; [|exact D2].
        intros p Hp. destruct (D1 p Hp) as (X1 & X2 & X3). repeat split; intros; apply M; auto.
      + destruct (Hch e Ne) as [->|Hp]; [exact Dc|]. exfalso. pose proof (ORD c e Hp).
        assert (generation_cmp g e c <= 0) by (apply (j_ord _ _ _ J); auto).
        pose proof (cmp_lt_le_trans _ CO c e c H0 H4). rewrite (cmp_refl _ CO) in H5. lia.
    - intros x Hx.
      assert (D : flagged w x \/ ~ flagged w x).
      { unfold flagged. destruct (fP1 (w_fl w x)), (fP2 (w_fl w x)); auto. right. intros [?|?]; discriminate. }
      destruct D as [D|D]; [apply H2, (j_parsed _ _ _ J), D|apply H3; auto].
  Qed.

  Lemma mark_loop_inv fuel : forall w q roots r E w', inv' w q r -> jnv w q E -> mark_loop g fuel w q roots = Ok w' ->
    exists q' r' E', inv' w' q' r' /\ jnv w' q' E' /\ (forall x, In x q' -> fSTALE (w_fl w' x) = true).
  Proof.
    assert (Base : forall w q, interesting w q = false -> forall x, In x q -> fSTALE (w_fl w x) = true).
    { intros w q E x Hx. destruct (fSTALE (w_fl w x)) eqn:Es; [reflexivity|]. exfalso.
      assert (interesting w q = true); [|congruence]. apply existsb_exists. exists x. rewrite Es. auto. }
    induction fuel as [|fuel IH]; intros w q roots r E w' I J H; cbn [mark_loop] in H.
    - destruct (interesting w q) eqn:Ei; [discriminate|]. destruct (interesting w roots); [discriminate|]. injection H as <-.
      exists q, r, E. split; [exact I|]. split; [exact J|]. apply Base, Ei.
    - destruct (interesting w q || interesting w roots) eqn:Ei.
      + pose proof (pop_ok (generation_cmp g) CO q (j_heap _ _ _ J)) as Hp. destruct q as [|a q].
        * rewrite Hp in H. cbn [bindr] in H. injection H as <-. exists [], r, E. split; [exact I|]. split; [exact J|]. intros x [].
        * destruct Hp as (m & q1 & Epop & Hh & HP & Hm). rewrite Epop in H. cbn [bindr] in H.
          destruct (expand g 0 m w q1) as [[[w2 q2] b]| | |] eqn:Ee; try discriminate. cbn [bindr fst snd] in H.
          destruct (expand_inv g Hgen AC one [two] _ _ _ _ _ _ _ _ I HP Ee) as (I2 & _).
          pose proof (expand_j _ _ _ _ _ _ _ _ _ I J HP Hh Hm Ee) as J2. eapply IH; eauto.
      + apply orb_false_iff in Ei. destruct Ei as (Ei & _). injection H as <-. exists q, r, E. split; [exact I|]. split; [exact J|].
        apply Base, Ei.
  Qed.

  (** What the marks say when marking ends. *)
  Record marks (w : walk) : Prop := {
    m_P1 : forall x, fP1 (w_fl w x) = true -> reach P one x;
    m_P2 : forall x, fP2 (w_fl w x) = true -> reach P two x;
    m_12 : forall x, fP1 (w_fl w x) = true -> reach P two x -> fP2 (w_fl w x) = true;
    m_21 : forall x, fP2 (w_fl w x) = true -> reach P one x -> fP1 (w_fl w x) = true;
    m_res : forall x, fRES (w_fl w x) = true -> fP1 (w_fl w x) = true /\ fP2 (w_fl w x) = true;
    m_step : forall x p, In p (P x) -> ~ (fP1 (w_fl w x) = true /\ fP2 (w_fl w x) = true) ->
       (fP1 (w_fl w x) = true -> fP1 (w_fl w p) = true) /\ (fP2 (w_fl w x) = true -> fP2 (w_fl w p) = true);
    m_one : fP1 (w_fl w one) = true;
    m_two : fP2 (w_fl w two) = true;
    m_parsed : forall x, flagged w x -> ~ (fP1 (w_fl w x) = true /\ fP2 (w_fl w x) = true) -> w_parsed w x = true
  }.

  Lemma inv_marks w q r E : inv' w q r -> jnv w q E -> (forall x, In x q -> fSTALE (w_fl w x) = true) -> marks w.
  Proof.
    intros I J Q. split.
    - apply (i_P1 _ _ _ _ _ _ I).
    - intros x Hx. destruct (i_P2 _ _ _ _ _ _ I x Hx) as (t & [<-|[]] & Hr). exact Hr.
    - intros x Hx Hr. destruct (j_all _ _ _ J x (or_introl Hx)) as [Hq|He].
      { apply (i_st _ _ _ _ _ _ I), Q, Hq. }
      assert (G : forall n, reach P n x -> fP2 (w_fl w n) = true -> fP2 (w_fl w x) = true).
      { induction 1 as [|n p x Hp Hr' IH]; intros Hn; [exact Hn|]. apply IH; auto.
        destruct (j_all _ _ _ J n (or_intror Hn)) as [Hnq|Hne]; [|apply (j_done _ _ _ J n Hne); auto].
        exfalso. pose proof (j_ord _ _ _ J x n He Hnq). assert (n <> x).
        { intros ->. apply (AC x p Hp Hr'). }
        assert (generation_cmp g n x < 0) by (apply ord_reach; auto; econstructor; eauto).
        apply (cmp_le_ge _ CO) in H. lia. }
      apply (G two Hr). apply (i_twos _ _ _ _ _ _ I). left. reflexivity.
    - intros x Hx Hr. destruct (j_all _ _ _ J x (or_intror Hx)) as [Hq|He].
      { apply (i_st _ _ _ _ _ _ I), Q, Hq. }
      assert (G : forall n, reach P n x -> fP1 (w_fl w n) = true -> fP1 (w_fl w x) = true).
      { induction 1 as [|n p x Hp Hr' IH]; intros Hn; [exact Hn|]. apply IH; auto.
        destruct (j_all _ _ _ J n (or_introl Hn)) as [Hnq|Hne]; [|apply (j_done _ _ _ J n Hne); auto].
        exfalso. pose proof (j_ord _ _ _ J x n He Hnq). assert (n <> x).
        { intros ->. apply (AC x p Hp Hr'). }
        assert (generation_cmp g n x < 0) by (apply ord_reach; auto; econstructor; eauto).
        apply (cmp_le_ge _ CO) in H. lia. }
      apply (G one Hr). apply (i_one _ _ _ _ _ _ I).
    - apply (i_res _ _ _ _ _ _ I).
    - intros x p Hp Hb. assert (D : flagged w x -> done g w x).
      { intros Hf. destruct (i_q _ _ _ _ _ _ I x Hf) as [Hq|]; [|assumption]. exfalso. apply Hb. apply (i_st _ _ _ _ _ _ I), Q, Hq. }
      split; intros Hx; [apply (proj1 (D (or_introl Hx)) p Hp), Hx|apply (proj1 (D (or_intror Hx)) p Hp), Hx].
    - apply (i_one _ _ _ _ _ _ I).
    - apply (i_twos _ _ _ _ _ _ I). left. reflexivity.
    - intros x Hf _. apply (j_parsed _ _ _ J), Hf.
  Qed.

  Lemma heap_nil : heap (generation_cmp g) [].
  Proof. intros [|i] x p Hi Hx; [lia|]. destruct i; discriminate. Qed.

  Lemma mark_parents_marks fuel w : mark_parents g fuel walk0 one two = Ok w -> marks w.
  Proof.
    intros H. unfold mark_parents in H. destruct (Nat.eqb_spec one two) as [E|N].
    - injection H as <-. assert (A : forall x, w_fl (w_or walk0 one (f_or PARENT1 (f_or PARENT2 RESULT))) x =
        if (x =? one)%nat then mkF true true true false else f0) by (intros x; cbn; destruct (x =? one)%nat; reflexivity).
      assert (B : forall x, fP1 (w_fl (w_or walk0 one (f_or PARENT1 (f_or PARENT2 RESULT))) x) = true -> x = one).
      { intros x. rewrite A. destruct (Nat.eqb_spec x one); [auto|discriminate]. }
      assert (B2 : forall x, fP2 (w_fl (w_or walk0 one (f_or PARENT1 (f_or PARENT2 RESULT))) x) = true -> x = one).
      { intros x. rewrite A. destruct (Nat.eqb_spec x one); [auto|discriminate]. }
      split; rewrite <- ?E.
      + intros x Hx. rewrite (B x Hx). constructor.
      + intros x Hx. rewrite (B2 x Hx). constructor.
      + intros x Hx _. rewrite (B x Hx), A, Nat.eqb_refl. reflexivity.
      + intros x Hx _. rewrite (B2 x Hx), A, Nat.eqb_refl. reflexivity.
      + intros x. rewrite A. destruct (x =? one)%nat; [auto|discriminate].
      + intros x p Hp Hb. split; intros Hx; exfalso; apply Hb; [rewrite (B x Hx)|rewrite (B2 x Hx)]; rewrite A, Nat.eqb_refl; auto.
      + rewrite A, Nat.eqb_refl. reflexivity.
      + rewrite A, Nat.eqb_refl. reflexivity.
      + intros x [Hx|Hx] Hb; exfalso; apply Hb; [rewrite (B x Hx)|rewrite (B2 x Hx)]; rewrite A, Nat.eqb_refl; auto.
    - destruct (parse g walk0 one) as [w1| | |] eqn:E1; try discriminate. cbn [bindr] in H. cbv zeta in H.
      destruct (insert_ok (generation_cmp g) CO None [] one heap_nil) as (q1 & Eq1 & Hh1 & HP1); [discriminate|].
      rewrite Eq1 in H. cbn [bindr] in H.
      destruct (parse g (w_or w1 one PARENT1) two) as [w3| | |] eqn:E3; try discriminate. cbn [bindr] in H.
      destruct (insert_ok (generation_cmp g) CO None q1 two Hh1) as (q2 & Eq2 & Hh2 & HP2); [discriminate|].
      rewrite Eq2 in H. cbn [bindr] in H.
      assert (Es : paint_seed g [two] (w_or w1 one PARENT1) q1 = Ok (w_or w3 two PARENT2, q2)).
      { cbn [paint_seed]. rewrite E3. cbn [bindr]. rewrite Eq2. reflexivity. }
      assert (CL : clean w1) by (intros x; rewrite (parse_fl _ _ _ _ E1); reflexivity).
      pose proof (start_inv g one [two] w1 _ q1 q2 CL HP1 Es) as I.
      assert (Fl : forall x, flagged (w_or w3 two PARENT2) x -> x = one \/ x = two).
      { intros x [Hx|Hx].
        - apply (i_P1 _ _ _ _ _ _ I) in Hx as Hr. revert Hx. unfold w_or at 1. destruct (Nat.eq_dec x two) as [->|Nx]; [auto|].
          rewrite w_set_neq by exact Nx. rewrite (parse_fl _ _ _ _ E3). unfold w_or. destruct (Nat.eq_dec x one) as [->|No]; [auto|].
          rewrite w_set_neq by exact No. rewrite CL. discriminate.
        - revert Hx. unfold w_or at 1. destruct (Nat.eq_dec x two) as [->|Nx]; [auto|].
          rewrite w_set_neq by exact Nx. rewrite (parse_fl _ _ _ _ E3). unfold w_or. destruct (Nat.eq_dec x one) as [->|No]; [auto|].
          rewrite w_set_neq by exact No. rewrite CL. discriminate. }
      assert (Pp : forall w0 n w', parse g w0 n = Ok w' -> w_parsed w' n = true /\ forall x, w_parsed w0 x = true -> w_parsed w' x = true).
      { intros w0 n w' Ep. unfold parse in Ep. destruct (w_parsed w0 n) eqn:Ew; [injection Ep as <-; auto|]. destruct (g_ok g n); [|discriminate].
        injection Ep as <-. cbn. rewrite Nat.eqb_refl. split; [reflexivity|]. intros x ->. destruct (x =? n)%nat; reflexivity. }
      assert (J : jnv (w_or w3 two PARENT2) q2 (fun _ => False)).
      { split; [exact Hh2|intros e y []| |intros e []|].
        - intros x Hx. left. destruct (i_q _ _ _ _ _ _ I x Hx) as [|D]; [assumption|].
          apply Fl in Hx. eapply Permutation_in; [apply Permutation_sym; exact HP2|]. destruct Hx as [->| ->]; [right|left; reflexivity].
          eapply Permutation_in; [apply Permutation_sym; exact HP1|]. left. reflexivity.
        - intros x Hx. apply Fl in Hx. cbn. destruct (Pp _ _ _ E3) as (P1 & P2). destruct (Pp _ _ _ E1) as (P3 & P4).
          destruct Hx as [->| ->]; [apply P2; exact P3|exact P1]. }
      destruct (mark_loop_inv fuel _ _ _ _ _ _ I J H) as (q' & r' & E' & I' & J' & Q). eapply inv_marks; eauto.
  Qed.

  (** ** Counting *)
  Lemma push_all_perm ps : forall q, exists q', push_all g ps q = Ok q' /\ Permutation q' (ps ++ q).
  Proof.
    induction ps as [|p ps IH]; intros q; cbn [push_all]; [eauto|].
    destruct (insert_any (time_cmp g) q p) as (q1 & -> & HP). cbn [bindr]. destruct (IH q1) as (q2 & -> & HP2).
    exists q2. split; [reflexivity|]. eapply perm_trans; [exact HP2|]. cbn.
    eapply perm_trans; [apply Permutation_app_head; exact HP|]. apply Permutation_sym, Permutation_middle.
  Qed.

  Definition A (x : nat) := reach P one x /\ ~ reach P two x.
  Definition B (x : nat) := reach P two x /\ ~ reach P one x.

  Record cnv (w0 w : walk) (q S : list nat) (ahead behind : Z) : Prop := {
    c_fl : forall x, fP1 (w_fl w x) = fP1 (w_fl w0 x) /\ fP2 (w_fl w x) = fP2 (w_fl w0 x) /\ w_parsed w x = w_parsed w0 x;
    c_res : forall x, fRES (w_fl w x) = true <-> fRES (w_fl w0 x) = true \/ In x S;
    c_S : forall x, In x S -> fP1 (w_fl w0 x) <> fP2 (w_fl w0 x);
    c_nd : NoDup S;
    c_q : forall x, In x q -> flagged w0 x;
    c_par : forall x p, In x S -> In p (P x) -> In p q \/ In p S \/ (fP1 (w_fl w0 p) = true /\ fP2 (w_fl w0 p) = true);
    c_one : In one q \/ In one S \/ (fP1 (w_fl w0 one) = true /\ fP2 (w_fl w0 one) = true);
    c_two : In two q \/ In two S \/ (fP1 (w_fl w0 two) = true /\ fP2 (w_fl w0 two) = true);
    c_a : Z.of_nat (length (filter (fun x => fP1 (w_fl w0 x)) S)) = ahead;
    c_b : Z.of_nat (length (filter (fun x => negb (fP1 (w_fl w0 x))) S)) = behind
  }.

  Lemma count_loop_spec w0 : marks w0 -> forall fuel w q S a b a' b', cnv w0 w q S a b ->
    count_loop g fuel w q a b = Ok (a', b') -> exists w' S', cnv w0 w' [] S' a' b'.
  Proof.
    intros M. induction fuel as [|fuel IH]; intros w q S a b a' b' I H; cbn [count_loop] in H; [discriminate|].
    pose proof (pop_any (time_cmp g) q) as Hp. destruct q as [|x0 q0].
    - rewrite Hp in H. cbn [bindr] in H. injection H as <- <-. eauto.
    - destruct Hp as (c & q1 & Epop & HP). rewrite Epop in H. cbn [bindr] in H. cbv zeta in H.
      set (q := x0 :: q0) in *.
      assert (Hq : forall y, In y q -> y = c \/ In y q1).
      { intros y Hy. apply (Permutation_in _ HP) in Hy. destruct Hy as [<-|Hy]; auto. }
      assert (Hcq : In c q) by (eapply Permutation_in; [apply Permutation_sym; exact HP|left; reflexivity]).
      assert (Hq1 : forall y, In y q1 -> In y q) by (intros y Hy; eapply Permutation_in; [apply Permutation_sym; exact HP|right; exact Hy]).
      destruct I as [F1 F2 F3 F4 F5 F6 F7 F8 F9 F10].
      destruct (F1 c) as (Ec1 & Ec2 & Ec3).
      destruct (fRES (w_fl w c) || fP1 (w_fl w c) && fP2 (w_fl w c)) eqn:Esk.
      + assert (Hskip : In c S \/ (fP1 (w_fl w0 c) = true /\ fP2 (w_fl w0 c) = true)).
        { apply orb_true_iff in Esk. rewrite andb_true_iff, F2, Ec1, Ec2 in Esk. destruct Esk as [[Hr|]|]; auto.
          right. apply (m_res _ M), Hr. }
        eapply IH; [|exact H]. split; auto.
        * intros x p Hx Hp. destruct (F6 x p Hx Hp) as [Hpq|]; [|auto]. destruct (Hq p Hpq) as [->|]; [destruct Hskip; auto|auto].
        * destruct F7 as [Hpq|]; [|auto]. destruct (Hq one Hpq) as [Ho|]; [rewrite Ho; destruct Hskip; auto|auto].
        * destruct F8 as [Hpq|]; [|auto]. destruct (Hq two Hpq) as [Ho|]; [rewrite Ho; destruct Hskip; auto|auto].
      + apply orb_false_iff in Esk. destruct Esk as (Er & Eb). rewrite Ec1, Ec2 in *.
        assert (Hf : flagged w0 c) by (apply F5; exact Hcq).
        assert (Hn : ~ (fP1 (w_fl w0 c) = true /\ fP2 (w_fl w0 c) = true)) by (intros (E1 & E2); rewrite E1, E2 in Eb; discriminate).
        assert (Hps : w_parsed w c = true) by (rewrite Ec3; apply (m_parsed _ M); auto).
        rewrite Hps in H. destruct (push_all_perm (P c) q1) as (q2 & Eq2 & HP2). rewrite Eq2 in H. cbn [bindr] in H.
        assert (HcS : ~ In c S) by (intros Hc; assert (fRES (w_fl w c) = true) by (apply F2; auto); congruence).
        assert (Hq2 : forall y, In y q2 <-> In y (P c) \/ In y q1).
        { intros y. split; intros Hy; [apply (Permutation_in _ HP2) in Hy; apply in_app_or in Hy; exact Hy|].
          eapply Permutation_in; [apply Permutation_sym; exact HP2|]. apply in_or_app. exact Hy. }
        eapply (IH _ q2 (c :: S)); [|exact H]. split.
        * intros x. unfold w_or. destruct (Nat.eq_dec x c) as [->|Nx]; [rewrite w_set_eq|rewrite w_set_neq by exact Nx; exact (F1 x)].
          cbn. rewrite !orb_false_r. exact (F1 c).
        * intros x. unfold w_or. destruct (Nat.eq_dec x c) as [->|Nx].
          -- rewrite w_set_eq. cbn. rewrite orb_true_r. intuition.
          -- rewrite w_set_neq by exact Nx. rewrite F2. cbn. intuition congruence.
        * intros x [<-|Hx]; [|auto]. intros EE. apply Hn. unfold flagged in Hf. destruct Hf; split; congruence.
        * constructor; auto.
        * intros x Hx. apply Hq2 in Hx. destruct Hx as [Hx|Hx]; [|auto]. destruct (m_step _ M c x Hx Hn) as (X1 & X2).
          destruct Hf as [Hf|Hf]; [left|right]; auto.
        * intros x p [<-|Hx] Hp; [left; apply Hq2; auto|]. destruct (F6 x p Hx Hp) as [Hpq|[|]]; [|cbn; auto|auto].
          destruct (Hq p Hpq) as [->|]; [cbn; auto|left; apply Hq2; auto].
        * destruct F7 as [Hpq|[|]]; [|cbn; auto|auto]. destruct (Hq one Hpq) as [Ho|]; [cbn; auto|left; apply Hq2; auto].
        * destruct F8 as [Hpq|[|]]; [|cbn; auto|auto]. destruct (Hq two Hpq) as [Ho|]; [cbn; auto|left; apply Hq2; auto].
        * cbn [filter]. destruct (fP1 (w_fl w0 c)); cbn [length]; lia.
        * cbn [filter]. destruct (fP1 (w_fl w0 c)) eqn:E1; cbn [length negb]; [lia|].
          destruct Hf as [Hf|Hf]; [congruence|]. rewrite Hf. lia.
  Qed.

  Lemma final_counts w0 w S a b : marks w0 -> cnv w0 w [] S a b -> count_of A a /\ count_of B b.
  Proof.
    intros M [F1 F2 F3 F4 F5 F6 F7 F8 F9 F10].
    assert (SA : forall x, A x -> In x S /\ fP1 (w_fl w0 x) = true).
    { intros x (Hx & Hn).
      assert (G : forall n, reach P n x -> ~ reach P two x -> In n S \/ (fP1 (w_fl w0 n) = true /\ fP2 (w_fl w0 n) = true) -> In x S).
      { induction 1 as [n|n p x Hp Hr IH]; intros Hnt Hd.
        - destruct Hd as [|(_ & E2)]; [assumption|]. exfalso. apply Hnt. apply (m_P2 _ M), E2.
        - destruct Hd as [Hd|(_ & E2)].
          + apply IH; auto. destruct (F6 n p Hd Hp) as [[]|]; assumption.
          + exfalso. apply Hnt. eapply reach_trans; [apply (m_P2 _ M), E2|]. econstructor; eauto. }
      assert (HS : In x S) by (apply (G one Hx Hn); destruct F7 as [[]|]; assumption).
      split; [exact HS|]. specialize (F3 x HS). destruct (fP1 (w_fl w0 x)) eqn:E1; [reflexivity|].
      destruct (fP2 (w_fl w0 x)) eqn:E2; [exfalso; apply Hn; apply (m_P2 _ M), E2|congruence]. }
    assert (SB : forall x, B x -> In x S /\ fP1 (w_fl w0 x) = false).
    { intros x (Hx & Hn).
      assert (G : forall n, reach P n x -> ~ reach P one x -> In n S \/ (fP1 (w_fl w0 n) = true /\ fP2 (w_fl w0 n) = true) -> In x S).
      { induction 1 as [n|n p x Hp Hr IH]; intros Hnt Hd.
        - destruct Hd as [|(E1 & _)]; [assumption|]. exfalso. apply Hnt. apply (m_P1 _ M), E1.
        - destruct Hd as [Hd|(E1 & _)].
          + apply IH; auto. destruct (F6 n p Hd Hp) as [[]|]; assumption.
          + exfalso. apply Hnt. eapply reach_trans; [apply (m_P1 _ M), E1|]. econstructor; eauto. }
      assert (HS : In x S) by (apply (G two Hx Hn); destruct F8 as [[]|]; assumption).
      split; [exact HS|]. destruct (fP1 (w_fl w0 x)) eqn:E1; [|reflexivity]. exfalso. apply Hn. apply (m_P1 _ M), E1. }
    split.
    - exists (filter (fun x => fP1 (w_fl w0 x)) S). split; [apply NoDup_filter, F4|]. split; [|exact F9].
      intros x. rewrite filter_In. split; [|apply SA]. intros (Hx & E1). split; [apply (m_P1 _ M), E1|]. intros Hr.
      pose proof (m_12 _ M x E1 Hr) as E2. specialize (F3 x Hx). congruence.
    - exists (filter (fun x => negb (fP1 (w_fl w0 x))) S). split; [apply NoDup_filter, F4|]. split; [|exact F10].
      intros x. rewrite filter_In, negb_true_iff. split; [|apply SB]. intros (Hx & E1). specialize (F3 x Hx).
      assert (E2 : fP2 (w_fl w0 x) = true) by (destruct (fP2 (w_fl w0 x)); congruence).
      split; [apply (m_P2 _ M), E2|]. intros Hr. pose proof (m_21 _ M x E2 Hr). congruence.
  Qed.
End Mark.

Section CountTotal.
  Context (g : graph) (Hgen : forall n, 0 <= g_gen g n).
  Notation P := (g_parents g).
  Context (AC : acyclic P).
  Context (V : list nat) (NV : NoDup V) (CV : forall x p, In x V -> In p (P x) -> In p V)
    (OK : forall x, In x V -> g_ok g x = true).

  Lemma mark_loop_total fuel : forall w q roots, (forall x, In x q -> In x V) -> (length q + miss V w < fuel)%nat ->
    exists w', mark_loop g fuel w q roots = Ok w'.
  Proof.
    induction fuel as [|fuel IH]; intros w q roots Hq Hf; [lia|]. cbn [mark_loop].
    destruct (interesting w q || interesting w roots) eqn:E; [|eauto].
    pose proof (pop_any (generation_cmp g) q) as Hp. destruct q as [|a q]; [rewrite Hp; cbn [bindr]; eauto|].
    destruct Hp as (m & q1 & -> & HP). cbn [bindr].
    assert (Hm : In m V) by (apply Hq; eapply Permutation_in; [apply Permutation_sym; exact HP|left; reflexivity]).
    destruct (expand_total g Hgen V NV CV OK m w q1 Hm) as (w' & q' & b & -> & Hms & Hq').
    { intros x Hx. apply Hq. eapply Permutation_in; [apply Permutation_sym; exact HP|right; exact Hx]. }
    cbn [bindr fst snd]. apply IH; [exact Hq'|]. apply Permutation_length in HP. cbn in HP, Hf. lia.
  Qed.

  Lemma mark_total fuel one two : In one V -> In two V -> (3 + 3 * length V <= fuel)%nat ->
    exists w, mark_parents g fuel walk0 one two = Ok w.
  Proof.
    intros H1 H2 Hf. unfold mark_parents. destruct (one =? two)%nat; [eauto|]. cbv zeta.
    destruct (parse_ok g walk0 one (OK one H1)) as (w1 & -> & _). cbn [bindr].
    destruct (insert_any (generation_cmp g) [] one) as (q1 & -> & HP1). cbn [bindr].
    destruct (parse_ok g (w_or w1 one PARENT1) two (OK two H2)) as (w3 & -> & _). cbn [bindr].
    destruct (insert_any (generation_cmp g) q1 two) as (q2 & -> & HP2). cbn [bindr].
    apply mark_loop_total.
    - intros x Hx. apply (Permutation_in _ HP2) in Hx. destruct Hx as [<-|Hx]; [exact H2|].
      apply (Permutation_in _ HP1) in Hx. destruct Hx as [<-|[]]. exact H1.
    - apply Permutation_length in HP1, HP2. cbn in HP1, HP2. pose proof (miss_le V (w_or w3 two PARENT2)). lia.
  Qed.

  Definition cdegs (w : walk) : nat := sumf (fun x => if fRES (w_fl w x) then 0%nat else length (P x)) V.
  Lemma count_total fuel : forall w q a b, (forall x, In x q -> In x V) -> (length q + cdegs w < fuel)%nat ->
    exists r, count_loop g fuel w q a b = Ok r.
  Proof.
    induction fuel as [|fuel IH]; intros w q a b Hq Hf; [lia|]. cbn [count_loop].
    pose proof (pop_any (time_cmp g) q) as Hp. destruct q as [|x0 q]; [rewrite Hp; cbn [bindr]; eauto|].
    destruct Hp as (m & q1 & -> & HP). cbn [bindr]. cbv zeta.
    assert (Hm : In m V) by (apply Hq; eapply Permutation_in; [apply Permutation_sym; exact HP|left; reflexivity]).
    assert (Hq1 : forall x, In x q1 -> In x V).
    { intros x Hx. apply Hq. eapply Permutation_in; [apply Permutation_sym; exact HP|right; exact Hx]. }
    apply Permutation_length in HP. cbn in HP, Hf.
    destruct (fRES (w_fl w m) || fP1 (w_fl w m) && fP2 (w_fl w m)) eqn:E; [apply IH; [exact Hq1|lia]|].
    apply orb_false_iff in E. destruct E as (Er & _).
    destruct (push_all_perm g (if w_parsed w m then P m else []) q1) as (q2 & -> & HP2). cbn [bindr].
    apply IH.
    - intros x Hx. apply (Permutation_in _ HP2) in Hx. apply in_app_or in Hx. destruct Hx as [Hx|Hx]; [|auto].
      destruct (w_parsed w m); [eauto|destruct Hx].
    - apply Permutation_length in HP2. rewrite app_length in HP2.
      assert (length (if w_parsed w m then P m else []) <= length (P m))%nat by (destruct (w_parsed w m); cbn; lia).
      assert (cdegs (w_or w m RESULT) + length (P m) <= cdegs w)%nat; [|lia].
      unfold cdegs. apply sumf_drop with (p := m); auto.
      + intros x _ Nx. unfold w_or. rewrite w_set_neq by exact Nx. reflexivity.
      + unfold w_or. rewrite w_set_eq. cbn [fRES f_or RESULT]. rewrite orb_true_r, Er. lia.
  Qed.
End CountTotal.

(** When the recorded dates (or the commit-graph generation numbers) put every commit
    strictly after its parents, the counts are exact: commits reachable from the one
    side and not from the other.  Missing for a full proof of the property: dates that
    are equal or run backwards, where it is false (below). *)
Theorem ahead_behind_exact_partial : forall g local upstream V,
  acyclic (g_parents g) ->
  ((forall n, g_gen g n = 0) /\ (forall c p, In p (g_parents g c) -> g_time g p < g_time g c) \/
   (forall n, 0 < g_gen g n) /\ (forall c p, In p (g_parents g c) -> g_gen g p < g_gen g c)) ->
  history (g_parents g) V [local; upstream] -> (forall x, In x V -> g_ok g x = true) ->
  exists fuel0, forall fuel, (fuel0 <= fuel)%nat ->
    exists ahead behind, git_graph_ahead_behind g fuel local upstream = Ok (ahead, behind) /\
      count_of (fun x => reach (g_parents g) local x /\ ~ reach (g_parents g) upstream x) ahead /\
      count_of (fun x => reach (g_parents g) upstream x /\ ~ reach (g_parents g) local x) behind.
Proof.
  intros g one two V AC HO HV OK. apply nodup_history in HV.
  set (V' := nodup Nat.eq_dec V) in *.
  assert (NV : NoDup V') by apply NoDup_nodup.
  assert (OK' : forall x, In x V' -> g_ok g x = true) by (intros x Hx; apply OK; apply nodup_In in Hx; exact Hx).
  destruct HV as (HV1 & HV2).
  assert (H1 : In one V') by (apply HV1; cbn; auto). assert (H2 : In two V') by (apply HV1; cbn; auto).
  assert (Hg : forall n, 0 <= g_gen g n) by (intros n; destruct HO as [(H & _)|(H & _)]; specialize (H n); lia).
  assert (CT : cmp_ok (time_cmp g)).
  { split; intros; unfold time_cmp in *.
    - destruct (Z.ltb_spec (g_time g a) (g_time g b)), (Z.ltb_spec (g_time g b) (g_time g a)); cbn; lia.
    - repeat match goal with |- context [?a <? ?b] => destruct (Z.ltb_spec a b) | H : context [?a <? ?b] |- _ => destruct (Z.ltb_spec a b) end; lia. }
  assert (CO : cmp_ok (generation_cmp g)).
  { destruct HO as [(H0 & _)|(H0 & _)].
    - assert (E : forall a b, generation_cmp g a b = time_cmp g a b).
      { intros a b. unfold generation_cmp. rewrite (H0 a). reflexivity. }
      split; intros; rewrite !E in *; [apply (cmp_sym _ CT)|eapply (cmp_trans _ CT); eauto].
    - assert (E : forall a b, generation_cmp g a b = if g_gen g a <? g_gen g b then 1 else if g_gen g b <? g_gen g a then -1 else 0).
      { intros a b. unfold generation_cmp. pose proof (H0 a). pose proof (H0 b).
        destruct (Z.eqb_spec (g_gen g a) 0); [lia|]. destruct (Z.eqb_spec (g_gen g b) 0); [lia|]. reflexivity. }
      split; intros; rewrite ?E in *.
      + destruct (Z.ltb_spec (g_gen g a) (g_gen g b)), (Z.ltb_spec (g_gen g b) (g_gen g a)); cbn; lia.
      + repeat match goal with |- context [?a <? ?b] => destruct (Z.ltb_spec a b) | H : context [?a <? ?b] |- _ => destruct (Z.ltb_spec a b) end; lia. }
  assert (ORD : forall c p, In p (g_parents g c) -> generation_cmp g c p < 0).
  { intros c p Hp. unfold generation_cmp, time_cmp. destruct HO as [(H0 & Ht)|(H0 & Ht)]; specialize (Ht c p Hp).
    - rewrite (H0 c). cbn [Z.eqb orb]. destruct (Z.ltb_spec (g_time g c) (g_time g p)); [lia|].
      destruct (Z.ltb_spec (g_time g p) (g_time g c)); lia.
    - pose proof (H0 c). pose proof (H0 p). destruct (Z.eqb_spec (g_gen g c) 0); [lia|]. destruct (Z.eqb_spec (g_gen g p) 0); [lia|].
      cbn [orb]. destruct (Z.ltb_spec (g_gen g c) (g_gen g p)); [lia|].
      destruct (Z.ltb_spec (g_gen g p) (g_gen g c)); lia. }
  exists (4 + 3 * length V' + alldegs g V')%nat. intros fuel Hf.
  destruct (mark_total g Hg V' NV HV2 OK' fuel one two H1 H2) as (w & Em); [lia|].
  unfold git_graph_ahead_behind. rewrite Em. cbn [bindr]. unfold ahead_behind.
  destruct (push_all_perm g [one; two] []) as (q & -> & HP). cbn [bindr].
  assert (Hq : forall x, In x q -> x = one \/ x = two).
  { intros x Hx. apply (Permutation_in _ HP) in Hx. cbn in Hx. intuition. }
  assert (Hq' : In one q /\ In two q) by (split; (eapply Permutation_in; [apply Permutation_sym; exact HP|cbn; auto])).
  destruct (count_total g Hg V' NV HV2 OK' fuel w q 0 0) as ((a & b) & Ec).
  { intros x Hx. destruct (Hq x Hx) as [->| ->]; assumption. }
  { apply Permutation_length in HP. cbn in HP.
    assert (cdegs g V' w <= alldegs g V')%nat; [|lia]. unfold cdegs, alldegs. apply sumf_le. intros x _. destruct (fRES _); lia. }
  exists a, b. split; [exact Ec|].
  pose proof (mark_parents_marks g Hg AC CO ORD one two fuel w Em) as M.
  assert (I0 : cnv g one two w w q [] 0 0).
  { split.
    - auto.
    - intros x. cbn. tauto.
    - intros x [].
    - constructor.
    - intros x Hx. destruct (Hq x Hx) as [->| ->]; [left; apply (m_one _ _ _ _ M)|right; apply (m_two _ _ _ _ M)].
    - intros x p [].
    - tauto.
    - tauto.
    - reflexivity.
    - reflexivity. }
  destruct (count_loop_spec g Hg ORD one two w M fuel w q [] 0 0 a b I0 Ec) as (w' & S & IF).
  apply (final_counts g one two w w' S a b M IF).
Qed.
Print Assumptions ahead_behind_exact_partial.

(** ** Equal timestamps: five commits of the same second, and the count is wrong.
    0 root; 1 on 0; 2 merges 1 and 0; 3 merges 2 and 0; 4 merges 0, 3 and 1.
    Commit 4 is one ahead of 3; the function answers two. *)
Definition eq_parents (n : nat) : list nat :=
  match n with 1 => [0] | 2 => [1; 0] | 3 => [2; 0] | 4 => [0; 3; 1] | _ => [] end%nat.
Definition eqg : graph := mkG eq_parents (fun _ => 1700000000) (fun _ => 0) (fun _ => true).
Example eqg_answer : git_graph_ahead_behind eqg 100 3 4 = Ok (0, 2).
Proof. vm_compute. reflexivity. Qed.
Lemma eqg_acyclic : acyclic eq_parents.
Proof.
  assert (M : forall a b, reach eq_parents a b -> (b <= a)%nat).
  { induction 1 as [|c p a Hp Hr IH]; [lia|]. unfold eq_parents in Hp.
    do 5 (destruct c as [|c]; [cbn in Hp; lia|]). destruct Hp. }
  intros c p Hp Hr. apply M in Hr. unfold eq_parents in Hp.
  do 5 (destruct c as [|c]; [cbn in Hp; lia|]). destruct Hp.
Qed.
Theorem ahead_behind_refuted :
  ~ (forall g local upstream fuel ahead behind, acyclic (g_parents g) -> (forall n, g_ok g n = true) ->
     (forall c p, In p (g_parents g c) -> g_time g p <= g_time g c) ->
     git_graph_ahead_behind g fuel local upstream = Ok (ahead, behind) ->
     count_of (fun x => reach (g_parents g) upstream x /\ ~ reach (g_parents g) local x) behind).
Proof.
  intros H. specialize (H eqg 3%nat 4%nat 100%nat 0 2 eqg_acyclic (fun _ => eq_refl) (fun _ _ _ => Z.le_refl _) eqg_answer).
  destruct H as (l & ND & Hl & Hn).
  assert (R : forall x, In x l -> x = 4%nat).
  { intros x Hx. apply Hl in Hx. destruct Hx as (H1 & H2).
    assert (M : forall a b, reach eq_parents a b -> (b <= a)%nat).
    { induction 1 as [|c p a Hp Hr IH]; [lia|]. unfold eq_parents in Hp.
      do 5 (destruct c as [|c]; [cbn in Hp; lia|]). destruct Hp. }
    apply M in H1. destruct x as [|[|[|[|[|x]]]]]; [| | | |reflexivity|lia]; exfalso; apply H2.
    - eapply reach_step; [|apply reach_refl]; cbn; auto.
    - eapply reach_step; [cbn; left; reflexivity|]. eapply reach_step; [cbn; left; reflexivity|apply reach_refl].
    - eapply reach_step; [cbn; left; reflexivity|apply reach_refl].
    - apply reach_refl. }
  destruct l as [|a [|b l]]; cbn in Hn; try lia.
  inversion ND as [|? ? Ha _]; subst. apply Ha. rewrite (R a), <- (R b) by (cbn; auto). cbn. auto.
Qed.
Print Assumptions ahead_behind_refuted.

(** Non-vacuity of the positive theorem. *)
Definition lin_graph : graph := mkG cc_parents (fun n => Z.of_nat n) (fun _ => 0) (fun _ => true).
Example lin_times : (forall n, g_gen lin_graph n = 0) /\ forall c p, In p (g_parents lin_graph c) -> g_time lin_graph p < g_time lin_graph c.
Proof. split; [reflexivity|]. intros c p Hp. cbn in *. unfold cc_parents in Hp. do 6 (destruct c as [|c]; [cbn in Hp; lia|]). destruct Hp. Qed.
Example lin_counts : git_graph_ahead_behind lin_graph 100 3 5 = Ok (2, 1).
Proof. vm_compute. reflexivity. Qed.
