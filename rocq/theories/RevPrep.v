(** From the caller's pushes and hides to the prepared walk. *)
From Verif Require Import Base Arr PQueueModel PQueueProofs GraphModel GraphSpec GraphProofs GraphBases GraphTotal RevModel RevSpec RevProofs RevLimit RevTopo RevDrain.
From Coq Require Import Permutation.

(** A walker as created, or as left by a reset: nothing pushed, no options. *)
Definition fresh (w : rwalk) : Prop :=
  (forall x, n_unint (r_nodes w) x = false /\ n_seen (r_nodes w) x = false /\ n_added (r_nodes w) x = false /\ n_indeg (r_nodes w) x = 0) /\
  r_input w = [] /\ r_topo w = false /\ r_time w = false /\ r_reverse w = false /\ r_first w = false /\ r_limited w = false /\
  r_push w = false /\ r_hidecb w = None /\ r_walking w = false /\ r_it_time w = [] /\ r_it_topo w = [] /\ r_it_rand w = [] /\ r_it_rev w = [].

Lemma reset_fresh w : r_hidecb w = None -> fresh (rev_reset w).
Proof. intros H. repeat split; cbn; auto. Qed.

Lemma newest_first_mid tm l1 c l2 : newest_first tm (l1 ++ c :: l2) -> newest_first tm (l1 ++ l2).
Proof.
  induction l1 as [|a l1 IH]; cbn; [tauto|]. intros (A & B). split; auto. intros y Hy. apply A. apply in_app_iff in Hy. apply in_app_iff. cbn. tauto.
Qed.

Section RPp.
  Context (g : graph).
  Local Notation P := (g_parents g).
  Local Notation tm := (g_time g).

  Lemma inputs_spec ins : forall w w', rev_inputs g w ins = Ok w' ->
    (forall x, n_unint (r_nodes w') x = true <-> n_unint (r_nodes w) x = true \/ In (true, x) ins) /\
    n_seen (r_nodes w') = n_seen (r_nodes w) /\ n_added (r_nodes w') = n_added (r_nodes w) /\ n_indeg (r_nodes w') = n_indeg (r_nodes w) /\
    (forall x, In x (r_input w') -> In x (r_input w) \/ In (true, x) ins \/ In (false, x) ins) /\
    (forall x, In x (r_input w) -> In x (r_input w')) /\
    (forall x, In (true, x) ins -> n_unint (r_nodes w) x = false -> In x (r_input w')) /\
    (forall x, In (false, x) ins -> n_unint (r_nodes w') x = false -> In x (r_input w') /\ r_push w' = true) /\
    (forall x, In x (r_input w') -> n_unint (r_nodes w') x = false -> In x (r_input w) \/ In (false, x) ins) /\
    (newest_first tm (rev (map snd ins) ++ r_input w) -> newest_first tm (r_input w')) /\
    r_topo w' = r_topo w /\ r_time w' = r_time w /\ r_reverse w' = r_reverse w /\ r_first w' = r_first w /\ r_hidecb w' = r_hidecb w /\
    r_walking w' = r_walking w /\ r_it_time w' = r_it_time w /\ r_it_topo w' = r_it_topo w /\ r_it_rand w' = r_it_rand w /\ r_it_rev w' = r_it_rev w /\ r_get w' = r_get w /\
    (r_push w = true -> r_push w' = true) /\
    (r_limited w' = false -> r_limited w = false /\ forall x, In (true, x) ins -> n_unint (r_nodes w) x = true) /\
    (r_limited w = true -> r_limited w' = true).
  Proof.
    induction ins as [|[h c] ins IH]; intros w w' H; cbn [rev_inputs] in H.
    - injection H as <-. cbn. intuition.
    - unfold rev_push_commit in H. destruct (g_ok g c); cbn [negb] in H; [|discriminate].
      destruct (n_unint (r_nodes w) c) eqn:Eu; cbn [bindr] in H.
      + apply IH in H. destruct H as (A1 & A2 & A3 & A4 & A5 & A6 & A7 & A8 & A9 & A10 & A11 & A12 & A13 & A14 & A15 & A16 & A17 & A18 & A19 & A20 & A21 & A22 & A23 & A24).
        split. { intros x. rewrite A1. cbn. split; [intuition|]. intros [|[HH|]]; auto. inversion HH; subst; auto. }
        do 3 (split; [assumption|]).
        split. { intros x Hx. apply A5 in Hx. cbn. tauto. }
        split; [assumption|].
        split. { intros x [HH|HH] Hn; [inversion HH; subst; congruence|auto]. }
        split. { intros x [HH|HH] Hn; [|auto]. inversion HH; subst. assert (n_unint (r_nodes w') x = true) by (apply A1; auto). congruence. }
        split. { intros x Hx Hn. apply A9 in Hx; auto. cbn. tauto. }
        split. { intros Hn. apply A10. cbn in Hn. rewrite <- app_assoc in Hn. cbn in Hn. eapply newest_first_mid; eauto. }
        do 12 (split; [assumption|]).
        split; [|assumption]. intros Hl. destruct (A23 Hl) as (B1 & B2). split; auto. intros x [HH|HH]; [inversion HH; subst; auto|auto].
      + apply IH in H. cbn [r_nodes set_unint n_unint n_seen n_added n_indeg r_input r_topo r_time r_reverse r_first r_hidecb r_walking r_it_time r_it_topo r_it_rand r_it_rev r_get r_push r_limited] in H.
        destruct H as (A1 & A2 & A3 & A4 & A5 & A6 & A7 & A8 & A9 & A10 & A11 & A12 & A13 & A14 & A15 & A16 & A17 & A18 & A19 & A20 & A21 & A22 & A23 & A24).
        assert (U : forall x, fset (n_unint (r_nodes w)) c h x = true <-> n_unint (r_nodes w) x = true \/ (h = true /\ x = c)).
        { intros x. unfold fset. destruct (Nat.eqb_spec x c); subst; intuition congruence. }
        split. { intros x. rewrite A1, U. cbn. split; [intros [[|[-> ->]]|]; auto|]. intros [|[HH|]]; auto. inversion HH; subst; auto. }
        do 3 (split; [assumption|]).
        split. { intros x Hx. apply A5 in Hx. cbn in *. destruct Hx as [[-> | Hx]|Hx]; [destruct h; auto|auto|tauto]. }
        split. { intros x Hx. apply A6. right. auto. }
        split. { intros x [HH|HH] Hn; [inversion HH; subst; apply A6; left; auto|].
          destruct (Nat.eq_dec x c) as [-> |]; [apply A6; left; auto|]. apply A7; auto. rewrite fset_neq; auto. }
        split. { intros x [HH|HH] Hn; [|apply A8; auto]. inversion HH; subst. split; [apply A6; left; auto|]. apply A22. reflexivity. }
        split. { intros x Hx Hn. destruct (A9 x Hx Hn) as [[-> | Hi]|Hi]; [|left; exact Hi|right; right; exact Hi].
          right. left. destruct h; auto. exfalso. assert (n_unint (r_nodes w') x = true) by (apply A1; left; apply U; auto). congruence. }
        split. { intros Hn. apply A10. cbn in Hn. rewrite <- app_assoc in Hn. exact Hn. }
        do 11 (split; [assumption|]).
        split. { intros Hp. apply A22. destruct h; auto. }
        split. { intros Hl. destruct (A23 Hl) as (B1 & B2). destruct h; [discriminate|]. split; auto. intros x [HH|HH]; [discriminate HH|].
          apply B2 in HH. apply U in HH. destruct HH as [|(HH & _)]; [auto|discriminate]. }
        { intros Hl. apply A24. destruct h; auto. }
  Qed.

  Lemma inputs_total ins : (forall h x, In (h, x) ins -> g_ok g x = true) -> forall w, exists w', rev_inputs g w ins = Ok w'.
  Proof.
    induction ins as [|[h c] ins IH]; intros H w; cbn [rev_inputs]; [eauto|].
    unfold rev_push_commit. rewrite (H h c) by (left; auto). cbn [negb].
    destruct (n_unint (r_nodes w) c); cbn [bindr]; apply IH; intros; eapply H; right; eauto.
  Qed.

  Section Prep.
    Context (PS HS : nat -> Prop).
    Local Notation hidden := (hidden g HS).
    Record pinv (s : nst) (acc : list nat) : Prop := {
      pU : forall x, n_unint s x = true -> hidden x;
      pS : forall x, n_seen s x = true <-> In x acc;
      pP : forall x, n_seen s x = true -> n_parsed s x = true;
      pA : forall x, n_added s x = false;
      pD : NoDup acc;
      pI : forall x, n_indeg s x = 0;
      pH : forall h, HS h -> n_unint s h = true
    }.
    Lemma prepare_spec fuel inp : forall s acc s' L, prepare_list g fuel inp s acc = Ok (s', L) -> pinv s acc ->
      pinv s' (rev L) /\ (forall x, In x L <-> In x acc \/ In x inp) /\
      (newest_first tm (rev acc ++ inp) -> newest_first tm L) /\ (length L <= length acc + length inp)%nat.
    Proof.
      induction inp as [|c inp IH]; intros s acc s' L H I; cbn [prepare_list] in H.
      - injection H as <- <-. rewrite rev_involutive, app_nil_r. split; [exact I|]. split; [|split; [auto|rewrite rev_length; cbn; lia]].
        intros x. rewrite <- in_rev. cbn. tauto.
      - destruct (nparse g s c) as [s1| | |] eqn:E1; cbn [bindr] in H; try discriminate.
        apply nparse_spec in E1. destruct E1 as (A1 & A2 & A3 & A4 & A5).
        assert (Hm : exists s2, (if n_unint s1 c then mark_parents g fuel s1 c else Ok s1) = Ok s2 /\
          n_seen s2 = n_seen s /\ n_added s2 = n_added s /\ n_indeg s2 = n_indeg s /\ n_parsed s2 = n_parsed s1 /\
          (forall x, n_unint s x = true -> n_unint s2 x = true) /\ (forall x, n_unint s2 x = true -> hidden x)).
        { destruct (n_unint s1 c) eqn:Eu.
          - destruct (mark_parents g fuel s1 c) as [s2| | |] eqn:E2; cbn [bindr] in H; try discriminate.
            apply mark_parents_spec in E2. destruct E2 as (B1 & B2 & B3 & B4 & B5 & B6 & _).
            exists s2. split; [reflexivity|]. do 4 (split; [congruence|]). rewrite A1 in *. split; [auto|].
            intros x Hx. apply B6 in Hx. destruct Hx as [Hx|(p & Hp & Hr)]; [eapply pU; eauto|].
            eapply hidden_reach; [|exact Hr]. eapply hidden_step; eauto. eapply pU; eauto.
          - exists s1. split; [reflexivity|]. do 3 (split; [congruence|]). split; [reflexivity|]. rewrite A1. split; auto. intros x Hx. eapply pU; eauto. }
        destruct Hm as (s2 & Em & B1 & B2 & B3 & B4 & B5 & B6). rewrite Em in H. cbn [bindr] in H.
        destruct (n_seen s2 c) eqn:Es.
        + apply IH in H.
          * destruct H as (C1 & C2 & C3 & C4). split; [exact C1|]. rewrite B1 in Es. apply (pS _ _ I) in Es. split; [|split; [|cbn; lia]].
            -- intros x. rewrite C2. cbn. intuition (subst; auto).
            -- intros Hn. apply C3. eapply newest_first_mid; eauto.
          * destruct I. constructor; auto; rewrite ?B1, ?B2, ?B3, ?B4; auto. intros x Hx. apply A5. auto.
        + apply IH in H.
          * destruct H as (C1 & C2 & C3 & C4). split; [exact C1|]. split; [|split; [|cbn in *; lia]].
            -- intros x. rewrite C2. cbn. intuition.
            -- intros Hn. apply C3. cbn. rewrite <- app_assoc. exact Hn.
          * rewrite B1 in Es. destruct I. constructor; cbn [set_seen n_unint n_seen n_added n_indeg n_parsed]; rewrite ?B1, ?B2, ?B3, ?B4; auto.
            -- intros x. rewrite fset_true, pS0. cbn. intuition.
            -- intros x Hx. apply fset_true in Hx. apply A5. destruct Hx; auto.
            -- constructor; auto. intros Hin. apply pS0 in Hin. congruence.
    Qed.
    Lemma pinv_inv first cb s L : pinv s (rev L) ->
      (forall x, In x L -> n_unint s x = false -> PS x) -> (forall x, PS x -> In x L) -> (forall x, HS x -> In x L) ->
      inv g first cb PS HS s L [].
    Proof.
      intros I H1 H2 H3. destruct I. assert (S' : forall x, n_seen s x = true <-> In x L) by (intros x; rewrite pS0; symmetry; apply in_rev).
      constructor; auto; try (intros; rewrite pA0 in *; discriminate).
      - intros x. rewrite S', pA0. intuition discriminate.
      - intros x Hs Hu. exists x. split; [apply H1; auto; apply S'; auto|constructor].
      - intros x [].
      - constructor.
      - apply NoDup_filter. apply NoDup_rev in pD0. rewrite rev_involutive in pD0. auto.
      - intros p Hp. apply S'. auto.
      - intros h Hh. split; [apply S'; auto|auto].
    Qed.
  End Prep.
End RPp.
