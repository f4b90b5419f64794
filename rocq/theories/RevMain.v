(** The main theorem about whole walks. *)
From Verif Require Import Base Arr PQueueModel PQueueProofs GraphModel GraphSpec GraphProofs GraphBases GraphTotal RevModel RevSpec RevProofs RevLimit RevTopo RevDrain RevPrep.
From Coq Require Import Permutation.

(** The caller: options, then pushes ([false]) and hides ([true]) in order. *)
Definition rev_setup (g : graph) (w : rwalk) (first : bool) (cb : option (nat -> bool)) (topo time reverse : bool) (ins : list (bool * nat)) : res rwalk :=
  rev_inputs g (rev_sorting (rev_add_hide_cb (if first then rev_first_parent w else w) cb) topo time reverse) ins.

Lemma NoDup_incl_perm (l V : list nat) : NoDup l -> (forall x, In x l -> In x V) -> exists r, Permutation V (l ++ r).
Proof.
  revert V. induction l as [|a l IH]; intros V ND HI; [exists V; reflexivity|].
  apply NoDup_cons_iff in ND. destruct ND as (Na & ND).
  destruct (in_split a V) as (v1 & v2 & ->); [apply HI; left; auto|].
  destruct (IH (v1 ++ v2)) as (r & HP); auto.
  - intros x Hx. specialize (HI x (or_intror Hx)). apply in_app_iff in HI. apply in_app_iff. cbn in HI. destruct HI as [|[-> |]]; auto; tauto.
  - exists r. etransitivity; [apply Permutation_sym, Permutation_middle|]. cbn. constructor. exact HP.
Qed.

Section RM.
  Context (g : graph).
  Local Notation P := (g_parents g).
  Local Notation tm := (g_time g).
  Context (V : list nat) (NV : NoDup V) (AC : acyclic P) (Hgok : forall x, In x V -> g_ok g x = true).
  Context (first : bool) (cb : option (nat -> bool)) (topo time reverse : bool) (ins : list (bool * nat)).
  Context (HV : history P V (map snd ins)).
  Local Notation hide := (fun x => match cb with Some h => h x | None => false end).
  Context (DEG : topo = true -> forall x, In x V -> child_edges P V x < 65535).

  Definition hides_ok : Prop :=
    (forall h, ~ In (true, h) ins) \/
    (first = false /\ cb = None /\
      ((dates_ordered P tm /\ newest_first tm (rev (map snd ins))) \/
       (dates_strict P tm /\ exists q, forall p, In (false, p) ins -> p = q))).
  Context (HOK : hides_ok).

  Lemma children_first_filter f l : children_first P l -> children_first P (filter f l).
  Proof.
    induction l as [|a l IH]; cbn; auto. intros (A & B). destruct (f a); cbn; auto. split; auto.
    intros c Hc. apply filter_In in Hc. apply A, Hc.
  Qed.

  Lemma prepare_total fuel inp : (mbound g V <= fuel)%nat -> (forall x, In x inp -> In x V) -> forall s acc, exists r, prepare_list g fuel inp s acc = Ok r.
  Proof.
    intros Hf. destruct HV as (HV1 & HV2). induction inp as [|c inp IH]; intros Hi s acc; cbn [prepare_list]; [eauto|].
    assert (Hc : In c V) by (apply Hi; left; auto).
    destruct (nparse_total g V Hgok s c Hc) as (s1 & ->). cbn [bindr].
    assert (exists s2, (if n_unint s1 c then mark_parents g fuel s1 c else Ok s1) = Ok s2) as (s2 & ->).
    { destruct (n_unint s1 c); [|eauto]. exact (mark_parents_total g (fun _ => True) (fun _ => True) V NV HV2 Hgok fuel s1 c Hc Hf). }
    cbn [bindr]. assert (forall x, In x inp -> In x V) by (intros; apply Hi; right; auto).
    destruct (n_seen s2 c); apply IH; auto.
  Qed.

  Definition shown x : Prop :=
    (exists p, In (false, p) ins /\ reach (followed P first hide) p x) /\ hide x = false /\
    ~ (exists h, In (true, h) ins /\ reach P h x).

  Definition bound : nat := (length V + 2 * edges g V + 1)%nat.

  Lemma main w0 : fresh w0 ->
    exists w, rev_setup g w0 first cb topo time reverse ins = Ok w /\
    forall n fuel, (bound <= n)%nat -> (bound <= fuel)%nat ->
    exists l w', rev_all g n fuel w = Ok (l, w') /\ NoDup l /\ (forall x, In x l <-> shown x) /\
      (topo = true -> children_first P (if reverse then rev l else l)) /\
      (time = true -> topo = false -> newest_first tm (if reverse then rev l else l)) /\
      (l <> [] -> cb = None -> fresh w').
  Proof.
    intros F. destruct HV as (HV1 & HV2).
    destruct F as (F1 & F2 & F3 & F4 & F5 & F6 & F7 & F8 & F9 & F10 & F11 & F12 & F13 & F14).
    unfold rev_setup. set (w1 := rev_sorting _ _ _ _).
    assert (W1 : r_nodes w1 = r_nodes w0 /\ r_input w1 = [] /\ r_topo w1 = topo /\ r_time w1 = time /\ r_reverse w1 = reverse /\ r_first w1 = first /\
      r_hidecb w1 = cb /\ r_walking w1 = false /\ r_it_time w1 = [] /\ r_it_topo w1 = [] /\ r_it_rand w1 = [] /\ r_it_rev w1 = [] /\
      r_get w1 = (if time then GTime else GUnsorted) /\ r_push w1 = false /\
      r_limited w1 = (match cb with Some _ => true | None => false end) || (topo || time || reverse)).
    { unfold w1, rev_sorting, rev_add_hide_cb. destruct first; cbn [rev_first_parent r_walking]; rewrite F10; cbn; rewrite ?F10, ?F7; cbn; repeat split; auto. }
    destruct W1 as (W1 & W2 & W3 & W4 & W5 & W6 & W7 & W8 & W9 & W10 & W11 & W12 & W13 & W14 & W15). clearbody w1.
    assert (HinV : forall h x, In (h, x) ins -> In x V).
    { intros h x Hx. apply HV1. apply in_map_iff. exists (h, x). auto. }
    destruct (inputs_total g ins) with (w := w1) as (w & Ew); [intros; eauto|].
    exists w. split; [exact Ew|]. intros n fuel Hn Hfuel.
    apply inputs_spec in Ew. destruct Ew as (A1 & A2 & A3 & A4 & A5 & A6 & A7 & A8 & A9 & A10 & A11 & A12 & A13 & A14 & A15 & A16 & A17 & A18 & A19 & A20 & A21 & A22 & A23 & A24).
    rewrite W1 in *. rewrite W2 in *.
    set (PS := fun x => In x (r_input w) /\ n_unint (r_nodes w) x = false).
    set (HS := fun x => In (true, x) ins).
    assert (U : forall x, n_unint (r_nodes w) x = true <-> HS x).
    { intros x. rewrite A1. destruct (F1 x) as (-> & _). unfold HS. intuition congruence. }
    assert (Hinp : forall x, In x (r_input w) -> In x V). { intros x Hx. apply A5 in Hx. destruct Hx as [[]|[|]]; eauto. }
    assert (PS1 : forall p, PS p -> In (false, p) ins).
    { intros p (B1 & B2). destruct (A9 p B1 B2) as [[]|]; auto. }
    assert (Eff : forall a b, reach (followed P first hide) a b <-> reach (eff g first cb) a b) by (intros; reflexivity).
    assert (SH : forall x, (pushed g first cb PS x /\ hcb cb x = false /\ ~ hidden g HS x) <-> shown x).
    { intros x. unfold shown. split.
      - intros ((p & Hp & Hr) & B & C). split; [exists p; split; auto|]. split; auto.
      - intros ((p & Hp & Hr) & B & C). split; [|split; auto]. exists p. split; [|auto].
        assert (n_unint (r_nodes w) p = false).
        { destruct (n_unint (r_nodes w) p) eqn:E; auto. exfalso. apply C. exists p. apply U in E. split; [exact E|]. eapply eff_reach; [exact PS|exact HS|exact (proj1 (Eff _ _) Hr)]. }
        split; auto. apply A8; auto. }
    assert (Hwalk : r_walking w = false) by congruence.
    destruct (r_push w) eqn:Epush.
    2: { exists [], w. assert (Hn1 : exists n', n = S n') by (destruct n; [unfold bound in Hn; lia|eauto]). destruct Hn1 as (n' & ->).
      cbn [rev_all]. unfold rev_next, prepare_walk. rewrite Hwalk, Epush. cbn [negb]. replace (GIT_ITEROVER =? GIT_ITEROVER) with true by reflexivity. cbn [bindr].
      split; [reflexivity|]. split; [constructor|]. split.
      - intros x. split; [intros []|]. intros Hx. apply SH in Hx. destruct Hx as ((p & (B1 & B2) & _) & _).
        destruct (A8 p) as (_ & B3); auto; try congruence. apply PS1. split; auto.
      - split; [|split]; [destruct reverse; exact (fun _ => I)|destruct reverse; exact (fun _ _ => I)|congruence]. }
    destruct (prepare_total fuel (r_input w)) with (s := r_nodes w) (acc := @nil nat) as ([s L0] & Ep); [unfold bound, mbound in *; lia|auto|].
    assert (PI : pinv g HS (r_nodes w) []).
    { constructor.
      - intros x Hx. apply U in Hx. exists x. split; [auto|constructor].
      - intros x. rewrite A2. destruct (F1 x) as (_ & -> & _). cbn. intuition discriminate.
      - intros x. rewrite A2. destruct (F1 x) as (_ & -> & _). discriminate.
      - intros x. rewrite A3. apply F1.
      - constructor.
      - intros x. rewrite A4. apply F1.
      - intros h Hh. apply U. auto. }
    destruct (prepare_spec g PS HS _ _ _ _ _ _ Ep PI) as (PI2 & L1 & L2 & L3).
    assert (HL0 : forall x, In x L0 <-> In x (r_input w)) by (intros x; rewrite L1; cbn; tauto).
    assert (INV : inv g first cb PS HS s L0 []).
    { apply pinv_inv; auto.
      - intros x Hx Hu. split; [apply HL0; auto|]. destruct (n_unint (r_nodes w) x) eqn:E; auto. apply U in E.
        apply (pH _ _ _ _ PI2) in E. congruence.
      - intros x (Hx & _). apply HL0. auto.
      - intros x Hx. apply HL0. apply A7; auto. apply F1. }
    assert (HL0V : forall x, In x L0 -> In x V) by (intros x Hx; apply Hinp, HL0, Hx).
    assert (NL0 : NoDup L0). { pose proof (pD _ _ _ _ PI2) as H. apply NoDup_rev in H. rewrite rev_involutive in H. exact H. }
    assert (LL0 : (length L0 <= length V)%nat) by (apply NoDup_incl_length; [exact NL0|exact HL0V]).
    assert (CASE : case g first cb HS s L0 [] INT64_MAX).
    { destruct HOK as [H|(Hf & Hc & H)]; [left; exact H|]. right. split.
      - intros x. unfold eff, effl. rewrite Hf, Hc. cbn. clear. induction (P x); cbn; congruence.
      - split.
        + split; [intros x []|]. destruct H as [(_ & H)|(_ & q & H)].
          * left. split; [|congruence]. apply ord_sorted. apply L2. cbn. apply A10. rewrite app_nil_r. exact H.
          * right. split; [reflexivity|]. exists q. intros y Hy Hu. apply H. apply PS1. split; [apply HL0; auto|].
            destruct (n_unint (r_nodes w) y) eqn:E; auto. apply U in E. apply (pH _ _ _ _ PI2) in E. congruence.
        + destruct H as [(D & H)|(D & _)]; [right; split; auto|left; exact D]. apply L2. cbn. apply A10. rewrite app_nil_r. exact H. }
    destruct (limit_loop_total g first cb PS HS V NV HV2 Hgok fuel fuel) with (s := s) (L := L0) (out := @nil nat) (T := INT64_MAX) (slop := SLOP)
      as ([s1 commits] & El); auto.
    { unfold bound, mbound in *. lia. }
    { pose proof (aweight_le g PS HS V HV2 Hgok (n_added s)). unfold bound in *. lia. }
    destruct (limit_loop_ok g first cb PS HS fuel fuel _ _ _ _ _ _ _ INV CASE El) as (NC & Hlive & Hpush & Hhid).
    pose proof (limit_loop_indeg _ _ _ _ _ _ _ _ _ _ _ _ El) as Eind.
    assert (HcV : forall x, In x commits -> In x V).
    { intros x Hx. apply Hpush in Hx. destruct Hx as (p & Hp & Hr). apply PS1 in Hp. apply (eff_reach g first cb PS HS) in Hr. apply HinV in Hp.
      clear - Hp Hr HV2. induction Hr; eauto. }
    assert (LC : (length commits <= length V)%nat) by (apply NoDup_incl_length; [exact NC|exact HcV]).
    set (lv := filter (fun x => negb (n_unint s1 x)) commits).
    assert (Hlv : forall x, In x lv <-> shown x).
    { intros x. unfold lv. rewrite filter_In, <- SH, <- Hlive. destruct (n_unint s1 x); cbn; intuition congruence. }
    assert (NLV : NoDup lv) by (apply NoDup_filter; exact NC).
    assert (LLV : (length lv <= length V)%nat).
    { apply NoDup_incl_length; [exact NLV|]. intros x Hx. unfold lv in Hx. apply filter_In in Hx. apply HcV, Hx. }
    (* it suffices to show what the prepared walk gives *)
    enough (K : exists w3 l, prepare_walk g fuel w = Ok w3 /\ r_walking w3 = true /\ r_hidecb w3 = cb /\ gives g fuel w3 l /\ Permutation lv l /\
      (topo = true -> children_first P (if reverse then rev l else l)) /\ (time = true -> topo = false -> newest_first tm (if reverse then rev l else l))).
    { destruct K as (w3 & l & K1 & K2 & K3 & K4 & K5 & K6 & K7).
      assert (Hl : length l = length lv) by (symmetry; apply Permutation_length, K5).
      destruct (rev_all_gives g fuel w3 l K4 K2 n) as (w4 & E4 & C4); [unfold bound in Hn; lia|].
      exists l, (rev_reset w4). split.
      - destruct n as [|n]; [unfold bound in Hn; lia|]. cbn [rev_all] in *. unfold rev_next in *. rewrite Hwalk, K1. rewrite K2 in E4. exact E4.
      - split; [eapply Permutation_NoDup; eauto|]. split.
        + intros x. rewrite <- Hlv. split; apply Permutation_in; [apply Permutation_sym|]; auto.
        + split; [auto|split; [auto|]]. intros _ Hc. apply reset_fresh. congruence. }
    unfold prepare_walk. rewrite Epush. cbn [negb]. rewrite Ep. cbn [bindr].
    destruct (r_limited w) eqn:Elim.
    - (* limited *)
      unfold limit_list. rewrite A14, A15, W6, W7, El. cbn [bindr]. rewrite A11, A12, A13, W3, W4, W5, A17, W9, A19, W11, A18, W10, A20, W12.
      assert (K : exists w2 l0,
        (if topo then do (s2, out) <- topo_sort g fuel time s1 commits ;; Ok (with_get (with_iters (with_nodes w s2) [] out [] []) GTopo)
         else if time then do q <- enqueue_all g commits [] ;; Ok (with_iters (with_nodes w s1) q [] [] [])
         else Ok (with_get (with_iters (with_nodes w s1) [] [] commits []) GUnsorted)) = Ok w2 /\
        gives g fuel w2 l0 /\ Permutation lv l0 /\ (topo = true -> children_first P l0) /\ (time = true -> topo = false -> newest_first tm l0) /\
        r_hidecb w2 = cb /\ r_get w2 <> GReverse /\ r_it_rev w2 = []).
      { destruct topo eqn:Et; [|destruct time eqn:Eti].
        - destruct (topo_sort_ok g AC fuel time s1 commits) as (s2 & out & E2 & B1 & B2 & B3 & B4); auto.
          + intros x. rewrite Eind. apply (pI _ _ _ _ PI2).
          + intros x Hx. destruct (NoDup_incl_perm commits V NC HcV) as (r & HP).
            specialize (DEG eq_refl x (HcV x Hx)). rewrite (ce_perm g _ _ x HP), ce_app in DEG. pose proof (ce_nn g r x). lia.
          + unfold bound in *. lia.
          + rewrite E2. cbn [bindr]. eexists _, (filter (fun x => negb (n_unint s2 x)) out). split; [reflexivity|]. split.
            * eapply topo_gives; try reflexivity; cbn; [exact Elim|]. rewrite <- (Permutation_length B1). unfold bound in *; lia.
            * split; [unfold lv; rewrite B3; apply perm_filter, B1|]. split; [intros _; apply children_first_filter, B2|].
              split; [discriminate|]. split; [cbn; congruence|]. split; [cbn; discriminate|reflexivity].
        - destruct (enqueue_ok g commits []) as (q & E2 & B1 & B2).
          { unfold heap. cbn. intros i a b Hi H. destruct i; discriminate. }
          rewrite E2. cbn [bindr]. rewrite app_nil_r in B2.
          assert (Lq : (length q <= fuel)%nat) by (rewrite (Permutation_length B2); unfold bound in *; lia).
          destruct (time_gives g fuel (length q) (with_iters (with_nodes w s1) q [] [] [])) as (l0 & G1 & G2 & G3); cbn; auto; [congruence|].
          eexists _, l0. split; [reflexivity|]. split; [exact G1|]. split.
          { etransitivity; [|exact G2]. cbn. unfold lv. apply perm_filter, Permutation_sym, B2. }
          split; [discriminate|]. split; [auto|]. split; [cbn; congruence|]. split; [cbn; rewrite A21, W13; discriminate|reflexivity].
        - eexists _, lv. split; [reflexivity|]. split.
          + eapply rand_gives; try reflexivity; cbn; [exact Elim|]. unfold bound in *; lia.
          + split; [reflexivity|]. split; [discriminate|]. split; [discriminate|]. split; [cbn; congruence|]. split; [cbn; discriminate|reflexivity]. }
      destruct K as (w2 & l0 & K1 & K2 & K3 & K4 & K5 & K6 & K7 & K8). rewrite K1. cbn [bindr].
      destruct reverse.
      + assert (Hl0 : length l0 = length lv) by (symmetry; apply Permutation_length, K3).
        destruct (collect_ok g fuel l0 w2 fuel) as (w3 & E3 & C1 & C2 & C3); auto; [unfold bound in *; lia|].
        rewrite E3. cbn [bindr]. eexists _, (rev l0). split; [reflexivity|]. split; [reflexivity|]. split; [cbn; congruence|].
        split.
        * apply gives_walking. replace (rev l0) with (r_it_rev (with_get w3 GReverse)) by (cbn; rewrite C1, K8, app_nil_r; reflexivity).
          apply gives_reverse. reflexivity.
        * split; [etransitivity; [exact K3|apply Permutation_rev]|]. rewrite rev_involutive. auto.
      + cbn [bindr]. eexists _, l0. split; [reflexivity|]. split; [reflexivity|]. split; [cbn; exact K6|].
        split; [apply gives_walking; exact K2|]. auto.
    - (* unlimited *)
      destruct (A23 eq_refl) as (Lw1 & Lh). rewrite W15 in Lw1.
      assert (cb = None /\ topo = false /\ time = false /\ reverse = false) as (Hcb & Ht & Hti & Hrv) by (destruct cb, topo, time, reverse; try discriminate; auto).
      cbn [bindr]. rewrite A11, A12, A13, W3, W4, W5, Ht, Hti, Hrv. cbn [bindr].
      assert (HSe : forall h, ~ HS h).
      { intros h Hh. specialize (Lh h Hh). destruct (F1 h) as (Q & _). congruence. }
      assert (INV' : inv g first None PS (fun _ => False) s L0 []).
      { rewrite Hcb in INV. destruct INV. constructor; auto.
        intros x Hx. destruct (iU x Hx) as (h & Hh & _). destruct (HSe h Hh). }
      rewrite Hcb in El.
      destruct (lazy_gives g first PS fuel fuel s L0 [] INT64_MAX SLOP s1 commits
        (with_get (with_iters (with_nodes w s) (r_it_time w) (r_it_topo w) L0 (r_it_rev w)) GUnsorted)) as (l' & E' & G'); auto; try (cbn; congruence).
      cbn in E'. subst l'.
      assert (lv = commits) as Elv.
      { unfold lv. assert (HA : forall x, In x commits -> n_unint s1 x = false).
        { intros x _. destruct (n_unint s1 x) eqn:E; auto. apply Hhid in E. destruct E as (h & Hh & _). destruct (HSe h Hh). }
        clear - HA. induction commits; cbn; auto. rewrite HA by (left; auto). cbn. f_equal. apply IHcommits. intros; apply HA; right; auto. }
      eexists _, commits. split; [reflexivity|]. split; [reflexivity|]. split; [cbn; congruence|]. split; [apply gives_walking; exact G'|].
      split; [rewrite Elv; reflexivity|]. split; discriminate.
  Qed.
End RM.
