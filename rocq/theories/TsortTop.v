(** The run stack and the main loop. *)
From Verif Require Import Base Arr TsortModel TsortSpec TsortProofs TsortHeight.

Section T.
  Context {A : Type} (cmp : A -> A -> Z) (Hc : cmp_ok cmp).
  Implicit Types (P X Y Z M dst p rest : list A).

  (** The stack describes consecutive sorted pieces that make up [p]. *)
  Inductive stk : list run -> list A -> Prop :=
  | stk_nil : stk [] []
  | stk_cons st p M off n : stk st p -> sorted cmp M -> off = length p -> n = length M -> (0 < n)%nat ->
      stk ((off, n) :: st) (p ++ M).

  Lemma stk_inv r st q : stk (r :: st) q -> exists p M, q = p ++ M /\ stk st p /\ sorted cmp M /\ r = (length p, length M) /\ (0 < length M)%nat.
  Proof. intros H. inversion H; subst. exists p, M. auto 10. Qed.

  Lemma merge_top r1 r0 st q S : stk (r1 :: r0 :: st) q ->
    exists q', merge cmp (q ++ S) r0 r1 = Ok (q' ++ S) /\ stk ((fst r0, (snd r0 + snd r1)%nat) :: st) q' /\ steq cmp q q'.
  Proof.
    intros H. apply stk_inv in H. destruct H as (q1 & Y & -> & H & HY & -> & Hl1).
    apply stk_inv in H. destruct H as (p & X & -> & H & HX & -> & Hl0).
    destruct (merge_spec cmp Hc p X Y S (length p, length X) (length (p ++ X), length Y) HX HY eq_refl eq_refl) as (Z & HZ & Hs & He).
    exists (p ++ Z). rewrite <- !app_assoc. split; [exact HZ|]. split.
    - cbn. apply stk_cons; auto; [|lia]. pose proof (steq_length cmp _ _ He) as HL. rewrite app_length in HL. exact HL.
    - apply steq_app; [apply steq_refl|exact He].
  Qed.

  Lemma merge_second rc rb ra st q S : stk (rc :: rb :: ra :: st) q ->
    exists q', merge cmp (q ++ S) ra rb = Ok (q' ++ S) /\ stk (rc :: (fst ra, (snd ra + snd rb)%nat) :: st) q' /\ steq cmp q q'.
  Proof.
    intros H. apply stk_inv in H. destruct H as (q1 & W & -> & H & HW & -> & Hlw).
    destruct (merge_top rb ra st q1 (W ++ S) H) as (q' & H1 & H2 & H3).
    exists (q' ++ W). rewrite <- app_assoc. split; [rewrite H1, app_assoc; reflexivity|]. split.
    - apply stk_cons; auto. apply (steq_length cmp), H3.
    - apply steq_app; [exact H3|apply steq_refl].
  Qed.

  Definition big (st : list run) : Prop := Forall (fun r => (32 <= snd r)%nat) st.

  Lemma collapse_spec size : forall fuel st q S, stk st q -> (length st < fuel)%nat -> big st ->
    exists q' st', collapse cmp fuel (q ++ S) st size = Ok (q' ++ S, st') /\ stk st' q' /\ steq cmp q q' /\ big st' /\
      (length st' <= length st)%nat /\ (check_invariant st = false -> (length st' < length st)%nat).
  Proof.
    induction fuel as [|f IH]; intros st q S Hst Hf Hb; [lia|].
    destruct st as [|rc [|rb [|ra st]]]; cbn [collapse].
    - exists q, []. split; [reflexivity|]. split; [exact Hst|]. split; [apply steq_refl|]. cbn. split; [constructor|]. split; [lia|discriminate].
    - exists q, [rc]. split; [reflexivity|]. split; [exact Hst|]. split; [apply steq_refl|]. cbn. split; [exact Hb|].
      split; [lia|]. destruct rc. discriminate.
    - destruct ((snd rb + snd rc =? size)%nat || (snd rb <=? snd rc)%nat) eqn:E.
      + destruct (merge_top rc rb [] q S Hst) as (q' & -> & H2 & H3). cbn [bindr].
        eexists q', _. split; [reflexivity|]. split; [exact H2|]. split; [exact H3|]. cbn.
        inversion Hb as [|? ? Hb1 Hb2]; inversion Hb2; subst. split; [repeat constructor; cbn; lia|]. lia.
      + exists q, [rc; rb]. split; [reflexivity|]. split; [exact Hst|]. split; [apply steq_refl|]. apply orb_false_iff in E. destruct E as [E1 E2]. apply Nat.leb_gt in E2.
        split; [exact Hb|]. split; [lia|]. destruct rc as [? lc], rb as [? lb]. cbn [snd] in E2. unfold check_invariant. intros H. apply Nat.ltb_ge in H. lia.
    - cbv zeta.
      assert (HA : exists q' st', (do d <- merge cmp (q ++ S) ra rb;; collapse cmp f d (rc :: (fst ra, (snd ra + snd rb)%nat) :: st) size) = Ok (q' ++ S, st')
         /\ stk st' q' /\ steq cmp q q' /\ big st' /\ (length st' < Datatypes.S (Datatypes.S (Datatypes.S (length st))))%nat).
      { destruct (merge_second rc rb ra st q S Hst) as (q1 & -> & H2 & H3). cbn [bindr].
        destruct (IH _ q1 S H2) as (q' & st' & H4 & H5 & H6 & H8 & H9 & _).
        - cbn in *; lia.
        - inversion Hb as [|? ? Hb1 Hb2]; inversion Hb2 as [|? ? Hb3 Hb4]; inversion Hb4; subst. repeat constructor; cbn; auto; lia.
        - exists q', st'. split; [exact H4|]. split; [exact H5|]. split; [eapply steq_trans; eassumption|]. split; [exact H8|].
          cbn in H9. lia. }
      assert (HB : exists q' st', (do d <- merge cmp (q ++ S) rb rc;; collapse cmp f d ((fst rb, (snd rb + snd rc)%nat) :: ra :: st) size) = Ok (q' ++ S, st')
         /\ stk st' q' /\ steq cmp q q' /\ big st' /\ (length st' < Datatypes.S (Datatypes.S (Datatypes.S (length st))))%nat).
      { destruct (merge_top rc rb (ra :: st) q S Hst) as (q1 & -> & H2 & H3). cbn [bindr].
        destruct (IH _ q1 S H2) as (q' & st' & H4 & H5 & H6 & H8 & H9 & _).
        - cbn in *; lia.
        - inversion Hb as [|? ? Hb1 Hb2]; inversion Hb2 as [|? ? Hb3 Hb4]; inversion Hb4; subst. repeat constructor; cbn; auto; lia.
        - exists q', st'. split; [exact H4|]. split; [exact H5|]. split; [eapply steq_trans; eassumption|]. split; [exact H8|].
          cbn in H9. lia. }
      assert (Hfin : forall Q, (exists q' st', Q = Ok (q' ++ S, st')
         /\ stk st' q' /\ steq cmp q q' /\ big st' /\ (length st' < Datatypes.S (Datatypes.S (Datatypes.S (length st))))%nat) ->
         exists q' st', Q = Ok (q' ++ S, st') /\ stk st' q' /\ steq cmp q q' /\ big st' /\
          (length st' <= length (rc :: rb :: ra :: st))%nat /\ (check_invariant (rc :: rb :: ra :: st) = false -> (length st' < length (rc :: rb :: ra :: st))%nat)).
      { intros X0 (q' & st' & H1 & H2 & H3 & H4 & H6). exists q', st'. cbn [length]. repeat (split; [assumption|]). split; [lia|]. intros _. lia. }
      destruct (Nat.leb_spec (snd ra) (snd rb + snd rc)).
      + destruct (Nat.ltb_spec (snd ra) (snd rc)); apply Hfin; assumption.
      + destruct (Nat.leb_spec (snd rb) (snd rc)); [apply Hfin; assumption|].
        exists q, (rc :: rb :: ra :: st). split; [reflexivity|]. split; [exact Hst|]. split; [apply steq_refl|].
        split; [exact Hb|]. split; [lia|].
        destruct rc as [? lc], rb as [? lb], ra as [? la]. cbn [snd length] in *. unfold check_invariant. lia.
  Qed.

  Lemma finish_spec : forall fuel st q, stk st q -> (length st <= fuel)%nat -> st <> [] ->
    exists q', finish cmp fuel q st = Ok q' /\ sorted cmp q' /\ steq cmp q q'.
  Proof.
    induction fuel as [|f IH]; intros st q Hst Hf Hne; [destruct st; [contradiction|cbn in Hf; lia]|].
    destruct st as [|r1 [|r0 st]]; [contradiction| |]; cbn [finish].
    - apply stk_inv in Hst. destruct Hst as (p & M & -> & Hp & HM & _). inversion Hp; subst.
      exists M. cbn. split; [reflexivity|]. split; [exact HM|apply steq_refl].
    - destruct (merge_top r1 r0 st q [] Hst) as (q1 & H1 & H2 & H3). rewrite !app_nil_r in H1. rewrite H1. cbn [bindr].
      destruct (IH _ q1 H2) as (q' & H4 & H5 & H6); [cbn in *; lia|discriminate|].
      exists q'. split; [exact H4|]. split; [exact H5|]. eapply steq_trans; eassumption.
  Qed.

  Lemma minrun_loop_spec : forall fuel n r, (n <= fuel)%nat -> (32 <= n)%nat -> (r <= 1)%nat -> (32 <= minrun_loop fuel n r <= 64)%nat.
  Proof.
    induction fuel as [|f IH]; intros n r Hf Hn Hr; [lia|]. cbn [minrun_loop].
    destruct (Nat.leb_spec 64 n); [|lia]. apply IH; try lia.
  Qed.

  Definition sorted_out dst d : Prop := sorted cmp d /\ steq cmp dst d.

  Definition in_loop dst0 (d : list A) (st : list run) (c size : nat) : Prop :=
    exists p rest, d = p ++ rest /\ stk st p /\ c = length p /\ rest <> [] /\ size = length d /\ steq cmp dst0 d /\ big st.

  Lemma push_spec dst0 d st c size minrun : in_loop dst0 d st c size -> (32 <= minrun <= 64)%nat -> (length st < STACK_MAX)%nat ->
    (exists d', push_next cmp d st c size minrun = Ok (inl d') /\ sorted_out dst0 d') \/
    (exists d' r, push_next cmp d st c size minrun = Ok (inr (d', r :: st, (c + snd r)%nat)) /\ in_loop dst0 d' (r :: st) (c + snd r) size /\
       (c + snd r < size)%nat /\ (32 <= snd r)%nat).
  Proof.
    intros (p & rest & -> & Hst & -> & Hne & Hsz & He & Hb) Hm Hh. unfold push_next.
    destruct (count_run_spec cmp Hc p rest (length p) size Hne eq_refl Hsz) as (M & R & M' & -> & HM & -> & Hs & Hst1).
    cbn [bindr]. cbv zeta. set (rn := if (size - length p <? minrun)%nat then (size - length p)%nat else minrun).
    assert (HM0 : (0 < length M)%nat) by (destruct M; [contradiction|cbn; lia]).
    assert (HlM : length M = length M') by (apply (steq_length cmp), Hst1).
    rewrite !app_length in Hsz.
    assert (Hrn : (rn <= size - length p)%nat /\ (rn <= 64)%nat /\ (rn = minrun \/ rn = size - length p)%nat).
    { unfold rn. destruct (Nat.ltb_spec (size - length p) minrun); lia. }
    assert (exists N R', (if (length M <? rn)%nat then do d <- bisort cmp (p ++ M' ++ R) (length p) (length M) rn;; Ok (rn, d) else Ok (length M, p ++ M' ++ R))
       = Ok (length N, p ++ N ++ R') /\ sorted cmp N /\ steq cmp (M ++ R) (N ++ R') /\ (rn <= length N)%nat) as (N & R' & -> & HsN & HeN & HlN).
    { destruct (Nat.ltb_spec (length M) rn) as [E|E].
      - unfold bisort.
        set (U := firstn (rn - length M) R). set (R' := skipn (rn - length M) R).
        assert (ER : R = U ++ R') by (symmetry; apply firstn_skipn).
        assert (HlU : length U = (rn - length M)%nat) by (unfold U; rewrite firstn_length; lia).
        destruct (bisort_spec cmp Hc U p M' R' (rn - length M) (length M) (length p)) as (W' & H1 & H2 & H3); auto.
        + intros ->. cbn in HlM. lia.
        + unfold INT_MAX. lia.
        + exists W', R'. rewrite ER, H1. cbn [bindr].
          assert (length W' = rn) by (rewrite <- (steq_length cmp _ _ H3), app_length; lia).
          rewrite H. split; [reflexivity|]. split; [exact H2|]. split; [|lia].
          rewrite app_assoc. apply steq_app; [|apply steq_refl]. apply steq_trans with (M' ++ U); [|exact H3].
          apply steq_app; [exact Hst1|apply steq_refl].
      - exists M', R. rewrite HlM. split; [reflexivity|]. split; [exact Hs|]. split; [apply steq_app; [exact Hst1|apply steq_refl]|lia]. }
    cbn [bindr].
    assert (Hlen : (length M + length R = length N + length R')%nat).
    { rewrite <- !app_length. apply (steq_length cmp). exact HeN. }
    assert (HN0 : (0 < length N)%nat) by lia.
    destruct (Nat.leb_spec STACK_MAX (length st)); [lia|].
    assert (Hst' : stk ((length p, length N) :: st) (p ++ N)) by (apply stk_cons; auto).
    assert (He' : steq cmp dst0 (p ++ N ++ R')).
    { eapply steq_trans; [exact He|]. apply steq_app; [apply steq_refl|exact HeN]. }
    destruct (Nat.eqb_spec (length p + length N) size) as [E|E].
    - left. destruct R' as [|? ?]; [|cbn in Hlen; lia]. rewrite app_nil_r in *.
      destruct (finish_spec (length ((length p, length N) :: st)) _ _ Hst' (le_n _) ltac:(discriminate)) as (q' & -> & H1 & H2).
      exists q'. split; [reflexivity|]. split; [exact H1|]. eapply steq_trans; eassumption.
    - right. exists (p ++ N ++ R'), (length p, length N). cbn [snd]. split; [reflexivity|].
      assert (32 <= length N)%nat by lia.
      split; [|lia]. exists (p ++ N), R'. rewrite <- app_assoc. split; [reflexivity|]. split; [exact Hst'|].
      split; [rewrite app_length; reflexivity|]. split; [intros ->; cbn in Hlen; lia|]. split; [rewrite !app_length; lia|].
      split; [exact He'|]. constructor; [cbn; lia|exact Hb].
  Qed.

  Lemma big_pos st : big st -> pos st.
  Proof. apply Forall_impl. intros r H. lia. Qed.

  (** A good stack of 128 runs covers at least 2^33 elements. *)
  Lemma stk_height : forall st q, stk st q -> goodst st -> big st -> (STACK_MAX <= length st)%nat -> 8589934592 <= Z.of_nat (length q).
  Proof.
    intros st q Hst (l & Hm & Hg & _) Hb Hn.
    assert (Hs : Z.of_nat (length q) = sum l).
    { clear Hg Hb Hn. revert l Hm. induction Hst as [|st p M off n Hst IH HM Ho Hn Hp]; intros l Hm.
      - destruct l; [reflexivity|discriminate].
      - destruct l as [|e l]; [discriminate|]. cbn in Hm. injection Hm as H1 H2. cbn [sum fold_right]. fold (sum l).
        rewrite app_length, Nat2Z.inj_add, (IH l H2). lia. }
    rewrite Hs. apply tall; [exact Hg| |].
    - assert (HL : length (map fst l) = length (lens st)) by (rewrite Hm; reflexivity). unfold lens in HL. rewrite !map_length in HL. exact (eq_ind_r (fun k => (128 <= k)%nat) Hn HL).
    - intros e He. assert (Hi : In (fst e) (lens st)) by (rewrite <- Hm; apply in_map, He).
      apply in_map_iff in Hi. destruct Hi as (r & <- & Hr). unfold big in Hb. rewrite Forall_forall in Hb. specialize (Hb r Hr). lia.
  Qed.

  Definition ready (st : list run) : Prop := (length st <= 3)%nat \/ goodst st \/ exists r G, st = r :: G /\ goodst G.

  Lemma ready_good st : ready st -> big st -> check_invariant st = true -> goodst st.
  Proof.
    intros [H|[H|(r & G & -> & H)]] Hb Hck; [|exact H|].
    - apply three_good; auto using big_pos.
    - apply push_good; auto. inversion Hb; subst. lia.
  Qed.

  Lemma ready_cpre st : ready st -> check_invariant st = false -> cpre st.
  Proof.
    intros [H|[H|(r & G & -> & H)]] Hck.
    - left. exact H.
    - exfalso. rewrite good_check in Hck; [discriminate| |exact H]. intros ->. discriminate.
    - destruct H as (l & Hm & Hg & Ht). destruct G as [|rb rest]; [left; cbn; lia|]. destruct l as [|y l]; [discriminate|].
      cbn in Hm. injection Hm as H1 H2. right. exists r, rb, rest, [], y, l. split; [reflexivity|]. split; [exact Hg|]. split; [exact H2|].
      split; [cbn; lia|]. left. split; [reflexivity|]. cbn in Ht. rewrite Ht. exact I.
  Qed.

  Lemma main_spec dst0 minrun size : (32 <= minrun <= 64)%nat -> forall fuel d st c, in_loop dst0 d st c size -> ready st ->
    (2 * (size - c) + length st < fuel)%nat ->
    (exists d', main_loop cmp fuel d st c size minrun = Ok d' /\ sorted_out dst0 d') \/
    (main_loop cmp fuel d st c size minrun = UB /\ 8589934592 <= Z.of_nat size).
  Proof.
    intros Hm. induction fuel as [|f IH]; intros d st c Hin Hd Hf; [lia|]. cbn [main_loop].
    destruct (check_invariant st) eqn:Ec.
    - assert (Hdec : goodst st).
      { apply ready_good; [exact Hd| |exact Ec]. destruct Hin as (p & rest & -> & Hst & -> & Hne & Hs & He & Hb). exact Hb. }
      destruct (Nat.lt_ge_cases (length st) STACK_MAX) as [Hh|Hh].
      + destruct (push_spec dst0 d st c size minrun Hin Hm Hh) as [(d' & -> & H1)|(d' & r & -> & H1 & H2 & H3)]; cbn [bindr].
        * left. eauto.
        * apply IH; [exact H1| |cbn [length]; lia]. right. right. eauto.
      + right. assert (Hsz : 8589934592 <= Z.of_nat size).
        { destruct Hin as (p & rest & -> & Hst & -> & Hne & -> & He & Hb).
          pose proof (stk_height st p Hst Hdec Hb Hh) as HH. rewrite app_length. lia. }
        split; [|exact Hsz].
        destruct Hin as (p & rest & -> & Hst & -> & Hne & Hs & He & Hb). unfold push_next.
        destruct (count_run_spec cmp Hc p rest (length p) size Hne eq_refl Hs) as (M & R & M' & -> & HM & -> & Hs1 & Hst1).
        cbn [bindr]. cbv zeta. set (rn := if (size - length p <? minrun)%nat then (size - length p)%nat else minrun).
        assert (HlM : length M = length M') by (apply (steq_length cmp), Hst1).
        assert (HM0 : (0 < length M)%nat) by (destruct M; [contradiction|cbn; lia]).
        rewrite !app_length in Hs.
        assert (Hrn : (rn <= size - length p)%nat /\ (rn <= 64)%nat) by (unfold rn; destruct (Nat.ltb_spec (size - length p) minrun); lia).
        destruct (Nat.leb_spec STACK_MAX (length st)); [|lia].
        destruct (Nat.ltb_spec (length M) rn); [|reflexivity].
        unfold bisort. rewrite <- (firstn_skipn (rn - length M) R).
        destruct (bisort_spec cmp Hc (firstn (rn - length M) R) p M' (skipn (rn - length M) R) (rn - length M) (length M) (length p)) as (W' & -> & _); auto.
        * intros ->. cbn in HlM. lia.
        * rewrite firstn_length. unfold INT_MAX. lia.
        * rewrite firstn_length. lia.
    - destruct Hin as (p & rest & -> & Hst & -> & Hne & Hs & He & Hb).
      destruct (collapse_spec size (S (length st)) st p rest Hst ltac:(lia) Hb) as (q' & st' & HC & H1 & H2 & H4 & _ & H5).
      pose proof (collapse_good cmp size _ _ _ _ _ HC (big_pos _ Hb) (ready_cpre _ Hd Ec)) as HG. rewrite HC.
      cbn [bindr]. specialize (H5 Ec). pose proof (steq_length cmp _ _ H2) as HL. apply IH.
      + exists q', rest. rewrite HL. split; [reflexivity|]. split; [exact H1|]. split; [reflexivity|]. split; [exact Hne|].
        split; [rewrite app_length in *; lia|]. split; [|exact H4]. eapply steq_trans; [exact He|]. apply steq_app; [exact H2|apply steq_refl].
      + right. left. exact HG.
      + lia.
  Qed.

  Lemma tsort_spec dst :
    (exists d, tsort cmp dst = Ok d /\ sorted_out dst d) \/ (tsort cmp dst = UB /\ 8589934592 <= Z.of_nat (length dst)).
  Proof.
    unfold tsort. destruct (Nat.ltb_spec (length dst) 64) as [E|E].
    - left. unfold bisort. destruct dst as [|x dst].
      + exists []. cbn. split; [reflexivity|]. split; [exact I|apply steq_refl].
      + destruct (bisort_spec cmp Hc dst [] [x] [] (length dst) 1 0) as (W' & H1 & H2 & H3); auto.
        * discriminate.
        * apply sorted_one.
        * unfold INT_MAX. cbn in *. lia.
        * cbn [app] in H1. rewrite !app_nil_r in H1. cbn [length Nat.sub]. rewrite Nat.sub_0_r. exists W'. split; [exact H1|]. split; [exact H2|exact H3].
    - set (minrun := compute_minrun (length dst)).
      assert (Hm : (32 <= minrun <= 64)%nat) by (apply minrun_loop_spec; lia).
      assert (H0 : in_loop dst dst [] 0 (length dst)).
      { exists [], dst. split; [reflexivity|]. split; [constructor|]. split; [reflexivity|].
        split; [intros ->; cbn in E; lia|]. split; [reflexivity|]. split; [apply steq_refl|constructor]. }
      destruct (push_spec dst dst [] 0 (length dst) minrun H0 Hm) as [(d1 & -> & H1)|(d1 & r1 & -> & H1 & C1 & S1)]; [cbn; unfold STACK_MAX; lia| |]; cbn [bindr].
      { left; eauto. }
      destruct (push_spec dst d1 _ _ (length dst) minrun H1 Hm) as [(d2 & -> & H2)|(d2 & r2 & -> & H2 & C2 & S2)]; [cbn; unfold STACK_MAX; lia| |]; cbn [bindr].
      { left; eauto. }
      destruct (push_spec dst d2 _ _ (length dst) minrun H2 Hm) as [(d3 & -> & H3)|(d3 & r3 & -> & H3 & C3 & S3)]; [cbn; unfold STACK_MAX; lia| |]; cbn [bindr].
      { left; eauto. }
      apply (main_spec dst minrun (length dst) Hm); [exact H3|left; cbn; lia|cbn [length]; lia].
  Qed.
End T.
