(** Proofs about clearing marks, redundancy removal and the merge-base set. *)
From Coq Require Import Permutation.
From Verif Require Import Base Arr PQueueModel GraphModel GraphSpec GraphProofs.

Lemma NoDup_map_on {A B} (f : A -> B) l : (forall a b, In a l -> In b l -> f a = f b -> a = b) -> NoDup l -> NoDup (map f l).
Proof.
  induction l as [|a l IH]; intros H N; [constructor|]. inversion N as [|? ? Ha Hl]; subst. cbn. constructor.
  - rewrite in_map_iff. intros (b & E & Hb). apply Ha. rewrite <- (H b a); cbn; auto.
  - apply IH; [|exact Hl]. intros; apply H; cbn; auto.
Qed.

Section Bases.
  Context (g : graph) (Hgen : forall n, 0 <= g_gen g n).
  Notation P := (g_parents g).
  Context (AC : acyclic P).

  Definition marked (w : walk) x := w_fl w x <> f0.
  Inductive mreach (w : walk) : nat -> nat -> Prop :=
  | mr_refl x : marked w x -> mreach w x x
  | mr_step c p x : marked w c -> In p (P c) -> mreach w p x -> mreach w c x.

  Lemma mreach_snoc w s c x : mreach w s c -> In x (P c) -> marked w x -> mreach w s x.
  Proof.
    induction 1; intros.
    - eapply mr_step; eauto. apply mr_refl. assumption.
    - eapply mr_step; eauto.
  Qed.

  Lemma mreach_clear w c s x : mreach w s x -> x <> c ->
    mreach (w_set w c f0) s x \/ exists p, In p (P c) /\ mreach (w_set w c f0) p x.
  Proof.
    assert (K : forall y, y <> c -> marked w y -> marked (w_set w c f0) y).
    { intros y N H. unfold marked. rewrite w_set_neq by exact N. exact H. }
    induction 1 as [x Hx|s p x Hs Hp Hr IH]; intros N.
    - left. apply mr_refl. auto.
    - destruct (IH N) as [H|H]; [|auto]. destruct (Nat.eq_dec s c) as [->|Ns]; [right; eauto|].
      left. eapply mr_step; eauto.
  Qed.

  Lemma clear_spec fuel : forall w stack w', clear_marks g fuel w stack = Ok w' ->
    forall S, (forall x, marked w x -> exists s, In s (stack ++ S) /\ mreach w s x) ->
    forall x, marked w' x -> exists s, In s S /\ mreach w' s x.
  Proof.
    induction fuel as [|fuel IH]; intros w stack w' H S HS x Hx; destruct stack as [|c rest]; cbn [clear_marks] in H; try discriminate.
    - injection H as <-. apply HS, Hx.
    - injection H as <-. apply HS, Hx.
    - destruct (f_eqb_spec (w_fl w c) f0) as [E|N].
      + eapply (IH _ _ _ H S); [|exact Hx]. intros y Hy. destruct (HS y Hy) as (s & [<-|Hs] & Hr); [|eauto].
        exfalso. inversion Hr; subst; unfold marked in *; congruence.
      + assert (G : forall st, (forall p, In p (P c) -> In p st) -> (forall s, In s rest -> In s st) ->
            clear_marks g fuel (w_set w c f0) st = Ok w' -> exists s, In s S /\ mreach w' s x).
        { intros st H1 H2 H3. eapply (IH _ _ _ H3 S); [|exact Hx]. intros y Hy.
          assert (Ny : y <> c). { intros ->. apply Hy. apply w_set_eq. }
          assert (Hy' : marked w y). { unfold marked in *. rewrite w_set_neq in Hy by exact Ny. exact Hy. }
          destruct (HS y Hy') as (s & Hs & Hr).
          destruct (mreach_clear w c s y Hr Ny) as [Hm|(p & Hp & Hm)].
          - exists s. split; [|exact Hm]. destruct Hs as [<-|Hs].
            + exfalso. inversion Hm as [? Hz|? ? ? Hz ?]; subst; apply Hz; apply w_set_eq.
            + apply in_app_or in Hs. apply in_or_app. destruct Hs; auto.
          - exists p. split; [apply in_or_app; left; auto|exact Hm]. }
        destruct (P c) as [|p0 ps] eqn:Ep.
        * eapply G; [| |exact H]; [intros p []|auto].
        * eapply G; [| |exact H].
          -- intros p [<-|Hp]; [left; reflexivity|right; apply in_or_app; left; rewrite <- in_rev; exact Hp].
          -- intros s Hs. right. apply in_or_app. auto.
  Qed.

  Lemma clear_both fuel one twos w q r w1 w2 : inv g one twos w q r ->
    clear_marks g fuel w [one] = Ok w1 -> clear_marks g fuel w1 (rev twos) = Ok w2 -> clean w2.
  Proof.
    intros I H1 H2.
    assert (F : forall x, marked w x <-> flagged w x).
    { intros x. unfold marked. split.
      - intros H. unfold flagged. destruct (fP1 (w_fl w x)) eqn:E1; [auto|]. destruct (fP2 (w_fl w x)) eqn:E2; [auto|].
        exfalso. destruct (fRES (w_fl w x)) eqn:E3; [apply (i_res _ _ _ _ _ _ I) in E3; destruct E3; congruence|].
        destruct (fSTALE (w_fl w x)) eqn:E4; [apply (i_st _ _ _ _ _ _ I) in E4; destruct E4 as (_ & ? & ?); congruence|].
        apply H. destruct (w_fl w x); cbn in *; subst; reflexivity.
      - intros [H|H] E; rewrite E in H; discriminate. }
    assert (HS : forall x, marked w x -> exists s, In s ([one] ++ rev twos) /\ mreach w s x).
    { intros x Hx. apply F in Hx. apply (i_path _ _ _ _ _ _ I) in Hx. induction Hx as [x Hs Hf|c x Hc IH Hp Hf].
      - exists x. split; [|apply mr_refl, F, Hf]. apply in_or_app. cbn. rewrite <- in_rev. destruct Hs as [->|]; auto.
      - destruct IH as (s & Hs & Hr). exists s. split; [exact Hs|]. eapply mreach_snoc; eauto. apply F, Hf. }
    assert (HS1 := clear_spec fuel _ _ _ H1 (rev twos) HS).
    assert (HS2 := clear_spec fuel _ _ _ H2 []).
    intros x. destruct (f_eqb_spec (w_fl w2 x) f0) as [E|N]; [exact E|]. exfalso.
    destruct (HS2 ltac:(intros y Hy; rewrite app_nil_r; apply HS1, Hy) x N) as (s & [] & _).
  Qed.

  (** ** insert_by_date *)
  Lemma insert_by_date_perm c l : Permutation (insert_by_date g c l) (c :: l).
  Proof.
    induction l as [|p r IH]; cbn; [apply Permutation_refl|].
    destruct (0 <? time_cmp g p c); [apply Permutation_refl|].
    eapply perm_trans; [constructor; exact IH|]. apply perm_swap.
  Qed.
  Lemma insert_by_date_sorted c l : newest_first (g_time g) l -> newest_first (g_time g) (insert_by_date g c l).
  Proof.
    induction l as [|p r IH]; cbn [insert_by_date newest_first]; [intros; split; [intros y []|exact I]|].
    intros (H1 & H2). unfold time_cmp. destruct (Z.ltb_spec (g_time g p) (g_time g c)); [|destruct (Z.ltb_spec (g_time g c) (g_time g p))]; cbn [Z.ltb Z.compare].
    - replace (0 <? 1) with true by reflexivity. split; [|split; auto]. intros y [<-|Hy]; [lia|]. specialize (H1 y Hy). lia.
    - replace (0 <? -1) with false by reflexivity. split; [|apply IH, H2].
      intros y Hy. apply (Permutation_in _ (insert_by_date_perm c r)) in Hy. destruct Hy as [<-|Hy]; [lia|auto].
    - replace (0 <? 0) with false by reflexivity. split; [|apply IH, H2].
      intros y Hy. apply (Permutation_in _ (insert_by_date_perm c r)) in Hy. destruct Hy as [<-|Hy]; [lia|auto].
  Qed.
  Lemma fold_insert (f : nat -> bool) l : forall acc, newest_first (g_time g) acc ->
    let r := fold_left (fun acc c => if f c then acc else insert_by_date g c acc) l acc in
    Permutation r (filter (fun c => negb (f c)) l ++ acc) /\ newest_first (g_time g) r.
  Proof.
    induction l as [|c l IH]; intros acc Ha; cbn [fold_left filter app].
    - auto.
    - destruct (f c); cbn [negb app]; [apply IH, Ha|].
      destruct (IH (insert_by_date g c acc) (insert_by_date_sorted c acc Ha)) as (H1 & H2). split; [|exact H2].
      eapply perm_trans; [exact H1|]. eapply perm_trans; [apply Permutation_app_head, insert_by_date_perm|].
      apply Permutation_sym, Permutation_middle.
  Qed.

  (** ** Redundancy removal *)
  Lemma parse_all_fl cs : forall w w', parse_all g cs w = Ok w' -> w_fl w' = w_fl w.
  Proof.
    induction cs as [|c cs IH]; intros w w' H; cbn in H; [congruence|].
    destruct (parse g w c) as [w1| | |] eqn:E; try discriminate. cbn [bindr] in H. rewrite (IH _ _ H). eapply parse_fl; eauto.
  Qed.

  Section Red.
    Context (commits : list nat).
    Notation C := (fun j => nth j commits 0%nat).
    Notation R := (fun (red : list bool) j => nth j red false).

    Lemma nth_upd_true red i j : nth j (upd red i true) false = true -> nth j red false = true \/ j = i.
    Proof.
      intros H. destruct (Nat.eq_dec j i) as [->|N]; [auto|left]. revert i j N H.
      induction red as [|b red IH]; intros [|i] [|j] N H; cbn in *; auto; try congruence. apply (IH i j); [lia|exact H].
    Qed.
    Lemma nth_upd_mono red i j : nth j red false = true -> nth j (upd red i true) false = true.
    Proof.
      revert i j. induction red as [|b red IH]; intros [|i] [|j] H; cbn in *; auto.
    Qed.
    Lemma nth_upd_set red i : (i < length red)%nat -> nth i (upd red i true) false = true.
    Proof. revert i. induction red as [|b red IH]; intros [|i] H; cbn in *; try lia; auto. apply IH. lia. Qed.

    Lemma round_spec fuel i w red w' red' : clean w -> (i < length commits)%nat -> length red = length commits ->
      redundant_round g fuel 0 commits i w red = Ok (w', red') ->
      clean w' /\ length red' = length commits /\ (forall j, R red j = true -> R red' j = true) /\
      (forall j, R red' j = true -> R red j = true \/ exists k, (k < length commits)%nat /\ k <> j /\ reach P (C k) (C j)) /\
      (forall m, (m < length commits)%nat -> m <> i -> R red m = false -> reach P (C m) (C i) -> R red' i = true).
    Proof.
      intros CL Hi HL H. unfold redundant_round in H. destruct (nth i red false) eqn:Ei.
      { injection H as <- <-. repeat split; auto. }
      cbv zeta in H.
      set (filled := filter (fun j => negb ((i =? j)%nat || nth j red false)) (seq 0 (length commits))) in *.
      set (work := map C filled) in *.
      destruct (paint_down_to_common g fuel 0 w (C i) work) as [[w1 rr]| | |] eqn:Ep; try discriminate. cbn [bindr] in H.
      destruct (paint_inv g Hgen AC (C i) work fuel w w1 rr CL Ep) as (q & I & Q).
      destruct (clear_marks g fuel w1 [C i]) as [w2| | |] eqn:E2; try discriminate. cbn [bindr] in H.
      destruct (clear_marks g fuel w2 (rev work)) as [w3| | |] eqn:E3; try discriminate. cbn [bindr] in H.
      injection H as <- <-.
      assert (Hf : forall j, In j filled <-> (j < length commits)%nat /\ j <> i /\ R red j = false).
      { intros j. unfold filled. rewrite filter_In, in_seq, negb_true_iff, orb_false_iff, Nat.eqb_neq. intuition lia. }
      set (red1 := if fP2 (w_fl w1 (C i)) then upd red i true else red).
      assert (L1 : length red1 = length commits) by (unfold red1; destruct (fP2 _); rewrite ?upd_length; exact HL).
      assert (G : forall l r0, (forall j, In j l -> In j filled) ->
        let r1 := fold_left (fun r j => if fP1 (w_fl w1 (nth j commits 0%nat)) then upd r j true else r) l r0 in
        length r1 = length r0 /\ (forall j, R r0 j = true -> R r1 j = true) /\
        (forall j, R r1 j = true -> R r0 j = true \/ (In j l /\ fP1 (w_fl w1 (C j)) = true))).
      { induction l as [|j l IH]; intros r0 Hl; cbn [fold_left]; [repeat split; auto|].
        destruct (IH (if fP1 (w_fl w1 (nth j commits 0%nat)) then upd r0 j true else r0)) as (A1 & A2 & A3); [intros; apply Hl; right; assumption|].
        cbv zeta in *. split; [|split].
        - rewrite A1. destruct (fP1 _); rewrite ?upd_length; reflexivity.
        - intros k Hk. apply A2. destruct (fP1 _); [apply nth_upd_mono|]; exact Hk.
        - intros k Hk. destruct (A3 k Hk) as [Hk1|(Hk1 & Hk2)]; [|right; split; [right|]; assumption].
          destruct (fP1 (w_fl w1 (nth j commits 0%nat))) eqn:Ej; [|auto].
          apply nth_upd_true in Hk1. destruct Hk1 as [| ->]; [auto|]. right. split; [left; reflexivity|exact Ej]. }
      destruct (G filled red1 (fun j H => H)) as (A1 & A2 & A3). cbv zeta in A1, A2, A3.
      split; [eapply clear_both; eauto|]. split; [congruence|]. split; [|split].
      - intros j Hj. apply A2. unfold red1. destruct (fP2 _); [apply nth_upd_mono|]; exact Hj.
      - intros j Hj. destruct (A3 j Hj) as [Hj1|(Hj1 & Hj2)].
        + unfold red1 in Hj1. destruct (fP2 (w_fl w1 (C i))) eqn:Ef; [|auto].
          apply nth_upd_true in Hj1. destruct Hj1 as [| ->]; [auto|]. right.
          apply (i_P2 _ _ _ _ _ _ I) in Ef. destruct Ef as (t & Ht & Hr). unfold work in Ht. apply in_map_iff in Ht.
          destruct Ht as (k & <- & Hk). apply Hf in Hk. exists k. tauto.
        + right. apply (i_P1 _ _ _ _ _ _ I) in Hj2. apply Hf in Hj1. exists i. split; [exact Hi|]. split; [|exact Hj2].
          destruct Hj1 as (_ & ? & _). congruence.
      - intros m Hm Nm Hr Hreach.
        assert (F2 : fP2 (w_fl w1 (C i)) = true).
        { assert (Hw : In (C m) work) by (unfold work; apply (in_map C); apply Hf; auto).
          apply (travel2 g (C i) work w1 q rr I Q (C m) (C i) Hreach); [apply (i_twos _ _ _ _ _ _ I), Hw|].
          intros y _ Hy2 Hy3 Hy4. apply Hy3. eapply reach_antisym; eauto. }
        apply A2. unfold red1. rewrite F2. apply nth_upd_set. rewrite HL. exact Hi.
    Qed.

    Lemma loop_spec fuel : forall is w red w' red', clean w -> (forall i, In i is -> (i < length commits)%nat) -> length red = length commits ->
      redundant_loop g fuel 0 commits is w red = Ok (w', red') ->
      length red' = length commits /\ (forall j, R red j = true -> R red' j = true) /\
      (forall j, R red' j = true -> R red j = true \/ exists k, (k < length commits)%nat /\ k <> j /\ reach P (C k) (C j)) /\
      (forall i m, In i is -> (m < length commits)%nat -> m <> i -> R red' m = false -> reach P (C m) (C i) -> R red' i = true).
    Proof.
      induction is as [|i is IH]; intros w red w' red' CL His HL H; cbn [redundant_loop] in H.
      - injection H as <- <-. repeat split; auto; intros i m [].
      - destruct (redundant_round g fuel 0 commits i w red) as [[w1 red1]| | |] eqn:Er; try discriminate. cbn [bindr] in H.
        destruct (round_spec fuel i w red w1 red1 CL (His i (or_introl eq_refl)) HL Er) as (B1 & B2 & B3 & B4 & B5).
        destruct (IH _ _ _ _ B1 (fun j Hj => His j (or_intror Hj)) B2 H) as (D1 & D2 & D3 & D4).
        split; [exact D1|]. split; [auto|]. split.
        + intros j Hj. destruct (D3 j Hj) as [Hj1|]; [|auto]. apply B4, Hj1.
        + intros k m [<-|Hk] Hm Nm Hr Hre; [|eapply D4; eauto]. apply D2. eapply B5; eauto.
          destruct (nth m red false) eqn:Em; [|reflexivity]. rewrite (D2 m (B3 m Em)) in Hr. discriminate.
    Qed.

    (** ¬¬ existence of a maximal element above a given one. *)
    Lemma nn_maximal (Q : nat -> Prop) (l : list nat) : (forall x, Q x -> In x l) ->
      forall c, Q c -> ~ ~ exists m, Q m /\ reach P m c /\ forall v, Q v -> reach P v m -> v = m.
    Proof.
      intros HQ c Hc.
      assert (G : forall l, ~ ~ exists m, Q m /\ reach P m c /\ forall v, In v l -> Q v -> reach P v m -> v = m).
      { clear l HQ. induction l as [|v l IH]; intros N.
        - apply N. exists c. split; [exact Hc|]. split; [constructor|]. intros v [].
        - apply IH. intros (m & Hm & Hmc & Hml). 
          assert (D : ~ ~ ((Q v /\ reach P v m) \/ ~ (Q v /\ reach P v m))) by tauto.
          apply D. intros [(Hv & Hvm)|Hn]; apply N.
          + exists v. split; [exact Hv|]. split; [eapply reach_trans; eauto|].
            intros u [<-|Hu] Qu Hr; [reflexivity|].
            assert (u = m) by (apply Hml; auto; eapply reach_trans; eauto). subst u. eapply reach_antisym; eauto.
          + exists m. split; [exact Hm|]. split; [exact Hmc|]. intros u [<-|Hu] Qu Hr; [|auto]. exfalso. apply Hn. auto. }
      intros N. apply (G l). intros (m & H1 & H2 & H3). apply N. exists m. auto.
    Qed.

    Lemma remove_redundant_spec fuel w kept : clean w -> NoDup commits -> remove_redundant g fuel 0 w commits = Ok kept ->
      NoDup kept /\ forall x, In x kept <-> In x commits /\ forall y, In y commits -> reach P y x -> y = x.
    Proof.
      intros CL ND H. unfold remove_redundant in H.
      destruct (parse_all g commits w) as [w1| | |] eqn:Epa; try discriminate. cbn [bindr] in H.
      destruct (redundant_loop g fuel 0 commits (seq 0 (length commits)) w1 (repeat false (length commits))) as [[w2 red]| | |] eqn:El; try discriminate.
      cbn [bindr] in H. injection H as <-.
      assert (CL1 : clean w1) by (intros x; rewrite (parse_all_fl _ _ _ Epa); apply CL).
      destruct (loop_spec fuel _ _ _ _ _ CL1 (fun i Hi => proj2 (proj1 (in_seq (length commits) 0 i) Hi)) (repeat_length false _) El) as (D1 & D2 & D3 & D4).
      assert (R0 : forall j, nth j (repeat false (length commits)) false = false).
      { intros j. destruct (nth_in_or_default j (repeat false (length commits)) false) as [Hi| ->]; [|reflexivity].
        eapply repeat_spec; eauto. }
      assert (D3' : forall j, R red j = true -> exists k, (k < length commits)%nat /\ k <> j /\ reach P (C k) (C j)).
      { intros j Hj. destruct (D3 j Hj) as [Hj1|]; [|assumption]. rewrite R0 in Hj1. discriminate. }
      assert (IX : forall i j, (i < length commits)%nat -> (j < length commits)%nat -> C i = C j -> i = j).
      { intros i j Hi Hj E. apply (proj1 (NoDup_nth commits 0%nat) ND i j Hi Hj E). }
      split.
      - apply NoDup_map_on.
        + intros a b Ha Hb E. apply filter_In in Ha, Hb. rewrite in_seq in Ha, Hb. apply IX; [lia|lia|exact E].
        + apply NoDup_filter, seq_NoDup.
      - intros x. rewrite in_map_iff. split.
        + intros (i & <- & Hi). apply filter_In in Hi. rewrite in_seq, negb_true_iff in Hi. destruct Hi as (Hi & Hr).
          split; [apply nth_In; lia|]. intros y Hy Hre. destruct (Nat.eq_dec y (C i)) as [|N]; [assumption|]. exfalso.
          apply (nn_maximal (fun z => In z commits) commits (fun z H => H) y Hy). intros (m & Hm & Hmy & Hmax).
          apply In_nth with (d := 0%nat) in Hm. destruct Hm as (k & Hk & Ek).
          assert (Nk : k <> i).
          { intros ->. apply N. rewrite <- Ek in Hmy. eapply reach_antisym; eauto. }
          assert (Hkr : R red k = false).
          { destruct (nth k red false) eqn:Er; [|reflexivity]. destruct (D3' k Er) as (k' & Hk' & Nk' & Hr').
            exfalso. apply Nk'. apply IX; auto. rewrite Ek. apply Hmax; [apply nth_In; exact Hk'|]. rewrite <- Ek. exact Hr'. }
          assert (R red i = true); [|congruence].
          eapply (D4 i k); auto; [apply in_seq; lia|]. cbv beta. rewrite Ek. eapply reach_trans; eauto.
        + intros (Hx & Hmax). apply In_nth with (d := 0%nat) in Hx. destruct Hx as (i & Hi & <-). exists i. split; [reflexivity|].
          apply filter_In. split; [apply in_seq; lia|]. apply negb_true_iff.
          destruct (nth i red false) eqn:Er; [|reflexivity]. destruct (D3' i Er) as (k & Hk & Nk & Hr).
          exfalso. apply Nk. apply IX; auto. apply Hmax; [apply nth_In; exact Hk|exact Hr].
    Qed.
  End Red.

  (** ** The merge-base set *)
  Lemma bases_many_spec fuel V one twos w r : clean w -> history P V (one :: twos) ->
    bases_many g fuel w one twos 0 = Ok r ->
    NoDup r /\ newest_first (g_time g) r /\ forall m, In m r <-> best_common P one twos m.
  Proof.
    intros CL HV H.
    assert (HC : forall c, common P one twos c -> In c V).
    { intros c (Hc & _). eapply history_reach; [exact HV|left; reflexivity|exact Hc]. }
    assert (nn : forall c, common P one twos c -> ~ ~ exists m, best_common P one twos m /\ reach P m c).
    { intros c Hc N. apply (nn_maximal (common P one twos) V HC c Hc). intros (m & H1 & H2 & H3). apply N. exists m. split; [split|]; auto. }
    unfold bases_many in H. destruct twos as [|two0 twos'] eqn:Etw.
    { injection H as <-. split; [constructor|]. split; [exact I|]. intros m. split; [intros []|]. intros ((_ & t & [] & _) & _). }
    rewrite <- Etw in *. clear Etw two0 twos'.
    destruct (existsb (fun two => (one =? two)%nat) twos) eqn:Ex.
    { injection H as <-. apply existsb_exists in Ex. destruct Ex as (t & Ht & E). apply Nat.eqb_eq in E. subst t.
      split; [repeat constructor; auto|]. split; [split; [intros y []|exact I]|]. intros m.
      assert (Ho : common P one twos one) by (split; [constructor|exists one; split; [exact Ht|constructor]]).
      split.
      - intros [<-|[]]. split; [exact Ho|]. intros c (Hc & _) Hr. eapply reach_antisym; eauto.
      - intros ((Hm & _) & Hb). left. apply Hb; auto. }
    destruct (parse g w one) as [w1| | |] eqn:Epa; try discriminate. cbn [bindr] in H.
    destruct (paint_down_to_common g fuel 0 w1 one twos) as [[w2 rr]| | |] eqn:Ep; try discriminate. cbn [bindr] in H. cbv zeta in H.
    assert (CL1 : clean w1) by (intros x; rewrite (parse_fl _ _ _ _ Epa); apply CL).
    destruct (paint_inv g Hgen AC one twos fuel w1 w2 rr CL1 Ep) as (q & IV & Q).
    destruct (fold_insert (fun c => fSTALE (w_fl w2 c)) rr []) as (HP & HS); [exact I|]. cbv zeta in HP, HS.
    set (live := fold_left (fun acc c => if fSTALE (w_fl w2 c) then acc else insert_by_date g c acc) rr []) in *.
    rewrite app_nil_r in HP.
    assert (NDl : NoDup live).
    { eapply Permutation_NoDup; [apply Permutation_sym; exact HP|]. apply NoDup_filter, (i_nd _ _ _ _ _ _ IV). }
    assert (Lc : forall x, In x live -> common P one twos x).
    { intros x Hx. apply (Permutation_in _ HP) in Hx. apply filter_In in Hx. destruct Hx as (Hx & _).
      apply (i_r _ _ _ _ _ _ IV) in Hx. apply (i_res _ _ _ _ _ _ IV) in Hx. destruct Hx as (H1 & H2).
      split; [apply (i_P1 _ _ _ _ _ _ IV), H1|apply (i_P2 _ _ _ _ _ _ IV), H2]. }
    assert (Lb : forall m, best_common P one twos m -> In m live).
    { intros m Hm. destruct (best_is_result g AC one twos w2 q rr IV Q m Hm) as (H1 & H2).
      eapply Permutation_in; [apply Permutation_sym; exact HP|]. apply filter_In. rewrite H2. auto. }
    assert (Lx : forall x, In x live -> (forall y, In y live -> reach P y x -> y = x) -> best_common P one twos x).
    { intros x Hx Hmax. split; [apply Lc, Hx|]. intros c Hc Hr. destruct (Nat.eq_dec c x) as [|N]; [assumption|]. exfalso.
      apply (nn c Hc). intros (m & Hm & Hmc). apply N. assert (m = x) by (apply Hmax; [apply Lb, Hm|eapply reach_trans; eauto]).
      subst m. eapply reach_antisym; eauto. }
    destruct (1 <? length live)%nat eqn:El.
    - destruct (clear_marks g fuel w2 [one]) as [w3| | |] eqn:E3; try discriminate. cbn [bindr] in H.
      destruct (clear_marks g fuel w3 (rev twos)) as [w4| | |] eqn:E4; try discriminate. cbn [bindr] in H.
      destruct (remove_redundant g fuel 0 w4 live) as [kept| | |] eqn:Er; try discriminate. cbn [bindr] in H. injection H as <-.
      assert (CL4 : clean w4) by (eapply clear_both; eauto).
      destruct (remove_redundant_spec live fuel w4 kept CL4 NDl Er) as (NDk & HK).
      destruct (fold_insert (fun _ => false) kept []) as (HPk & HSk); [exact I|]. cbv zeta in HPk, HSk. cbn [negb] in HPk.
      rewrite app_nil_r in HPk. replace (filter (fun _ : nat => true) kept) with kept in HPk
        by (clear; induction kept; cbn; congruence).
      split; [eapply Permutation_NoDup; [apply Permutation_sym; exact HPk|exact NDk]|]. split; [exact HSk|].
      intros m. split.
      + intros Hm. apply (Permutation_in _ HPk) in Hm. apply HK in Hm. destruct Hm. apply Lx; auto.
      + intros Hm. eapply Permutation_in; [apply Permutation_sym; exact HPk|]. apply HK. split; [apply Lb, Hm|].
        intros y Hy Hr. apply Hm; [apply Lc, Hy|exact Hr].
    - injection H as <-. apply Nat.ltb_ge in El. split; [exact NDl|]. split; [exact HS|]. intros m. split; [|apply Lb].
      intros Hm. apply Lx; [exact Hm|]. intros y Hy _. destruct live as [|a [|b l]]; cbn in El; try lia; [destruct Hm|].
      destruct Hm as [<-|[]], Hy as [<-|[]]. reflexivity.
  Qed.
End Bases.
