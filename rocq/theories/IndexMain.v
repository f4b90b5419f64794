(** The operations of the in-memory index, each against its specification. *)
From Verif Require Import Base Arr Str CStr VectorModel VectorSpec VectorProofs WildModel IndexModel IndexSpec IndexProofs.
From Coq Require Import Sorting.Sorted.

(** *** Each operation *)
Lemma map_remove_id ic ix p st : inv ic ix -> (forall x, In x (items (i_ents ix)) -> ~ same_key ic p st (e_path x) (e_stage x)) ->
  map_remove ic (i_map ix) p st = i_map ix.
Proof.
  intros Hi H. unfold map_remove. rewrite (filter_ext_in _ (fun _ => true)).
  - induction (i_map ix) as [|z zs IHz]; cbn; [reflexivity|f_equal; exact IHz].
  - intros x Hx. apply (Permutation_in _ (Permutation_sym (inv_map _ _ Hi))) in Hx.
    destruct (key_eq ic p st x) eqn:E; [|reflexivity]. apply key_eq_spec in E. exfalso. exact (H x Hx E).
Qed.
Lemma map_remove_cong ic m p st e : same_key ic p st (e_path e) (e_stage e) ->
  map_remove ic (map_remove ic m p st) (e_path e) (e_stage e) = map_remove ic m (e_path e) (e_stage e).
Proof.
  intros [H1 H2]. unfold map_remove. assert (K : forall x, key_eq ic p st x = key_eq ic (e_path e) (e_stage e) x).
  { intros x. destruct (key_eq ic p st x) eqn:A; destruct (key_eq ic (e_path e) (e_stage e) x) eqn:B; try reflexivity.
    - apply key_eq_spec in A as [A1 A2]. assert (same_key ic (e_path e) (e_stage e) (e_path x) (e_stage x)) as C by (split; congruence). apply key_eq_spec in C. congruence.
    - apply key_eq_spec in B as [A1 A2]. assert (same_key ic p st (e_path x) (e_stage x)) as C by (split; congruence). apply key_eq_spec in C. congruence. }
  induction m as [|x m IH]; cbn; [reflexivity|]. rewrite (K x). destruct (key_eq ic (e_path e) (e_stage e) x) eqn:E; cbn; [exact IH|].
  rewrite E. cbn. f_equal. exact IH.
Qed.
Lemma land3 st : 0 <= st <= 3 -> Z.land st 3 = st.
Proof. intros H. assert (st = 0 \/ st = 1 \/ st = 2 \/ st = 3) as [->|[->|[->| ->]]] by lia; reflexivity. Qed.

Lemma remove_spec ic ix p st : inv ic ix -> 0 <= st <= 3 ->
  exists c ix', index_remove ic ix p st = Ok (c, ix') /\ inv ic ix' /\ i_next ix' = i_next ix /\
    (forall x, In x (items (i_ents ix')) <-> In x (items (i_ents ix)) /\ ~ same_key ic p st (e_path x) (e_stage x)) /\
    (c = 0 /\ (exists x, In x (items (i_ents ix)) /\ same_key ic p st (e_path x) (e_stage x)) \/
     c = -3 /\ (forall x, In x (items (i_ents ix)) -> ~ same_key ic p st (e_path x) (e_stage x)) /\ ix' = ix).
Proof.
  intros Hi Hst. unfold index_remove. rewrite land3 by lia.
  destruct (ifind_spec ic ix p st Hi) as (found & pos & Ef & A). destruct (answer_found _ _ _ _ A) as [A1 A2].
  set (ix0 := mki (i_ents ix) (map_remove ic (i_map ix) p st) (i_next ix)).
  assert (E0 : ifind ic ix0 p st = Ok (found, pos, ix0)).
  { unfold ifind, vbsearch, vsort in *. unfold ix0. cbn [i_ents i_map i_next] in *. rewrite (inv_flag _ _ Hi) in *. cbn [bindr] in *.
    destruct (bsearch (items (i_ents ix)) (srch ic p st)) as [[f q]| | |]; cbn [bindr] in *; try discriminate. injection Ef as -> -> _. reflexivity. }
  rewrite E0. cbn [bindr]. destruct found.
  - destruct (A1 eq_refl) as (e & He & Hk). rewrite srch_ecmp in Hk by lia. apply ecmp_eq in Hk. cbn [e_path e_stage] in Hk.
    destruct (remove_entry_spec ic ix pos e Hi He) as (a & b & ix' & E & L & R & I' & J' & N').
    assert (remove_entry ic ix0 pos = (0, ix')) as R0.
    { rewrite <- R. unfold remove_entry, ix0. cbn [i_ents i_map i_next]. rewrite He. rewrite map_remove_cong by exact Hk. reflexivity. }
    exists 0, ix'. rewrite R0. split; [reflexivity|]. split; [exact J'|]. split; [exact N'|].
    assert (Hu : forall x, In x (items (i_ents ix)) -> same_key ic p st (e_path x) (e_stage x) -> x = e).
    { intros x Hx Hs. apply (ss_key ic (items (i_ents ix)) x e (inv_sorted _ _ Hi) Hx (nth_error_In _ _ He)). apply ecmp_eq. destruct Hs, Hk. split; congruence. }
    assert (Hne : ~ In e (items (i_ents ix'))).
    { rewrite I'. assert (P := inv_ptr _ _ Hi). rewrite E, map_app in P. cbn in P. apply NoDup_remove_2 in P. intros Hin. apply P. rewrite <- map_app. apply in_map, Hin. }
    split.
    + intros x. split.
      * intros Hx. assert (Hx' : In x (items (i_ents ix))) by (rewrite E; rewrite I' in Hx; apply in_app_or in Hx; apply in_or_app; cbn; tauto).
        split; [exact Hx'|]. intros Hs. apply Hne. rewrite <- (Hu x Hx' Hs). exact Hx.
      * intros [Hx Hs]. rewrite E in Hx. rewrite I'. apply in_app_or in Hx as [Hx|[<-|Hx]]; [apply in_or_app; auto|contradiction|apply in_or_app; auto].
    + left. split; [reflexivity|]. exists e. split; [eapply nth_error_In, He|exact Hk].
  - assert (Hno : forall x, In x (items (i_ents ix)) -> ~ same_key ic p st (e_path x) (e_stage x)).
    { intros x Hx Hs. apply (A2 eq_refl x Hx). rewrite srch_ecmp by lia. apply ecmp_eq. exact Hs. }
    assert (ix0 = ix) as -> by (unfold ix0; rewrite map_remove_id by assumption; destruct ix; reflexivity).
    exists (-3), ix. split; [reflexivity|]. split; [exact Hi|]. split; [reflexivity|]. split; [intros x; split; [intros Hx; auto|tauto]|]. auto.
Qed.

Lemma answer_pos {A} (l : list A) cmp found pos : search_answer l cmp found pos -> (pos <= length l)%nat.
Proof.
  destruct found; intros H; [|apply H]. destruct H as (e & H & _). assert (pos < length l)%nat by (apply nth_error_Some; congruence). lia.
Qed.
Lemma remove_dir_spec ic ix dir st : inv ic ix ->
  exists ix', index_remove_directory ic ix dir st = Ok (0, ix') /\
    removes ic (fun e => e_stage e = st /\ starts_with (to_dir dir) (e_path e)) ix ix' /\
    (ic = false -> (forall e, In e (items (i_ents ix)) -> e_path e <> to_dir dir) ->
     forall x, In x (items (i_ents ix')) <-> In x (items (i_ents ix)) /\ ~ (e_stage x = st /\ starts_with (to_dir dir) (e_path x))).
Proof.
  intros Hi. unfold index_remove_directory. destruct (ifind_spec ic ix (to_dir dir) (-1) Hi) as (found & pos & Ef & A). rewrite Ef. cbn [bindr].
  assert (Hp := answer_pos _ _ _ _ A).
  assert (Lf : length (firstn pos (items (i_ents ix))) = pos) by (rewrite firstn_length; lia).
  destruct (remove_dir_prune ic (to_dir dir) st (S (2 * length (items (i_ents ix)))) ix (firstn pos (items (i_ents ix))) (skipn pos (items (i_ents ix))) Hi) as (ix' & E & J & N & I');
    [symmetry; apply firstn_skipn|rewrite skipn_length; lia|].
  rewrite Lf in E. exists ix'. split; [exact E|].
  assert (Hinc : incl (items (i_ents ix')) (items (i_ents ix))).
  { intros x Hx. rewrite I' in Hx. rewrite <- (firstn_skipn pos (items (i_ents ix))). apply in_app_or in Hx. apply in_or_app. destruct Hx as [Hx|Hx]; [auto|right; apply prune_incl in Hx; exact Hx]. }
  assert (Hkeep : forall e, In e (items (i_ents ix)) -> In e (items (i_ents ix')) \/ (e_stage e = st /\ starts_with (to_dir dir) (e_path e))).
  { intros x Hx. rewrite I'. rewrite <- (firstn_skipn pos (items (i_ents ix))) in Hx. apply in_app_or in Hx as [Hx|Hx]; [left; apply in_or_app; auto|].
    destruct (prune_keep (rd_stop (to_dir dir)) (fun p => e_stage p =? st) _ x Hx) as [H|[H1 H2]]; [left; apply in_or_app; auto|].
    right. split; [apply Z.eqb_eq, H2|]. unfold rd_stop in H1. apply negb_false_iff in H1. apply prefixb_spec, H1. }
  split; [split; [exact J|split; [exact N|split; assumption]]|].
  intros -> Hne x. split.
  2:{ intros [Hx Hs]. destruct (Hkeep x Hx); [assumption|contradiction]. }
  intros Hx. split; [apply Hinc, Hx|]. intros [Hs Hpre].
  (* not found: an entry equal to the directory name is excluded *)
  assert (found = false) as ->.
  { destruct found; [|reflexivity]. destruct A as (e & He & Hk). rewrite srch_eq in Hk. change (-1 =? -1) with true in Hk. cbv iota in Hk.
    destruct (Z.eqb_spec (pcmp false (to_dir dir) (e_path e)) 0) as [E0|]; [|contradiction]. apply pcmp_eq in E0. rewrite !folded_false in E0.
    exfalso. exact (Hne e (nth_error_In _ _ He) (eq_sym E0)). }
  destruct A as (_ & A1 & A2).
  assert (Hlex : forall y, srch false (to_dir dir) (-1) y = pcmp false (to_dir dir) (e_path y)).
  { intros y. rewrite srch_eq. change (-1 =? -1) with true. cbv iota. destruct (Z.eqb_spec (pcmp false (to_dir dir) (e_path y)) 0); congruence. }
  rewrite I' in Hx. apply in_app_or in Hx as [Hx|Hx].
  - apply In_nth_error in Hx as [i Hx]. assert (i < length (firstn pos (items (i_ents ix))))%nat by (apply nth_error_Some; congruence).
    assert (nth_error (items (i_ents ix)) i = Some x) as Hxi by (rewrite <- (firstn_skipn pos (items (i_ents ix))), nth_error_app1 by lia; exact Hx).
    specialize (A1 i x ltac:(lia) Hxi). rewrite Hlex in A1. apply pcmp_gt in A1. rewrite !folded_false in A1.
    destruct Hpre as [v Hv]. destruct v as [|c v]; [rewrite Hv, app_nil_r, lex_refl in A1; discriminate|]. rewrite Hv, lex_prefix in A1 by discriminate. discriminate.
  - rewrite prune_filter in Hx.
    + apply filter_In in Hx as [_ Hx]. unfold rd_stop in Hx. apply prefixb_spec in Hpre. rewrite Hpre, Hs, Z.eqb_refl in Hx. discriminate.
    + intros a b p Eab Sp q Hq. unfold rd_stop in *. apply negb_true_iff in Sp. apply negb_true_iff. destruct (prefixb (to_dir dir) (e_path q)) eqn:Pq; [|reflexivity]. exfalso.
      apply prefixb_spec in Pq as [v Hv].
      assert (firstn (length (to_dir dir)) (e_path q) = to_dir dir) as Fq by (rewrite Hv, firstn_app, firstn_all, Nat.sub_diag; apply app_nil_r).
      revert Fq. apply (prefix_gap _ (e_path p) (e_path q)).
      * assert (Hip : In p (skipn pos (items (i_ents ix)))) by (rewrite Eab; apply in_or_app; right; left; reflexivity).
        apply In_nth_error in Hip as [i Hip].
        assert (nth_error (items (i_ents ix)) (pos + i) = Some p) as Hpi by (rewrite <- (firstn_skipn pos (items (i_ents ix))), nth_error_app2 by lia; rewrite Lf; replace (pos + i - pos)%nat with i by lia; exact Hip).
        specialize (A2 (pos + i)%nat p ltac:(lia) Hpi). rewrite Hlex in A2. apply pcmp_lt in A2. rewrite !folded_false in A2. exact A2.
      * intros Fp. assert (starts_with (to_dir dir) (e_path p)) as Sw by (exists (skipn (length (to_dir dir)) (e_path p)); rewrite <- Fp at 1; symmetry; apply firstn_skipn).
        apply prefixb_spec in Sw. congruence.
      * assert (S := inv_sorted _ _ Hi). rewrite <- (firstn_skipn pos (items (i_ents ix))), Eab in S. apply ss_app in S as (_ & S & _). apply ss_app in S as (_ & S & _).
        apply StronglySorted_inv in S as [_ S]. rewrite Forall_forall in S. specialize (S q Hq). unfold slt in S.
        assert (S1 : ecmp false p q <= 0) by lia. apply ecmp_le_pcmp in S1. assert (X := pcmp_lex false (e_path p) (e_path q)). rewrite !folded_false in X.
        rewrite <- X. unfold sgn_cmp. destruct (Z.compare_spec (pcmp false (e_path p) (e_path q)) 0); [discriminate|discriminate|lia].
Qed.

(** Finding by path. *)
Lemma back_up_spec ic l path : forall pos, (pos <= length l)%nat ->
  exists p, back_up ic l path pos = Ok p /\ (p <= pos)%nat /\
    (forall i e, (p <= i < pos)%nat -> nth_error l i = Some e -> pcmp ic (e_path e) path = 0) /\
    (forall e, (0 < p)%nat -> nth_error l (p - 1) = Some e -> pcmp ic (e_path e) path <> 0).
Proof.
  induction pos as [|pos IH]; intros Hl.
  { exists 0%nat. split; [reflexivity|]. split; [lia|]. split; intros; lia. }
  cbn [back_up]. destruct (aget_ok l pos ltac:(lia)) as (x & Ex & Hx). rewrite Ex. cbn [bindr].
  destruct (Z.eqb_spec (pcmp ic (e_path x) path) 0) as [E|N].
  - destruct (IH ltac:(lia)) as (p & Ep & L & H1 & H2). exists p. split; [exact Ep|]. split; [lia|]. split; [|exact H2].
    intros i e Hi He. destruct (Nat.eq_dec i pos) as [->|]; [congruence|]. apply (H1 i e); [lia|exact He].
  - exists (S pos). split; [reflexivity|]. split; [lia|]. split; [intros; lia|]. intros e _ He. cbn [Nat.sub] in He. rewrite Nat.sub_0_r in He. congruence.
Qed.
Lemma find_spec ic ix path : inv ic ix ->
  (index_find ic ix path = Ok (None, ix) /\ forall e, In e (items (i_ents ix)) -> folded ic (e_path e) <> folded ic path) \/
  (exists pos e, index_find ic ix path = Ok (Some pos, ix) /\ nth_error (items (i_ents ix)) pos = Some e /\ folded ic (e_path e) = folded ic path /\
     forall i x, (i < pos)%nat -> nth_error (items (i_ents ix)) i = Some x -> lex (folded ic (e_path x)) (folded ic path) = Lt).
Proof.
  intros Hi. unfold index_find, vbsearch, vsort. rewrite (inv_flag _ _ Hi). cbn [bindr].
  assert (Hord : ordered_for (items (i_ents ix)) (srch_path ic path)).
  { intros i j x y Hij Hx Hy. assert (R := srch_ordered ic (items (i_ents ix)) path (-1) (inv_sorted _ _ Hi) i j x y Hij Hx Hy).
    rewrite !srch_eq in R. change (-1 =? -1) with true in R. cbv iota in R.
    assert (Q : forall z, (if pcmp ic path z =? 0 then 0 else pcmp ic path z) = pcmp ic path z) by (intros z; destruct (Z.eqb_spec (pcmp ic path z) 0); lia).
    rewrite !Q in R. exact R. }
  destruct (bsearch_spec _ _ Hord) as (found & pos & E & A). rewrite E. cbn [bindr].
  replace (mki (i_ents ix) (i_map ix) (i_next ix)) with ix by (destruct ix; reflexivity).
  destruct (answer_found _ _ _ _ A) as [A1 A2]. destruct found.
  - right. assert (Hp := answer_pos _ _ _ _ A). destruct (A1 eq_refl) as (e & He & Hk). unfold srch_path in Hk.
    destruct (back_up_spec ic (items (i_ents ix)) path pos Hp) as (p & Ep & L & H1 & H2). rewrite Ep. cbn [bindr].
    assert (Hpe : exists e', nth_error (items (i_ents ix)) p = Some e' /\ pcmp ic (e_path e') path = 0).
    { destruct (Nat.eq_dec p pos) as [->|]; [exists e; split; [exact He|apply (cmp_eq_sym _ (pcmp_ok ic)); exact Hk]|].
      destruct (nth_error (items (i_ents ix)) p) as [e'|] eqn:Ee; [exists e'; split; [reflexivity|apply (H1 p e'); [lia|exact Ee]]|].
      apply nth_error_None in Ee. lia. }
    destruct Hpe as (e' & He' & Hk'). exists p, e'. split; [reflexivity|]. split; [exact He'|]. split; [apply pcmp_eq; exact Hk'|].
    intros i x Hip Hx.
    assert (Hprev : exists y, nth_error (items (i_ents ix)) (p - 1) = Some y).
    { destruct (nth_error (items (i_ents ix)) (p - 1)) eqn:Ey; [eauto|]. apply nth_error_None in Ey. assert (p < length (items (i_ents ix)))%nat by (apply nth_error_Some; congruence). lia. }
    destruct Hprev as (y & Hy). specialize (H2 y ltac:(lia) Hy).
    assert (Ho := proj1 (ss_nth ic _) (inv_sorted _ _ Hi)).
    assert (Hye : pcmp ic (e_path y) path <= 0).
    { assert (B := Ho (p - 1)%nat p y e' ltac:(lia) Hy He'). apply ecmp_before in B. assert (ecmp ic y e' <= 0) as B' by lia. apply ecmp_le_pcmp in B'.
      apply (cmp_trans _ (pcmp_ok ic) _ (e_path e')); [exact B'|lia]. }
    apply pcmp_lt. destruct (Nat.eq_dec i (p - 1)) as [->|Hne]; [assert (x = y) by congruence; subst; lia|].
    assert (B := Ho i (p - 1)%nat x y ltac:(lia) Hx Hy). apply ecmp_before in B. assert (ecmp ic x y <= 0) as B' by lia. apply ecmp_le_pcmp in B'.
    apply (cmp_le_lt_trans _ (pcmp_ok ic) _ (e_path y)); lia.
  - left. split; [reflexivity|]. intros e He Hf. apply (A2 eq_refl e He). unfold srch_path. apply pcmp_eq. congruence.
Qed.

Lemma conflict_remove_spec ic ix path : inv ic ix ->
  exists c ix', index_conflict_remove ic ix path = Ok (c, ix') /\ inv ic ix' /\ i_next ix' = i_next ix /\
    (forall x, In x (items (i_ents ix')) <-> In x (items (i_ents ix)) /\
       ~ (e_stage x <> 0 /\ match path with Some p => folded ic (e_path x) = folded ic p | None => True end)).
Proof.
  intros Hi. unfold index_conflict_remove. destruct path as [p|].
  - destruct (find_spec ic ix p Hi) as [[E H]|(pos & e & E & He & Hf & Hb)]; rewrite E; cbn [bindr].
    { exists (-3), ix. split; [reflexivity|]. split; [exact Hi|]. split; [reflexivity|]. intros x. split; [intros Hx; split; [exact Hx|]; intros [_ F]; exact (H x Hx F)|tauto]. }
    assert (Hp : (pos < length (items (i_ents ix)))%nat) by (apply nth_error_Some; congruence).
    assert (Lf : length (firstn pos (items (i_ents ix))) = pos) by (rewrite firstn_length; lia).
    destruct (conflict_remove_prune ic (Some p) (S (2 * length (items (i_ents ix)))) ix (firstn pos (items (i_ents ix))) (skipn pos (items (i_ents ix))) Hi) as (ix' & E' & J & N & I');
      [symmetry; apply firstn_skipn|rewrite skipn_length; lia|].
    rewrite Lf in E'. exists 0, ix'. split; [exact E'|]. split; [exact J|]. split; [exact N|].
    assert (Hfilt : prune (cr_stop ic (Some p)) (fun q => negb (e_stage q =? 0)) (skipn pos (items (i_ents ix))) = filter (fun q => cr_stop ic (Some p) q || negb (negb (e_stage q =? 0))) (skipn pos (items (i_ents ix)))).
    { apply prune_filter. intros a b q Eab Sq z Hz. cbn [cr_stop] in *.
      (* everything from pos on is >= p; q <> p so q > p, so z > p *)
      assert (Hge : forall y, In y (skipn pos (items (i_ents ix))) -> pcmp ic p (e_path y) <= 0).
      { intros y Hy. apply In_nth_error in Hy as [i Hy]. destruct i as [|i].
        - assert (nth_error (items (i_ents ix)) pos = Some y) as Hy' by (rewrite <- (firstn_skipn pos (items (i_ents ix))), nth_error_app2 by lia; rewrite Lf, Nat.sub_diag; exact Hy).
          assert (y = e) by congruence. subst y. symmetry in Hf. apply pcmp_eq in Hf. lia.
        - assert (nth_error (items (i_ents ix)) (pos + S i) = Some y) as Hy' by (rewrite <- (firstn_skipn pos (items (i_ents ix))), nth_error_app2 by lia; rewrite Lf; replace (pos + S i - pos)%nat with (S i) by lia; exact Hy).
          assert (B := proj1 (ss_nth ic _) (inv_sorted _ _ Hi) pos (pos + S i)%nat e y ltac:(lia) He Hy'). apply ecmp_before in B. assert (ecmp ic e y <= 0) as B' by lia. apply ecmp_le_pcmp in B'.
          symmetry in Hf. apply pcmp_eq in Hf. apply (cmp_trans _ (pcmp_ok ic) _ (e_path e)); lia. }
      assert (Hq : pcmp ic p (e_path q) < 0).
      { assert (G := Hge q ltac:(rewrite Eab; apply in_or_app; right; left; reflexivity)). destruct (Z.eq_dec (pcmp ic p (e_path q)) 0) as [E0|]; [|lia].
        apply (cmp_eq_sym _ (pcmp_ok ic)) in E0. rewrite E0 in Sq. discriminate. }
      assert (S := inv_sorted _ _ Hi). rewrite <- (firstn_skipn pos (items (i_ents ix))), Eab in S. apply ss_app in S as (_ & S & _). apply ss_app in S as (_ & S & _).
      apply StronglySorted_inv in S as [_ S]. rewrite Forall_forall in S. specialize (S z Hz). unfold slt in S. assert (ecmp ic q z <= 0) as B' by lia. apply ecmp_le_pcmp in B'.
      assert (Hz' : pcmp ic p (e_path z) < 0) by (apply (cmp_lt_le_trans _ (pcmp_ok ic) _ (e_path q)); assumption).
      apply (cmp_lt_gt _ (pcmp_ok ic)) in Hz'. destruct (Z.eqb_spec (pcmp ic (e_path z) p) 0); [lia|reflexivity]. }
    rewrite Hfilt in I'. intros x. rewrite I'. split.
    + intros Hx. apply in_app_or in Hx as [Hx|Hx].
      * split; [rewrite <- (firstn_skipn pos (items (i_ents ix))); apply in_or_app; auto|]. intros [_ F]. apply In_nth_error in Hx as [i Hx].
        assert (i < length (firstn pos (items (i_ents ix))))%nat by (apply nth_error_Some; congruence).
        assert (nth_error (items (i_ents ix)) i = Some x) as Hxi by (rewrite <- (firstn_skipn pos (items (i_ents ix))), nth_error_app1 by lia; exact Hx).
        specialize (Hb i x ltac:(lia) Hxi). rewrite F, lex_refl in Hb. discriminate.
      * apply filter_In in Hx as [Hx Hc]. split; [rewrite <- (firstn_skipn pos (items (i_ents ix))); apply in_or_app; auto|]. intros [Hs F]. apply pcmp_eq in F. cbn [cr_stop] in Hc.
        rewrite F in Hc. cbn in Hc. destruct (Z.eqb_spec (e_stage x) 0); [contradiction|discriminate].
    + intros [Hx Hn]. rewrite <- (firstn_skipn pos (items (i_ents ix))) in Hx. apply in_app_or in Hx as [Hx|Hx]; [apply in_or_app; auto|]. apply in_or_app. right. apply filter_In. split; [exact Hx|].
      cbn [cr_stop]. destruct (Z.eqb_spec (pcmp ic (e_path x) p) 0) as [E0|]; [|reflexivity]. cbn. destruct (Z.eqb_spec (e_stage x) 0); [reflexivity|]. exfalso. apply Hn. split; [assumption|apply pcmp_eq; exact E0].
  - destruct (conflict_remove_prune ic None (S (2 * length (items (i_ents ix)))) ix [] (items (i_ents ix)) Hi eq_refl ltac:(lia)) as (ix' & E' & J & N & I').
    exists 0, ix'. split; [exact E'|]. split; [exact J|]. split; [exact N|]. cbn [app] in I'. rewrite prune_filter in I' by (intros; discriminate).
    intros x. rewrite I', filter_In. cbn [cr_stop orb]. rewrite negb_involutive, Z.eqb_eq. split; intros [H1 H2]; (split; [exact H1|]); [tauto|]. destruct (Z.eq_dec (e_stage x) 0); [assumption|]. exfalso. apply H2. auto.
Qed.

(** *** Conflicts *)
Definition src_entries (es : list (option (entry * bool))) : list entry :=
  flat_map (fun o => match o with Some (e, _) => [e] | None => [] end) es.
Lemma inv_raise ic ix n : inv ic ix -> (i_next ix <= n)%nat -> inv ic (mki (i_ents ix) (i_map ix) n).
Proof. intros [A B C D E] H. split; cbn; auto. intros e He. specialize (E e He). lia. Qed.
Definition at_stage (e : entry) (st : Z) (n : entry) : Prop :=
  e_path n = e_path e /\ e_stage n = st /\ e_mode n = create_mode (e_mode e) /\ e_data n = e_data e.
Lemma insert_all_spec ic es : forall ix st, inv ic ix -> 0 <= st ->
  (forall e, In e (src_entries es) -> (e_ptr e < i_next ix)%nat /\ ~ In (e_ptr e) (map e_ptr (items (i_ents ix)))) -> NoDup (map e_ptr (src_entries es)) ->
  exists c ix', insert_all ic ix es st = Ok (c, ix') /\ inv ic ix' /\ i_next ix' = i_next ix /\
    (forall x, In x (items (i_ents ix')) -> In x (items (i_ents ix)) \/
       exists k e b, nth_error es k = Some (Some (e, b)) /\ e_path x = e_path e /\ e_stage x = st + Z.of_nat k) /\
    (forallb (fun o => match o with Some (_, b) => b | None => true end) es = true -> c = 0 /\
      (forall k e b, nth_error es k = Some (Some (e, b)) -> exists n, In n (items (i_ents ix')) /\ at_stage e (st + Z.of_nat k) n) /\
      (forall x, In x (items (i_ents ix)) ->
         (forall k e b, nth_error es k = Some (Some (e, b)) -> ~ same_key ic (e_path e) (st + Z.of_nat k) (e_path x) (e_stage x) /\ ~ collides ic (e_path e) (st + Z.of_nat k) x) ->
         In x (items (i_ents ix')))).
Proof.
  induction es as [|o es IH]; intros ix st Hi Hst Hsrc Hnd.
  { exists 0, ix. split; [reflexivity|]. split; [exact Hi|]. split; [reflexivity|]. split; [auto|]. intros _. split; [reflexivity|]. split; [intros [|k] e b H; discriminate|auto]. }
  destruct o as [[e b]|]; cbn [insert_all].
  2:{ destruct (IH ix (st + 1) Hi ltac:(lia) Hsrc Hnd) as (c & ix' & E & J & N & F & G). exists c, ix'. split; [exact E|]. split; [exact J|]. split; [exact N|].
      split; [intros x Hx; destruct (F x Hx) as [H|(k & e & b & H1 & H2 & H3)]; [auto|right; exists (S k), e, b; split; [exact H1|split; [exact H2|lia]]]|].
      intros Hall. destruct (G Hall) as (G1 & G2 & G3). split; [exact G1|]. split.
      - intros [|k] e b Hk; [discriminate|]. destruct (G2 k e b Hk) as (n & Hn & Hat). exists n. split; [exact Hn|]. replace (st + Z.of_nat (S k)) with (st + 1 + Z.of_nat k) by lia. exact Hat.
      - intros x Hx Hno. apply G3; [exact Hx|]. intros k e b Hk. replace (st + 1 + Z.of_nat k) with (st + Z.of_nat (S k)) by lia. exact (Hno (S k) e b Hk). }
  set (e1 := mke (e_ptr e) (e_path e) st (e_mode e) (e_data e)).
  assert (He : In e (src_entries (Some (e, b) :: es))) by (left; reflexivity).
  destruct (Hsrc e He) as [Hp1 Hp2].
  destruct (insert_spec ic ix e1 b Hi Hst Hp1 Hp2) as (c & ix1 & E1 & J1 & N1 & Fno & Fyes). rewrite E1. cbn [bindr].
  destruct b.
  2:{ destruct (Fno eq_refl) as [-> ->]. change (-1 <? 0) with true. cbv iota. exists (-1), ix. split; [reflexivity|]. split; [exact Hi|]. split; [reflexivity|]. split; [auto|discriminate]. }
  destruct (Fyes eq_refl) as (-> & n & Hfin & Hn & Hnp & Hback & Hkeep & _). change (0 <? 0) with false. cbv iota.
  assert (Hptrs : forall q, In q (map e_ptr (items (i_ents ix1))) -> q = e_ptr e \/ In q (map e_ptr (items (i_ents ix)))).
  { intros q Hq. apply in_map_iff in Hq as (x & <- & Hx). destruct (Hback x Hx) as [->|[Hx' _]]; [exact Hnp|right; apply in_map, Hx']. }
  cbn [src_entries flat_map app map] in Hnd. inversion Hnd as [|? ? Hnd1 Hnd2]; subst.
  destruct (IH ix1 (st + 1) J1 ltac:(lia)) as (c & ix' & E & J & N & F & G).
  { intros e2 He2. destruct (Hsrc e2 ltac:(right; exact He2)) as [Q1 Q2]. split; [lia|]. intros Q3. apply Hptrs in Q3 as [Q3|Q3]; [|contradiction].
    apply Hnd1. rewrite <- Q3. apply in_map. exact He2. }
  { exact Hnd2. }
  destruct Hfin as (F1 & F2 & F3 & F4). cbn [e1 e_path e_stage e_mode e_data] in *.
  exists c, ix'. split; [exact E|]. split; [exact J|]. split; [congruence|]. split.
  { intros x Hx. destruct (F x Hx) as [H|(k & e2 & b2 & H1 & H2 & H3)].
    - destruct (Hback x H) as [->|[H' _]]; [right; exists 0%nat, e, true; split; [reflexivity|split; [exact F1|lia]]|auto].
    - right. exists (S k), e2, b2. split; [exact H1|]. split; [exact H2|lia]. }
  intros Hall. cbn [forallb] in Hall. destruct (G Hall) as (G1 & G2 & G3). split; [exact G1|]. split.
  - intros [|k] e2 b2 Hk; cbn in Hk.
    + injection Hk as <- <-. exists n. split; [|split; [exact F1|split; [lia|split; assumption]]].
      apply G3; [exact Hn|]. intros k e2 b2 _. split; [intros [_ S]; lia|]. intros [[S _]|(d & _ & _ & S)]; lia.
    + destruct (G2 k e2 b2 Hk) as (n2 & Hn2 & Hat). exists n2. split; [exact Hn2|]. replace (st + Z.of_nat (S k)) with (st + 1 + Z.of_nat k) by lia. exact Hat.
  - intros x Hx Hno. apply G3.
    + destruct (Hno 0%nat e true eq_refl) as [K1 K2]. replace (st + Z.of_nat 0) with st in * by lia. destruct (Hkeep x Hx K1) as [H|H]; [exact H|contradiction].
    + intros k e2 b2 Hk. replace (st + 1 + Z.of_nat k) with (st + Z.of_nat (S k)) by lia. exact (Hno (S k) e2 b2 Hk).
Qed.
Lemma remove_all0_spec ic es : forall ix, inv ic ix ->
  exists ix', remove_all0 ic ix es = Ok (0, ix') /\ inv ic ix' /\ i_next ix' = i_next ix /\
    forall x, In x (items (i_ents ix')) <-> In x (items (i_ents ix)) /\ forall e, In e (src_entries es) -> ~ same_key ic (e_path e) 0 (e_path x) (e_stage x).
Proof.
  induction es as [|[[e b]|] es IH]; intros ix Hi; cbn [remove_all0].
  - exists ix. split; [reflexivity|]. split; [exact Hi|]. split; [reflexivity|]. intros x. split; [intros H; split; [exact H|intros e []]|tauto].
  - destruct (remove_spec ic ix (e_path e) 0 Hi ltac:(lia)) as (c & ix1 & E1 & J1 & N1 & M1 & C1). rewrite E1. cbn [bindr].
    assert (negb (c =? 0) && negb (c =? -3) = false) as -> by (destruct C1 as [[-> _]|[-> _]]; reflexivity).
    destruct (IH ix1 J1) as (ix' & E & J & N & M). exists ix'. split; [exact E|]. split; [exact J|]. split; [congruence|].
    intros x. rewrite M, M1. cbn [src_entries flat_map app]. split.
    + intros [[H1 H2] H3]. split; [exact H1|]. intros e2 [<-|H]; [exact H2|apply H3, H].
    + intros [H1 H2]. split; [split; [exact H1|apply H2; left; reflexivity]|]. intros e2 H. apply H2. right. exact H.
  - destruct (IH ix Hi) as (ix' & E & J & N & M). exists ix'. auto.
Qed.
Definition matches (s : source) (o : option (entry * bool)) : Prop :=
  exists e, o = Some (e, s_id_ok s) /\ e_path e = s_path s /\ e_mode e = s_mode s /\ e_data e = s_data s.
Lemma dup_all_spec path_ok l : forall ix,
  (dup_all path_ok ix l = None /\ exists s, In (Some s) l /\ path_ok (s_path s) = false) \/
  (exists es n, dup_all path_ok ix l = Some (es, mki (i_ents ix) (i_map ix) n) /\ (i_next ix <= n)%nat /\
     Forall2 (fun o e => match o with Some s => matches s e /\ path_ok (s_path s) = true | None => e = None end) l es /\
     (forall e, In e (src_entries es) -> (i_next ix <= e_ptr e < n)%nat) /\ NoDup (map e_ptr (src_entries es))).
Proof.
  induction l as [|o l IH]; intros ix; cbn [dup_all].
  { right. exists [], (i_next ix). split; [destruct ix; reflexivity|]. split; [lia|]. split; [constructor|]. split; [intros e []|constructor]. }
  destruct o as [s|].
  2:{ destruct (IH ix) as [(E & s & Hs & Hp)|(es & n & E & L & F & P & D)]; rewrite E.
      - left. split; [reflexivity|]. exists s. split; [right; exact Hs|exact Hp].
      - right. exists (None :: es), n. split; [reflexivity|]. split; [exact L|]. split; [constructor; auto|]. auto. }
  unfold dup. destruct (path_ok (s_path s)) eqn:Hok; [|left; split; [reflexivity|exists s; split; [left; reflexivity|exact Hok]]].
  match goal with |- context [dup_all path_ok ?i l] => destruct (IH i) as [(E & s' & Hs & Hp)|(es & n & E & L & F & P & D)] end; rewrite E; cbn [i_ents i_map i_next] in *.
  - left. split; [reflexivity|]. exists s'. split; [right; exact Hs|exact Hp].
  - right. eexists (Some (_, s_id_ok s) :: es), n. split; [reflexivity|]. split; [lia|]. split; [constructor; [|exact F]|].
    { split; [|exact Hok]. eexists. split; [reflexivity|]. auto. }
    cbn [src_entries flat_map app map]. split.
    + intros e [<-|He]; [cbn; lia|]. specialize (P e He). lia.
    + constructor; [|exact D]. cbn [e_ptr]. intros Hin. apply in_map_iff in Hin as (e & Ee & He). specialize (P e He). lia.
Qed.

(** *** Histories *)
Definition op_ok (o : iop) : Prop :=
  match o with
  | IAdd s => 0 <= s_stage s <= 3
  | IRemove _ st => 0 <= st <= 3
  | _ => True
  end.
Definition wf (path_ok : list Z -> bool) (ic : bool) (ix : index) : Prop :=
  inv ic ix /\ forall e, In e (items (i_ents ix)) -> path_ok (e_path e) = true /\ 0 <= e_stage e <= 3.

Lemma conflict_add_spec path_ok ic ix a o t : wf path_ok ic ix ->
  exists c ix', conflict_add path_ok ic ix a o t = Ok (c, ix') /\ wf path_ok ic ix' /\
    ((forall s, In (Some s) [a; o; t] -> path_ok (s_path s) = true /\ valid_filemode (s_mode s) = true /\ s_id_ok s = true) ->
     c = 0 /\
     (forall k s, nth_error [a; o; t] k = Some (Some s) -> exists n, In n (items (i_ents ix')) /\
        e_path n = s_path s /\ e_stage n = Z.of_nat k + 1 /\ e_mode n = create_mode (s_mode s) /\ e_data n = s_data s) /\
     (forall s x, In (Some s) [a; o; t] -> In x (items (i_ents ix')) -> ~ same_key ic (s_path s) 0 (e_path x) (e_stage x)) /\
     (forall x, In x (items (i_ents ix')) -> In x (items (i_ents ix)) \/ exists k s, nth_error [a; o; t] k = Some (Some s) /\ e_path x = s_path s /\ e_stage x = Z.of_nat k + 1) /\
     (forall x, In x (items (i_ents ix)) ->
        (forall k s, nth_error [a; o; t] k = Some (Some s) -> ~ same_key ic (s_path s) 0 (e_path x) (e_stage x) /\
           ~ same_key ic (s_path s) (Z.of_nat k + 1) (e_path x) (e_stage x) /\ ~ collides ic (s_path s) (Z.of_nat k + 1) x) ->
        In x (items (i_ents ix')))).
Proof.
  intros [Hi Hw]. unfold conflict_add. set (l := [a; o; t]).
  destruct (dup_all_spec path_ok l ix) as [(E & s & Hs & Hp)|(es & n & E & L & F & P & D)]; rewrite E.
  { exists (-1), ix. split; [reflexivity|]. split; [split; assumption|]. intros H. destruct (H s Hs). congruence. }
  assert (Hi1 := inv_raise ic ix n Hi L). set (ix1 := mki (i_ents ix) (i_map ix) n) in *.
  assert (Hrel : forall k e b, nth_error es k = Some (Some (e, b)) -> exists s, nth_error l k = Some (Some s) /\ matches s (Some (e, b)) /\ path_ok (s_path s) = true).
  { clearbody l. clear -F. induction F as [|o' e l es H F IH]; intros [|k] e0 b Hk; cbn in *; try discriminate.
    - injection Hk as ->. destruct o' as [s|]; [|discriminate]. exists s. split; [reflexivity|exact H].
    - apply IH, Hk. }
  assert (Hrel2 : forall k s, nth_error l k = Some (Some s) -> exists e, nth_error es k = Some (Some (e, s_id_ok s)) /\ e_path e = s_path s /\ e_mode e = s_mode s /\ e_data e = s_data s).
  { clearbody l. clear -F. induction F as [|o' e l es H F IH]; intros [|k] s Hk; cbn in *; try discriminate.
    - injection Hk as ->. destruct H as [(e0 & -> & H) _]. exists e0. auto.
    - apply IH, Hk. }
  assert (Hsrc : forall e, In e (src_entries es) <-> exists k b, nth_error es k = Some (Some (e, b))).
  { intros e. unfold src_entries. rewrite in_flat_map. split.
    - intros ([[e2 b]|] & H1 & H2); [|destruct H2]. destruct H2 as [->|[]]. apply In_nth_error in H1 as [k Hk]. eauto.
    - intros (k & b & Hk). exists (Some (e, b)). split; [eapply nth_error_In, Hk|left; reflexivity]. }
  destruct (forallb _ es) eqn:Hmodes.
  2:{ exists (-1), ix1. split; [reflexivity|]. split; [split; [exact Hi1|exact Hw]|]. intros H. exfalso.
      apply not_true_iff_false in Hmodes. apply Hmodes. apply forallb_forall. intros [[e b]|] He; [|reflexivity].
      apply In_nth_error in He as [k Hk]. destruct (Hrel k e b Hk) as (s & Hs & (e0 & Ee & H1 & H2 & H3) & _). injection Ee as <- _. rewrite H2. apply H. eapply nth_error_In, Hs. }
  destruct (remove_all0_spec ic es ix1 Hi1) as (ix2 & E2 & J2 & N2 & M2). rewrite E2. cbn [bindr]. change (negb (0 =? 0)) with false. cbv iota.
  assert (Hitems1 : items (i_ents ix1) = items (i_ents ix)) by reflexivity.
  destruct (insert_all_spec ic es ix2 1 J2 ltac:(lia)) as (c & ix3 & E3 & J3 & N3 & F3 & G3).
  { intros e He. specialize (P e He). split; [rewrite N2; cbn; lia|]. intros Hin. apply in_map_iff in Hin as (x & Ex & Hx). apply M2 in Hx as [Hx _]. rewrite Hitems1 in Hx.
    assert (Q := inv_next _ _ Hi x Hx). lia. }
  { exact D. }
  exists c, ix3. split; [exact E3|].
  assert (Hfrom : forall x, In x (items (i_ents ix3)) -> In x (items (i_ents ix2)) \/ exists k s, nth_error l k = Some (Some s) /\ path_ok (s_path s) = true /\ e_path x = s_path s /\ e_stage x = Z.of_nat k + 1).
  { intros x Hx. destruct (F3 x Hx) as [H|(k & e & b & H1 & H2 & H3)]; [auto|]. right. destruct (Hrel k e b H1) as (s & Hs & (e0 & Ee & P1 & P2 & P3) & Hpo). injection Ee as <- _.
    exists k, s. split; [exact Hs|]. split; [exact Hpo|]. split; [congruence|lia]. }
  split.
  { split; [exact J3|]. intros e He. destruct (Hfrom e He) as [H|(k & s & H1 & H2 & H3 & H4)].
    - apply M2 in H as [H _]. apply Hw, H.
    - rewrite H3. split; [exact H2|]. assert (k < length l)%nat by (apply nth_error_Some; congruence). cbn in H. lia. }
  intros Hgood.
  assert (Hall : forallb (fun o => match o with Some (_, b) => b | None => true end) es = true).
  { apply forallb_forall. intros [[e b]|] He; [|reflexivity]. apply In_nth_error in He as [k Hk]. destruct (Hrel k e b Hk) as (s & Hs & (e0 & Ee & _) & _). injection Ee as _ ->. apply Hgood. eapply nth_error_In, Hs. }
  destruct (G3 Hall) as (G31 & G32 & G33). split; [exact G31|]. split; [|split; [|split]].
  - intros k s Hk. destruct (Hrel2 k s Hk) as (e & He & P1 & P2 & P3). destruct (G32 k e _ He) as (nn & Hn & A1 & A2 & A3 & A4).
    exists nn. split; [exact Hn|]. split; [congruence|]. split; [lia|]. split; congruence.
  - intros s x Hs Hx Hk. destruct (Hfrom x Hx) as [H|(k & s2 & H1 & H2 & H3 & H4)].
    + apply M2 in H as [_ H]. apply In_nth_error in Hs as [k Hk2]. destruct (Hrel2 k s Hk2) as (e & He & P1 & _). apply (H e); [apply Hsrc; eauto|]. rewrite P1. exact Hk.
    + destruct Hk as [_ Hk]. lia.
  - intros x Hx. destruct (Hfrom x Hx) as [H|(k & s2 & H1 & H2 & H3 & H4)]; [left; apply M2 in H as [H _]; exact H|right; eauto 6].
  - intros x Hx Hno. apply G33.
    + apply M2. split; [exact Hx|]. intros e He. apply Hsrc in He as (k & b & Hk). destruct (Hrel k e b Hk) as (s & Hs & (e0 & Ee & P1 & _) & _). injection Ee as <- _.
      destruct (Hno k s Hs) as [K _]. rewrite P1. exact K.
    + intros k e b Hk. destruct (Hrel k e b Hk) as (s & Hs & (e0 & Ee & P1 & _) & _). injection Ee as <- _.
      destruct (Hno k s Hs) as (_ & K1 & K2). rewrite P1. replace (1 + Z.of_nat k) with (Z.of_nat k + 1) by lia. auto.
Qed.

Lemma add_spec path_ok ic ix s : wf path_ok ic ix -> 0 <= s_stage s <= 3 ->
  exists c ix', index_add path_ok ic ix s = Ok (c, ix') /\ wf path_ok ic ix' /\
    (valid_filemode (s_mode s) && path_ok (s_path s) && s_id_ok s = false -> c = -1 /\ items (i_ents ix') = items (i_ents ix)) /\
    (valid_filemode (s_mode s) && path_ok (s_path s) && s_id_ok s = true -> c = 0 /\
      exists n, e_path n = s_path s /\ e_stage n = s_stage s /\ e_mode n = create_mode (s_mode s) /\ e_data n = s_data s /\ In n (items (i_ents ix')) /\
       (forall x, In x (items (i_ents ix')) -> x = n \/ (In x (items (i_ents ix)) /\ ~ same_key ic (s_path s) (s_stage s) (e_path x) (e_stage x))) /\
       (forall x, In x (items (i_ents ix)) -> ~ same_key ic (s_path s) (s_stage s) (e_path x) (e_stage x) ->
          In x (items (i_ents ix')) \/ collides ic (s_path s) (s_stage s) x) /\
       (ic = false -> collision_free (items (i_ents ix)) ->
        (forall x, In x (items (i_ents ix')) -> e_stage x = s_stage s -> e_path x <> [] -> ~ under (e_path x) (s_path s)) /\
        ((forall x, In x (items (i_ents ix)) -> lex (s_path s) (e_path x) = Lt) ->
         forall x, In x (items (i_ents ix')) -> e_stage x = s_stage s -> ~ under (s_path s) (e_path x)))).
Proof.
  intros [Hi Hw] Hst. unfold index_add. destruct (valid_filemode (s_mode s)); cbn [negb andb].
  2:{ exists (-1), ix. split; [reflexivity|]. split; [split; assumption|]. split; [auto|discriminate]. }
  unfold dup. destruct (path_ok (s_path s)) eqn:Hp; cbn [andb].
  2:{ exists (-1), ix. split; [reflexivity|]. split; [split; assumption|]. split; [auto|discriminate]. }
  set (e := mke (i_next ix) (s_path s) (s_stage s) (s_mode s) (s_data s)). set (ix0 := mki (i_ents ix) (i_map ix) (S (i_next ix))).
  assert (Hi0 : inv ic ix0) by (apply inv_raise; [exact Hi|lia]).
  destruct (insert_spec ic ix0 e (s_id_ok s) Hi0) as (c & ix' & E & J & N & F & G); [cbn; lia|cbn; lia| |].
  { intros Hin. apply in_map_iff in Hin as (x & Ex & Hx). cbn in Ex. assert (Q := inv_next _ _ Hi x Hx). lia. }
  exists c, ix'. split; [exact E|].
  change (items (i_ents ix0)) with (items (i_ents ix)) in *. cbn [e_path e_stage e_mode e_data e] in *.
  destruct (s_id_ok s) eqn:Hid.
  - destruct (G eq_refl) as (-> & n & (F1 & F2 & F3 & F4) & Hn & _ & Hb & Hk & Hd). cbn [e_path e_stage e_mode e_data e] in *.
    split.
    { split; [exact J|]. intros x Hx. destruct (Hb x Hx) as [->|[Hx' _]]; [rewrite F1, F2; split; [exact Hp|exact Hst]|apply Hw, Hx']. }
    split; [discriminate|]. intros _. split; [reflexivity|]. exists n. repeat (split; [assumption|]). exact Hd.
  - destruct (F eq_refl) as [-> ->]. split; [split; [exact Hi0|exact Hw]|]. split; [auto|discriminate].
Qed.

Lemma step_spec path_ok ic ix o : wf path_ok ic ix -> op_ok o -> exists c ix', istep path_ok ic ix o = Ok (c, ix') /\ wf path_ok ic ix'.
Proof.
  intros Hwf Ho. assert (Hwf0 := Hwf). destruct Hwf as [Hi Hw]. destruct o; cbn [istep op_ok] in *.
  - destruct (add_spec path_ok ic ix s Hwf0 Ho) as (c & ix' & E & J & _). eauto.
  - destruct (remove_spec ic ix path stage Hi Ho) as (c & ix' & E & J & _ & M & _). exists c, ix'. split; [exact E|]. split; [exact J|]. intros e He. apply M in He as [He _]. apply Hw, He.
  - destruct (remove_dir_spec ic ix dir stage Hi) as (ix' & E & (J & _ & Inc & _) & _). exists 0, ix'. split; [exact E|]. split; [exact J|]. intros e He. apply Hw, Inc, He.
  - destruct (conflict_add_spec path_ok ic ix a o t Hwf0) as (c & ix' & E & J & _). eauto.
  - destruct (conflict_remove_spec ic ix path Hi) as (c & ix' & E & J & _ & M). exists c, ix'. split; [exact E|]. split; [exact J|]. intros e He. apply M in He as [He _]. apply Hw, He.
  - exists 0, (index_clear ix). split; [reflexivity|]. split; [|intros e []]. split; cbn; [apply Hi|constructor|constructor|constructor|intros e []].
Qed.
