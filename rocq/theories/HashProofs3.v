From Verif Require Import Base Arr HashModel HashSpec HashProofs HashProofs2.

Section R.
  Context {K V : Type} (hash : K -> nat) (eqk : K -> K -> bool).
  Context (Erefl : forall a, eqk a a = true) (Esym : forall a b, eqk a b = true -> eqk b a = true)
          (Etrans : forall a b c, eqk a b = true -> eqk b c = true -> eqk a c = true)
          (Ehash : forall a b, eqk a b = true -> hash a = hash b).
  Notation kvs := (list (option (K * V))).
  Implicit Types (old nf f : list bool) (kv : kvs) (e : K * V).

  Fixpoint ents f kv : list (K * V) :=
    match f, kv with
    | true :: f', Some e :: kv' => e :: ents f' kv'
    | _ :: f', _ :: kv' => ents f' kv'
    | _, _ => []
    end.

  Lemma ents_upd_off : forall f kv i e, nth_error f i = Some true -> nth_error kv i = Some (Some e) ->
    Permutation (ents f kv) (e :: ents (upd f i false) kv).
  Proof.
    induction f as [|b f IH]; intros kv [|i] e Hf Hk; try discriminate; destruct kv as [|x kv]; try discriminate; cbn in Hf, Hk.
    - injection Hf as ->. injection Hk as ->. cbn. apply Permutation_refl.
    - cbn [upd ents]. specialize (IH kv i e Hf Hk). destruct b, x as [y|]; try exact IH.
      apply perm_trans with (y :: e :: ents (upd f i false) kv); [constructor; exact IH|apply perm_swap].
  Qed.
  Lemma ents_kv_irrel : forall f kv i x, nth_error f i <> Some true -> ents f (upd kv i x) = ents f kv.
  Proof.
    induction f as [|b f IH]; intros kv [|i] x Hf; destruct kv as [|y kv]; cbn; auto; cbn in Hf.
    - destruct b; [congruence|reflexivity].
    - rewrite (IH kv i x Hf). reflexivity.
  Qed.
  Lemma ents_upd_on : forall f kv i e, nth_error f i = Some false -> (i < length kv)%nat ->
    Permutation (e :: ents f kv) (ents (upd f i true) (upd kv i (Some e))).
  Proof.
    induction f as [|b f IH]; intros kv [|i] e Hf Hk; try discriminate; destruct kv as [|x kv]; cbn in Hk; try lia; cbn in Hf.
    - injection Hf as ->. cbn. apply Permutation_refl.
    - cbn [upd ents]. specialize (IH kv i e Hf ltac:(lia)). destruct b, x as [y|]; try exact IH.
      apply perm_trans with (y :: e :: ents f kv); [apply perm_swap|constructor; exact IH].
  Qed.
  Lemma ents_len : forall f kv, (forall i, nth_error f i = Some true -> exists e, nth_error kv i = Some (Some e)) ->
    length (ents f kv) = length (filter (fun b => b) f).
  Proof.
    induction f as [|b f IH]; intros kv H; [destruct kv; reflexivity|].
    destruct kv as [|x kv].
    - cbn. assert (Hb : forall b', In b' (b :: f) -> b' = false).
      { intros b' Hb'. destruct b'; [|reflexivity]. apply In_nth_error in Hb'. destruct Hb' as (i & Hi). destruct (H i Hi) as (e & He). destruct i; discriminate. }
      rewrite (Hb b (or_introl eq_refl)). assert (Hn : filter (fun b0 : bool => b0) f = []); [|rewrite Hn; reflexivity].
      clear -Hb. induction f as [|c f IH]; cbn; [reflexivity|]. rewrite (Hb c) by (cbn; auto). apply IH. intros b' Hb'. apply Hb. cbn in *. tauto.
    - assert (IH' := IH kv (fun i Hi => H (S i) Hi)). cbn. destruct b.
      + destruct (H O eq_refl) as (e & He). cbn in He. injection He as ->. cbn. congruence.
      + exact IH'.
  Qed.

  Lemma has_false f : (length (filter (fun b => b) f) < length f)%nat -> exists i, nth_error f i = Some false.
  Proof.
    induction f as [|b f IH]; cbn; [lia|]. destruct b; cbn; intros H.
    - destruct IH as (i & Hi); [lia|]. exists (S i). exact Hi.
    - exists O. reflexivity.
  Qed.

  Definition reachN nf (k : K) (i : nat) : Prop :=
    exists st, (st < length nf)%nat /\ ppos (hash k) (length nf) st = i /\
      forall t, (t < st)%nat -> nth_error nf (ppos (hash k) (length nf) t) = Some true.

  Lemma probe_new_spec nf k m : length nf = (2 ^ m)%nat -> (exists i, nth_error nf i = Some false) ->
    exists i, probe_new (length nf) nf (maskn (hash k) (length nf)) 0 = Ok i /\ nth_error nf i = Some false /\ reachN nf k i.
  Proof.
    intros Hn (i0 & Hi0). set (P := ppos (hash k) (length nf)).
    assert (Hp : forall t, (P t < length nf)%nat) by (intros t; apply (ppos_lt _ _ m), Hn).
    destruct (least_true (fun t => match nth_error nf (P t) with Some false => true | _ => false end) (length nf)) as (e & He & Hst & Hmin).
    { assert (i0 < length nf)%nat by (apply nth_error_Some; congruence).
      destruct (ppos_surj (hash k) (length nf) m i0 Hn H) as (s & Hs & E). exists s. split; [exact Hs|]. unfold P. rewrite E, Hi0. reflexivity. }
    assert (Hfe : nth_error nf (P e) = Some false) by (destruct (nth_error nf (P e)) as [[]|]; congruence).
    assert (Htr : forall t, (t < e)%nat -> nth_error nf (P t) = Some true).
    { intros t Ht. specialize (Hmin t Ht). cbn in Hmin. destruct (nth_error nf (P t)) as [[]|] eqn:E; try congruence. apply nth_error_None in E. specialize (Hp t). lia. }
    exists (P e). split; [|split; [exact Hfe|exists e; auto]].
    assert (Hg : forall fuel st, (st <= e)%nat -> (e - st <= fuel)%nat -> probe_new fuel nf (P st) st = Ok (P e)).
    { induction fuel as [|f IH]; intros st H1 H2; cbn [probe_new].
      - assert (st = e) by lia. subst st. rewrite (aget_some _ _ _ Hfe). reflexivity.
      - destruct (Nat.eq_dec st e) as [->|N].
        + rewrite (aget_some _ _ _ Hfe). reflexivity.
        + rewrite (aget_some _ _ _ (Htr st ltac:(lia))). cbn [bindr]. unfold P. rewrite ppos_step. fold P. rewrite Nat.add_1_r. apply IH; lia. }
    apply (Hg (length nf) O); lia.
  Qed.

  Record J (E0 : list (K * V)) (hand : list (K * V)) old nf kv : Prop := {
    j_old : forall i, nth_error old i = Some true -> (exists e, nth_error kv i = Some (Some e)) /\ nth_error nf i <> Some true;
    j_new : forall i, nth_error nf i = Some true -> exists k v, nth_error kv i = Some (Some (k, v)) /\ reachN nf k i;
    j_perm : Permutation (hand ++ ents old kv ++ ents nf kv) E0;
    j_len : (length nf <= length kv)%nat
  }.

  Lemma reachN_mono nf k i j : reachN nf k i -> reachN (upd nf j true) k i.
  Proof.
    intros (st & H1 & H2 & H3). exists st. rewrite upd_length. split; [exact H1|]. split; [exact H2|]. intros t Ht.
    rewrite nth_error_upd. specialize (H3 t Ht). destruct (Nat.eqb_spec j (ppos (hash k) (length nf) t)) as [->|]; [|exact H3].
    assert (ppos (hash k) (length nf) t < length nf)%nat by (apply nth_error_Some; congruence).
    destruct (Nat.ltb_spec (ppos (hash k) (length nf) t) (length nf)); [reflexivity|lia].
  Qed.

  Lemma kick_spec E0 m : forall fuel old nf kv e, J E0 [e] old nf kv -> length nf = (2 ^ m)%nat -> (length E0 < length nf)%nat ->
    (length (ents old kv) < fuel)%nat ->
    exists old' nf' kv', kick hash fuel old nf kv e = Ok (old', nf', kv') /\ J E0 [] old' nf' kv' /\
      length old' = length old /\ length nf' = length nf /\ length kv' = length kv /\
      (forall i, nth_error old' i = Some true -> nth_error old i = Some true).
  Proof.
    induction fuel as [|f IH]; intros old nf kv e HJ Hn HE Hf; [lia|]. cbn [kick].
    assert (Hfalse : exists i, nth_error nf i = Some false).
    { apply has_false. rewrite <- (ents_len nf kv).
      - pose proof (Permutation_length (j_perm _ _ _ _ _ HJ)) as HL. rewrite !app_length in HL. cbn in HL. lia.
      - intros i Hi. destruct (j_new _ _ _ _ _ HJ i Hi) as (k & v & H1 & _). eauto. }
    destruct (probe_new_spec nf (fst e) m Hn Hfalse) as (i & -> & Hif & Hir). cbn [bindr].
    assert (Hin : (i < length nf)%nat) by (apply nth_error_Some; congruence).
    pose proof (j_len _ _ _ _ _ HJ) as Hlk.
    rewrite aset_ok by exact Hin. cbn [bindr].
    assert (Hk1 : (if (i <? length old)%nat then aget old i else Ok false) = Ok (match nth_error old i with Some b => b | None => false end)).
    { destruct (Nat.ltb_spec i (length old)) as [L|L].
      - destruct (aget_ok old i L) as (b & -> & Hb). rewrite Hb. reflexivity.
      - destruct (nth_error old i) eqn:E; [|reflexivity]. assert (i < length old)%nat by (apply nth_error_Some; congruence). lia. }
    rewrite Hk1. cbn [bindr].
    assert (Hnewi : forall kv', kv' = upd kv i (Some e) -> forall j, nth_error (upd nf i true) j = Some true ->
        exists k v, nth_error kv' j = Some (Some (k, v)) /\ reachN (upd nf i true) k j).
    { intros kv' -> j Hj. rewrite (nth_error_upd nf) in Hj. destruct (Nat.eqb_spec i j) as [Eij|N]; [subst j|].
      - exists (fst e), (snd e). split; [|apply reachN_mono, Hir]. rewrite nth_error_upd, Nat.eqb_refl.
        destruct (Nat.ltb_spec i (length kv)); [|lia]. destruct e; reflexivity.
      - destruct (j_new _ _ _ _ _ HJ j Hj) as (k & v & H1 & H2). exists k, v. split; [|apply reachN_mono, H2].
        rewrite nth_error_upd. destruct (Nat.eqb_spec i j); [contradiction|]. exact H1. }
    destruct (nth_error old i) as [[|]|] eqn:Eo.
    - destruct (j_old _ _ _ _ _ HJ i Eo) as ((tmp & Htmp) & _). rewrite (aget_some _ _ _ Htmp). cbn [bindr].
      rewrite !aset_ok; [|apply nth_error_Some; congruence|lia]. cbn [bindr].
      assert (HJ' : J E0 [tmp] (upd old i false) (upd nf i true) (upd kv i (Some e))).
      { constructor.
        - intros j Hj. rewrite nth_error_upd in Hj. destruct (Nat.eqb_spec i j) as [->|N]; [destruct (_ <? _)%nat; discriminate|].
          destruct (j_old _ _ _ _ _ HJ j Hj) as (H1 & H2). rewrite !nth_error_upd. destruct (Nat.eqb_spec i j); [contradiction|]. auto.
        - apply Hnewi. reflexivity.
        - rewrite (ents_kv_irrel (upd old i false)).
          2:{ rewrite nth_error_upd, Nat.eqb_refl. destruct (_ <? _)%nat; discriminate. }
          eapply Permutation_trans; [|exact (j_perm _ _ _ _ _ HJ)].
          pose proof (ents_upd_off old kv i tmp Eo Htmp) as P1.
          pose proof (ents_upd_on nf kv i e Hif ltac:(lia)) as P2.
          cbn [app]. eapply Permutation_trans; [apply perm_skip, Permutation_app_head, Permutation_sym, P2|].
          change (tmp :: ents (upd old i false) kv ++ e :: ents nf kv) with ((tmp :: ents (upd old i false) kv) ++ e :: ents nf kv).
          eapply Permutation_trans; [apply Permutation_sym, Permutation_middle|]. apply perm_skip. apply Permutation_app_tail, Permutation_sym, P1.
        - rewrite !upd_length. exact Hlk. }
      destruct (IH _ _ _ tmp HJ') as (o2 & n2 & k2 & H1 & H2 & H3 & H4 & H5 & H6).
      + rewrite upd_length. exact Hn.
      + rewrite upd_length. exact HE.
      + rewrite (ents_kv_irrel (upd old i false)) by (rewrite nth_error_upd, Nat.eqb_refl; destruct (_ <? _)%nat; discriminate).
        pose proof (Permutation_length (ents_upd_off old kv i tmp Eo Htmp)) as HL. cbn in HL. lia.
      + exists o2, n2, k2. split; [exact H1|]. split; [exact H2|]. rewrite !upd_length in *. split; [exact H3|]. split; [exact H4|]. split; [exact H5|].
        intros j Hj. apply H6 in Hj. rewrite nth_error_upd in Hj. destruct (Nat.eqb_spec i j) as [->|]; [destruct (_ <? _)%nat; discriminate|exact Hj].
    - rewrite aset_ok by lia. cbn [bindr]. exists old, (upd nf i true), (upd kv i (Some e)). split; [reflexivity|].
      rewrite !upd_length. split; [|auto]. constructor.
      + intros j Hj. destruct (j_old _ _ _ _ _ HJ j Hj) as (H1 & H2). rewrite !nth_error_upd. destruct (Nat.eqb_spec i j) as [->|]; [congruence|]. auto.
      + apply Hnewi. reflexivity.
      + rewrite (ents_kv_irrel old) by congruence. eapply Permutation_trans; [|exact (j_perm _ _ _ _ _ HJ)]. cbn [app].
        eapply Permutation_trans; [apply Permutation_app_head, Permutation_sym, (ents_upd_on nf kv i e Hif ltac:(lia))|].
        apply Permutation_sym, Permutation_middle.
      + rewrite !upd_length. exact Hlk.
    - rewrite aset_ok by lia. cbn [bindr]. exists old, (upd nf i true), (upd kv i (Some e)). split; [reflexivity|].
      rewrite !upd_length. split; [|auto]. constructor.
      + intros j Hj. destruct (j_old _ _ _ _ _ HJ j Hj) as (H1 & H2). rewrite !nth_error_upd. destruct (Nat.eqb_spec i j) as [->|]; [congruence|]. auto.
      + apply Hnewi. reflexivity.
      + rewrite (ents_kv_irrel old) by congruence. eapply Permutation_trans; [|exact (j_perm _ _ _ _ _ HJ)]. cbn [app].
        eapply Permutation_trans; [apply Permutation_app_head, Permutation_sym, (ents_upd_on nf kv i e Hif ltac:(lia))|].
        apply Permutation_sym, Permutation_middle.
      + rewrite !upd_length. exact Hlk.
  Qed.

  Lemma rehash_spec E0 m : forall n j old nf kv, J E0 [] old nf kv -> length nf = (2 ^ m)%nat -> (length E0 < length nf)%nat ->
    (j + n = length old)%nat -> (forall i, (i < j)%nat -> nth_error old i <> Some true) ->
    exists old' nf' kv', rehash hash n j old nf kv = Ok (old', nf', kv') /\ J E0 [] old' nf' kv' /\ length nf' = length nf /\
       length kv' = length kv /\ (forall i, nth_error old' i <> Some true).
  Proof.
    induction n as [|n IH]; intros j old nf kv HJ Hn HE Hj Hlow; cbn [rehash].
    - exists old, nf, kv. split; [reflexivity|]. split; [exact HJ|]. split; [reflexivity|]. split; [reflexivity|].
      intros i Hi. assert (i < length old)%nat by (apply nth_error_Some; congruence). apply (Hlow i); [lia|exact Hi].
    - destruct (aget_ok old j) as (u & -> & Hu); [lia|]. cbn [bindr]. destruct u.
      + destruct (j_old _ _ _ _ _ HJ j Hu) as ((e & He) & Hnf). rewrite (aget_some _ _ _ He). cbn [bindr].
        rewrite aset_ok by lia. cbn [bindr].
        assert (HJ1 : J E0 [e] (upd old j false) nf kv).
        { constructor.
          - intros i Hi. rewrite nth_error_upd in Hi. destruct (Nat.eqb_spec j i) as [->|]; [destruct (_ <? _)%nat; discriminate|]. apply (j_old _ _ _ _ _ HJ i Hi).
          - apply (j_new _ _ _ _ _ HJ).
          - eapply Permutation_trans; [|exact (j_perm _ _ _ _ _ HJ)]. cbn [app].
            change (e :: ents (upd old j false) kv ++ ents nf kv) with ((e :: ents (upd old j false) kv) ++ ents nf kv).
            apply Permutation_app_tail, Permutation_sym, ents_upd_off; assumption.
          - apply (j_len _ _ _ _ _ HJ). }
        destruct (kick_spec E0 m (S (length nf)) _ _ _ e HJ1 Hn HE) as (o2 & n2 & k2 & -> & HJ2 & H3 & H4 & H5 & H6).
        { pose proof (Permutation_length (j_perm _ _ _ _ _ HJ1)) as HL. rewrite !app_length in HL. cbn in HL. lia. }
        cbn [bindr]. rewrite upd_length in H3.
        destruct (IH (S j) o2 n2 k2 HJ2) as (o3 & n3 & k3 & H7 & H8 & H9 & H10 & H11); try lia.
        * intros i Hi Ht. apply H6 in Ht. rewrite nth_error_upd in Ht. destruct (Nat.eqb_spec j i) as [->|]; [destruct (_ <? _)%nat; discriminate|].
          apply (Hlow i); [lia|exact Ht].
        * exists o3, n3, k3. split; [exact H7|]. split; [exact H8|]. split; [lia|]. split; [lia|exact H11].
      + apply IH; auto; try lia. intros i Hi. destruct (Nat.eq_dec i j) as [->|]; [congruence|]. apply Hlow. lia.
  Qed.

  Lemma ents_slots (s : list (@slot K V)) tl : ents (map is_full s) (map slot_kv s ++ tl) = entries s.
  Proof.
    induction s as [|x s IH]; [destruct tl; reflexivity|]. cbn. destruct x; cbn; rewrite IH; reflexivity.
  Qed.
  Lemma ents_false n kv : ents (repeat false n) kv = [].
  Proof. revert kv. induction n as [|n IH]; intros [|x kv]; cbn; auto. Qed.
  Lemma nth_repeat_false n i : nth_error (repeat false n) i <> Some true.
  Proof. intros H. apply nth_error_In in H. apply repeat_spec in H. discriminate. Qed.
  Lemma entries_mk nf kv : entries (map mk_slot (combine nf (firstn (length nf) kv))) = ents nf kv.
  Proof.
    revert kv. induction nf as [|b nf IH]; intros [|x kv]; cbn; auto; try (destruct b; reflexivity). specialize (IH kv). unfold entries in IH. destruct b, x as [[k v]|]; cbn; rewrite IH; reflexivity.
  Qed.
  Lemma nth_mk nf kv i : (length nf <= length kv)%nat -> nth_error (map mk_slot (combine nf (firstn (length nf) kv))) i =
    match nth_error nf i, nth_error kv i with Some b, Some x => Some (mk_slot (b, x)) | _, _ => None end.
  Proof.
    revert kv i. induction nf as [|b nf IH]; intros [|x kv] [|i] Hl; cbn in *; auto; try lia. apply IH. lia.
  Qed.
  Lemma cnt_mk nf kv : cnt (map mk_slot (combine nf (firstn (length nf) kv))) = length (ents nf kv).
  Proof.
    unfold cnt. revert kv. induction nf as [|b nf IH]; intros [|x kv]; cbn; auto; try (destruct b; reflexivity). destruct b, x as [[k v]|]; cbn; rewrite ?IH; reflexivity.
  Qed.

  Lemma hresize_spec (t : @table K V) want m : inv hash eqk t -> (2 <= m)%nat ->
    Z.to_nat (if roundup want <? 4 then 4 else roundup want) = (2 ^ m)%nat ->
    (n_buckets t <= 2 ^ m)%nat -> (size t < bound77 (2 ^ m))%nat ->
    exists t', hresize hash t want = Ok t' /\ inv hash eqk t' /\ Permutation (entries (slots t)) (entries (slots t')) /\
      n_buckets t' = (2 ^ m)%nat /\ (n_occupied t' < upper t')%nat /\ size t' = size t.
  Proof.
    intros Hi Hm Hr Hle Hsz. unfold hresize. rewrite Hr. cbv zeta. set (nn := (2 ^ m)%nat) in *.
    assert (Hnn : (4 <= nn)%nat) by (apply pow2_ge4, Hm).
    destruct (Nat.leb_spec (bound77 nn) (size t)); [lia|].
    set (kv := map slot_kv (slots t) ++ repeat None (nn - n_buckets t)).
    assert (Hkl : length kv = nn) by (unfold kv; rewrite app_length, map_length, repeat_length; unfold n_buckets in *; lia).
    assert (HJ : J (entries (slots t)) [] (map is_full (slots t)) (repeat false nn) kv).
    { constructor.
      - intros i Hx. split; [|apply nth_repeat_false]. rewrite nth_error_map in Hx. destruct (nth_error (slots t) i) as [x|] eqn:E; [|discriminate].
        cbn in Hx. destruct x; try discriminate. unfold kv. rewrite nth_error_app1 by (rewrite map_length; apply nth_error_Some; congruence).
        rewrite nth_error_map, E. cbn. eauto.
      - intros i Hx. exfalso. exact (nth_repeat_false _ _ Hx).
      - cbn [app]. unfold kv. rewrite ents_slots, ents_false, app_nil_r. apply Permutation_refl.
      - rewrite repeat_length. lia. }
    destruct (rehash_spec (entries (slots t)) m (n_buckets t) 0 _ _ _ HJ) as (o' & nf' & kv' & -> & HJ' & H1 & H2 & H3).
    - apply repeat_length.
    - rewrite repeat_length, <- (i_size hash eqk t Hi). pose proof (bound77_lt nn Hnn). lia.
    - rewrite map_length. reflexivity.
    - intros i Hx. lia.
    - cbn [bindr]. rewrite repeat_length in H1.
      assert (Hents : ents o' kv' = []).
      { clear - H3. revert kv'. induction o' as [|b o IH]; intros [|x kv]; cbn; auto; destruct b; try (exfalso; apply (H3 O); reflexivity); auto.
        apply IH. intros i. apply (H3 (S i)). }
      pose proof (j_perm _ _ _ _ _ HJ') as HP. rewrite Hents in HP. cbn [app] in HP.
      assert (Hl2 : (length nf' <= length kv')%nat) by (rewrite H1, H2, Hkl; lia).
      rewrite <- H1. eexists. split; [reflexivity|]. cbn [slots size n_occupied upper].
      set (s' := map mk_slot (combine nf' (firstn (length nf') kv'))).
      assert (Hlen : length s' = nn).
      { unfold s'. rewrite map_length, combine_length, firstn_length. lia. }
      assert (Hent : entries s' = ents nf' kv') by apply entries_mk.
      assert (Hsl : size t = length (entries s')) by (rewrite Hent, (Permutation_length HP); apply (i_size hash eqk t Hi)).
      split; [|split; [rewrite Hent; apply Permutation_sym, HP|]].
      + constructor; cbn [slots size n_occupied upper].
        * right. exists m. unfold n_buckets. cbn [slots]. rewrite Hlen, H1. auto.
        * intros i k v Hx. unfold s' in Hx. rewrite nth_mk in Hx by exact Hl2.
          destruct (nth_error nf' i) as [[]|] eqn:En; [| |discriminate].
          -- destruct (j_new _ _ _ _ _ HJ' i En) as (k2 & v2 & Hk & (st & Hs1 & Hs2 & Hs3)). rewrite Hk in Hx. cbn in Hx. injection Hx as -> ->.
             exists st. rewrite Hlen, <- H1. split; [exact Hs1|]. split; [exact Hs2|]. intros u Hu. unfold s'. rewrite nth_mk by exact Hl2.
             specialize (Hs3 u Hu). rewrite Hs3. destruct (j_new _ _ _ _ _ HJ' _ Hs3) as (k3 & v3 & Hk3 & _). rewrite Hk3. cbn. discriminate.
          -- destruct (nth_error kv' i); cbn in Hx; discriminate.
        * rewrite Hent. eapply pu_perm; [exact Esym|apply Permutation_sym, HP|apply (i_pu hash eqk t Hi)].
        * exact Hsl.
        * rewrite Hsl, Hent. unfold s'. rewrite cnt_mk. reflexivity.
        * rewrite H1. lia.
      + unfold n_buckets. cbn [slots]. rewrite Hlen, H1. split; [reflexivity|]. split; [lia|reflexivity].
  Qed.
End R.
