From Verif Require Import Base Str CStr Arr IntModel IntSpec TsortModel TsortMap VectorModel HashModel StrMap TreeModel TreeSpec TreeProofs TreeLookup.

Definition mke (n : list Z) (v : Z * list Z) : tentry := mkte (fst v) n (snd v).
Definition lift (S : entries_map) : list Z -> option tentry := fun n => option_map (mke n) (S n).

Section B.
  Context (hash : list Z -> nat) (path_ok : list Z -> bool) (obj_ok : list Z -> Z -> bool).
  Notation tbl := (@table (list Z) tentry).
  Definition ok_insert (n oid : list Z) (m : Z) : bool := check_entry path_ok obj_ok n oid m =? 0.

  (** One call on a builder. *)
  Definition bstep (t : tbl) (o : bop) : res (tbl * bans) :=
    match o with
    | BInsert n oid m => do (c, t') <- builder_insert hash path_ok obj_ok t n oid m ;; Ok (t', ACode c)
    | BRemove n => do (c, t') <- builder_remove hash t n ;; Ok (t', ACode c)
    | BGet n => do e <- builder_get hash t n ;; Ok (t, AEntry (option_map (fun e => (te_attr e, te_oid e)) e))
    | BFilter p => do t' <- builder_filter hash t (fun e => p (te_attr e) (te_name e) (te_oid e)) ;; Ok (t', ACode 0)
    | BClear => Ok (builder_clear t, ACode 0)
    end.
  Fixpoint brun (t : tbl) (ops : list bop) : res (tbl * list bans) :=
    match ops with
    | [] => Ok (t, [])
    | o :: r => do (t1, a) <- bstep t o ;; do (t2, l) <- brun t1 r ;; Ok (t2, a :: l)
    end.

  Lemma check_entry_code n oid m : check_entry path_ok obj_ok n oid m = 0 \/ check_entry path_ok obj_ok n oid m = -1.
  Proof. unfold check_entry. repeat match goal with |- context [if ?b then _ else _] => destruct b end; auto. Qed.

  Lemma lift_mset S n v k : lift (mset S n v) k = sset (lift S) n (option_map (mke n) v) k.
  Proof. unfold lift, mset, sset. destruct (leqb k n) eqn:E; [|reflexivity]. apply leqb_spec in E. subst. reflexivity. Qed.

  Lemma filter_loop_spec p : forall l t S c, rep hash t S c ->
    exists t', filter_loop hash t l p = Ok t' /\ rep hash t' (fun n => if existsb (fun ke => leqb (fst ke) n && p (snd ke)) l then None else S n) c.
  Proof.
    induction l as [|[k e] l IH]; intros t S c H; cbn [filter_loop].
    - exists t. split; [reflexivity|]. exact H.
    - destruct (p e) eqn:E.
      + destruct (rep_remove hash t S c k H) as (t1 & -> & H1). cbn [bindr]. destruct (IH _ _ _ H1) as (t2 & -> & H2). exists t2. split; [reflexivity|].
        eapply rep_ext; [|exact H2]. intros n. cbn. rewrite E, andb_true_r. unfold sset. destruct (leqb k n) eqn:Ek; cbn.
        * apply leqb_sym in Ek. rewrite Ek. destruct (existsb _ l); reflexivity.
        * destruct (leqb n k) eqn:En; [apply leqb_sym in En; congruence|reflexivity].
      + destruct (IH _ _ _ H) as (t2 & -> & H2). exists t2. split; [reflexivity|]. eapply rep_ext; [|exact H2]. intros n. cbn. rewrite E, andb_false_r. reflexivity.
  Qed.

  Lemma bstep_spec t S c o : rep hash t (lift S) c -> 4 + 4 * Z.of_nat (c + 1) <= 2 ^ 30 ->
    exists t', bstep t o = Ok (t', snd (bspec ok_insert S o)) /\ rep hash t' (lift (fst (bspec ok_insert S o))) (c + 1).
  Proof.
    intros H Hc. destruct o as [n oid m|n|n|p|]; cbn [bstep bspec].
    - unfold builder_insert, ok_insert. destruct (check_entry_code n oid m) as [E|E]; rewrite E.
      + change (0 <? 0) with false. change (0 =? 0) with true. cbn [bindr fst snd]. rewrite (rep_hget hash t _ c n H). cbn [bindr].
        assert (Ee : match lift S n with Some e => mkte m (te_name e) oid | None => mkte m n oid end = mkte m n oid).
        { unfold lift. destruct (S n); reflexivity. }
        rewrite Ee. destruct (rep_put hash t _ c n (mkte m n oid) H Hc) as (t' & -> & H'). cbn [bindr]. exists t'. split; [reflexivity|].
        eapply rep_ext; [|exact H']. intros k. rewrite lift_mset. reflexivity.
      + change (-1 <? 0) with true. change (-1 =? 0) with false. cbn [bindr fst snd]. exists t. split; [reflexivity|]. eapply rep_mono; [|exact H]. lia.
    - unfold builder_remove. rewrite (rep_hget hash t _ c n H). cbn [bindr]. unfold lift at 1. destruct (S n) as [v|] eqn:E; cbn [option_map fst snd].
      + destruct (rep_remove hash t _ c n H) as (t' & -> & H'). cbn [bindr]. exists t'. split; [reflexivity|]. eapply rep_mono; [|eapply rep_ext; [|exact H']]; [lia|].
        intros k. rewrite lift_mset. reflexivity.
      + cbn [bindr]. exists t. split; [reflexivity|]. eapply rep_mono; [|exact H]. lia.
    - unfold builder_get. rewrite (rep_hget hash t _ c n H). cbn [bindr fst snd]. exists t. split; [|eapply rep_mono; [|exact H]; lia].
      unfold lift. destruct (S n) as [[m o]|]; reflexivity.
    - unfold builder_filter. destruct (rep_iter hash t _ c H) as (l & -> & Hnd & Hl & Hin). cbn [bindr fst snd].
      destruct (filter_loop_spec (fun e => p (te_attr e) (te_name e) (te_oid e)) l t _ c H) as (t' & -> & H'). cbn [bindr]. exists t'. split; [reflexivity|].
      eapply rep_mono; [|eapply rep_ext; [|exact H']]; [lia|]. intros n. cbn beta. unfold lift.
      destruct (S n) as [[m o]|] eqn:E; cbn [option_map]; [|destruct (existsb _ l); reflexivity].
      destruct (existsb _ l) eqn:Ex.
      + apply existsb_exists in Ex. destruct Ex as ([k e] & Hk & Ek). cbn in Ek.
        apply andb_true_iff in Ek. destruct Ek as [Ek Ep']. apply leqb_spec in Ek. subst k. apply Hin in Hk. unfold lift in Hk. rewrite E in Hk. cbn in Hk. injection Hk as <-. cbn in Ep'. rewrite Ep'. reflexivity.
      + destruct (p m n o) eqn:Ep; [|reflexivity]. exfalso. rewrite <- not_true_iff_false in Ex. apply Ex.
        apply existsb_exists. exists (n, mkte m n o). split; [apply Hin; unfold lift; rewrite E; reflexivity|]. cbn. rewrite leqb_refl. exact Ep.
    - exists (hclear t). split; [reflexivity|]. cbn [fst]. eapply rep_mono; [|apply (rep_clear hash t _ c H)]. lia.
  Qed.
  Lemma brun_spec_ok : forall ops t S c, rep hash t (lift S) c -> 4 + 4 * Z.of_nat (c + length ops) <= 2 ^ 30 ->
    exists t', brun t ops = Ok (t', snd (brun_spec ok_insert S ops)) /\ rep hash t' (lift (fst (brun_spec ok_insert S ops))) (c + length ops).
  Proof.
    induction ops as [|o ops IH]; intros t S c H Hc; cbn [brun brun_spec length] in *.
    - exists t. split; [reflexivity|]. rewrite Nat.add_0_r. exact H.
    - destruct (bstep_spec t S c o H ltac:(lia)) as (t1 & -> & H1). cbn [bindr]. destruct (bspec ok_insert S o) as [S1 a]. cbn [fst snd] in *.
      destruct (IH t1 S1 (c + 1)%nat H1 ltac:(lia)) as (t2 & -> & H2). cbn [bindr]. destruct (brun_spec ok_insert S1 ops) as [S2 l]. cbn [fst snd] in *.
      exists t2. split; [reflexivity|]. eapply rep_mono; [|exact H2]. lia.
  Qed.

  (** The entries a builder starts with. *)
  Definition source_map (src : list tentry) : entries_map := fold_left (fun S e => mset S (te_name e) (Some (te_attr e, te_oid e))) src mempty.
  Lemma append_all_spec : forall src t S c, rep hash t (lift S) c -> 4 + 4 * Z.of_nat (c + length src) <= 2 ^ 30 ->
    exists t', append_all hash path_ok obj_ok t src = Ok t' /\
      rep hash t' (lift (fold_left (fun S e => mset S (te_name e) (Some (te_attr e, te_oid e))) src S)) (c + length src).
  Proof.
    induction src as [|e src IH]; intros t S c H Hc; cbn [append_all length fold_left] in *.
    - exists t. rewrite Nat.add_0_r. auto.
    - unfold append_entry. change (0 <? 0) with false. cbv iota.
      destruct (rep_put hash t _ c (te_name e) (mkte (te_attr e) (te_name e) (te_oid e)) H ltac:(lia)) as (t1 & -> & H1). cbn [bindr].
      destruct (IH t1 (mset S (te_name e) (Some (te_attr e, te_oid e))) (c + 1)%nat) as (t2 & -> & H2).
      + eapply rep_ext; [|exact H1]. intros k. rewrite lift_mset. reflexivity.
      + lia.
      + exists t2. split; [reflexivity|]. eapply rep_mono; [|exact H2]. lia.
  Qed.
  Lemma builder_new_spec src : 4 + 4 * Z.of_nat (length src) <= 2 ^ 30 ->
    exists t, builder_new hash path_ok obj_ok (Some src) = Ok t /\ rep hash t (lift (source_map src)) (length src).
  Proof. intros H. apply (append_all_spec src hinit mempty 0%nat); [apply rep_init|exact H]. Qed.

  (** *** Writing *)
  Lemma fold_vinsert (l : list tentry) : forall v, items (fold_left vinsert l v) = items v ++ l.
  Proof. induction l as [|x l IH]; intros v; cbn; [rewrite app_nil_r; reflexivity|]. rewrite IH. cbn. rewrite <- app_assoc. reflexivity. Qed.
  Lemma fold_vinsert_flag (l : list tentry) : forall v, (length (items v) <= 1)%nat -> flag v = true -> flag (fold_left vinsert l v) = true -> (length (items v ++ l) <= 1)%nat.
  Proof.
    induction l as [|x l IH] using rev_ind; intros v H1 H2 H3; [rewrite app_nil_r; exact H1|].
    rewrite fold_left_app in H3. cbn in H3. rewrite fold_vinsert in H3. apply Nat.leb_le in H3. rewrite <- app_assoc in H3. exact H3.
  Qed.

  (** Sorting the values of a map with good names: the unique canonical list. *)
  Definition canonical (es : list tentry) : Prop := StronglySorted (fun a b => lex (ekey a) (ekey b) = Lt) es.

  Lemma sorted_canonical es : Forall good es -> NoDup (map te_name es) -> sorted entry_sort_cmp es -> canonical es.
  Proof.
    induction es as [|e es IH]; intros Hg Hn Hs; [constructor|]. inversion Hg as [|? ? Ge Ges]; subst. inversion Hn as [|? ? Ne Nes]; subst. destruct Hs as [H1 H2].
    constructor; [apply IH; assumption|]. apply Forall_forall. intros x Hx. assert (Gx : good x) by (rewrite Forall_forall in Ges; auto).
    pose proof (proj1 (entry_cmp_le e x Ge Gx) (H1 x Hx)) as Hle. destruct (lex (ekey e) (ekey x)) eqn:E; [|reflexivity|congruence].
    exfalso. apply lex_eq in E. apply Ne. replace (te_name e) with (te_name x); [apply in_map; exact Hx|].
    destruct Ge as (_ & N1 & _), Gx as (_ & N2 & _). unfold ekey, sort_key in E. change (bs "/") with [47] in E.
    destruct (isdirb (te_attr e)), (isdirb (te_attr x)).
    - apply app_inj_tail in E. symmetry. apply E.
    - exfalso. apply N2. rewrite app_nil_r in E. rewrite <- E. apply in_or_app. right. left. reflexivity.
    - exfalso. apply N1. rewrite app_nil_r in E. rewrite E. apply in_or_app. right. left. reflexivity.
    - rewrite !app_nil_r in E. congruence.
  Qed.
  Lemma canonical_sortedk es : canonical es -> sortedk es.
  Proof. induction 1 as [|a l H1 H2 H3]; constructor; [assumption|]. eapply Forall_impl; [|exact H3]. cbn. intros x ->. discriminate. Qed.
  Lemma canonical_unique es es' : canonical es -> canonical es' -> (forall e, In e es <-> In e es') -> es = es'.
  Proof.
    intros H. revert es'. induction H as [|a l Hl IH Ha]; intros es' H' E.
    - destruct es' as [|b es']; [reflexivity|]. destruct (proj2 (E b)). left. reflexivity.
    - destruct es' as [|b es']; [destruct (proj1 (E a)); left; reflexivity|]. inversion H' as [|? ? Hl' Hb]; subst.
      assert (a = b).
      { destruct (proj1 (E a) (or_introl eq_refl)) as [->|Hin]; [reflexivity|]. destruct (proj2 (E b) (or_introl eq_refl)) as [->|Hin']; [reflexivity|].
        rewrite Forall_forall in Ha, Hb. specialize (Ha b Hin'). specialize (Hb a Hin). rewrite lex_antisym, Ha in Hb. discriminate. }
      subst b. f_equal. apply IH; [assumption|]. intros e. rewrite Forall_forall in Ha, Hb.
      assert (Na : ~ In a l) by (intros Hin; specialize (Ha a Hin); rewrite lex_refl in Ha; discriminate).
      assert (Na' : ~ In a es') by (intros Hin; specialize (Hb a Hin); rewrite lex_refl in Hb; discriminate).
      specialize (E e). cbn in E. split; intros Hin.
      + destruct (proj1 E (or_intror Hin)) as [<-|]; [contradiction|assumption].
      + destruct (proj2 E (or_intror Hin)) as [<-|]; [contradiction|assumption].
  Qed.

  Definition names_good (S : entries_map) : Prop := forall n v, S n = Some v -> good (mke n v).

  Lemma builder_write_spec t S c : rep hash t (lift S) c -> names_good S ->
    (forall b, builder_write t = Ok b -> exists es, canonical es /\ (forall e, In e es <-> S (te_name e) = Some (te_attr e, te_oid e)) /\ b = concat (map put_entry es)) /\
    (Z.of_nat c < 8589934592 -> exists b, builder_write t = Ok b) /\ builder_write t <> NoFuel /\ (forall e, builder_write t <> Err e).
  Proof.
    intros H Hg. destruct (rep_iter hash t _ c H) as (l & El & Hnd & Hl & Hin). unfold builder_write. rewrite El. cbn [bindr].
    set (v := fold_left vinsert (map snd l) vinit). assert (Ev : items v = map snd l) by (unfold v; rewrite fold_vinsert; reflexivity).
    assert (Hl2 : forall k e, In (k, e) l -> S k = Some (te_attr e, te_oid e) /\ te_name e = k /\ good e).
    { intros k e Hk. apply Hin in Hk. unfold lift in Hk. destruct (S k) as [[m o]|] eqn:E; [|discriminate]. cbn in Hk. injection Hk as <-. split; [reflexivity|]. split; [reflexivity|]. exact (Hg k (m, o) E). }
    assert (Hgood : Forall good (map snd l)).
    { apply Forall_forall. intros e He. apply in_map_iff in He. destruct He as ([k e'] & <- & Hk). apply (Hl2 k e' Hk). }
    assert (Hnames : map te_name (map snd l) = map fst l).
    { rewrite map_map. apply map_ext_in. intros [k e] Hk. apply (Hl2 k e Hk). }
    assert (Hmem : forall e, In e (map snd l) <-> S (te_name e) = Some (te_attr e, te_oid e)).
    { intros e. split.
      - intros He. apply in_map_iff in He. destruct He as ([k e'] & <- & Hk). destruct (Hl2 k e' Hk) as (H1 & H2 & _). cbn. rewrite H2. exact H1.
      - intros He. apply in_map_iff. exists (te_name e, e). split; [reflexivity|]. apply Hin. unfold lift. rewrite He. destruct e; reflexivity. }
    assert (Hsort : forall w, Permutation (map snd l) w -> sorted entry_sort_cmp w ->
       exists es, canonical es /\ (forall e, In e es <-> S (te_name e) = Some (te_attr e, te_oid e)) /\ concat (map put_entry w) = concat (map put_entry es)).
    { intros w Hp Hs. exists w. split; [|split; [|reflexivity]].
      - apply sorted_canonical; [|eapply Permutation_NoDup; [apply Permutation_map; exact Hp|rewrite Hnames; exact Hnd]|exact Hs].
        eapply Permutation_Forall; eassumption.
      - intros e. rewrite <- Hmem. split; apply Permutation_in; [apply Permutation_sym; exact Hp|exact Hp]. }
    unfold vsort. destruct (flag v) eqn:Ef.
    - assert (Hlen : (length (map snd l) <= 1)%nat).
      { pose proof (fold_vinsert_flag (map snd l) vinit) as Hf. apply Hf; [cbn; lia|reflexivity|exact Ef]. }
      cbn [bindr]. rewrite Ev. split; [|split; [eauto|split; discriminate]]. intros b [= <-]. apply Hsort; [apply Permutation_refl|].
      destruct (map snd l) as [|x [|y r]]; cbn in Hlen |- *; [auto|split; [intros ? []|auto]|lia].
    - rewrite Ev. destruct (Nat.ltb_spec 1 (length (map snd l))) as [L|L].
      + destruct (tsort_on good entry_sort_cmp (map snd l) entry_cmp_ok Hgood) as (T1 & T2 & T3 & T4). split; [|split; [|split]].
        * destruct (tsort entry_sort_cmp (map snd l)) as [w| | |] eqn:Et; cbn [bindr items]; try discriminate. intros b [= <-].
          destruct (T1 w eq_refl) as (S1 & S2 & _). apply Hsort; assumption.
        * intros Hc. destruct T2 as [w Ew]; [rewrite map_length; lia|]. rewrite Ew. cbn. eauto.
        * destruct (tsort entry_sort_cmp (map snd l)); cbn; congruence.
        * intros e. specialize (T4 e). destruct (tsort entry_sort_cmp (map snd l)); cbn; congruence.
      + cbn [bindr items]. split; [|split; [eauto|split; discriminate]]. intros b [= <-]. apply Hsort; [apply Permutation_refl|].
        destruct (map snd l) as [|x [|y r]]; cbn in L |- *; [auto|split; [intros ? []|auto]|lia].
  Qed.
End B.
