From Verif Require Import Base Str CStr Arr IntSpec TsortModel VectorModel TreeModel TreeSpec TreeProofs.

Definition sortedk (es : list tentry) : Prop := StronglySorted (fun a b => lex (ekey a) (ekey b) <> Gt) es.
Definition short (e : tentry) : Prop := Z.of_nat (length (te_name e)) <= 65535.

Lemma memcmpz_lex m : forall a b x y, memcmpz a b m <> 0 -> lex (a ++ x) (b ++ y) = if memcmpz a b m <? 0 then Lt else Gt.
Proof.
  induction m as [|m IH]; intros [|c a] [|d b] x y H; cbn in H |- *; try congruence.
  destruct (Z.eqb_spec c d) as [->|N].
  - rewrite Z.compare_refl. apply IH. exact H.
  - destruct (Z.compare_spec c d); [congruence| |]; destruct (Z.ltb_spec (c - d) 0); reflexivity || lia.
Qed.
Lemma memcmpz_eq a : forall b, length a = length b -> (memcmpz a b (length a) = 0 <-> a = b).
Proof.
  induction a as [|c a IH]; intros [|d b] H; try discriminate; cbn.
  - tauto.
  - injection H as H. destruct (Z.eqb_spec c d) as [->|N]; [rewrite (IH b H); intuition congruence|]. split; [lia|congruence].
Qed.
Lemma name_eq_spec k e : short e -> (name_eq k e = true <-> te_name e = k).
Proof.
  intros H. unfold name_eq, flen. rewrite len16_id by exact H. rewrite andb_true_iff, Nat.eqb_eq, Z.eqb_eq. split.
  - intros [E H0]. symmetry. apply memcmpz_eq; [congruence|exact H0].
  - intros <-. split; [reflexivity|]. apply memcmpz_eq; reflexivity.
Qed.
Lemma homing_name k e : te_name e = k -> homing_cmp k e = 0.
Proof.
  intros <-. unfold homing_cmp. generalize (if (len16 (length (te_name e)) <? flen e)%nat then len16 (length (te_name e)) else flen e).
  intros n. generalize (te_name e). intros l. revert n. induction l as [|c l IH]; intros [|n]; cbn; try reflexivity. rewrite Z.eqb_refl. apply IH.
Qed.
(** An entry that the homing comparison puts after (before) the name comes strictly after
    (before) every entry of that name. *)
Lemma homing_lt k e x : homing_cmp k x < 0 -> te_name e = k -> lex (ekey e) (ekey x) = Lt.
Proof.
  unfold homing_cmp, ekey, sort_key. intros H <-. rewrite (memcmpz_lex (if (len16 (length (te_name e)) <? flen x)%nat then len16 (length (te_name e)) else flen x)) by lia.
  destruct (Z.ltb_spec (memcmpz (te_name e) (te_name x) (if (len16 (length (te_name e)) <? flen x)%nat then len16 (length (te_name e)) else flen x)) 0); [reflexivity|lia].
Qed.
Lemma homing_gt k e x : 0 < homing_cmp k x -> te_name e = k -> lex (ekey e) (ekey x) = Gt.
Proof.
  unfold homing_cmp, ekey, sort_key. intros H <-. rewrite (memcmpz_lex (if (len16 (length (te_name e)) <? flen x)%nat then len16 (length (te_name e)) else flen x)) by lia.
  destruct (Z.ltb_spec (memcmpz (te_name e) (te_name x) (if (len16 (length (te_name e)) <? flen x)%nat then len16 (length (te_name e)) else flen x)) 0); [lia|reflexivity].
Qed.
Lemma sortedk_nth es : sortedk es -> forall i j a b, (i <= j)%nat -> nth_error es i = Some a -> nth_error es j = Some b -> lex (ekey a) (ekey b) <> Gt.
Proof.
  induction 1 as [|x es Hs IH Hf]; intros i j a b Hij Ha Hb; [destruct i; discriminate|].
  destruct i as [|i], j as [|j]; cbn in Ha, Hb; try lia.
  - assert (a = b) by congruence. subst. rewrite lex_refl. discriminate.
  - injection Ha as <-. rewrite Forall_forall in Hf. apply Hf. eapply nth_error_In. exact Hb.
  - apply (IH i j); auto. lia.
Qed.
Definition apart (es : list tentry) (k : list Z) (t : nat) : Prop :=
  forall i x, nth_error es i = Some x -> (homing_cmp k x < 0 -> (t < i)%nat) /\ (0 < homing_cmp k x -> (i < t)%nat).
Lemma sorted_apart es k t e : sortedk es -> nth_error es t = Some e -> te_name e = k -> apart es k t.
Proof.
  intros Hs Ht Hk i x Hi. split; intros H.
  - destruct (Nat.lt_ge_cases t i) as [|L]; [assumption|]. exfalso. apply (sortedk_nth es Hs i t x e L Hi Ht).
    rewrite lex_antisym. rewrite (homing_lt k e x H Hk). reflexivity.
  - destruct (Nat.lt_ge_cases i t) as [|L]; [assumption|]. exfalso. apply (sortedk_nth es Hs t i e x L Ht Hi). apply (homing_gt k); assumption.
Qed.

Lemma homing_bsearch es k : forall fuel base lim, (lim < fuel)%nat -> (base + lim <= length es)%nat ->
  exists found pos, bsearch_loop fuel es (homing_cmp k) base lim = Ok (found, pos) /\
    (found = true -> exists e, nth_error es pos = Some e /\ homing_cmp k e = 0) /\
    (found = false -> forall t, (base <= t < base + lim)%nat -> apart es k t -> False).
Proof.
  induction fuel as [|f IH]; intros base lim Hf Hb; [lia|]. cbn [bsearch_loop]. destruct lim as [|l].
  - exists false, base. split; [reflexivity|]. split; [discriminate|]. intros _ t Ht. lia.
  - remember (S l) as lim eqn:El. assert (Hp : (base + lim / 2 < length es)%nat) by lia.
    destruct (aget_ok es _ Hp) as (e & Ee & Hn). rewrite Ee. cbn [bindr].
    destruct (Z.eqb_spec (homing_cmp k e) 0) as [E0|N0]; [exists true, (base + lim / 2)%nat; split; [reflexivity|]; split; [eauto|discriminate]|].
    destruct (Z.ltb_spec 0 (homing_cmp k e)) as [G|L].
    + destruct (IH (base + lim / 2 + 1)%nat ((lim - 1) / 2)%nat) as (found & pos & -> & H1 & H2); [lia|lia|]. exists found, pos. split; [reflexivity|]. split; [exact H1|].
      intros Hfd t Ht Ha. destruct (Ha _ _ Hn) as [_ A2]. apply (H2 Hfd t); [|exact Ha]. specialize (A2 G). lia.
    + destruct (IH base (lim / 2)%nat) as (found & pos & -> & H1 & H2); [lia|lia|]. exists found, pos. split; [reflexivity|]. split; [exact H1|].
      intros Hfd t Ht Ha. destruct (Ha _ _ Hn) as [A1 _]. apply (H2 Hfd t); [|exact Ha]. specialize (A1 ltac:(lia)). lia.
Qed.

Lemma look_fwd_some k : forall l i j, Forall short l -> look_fwd k l i = Some j -> exists n e, j = (i + n)%nat /\ nth_error l n = Some e /\ te_name e = k.
Proof.
  induction l as [|e l IH]; intros i j Hl H; cbn in H; [discriminate|]. inversion Hl; subst.
  destruct (homing_cmp k e <? 0); [discriminate|]. destruct (name_eq k e) eqn:En.
  - injection H as <-. exists O, e. split; [lia|]. split; [reflexivity|]. apply name_eq_spec; assumption.
  - destruct (IH _ _ H3 H) as (n & x & -> & Hx & Hk). exists (S n), x. split; [lia|auto].
Qed.
Lemma look_fwd_none k : forall l i n e, Forall short l -> look_fwd k l i = None -> nth_error l n = Some e -> te_name e = k ->
  exists n' x, (n' <= n)%nat /\ nth_error l n' = Some x /\ homing_cmp k x < 0.
Proof.
  induction l as [|x l IH]; intros i n e Hl H Hn Hk; [destruct n; discriminate|]. cbn in H. inversion Hl as [|? ? Hx Hl']; subst.
  destruct (Z.ltb_spec (homing_cmp (te_name e) x) 0) as [L|G]; [exists O, x; split; [lia|auto]|].
  destruct (name_eq (te_name e) x) eqn:En; [discriminate|]. destruct n as [|n].
  - cbn in Hn. injection Hn as ->. assert (name_eq (te_name e) e = true) by (apply name_eq_spec; auto). congruence.
  - destruct (IH _ n e Hl' H Hn eq_refl) as (n' & y & ? & ? & ?). exists (S n'), y. split; [lia|auto].
Qed.
Lemma look_bwd_some k : forall l i j, Forall short l -> (length l <= i + 1)%nat -> look_bwd k l i = Some j ->
  exists n e, (n <= i)%nat /\ j = (i - n)%nat /\ nth_error l n = Some e /\ te_name e = k.
Proof.
  induction l as [|e l IH]; intros i j Hl Hi H; cbn in H; [discriminate|]. inversion Hl; subst.
  destruct (0 <? homing_cmp k e); [discriminate|]. destruct (name_eq k e) eqn:En.
  - injection H as <-. exists O, e. split; [lia|]. split; [lia|]. split; [reflexivity|]. apply name_eq_spec; assumption.
  - destruct l as [|y l]; [discriminate|]. cbn [length] in Hi. destruct (IH (i - 1)%nat j H3 ltac:(cbn [length]; lia) H) as (n & x & Hni & -> & Hx & Hk). exists (S n), x. split; [lia|]. split; [lia|auto].
Qed.
Lemma look_bwd_none k : forall l i n e, Forall short l -> look_bwd k l i = None -> nth_error l n = Some e -> te_name e = k ->
  exists n' x, (n' <= n)%nat /\ nth_error l n' = Some x /\ 0 < homing_cmp k x.
Proof.
  induction l as [|x l IH]; intros i n e Hl H Hn Hk; [destruct n; discriminate|]. cbn in H. inversion Hl as [|? ? Hx Hl']; subst.
  destruct (Z.ltb_spec 0 (homing_cmp (te_name e) x)) as [L|G]; [exists O, x; split; [lia|auto]|].
  destruct (name_eq (te_name e) x) eqn:En; [discriminate|]. destruct n as [|n].
  - cbn in Hn. injection Hn as ->. assert (name_eq (te_name e) e = true) by (apply name_eq_spec; auto). congruence.
  - destruct (IH _ n e Hl' H Hn eq_refl) as (n' & y & ? & ? & ?). exists (S n'), y. split; [lia|auto].
Qed.
Lemma nth_error_skipn {A} (l : list A) h n : nth_error (skipn h l) n = nth_error l (h + n).
Proof. revert h n. induction l as [|a l IH]; intros [|h] n; cbn; auto. destruct n; reflexivity. Qed.
Lemma nth_error_firstn {A} (l : list A) h n : (n < h)%nat -> nth_error (firstn h l) n = nth_error l n.
Proof. revert h n. induction l as [|a l IH]; intros [|h] [|n] H; cbn; auto; try lia. apply IH. lia. Qed.
Lemma nth_error_rev' {A} (l : list A) n : (n < length l)%nat -> nth_error (rev l) n = nth_error l (length l - 1 - n).
Proof.
  intros H. destruct (nth_error l (length l - 1 - n)) as [a|] eqn:E; [|apply nth_error_None in E; lia].
  rewrite (nth_error_nth' (rev l) a) by (rewrite rev_length; exact H). rewrite rev_nth by exact H. f_equal.
  replace (length l - S n)%nat with (length l - 1 - n)%nat by lia. apply nth_error_nth. exact E.
Qed.
Lemma nth_rev_firstn {A} (l : list A) h n : (h <= length l)%nat -> (n < h)%nat -> nth_error (rev (firstn h l)) n = nth_error l (h - 1 - n).
Proof.
  intros Hh Hn. assert (Hlen : length (firstn h l) = h) by (apply firstn_length_le; exact Hh).
  rewrite nth_error_rev' by lia. rewrite Hlen. apply nth_error_firstn. lia.
Qed.
Lemma Forall_rev_firstn {A} (P : A -> Prop) l h : Forall P l -> Forall P (rev (firstn h l)).
Proof. intros H. apply Forall_rev. rewrite <- (firstn_skipn h l) in H. apply Forall_app in H. apply H. Qed.
Lemma Forall_skipn' {A} (P : A -> Prop) l h : Forall P l -> Forall P (skipn h l).
Proof. intros H. rewrite <- (firstn_skipn h l) in H. apply Forall_app in H. apply H. Qed.

Lemma tree_key_search_spec es k : Forall short es -> sortedk es ->
  exists r, tree_key_search es k = Ok r /\
    match r with
    | Some i => exists e, nth_error es i = Some e /\ te_name e = k
    | None => forall e, In e es -> te_name e <> k
    end.
Proof.
  intros Hsh Hs. unfold tree_key_search, bsearch.
  destruct (homing_bsearch es k (S (length es)) 0 (length es)) as (found & h & -> & H1 & H2); [lia|lia|]. cbn [bindr].
  destruct found; cbn [negb].
  - destruct (H1 eq_refl) as (e0 & Hh & _). assert (Hhl : (h < length es)%nat) by (apply nth_error_Some; congruence).
    destruct (look_fwd k (skipn h es) h) as [j|] eqn:Ef.
    + exists (Some j). split; [reflexivity|]. destruct (look_fwd_some _ _ _ _ (Forall_skipn' _ _ h Hsh) Ef) as (n & e & -> & Hn & Hk).
      rewrite nth_error_skipn in Hn. eauto.
    + eexists. split; [reflexivity|]. destruct (look_bwd k (rev (firstn h es)) (h - 1)) as [j|] eqn:Eb.
      * destruct (look_bwd_some k (rev (firstn h es)) (h - 1)%nat j (Forall_rev_firstn _ _ h Hsh)) as (n & e & Hn & -> & Hx & Hk); [rewrite rev_length, firstn_length_le by lia; lia|exact Eb|].
        assert (n < length (rev (firstn h es)))%nat as Hl by (apply nth_error_Some; congruence). rewrite rev_length, firstn_length_le in Hl by lia.
        rewrite nth_rev_firstn in Hx by lia. eauto.
      * intros e Hin Hk. apply In_nth_error in Hin. destruct Hin as [t Ht]. pose proof (sorted_apart es k t e Hs Ht Hk) as Ha.
        destruct (Nat.lt_ge_cases t h) as [L|G].
        -- destruct (look_bwd_none k (rev (firstn h es)) (h - 1)%nat (h - 1 - t)%nat e (Forall_rev_firstn _ _ h Hsh) Eb) as (n' & x & Hn' & Hx & Hc); [rewrite nth_rev_firstn by lia; replace (h - 1 - (h - 1 - t))%nat with t by lia; exact Ht|exact Hk|].
           rewrite nth_rev_firstn in Hx by lia. destruct (Ha _ _ Hx) as [_ A]. specialize (A Hc). lia.
        -- destruct (look_fwd_none k (skipn h es) h (t - h)%nat e (Forall_skipn' _ _ h Hsh) Ef) as (n' & x & Hn' & Hx & Hc); [rewrite nth_error_skipn; replace (h + (t - h))%nat with t by lia; exact Ht|exact Hk|].
           rewrite nth_error_skipn in Hx. destruct (Ha _ _ Hx) as [A _]. specialize (A Hc). lia.
  - exists None. split; [reflexivity|]. intros e Hin Hk. apply In_nth_error in Hin. destruct Hin as [t Ht].
    assert (t < length es)%nat by (apply nth_error_Some; congruence). apply (H2 eq_refl t); [lia|]. eapply sorted_apart; eassumption.
Qed.
