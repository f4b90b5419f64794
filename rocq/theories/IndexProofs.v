(** Proofs about the in-memory index. *)
From Verif Require Import Base Arr Str CStr VectorModel VectorSpec VectorProofs WildModel IndexModel IndexSpec.
From Coq Require Import Sorting.Sorted.

(** *** Orders *)
Lemma sgn_cmp_sgn z : sgn_cmp z = match Z.sgn z with 0 => Eq | Z.pos _ => Gt | Z.neg _ => Lt end.
Proof. destruct z; reflexivity. Qed.
Lemma pcmp_lex ic a : forall b, sgn_cmp (pcmp ic a b) = lex (folded ic a) (folded ic b).
Proof.
  induction a as [|x a IH]; intros [|y b]; try reflexivity. cbn [pcmp folded map lex].
  destruct (Z.eqb_spec (fold ic x) (fold ic y)) as [->|N]; [rewrite Z.compare_refl; apply IH|].
  unfold sgn_cmp. destruct (Z.compare_spec (fold ic x) (fold ic y)), (Z.compare_spec (fold ic x - fold ic y) 0); try reflexivity; lia.
Qed.
Lemma sgn_cmp_lt z : sgn_cmp z = Lt <-> z < 0. Proof. unfold sgn_cmp. destruct (Z.compare_spec z 0); split; intros; try discriminate; lia || reflexivity. Qed.
Lemma sgn_cmp_gt z : sgn_cmp z = Gt <-> 0 < z. Proof. unfold sgn_cmp. destruct (Z.compare_spec z 0); split; intros; try discriminate; lia || reflexivity. Qed.
Lemma sgn_cmp_eq z : sgn_cmp z = Eq <-> z = 0. Proof. unfold sgn_cmp. destruct (Z.compare_spec z 0); split; intros; try discriminate; lia || reflexivity. Qed.
Lemma pcmp_lt ic a b : pcmp ic a b < 0 <-> lex (folded ic a) (folded ic b) = Lt.
Proof. rewrite <- sgn_cmp_lt, pcmp_lex. reflexivity. Qed.
Lemma pcmp_eq ic a b : pcmp ic a b = 0 <-> folded ic a = folded ic b.
Proof. rewrite <- sgn_cmp_eq, pcmp_lex. apply lex_eq. Qed.
Lemma pcmp_gt ic a b : 0 < pcmp ic a b <-> lex (folded ic a) (folded ic b) = Gt.
Proof. rewrite <- sgn_cmp_gt, pcmp_lex. reflexivity. Qed.
Lemma pcmp_ok ic : cmp_ok (pcmp ic).
Proof.
  split.
  - intros a b. assert (E := lex_antisym (folded ic a) (folded ic b)).
    destruct (Z.compare_spec (pcmp ic a b) 0) as [H|H|H].
    + rewrite H. apply pcmp_eq in H. symmetry in H. apply pcmp_eq in H. rewrite H. reflexivity.
    + assert (H1 := H). apply pcmp_lt in H1. rewrite H1 in E. apply pcmp_gt in E. rewrite Z.sgn_pos, Z.sgn_neg by lia. reflexivity.
    + assert (H1 := H). apply pcmp_gt in H1. rewrite H1 in E. apply pcmp_lt in E. rewrite Z.sgn_neg, Z.sgn_pos by lia. reflexivity.
  - intros a b c H1 H2.
    destruct (Z.eq_dec (pcmp ic a b) 0) as [E|N].
    { apply pcmp_eq in E. destruct (Z.eq_dec (pcmp ic b c) 0) as [F|M].
      - apply pcmp_eq in F. assert (folded ic a = folded ic c) as G by congruence. apply pcmp_eq in G. lia.
      - assert (pcmp ic b c < 0) as L by lia. apply pcmp_lt in L. rewrite <- E in L. apply pcmp_lt in L. lia. }
    assert (pcmp ic a b < 0) as L by lia. apply pcmp_lt in L.
    destruct (Z.eq_dec (pcmp ic b c) 0) as [F|M].
    { apply pcmp_eq in F. rewrite F in L. apply pcmp_lt in L. lia. }
    assert (pcmp ic b c < 0) as L2 by lia. apply pcmp_lt in L2. assert (L3 := lex_lt_trans _ _ _ L L2). apply pcmp_lt in L3. lia.
Qed.
Lemma ecmp_ok ic : cmp_ok (ecmp ic).
Proof.
  assert (P := pcmp_ok ic). split.
  - intros a b. unfold ecmp. assert (S := cmp_sym _ P (e_path a) (e_path b)).
    destruct (Z.eqb_spec (pcmp ic (e_path a) (e_path b)) 0) as [E|E]; destruct (Z.eqb_spec (pcmp ic (e_path b) (e_path a)) 0) as [F|F].
    + rewrite <- Z.sgn_opp. f_equal. lia.
    + rewrite E in S. cbn in S. destruct (pcmp ic (e_path b) (e_path a)); cbn in S; lia.
    + rewrite F in S. cbn in S. destruct (pcmp ic (e_path a) (e_path b)); cbn in S; lia.
    + exact S.
  - intros a b c. unfold ecmp.
    destruct (Z.eqb_spec (pcmp ic (e_path a) (e_path b)) 0) as [E|E]; destruct (Z.eqb_spec (pcmp ic (e_path b) (e_path c)) 0) as [F|F]; intros H1 H2.
    + rewrite (cmp_eq_trans _ P _ _ _ E F), Z.eqb_refl. lia.
    + assert (pcmp ic (e_path a) (e_path c) < 0) by (apply (cmp_le_lt_trans _ P _ (e_path b)); lia).
      destruct (Z.eqb_spec (pcmp ic (e_path a) (e_path c)) 0); lia.
    + assert (pcmp ic (e_path a) (e_path c) < 0) by (apply (cmp_lt_le_trans _ P _ (e_path b)); lia).
      destruct (Z.eqb_spec (pcmp ic (e_path a) (e_path c)) 0); lia.
    + assert (pcmp ic (e_path a) (e_path c) < 0) by (apply (cmp_lt_le_trans _ P _ (e_path b)); lia).
      destruct (Z.eqb_spec (pcmp ic (e_path a) (e_path c)) 0); lia.
Qed.
Lemma ecmp_before ic a b : ecmp ic a b < 0 <-> before ic a b.
Proof.
  unfold ecmp, before. rewrite <- pcmp_lt, <- pcmp_eq. destruct (Z.eqb_spec (pcmp ic (e_path a) (e_path b)) 0); lia.
Qed.
Lemma ecmp_eq ic a b : ecmp ic a b = 0 <-> same_key ic (e_path a) (e_stage a) (e_path b) (e_stage b).
Proof.
  unfold ecmp, same_key. rewrite <- pcmp_eq. destruct (Z.eqb_spec (pcmp ic (e_path a) (e_path b)) 0); lia.
Qed.
Lemma ecmp_le_pcmp ic a b : ecmp ic a b <= 0 -> pcmp ic (e_path a) (e_path b) <= 0.
Proof. unfold ecmp. destruct (Z.eqb_spec (pcmp ic (e_path a) (e_path b)) 0); lia. Qed.

(** The search functions agree with the order. *)
Lemma pncmp_pcmp ic a : forall b,
  pcmp ic a b =
  (let c := pncmp ic a b (if (length a <? length b)%nat then length a else length b) in
   if negb (c =? 0) then c else if (length a <? length b)%nat then -1 else if (length b <? length a)%nat then 1 else 0).
Proof.
  cbv zeta.
  induction a as [|x a IH]; intros [|y b]; try reflexivity.
  cbn [length]. change (S (length a) <? S (length b))%nat with (length a <? length b)%nat.
  change (S (length b) <? S (length a))%nat with (length b <? length a)%nat.
  specialize (IH b). cbn [pcmp].
  destruct (Nat.ltb_spec (length a) (length b)); cbn [pncmp]; destruct (Z.eqb_spec (fold ic x) (fold ic y)) as [E|E]; try exact IH;
    (destruct (Z.eqb_spec (fold ic x - fold ic y) 0); [lia|reflexivity]).
Qed.
Lemma srch_eq ic path st e :
  srch ic path st e =
  (if pcmp ic path (e_path e) =? 0 then (if st =? -1 then 0 else st - e_stage e) else pcmp ic path (e_path e)).
Proof.
  unfold srch. rewrite (pncmp_pcmp ic path (e_path e)). cbv zeta.
  set (c := pncmp ic path (e_path e) _). destruct (negb (c =? 0)) eqn:Ec.
  - destruct (Z.eqb_spec c 0); [discriminate|reflexivity].
  - destruct (length path <? length (e_path e))%nat; [reflexivity|]. destruct (length (e_path e) <? length path)%nat; [reflexivity|].
    change (0 =? 0) with true. destruct (st =? -1); reflexivity.
Qed.
Lemma srch_ecmp ic path st e : st <> -1 -> srch ic path st e = ecmp ic (mke 0 path st 0 0) e.
Proof. intros H. rewrite srch_eq. unfold ecmp. cbn [e_path e_stage]. destruct (Z.eqb_spec st (-1)); [contradiction|]. reflexivity. Qed.
Lemma key_eq_spec ic p st e : key_eq ic p st e = true <-> same_key ic p st (e_path e) (e_stage e).
Proof. unfold key_eq, same_key. rewrite andb_true_iff, !Z.eqb_eq, pcmp_eq. tauto. Qed.
Lemma key_eq_ecmp ic a b : key_eq ic (e_path a) (e_stage a) b = (ecmp ic a b =? 0).
Proof.
  destruct (key_eq ic (e_path a) (e_stage a) b) eqn:E.
  - apply key_eq_spec, ecmp_eq in E. rewrite E. reflexivity.
  - destruct (Z.eqb_spec (ecmp ic a b) 0) as [F|F]; [|reflexivity]. apply ecmp_eq, key_eq_spec in F. congruence.
Qed.

(** *** The invariant *)
Definition slt (ic : bool) (a b : entry) : Prop := ecmp ic a b < 0.
Record inv (ic : bool) (ix : index) : Prop := {
  inv_flag : flag (i_ents ix) = true;
  inv_sorted : StronglySorted (slt ic) (items (i_ents ix));
  inv_map : Permutation (items (i_ents ix)) (i_map ix);
  inv_ptr : NoDup (map e_ptr (items (i_ents ix)));
  inv_next : forall e, In e (items (i_ents ix)) -> (e_ptr e < i_next ix)%nat
}.

Lemma ss_app {A} (R : A -> A -> Prop) a b : StronglySorted R (a ++ b) <->
  StronglySorted R a /\ StronglySorted R b /\ (forall x y, In x a -> In y b -> R x y).
Proof.
  induction a as [|x a IH]; cbn.
  - split; [intros H; repeat split; auto; [constructor|contradiction]|tauto].
  - split.
    + intros H. apply StronglySorted_inv in H as [H1 H2]. apply IH in H1 as (I1 & I2 & I3). rewrite Forall_forall in H2.
      split; [constructor; [exact I1|apply Forall_forall; intros; apply H2, in_or_app; auto]|]. split; [exact I2|].
      intros u v [<-|Hu] Hv; [apply H2, in_or_app; auto|auto].
    + intros (H1 & H2 & H3). apply StronglySorted_inv in H1 as [H0 H1]. rewrite Forall_forall in H1.
      constructor; [apply IH; auto|]. apply Forall_forall. intros y Hy. apply in_app_or in Hy as [Hy|Hy]; auto.
Qed.
Lemma ss_sorted ic l : StronglySorted (slt ic) l -> sorted (ecmp ic) l.
Proof.
  induction 1 as [|x l H IH F]; [exact I|]. split; [|exact IH]. rewrite Forall_forall in F.
  intros y Hy. specialize (F y Hy). unfold slt in F. lia.
Qed.
Lemma ss_key ic l a b : StronglySorted (slt ic) l -> In a l -> In b l -> ecmp ic a b = 0 -> a = b.
Proof.
  intros H Ha Hb E. apply In_nth_error in Ha as [i Hi]. apply In_nth_error in Hb as [j Hj].
  assert (G : forall l i j a b, StronglySorted (slt ic) l -> (i < j)%nat -> nth_error l i = Some a -> nth_error l j = Some b -> ecmp ic a b < 0).
  { clear. intros l i. revert l. induction i as [|i IH]; intros [|x l] [|j] a b H Hij Hi Hj; try discriminate; try lia; cbn in *.
    - injection Hi as <-. apply StronglySorted_inv in H as [_ H]. rewrite Forall_forall in H. apply H. eapply nth_error_In, Hj.
    - apply StronglySorted_inv in H as [H _]. apply (IH l j a b); auto; lia. }
  destruct (Nat.lt_trichotomy i j) as [L|[->|L]].
  - specialize (G l i j a b H L Hi Hj). lia.
  - congruence.
  - specialize (G l j i b a H L Hj Hi). apply (cmp_eq_sym _ (ecmp_ok ic)) in E. lia.
Qed.
Lemma ss_nth ic l : StronglySorted (slt ic) l <-> ordered ic l.
Proof.
  unfold ordered. induction l as [|x l IH].
  - split; [|constructor]. intros _ [|i] j a b _ H; discriminate.
  - split.
    + intros H. apply StronglySorted_inv in H as [H F]. rewrite Forall_forall in F. intros [|i] [|j] a b Hij Hi Hj; try lia; cbn in *.
      * injection Hi as <-. apply ecmp_before, F. eapply nth_error_In, Hj.
      * apply (proj1 IH H i j); auto; lia.
    + intros H. constructor.
      * apply IH. intros i j a b Hij Hi Hj. apply (H (S i) (S j)); auto; lia.
      * apply Forall_forall. intros y Hy. apply In_nth_error in Hy as [j Hj]. apply ecmp_before. apply (H 0%nat (S j)); auto; lia.
Qed.
Lemma ss_filter ic p l : StronglySorted (slt ic) l -> StronglySorted (slt ic) (filter p l).
Proof.
  induction 1 as [|x l H IH F]; cbn; [constructor|]. destruct (p x); [|exact IH]. constructor; [exact IH|].
  rewrite Forall_forall in *. intros y Hy. apply filter_In in Hy as [Hy _]. auto.
Qed.

Lemma inv_new ic : inv ic inew.
Proof. split; cbn; [reflexivity|constructor|constructor|constructor|intros e []]. Qed.

(** *** Searching *)
Lemma srch_ordered ic l path st : StronglySorted (slt ic) l -> ordered_for l (srch ic path st).
Proof.
  intros H. apply ss_sorted in H. destruct (Z.eq_dec st (-1)) as [->|N].
  - intros i j x y Hij Hx Hy. assert (Hxy := proj1 (sorted_nth _ l) H i j x y Hij Hx Hy). apply ecmp_le_pcmp in Hxy.
    rewrite !srch_eq. change (-1 =? -1) with true. cbv iota.
    assert (P := pcmp_ok ic).
    assert (forall z, (if pcmp ic path z =? 0 then 0 else pcmp ic path z) = pcmp ic path z) as R by (intros z; destruct (Z.eqb_spec (pcmp ic path z) 0); lia).
    rewrite !R. split; intros; [apply (cmp_trans _ P _ (e_path x))|apply (cmp_lt_le_trans _ P _ (e_path x))]; auto.
  - intros i j x y Hij Hx Hy. rewrite !srch_ecmp by assumption.
    exact (sorted_ordered (ecmp ic) (ecmp_ok ic) l _ H i j x y Hij Hx Hy).
Qed.
Lemma ifind_spec ic ix path st : inv ic ix ->
  exists found pos, ifind ic ix path st = Ok (found, pos, ix) /\
    search_answer (items (i_ents ix)) (srch ic path st) found pos.
Proof.
  intros Hi. destruct (bsearch_spec _ _ (srch_ordered ic _ path st (inv_sorted _ _ Hi))) as (f & p & E & S).
  exists f, p. split; [|exact S]. unfold ifind, vbsearch, vsort. rewrite (inv_flag _ _ Hi). cbn [bindr]. rewrite E. cbn [bindr].
  destruct ix; reflexivity.
Qed.

(** *** Removal of one entry *)
Lemma filter_key ic l e : StronglySorted (slt ic) l -> forall a b, l = a ++ e :: b ->
  filter (fun x => negb (key_eq ic (e_path e) (e_stage e) x)) l = a ++ b.
Proof.
  intros H a b ->. assert (H0 := H). apply ss_app in H as (Ha & Hb & Hab). apply StronglySorted_inv in Hb as [Hb Hf]. rewrite Forall_forall in Hf.
  rewrite filter_app. cbn [filter]. rewrite key_eq_ecmp, (cmp_refl _ (ecmp_ok ic)). cbn [Z.eqb negb].
  f_equal.
  - rewrite (filter_ext_in _ (fun _ => true)); [clear; induction a; cbn; congruence|].
    intros x Hx. rewrite key_eq_ecmp. specialize (Hab x e Hx (or_introl eq_refl)). unfold slt in Hab.
    destruct (Z.eqb_spec (ecmp ic e x) 0) as [E|]; [|reflexivity]. apply (cmp_eq_sym _ (ecmp_ok ic)) in E. lia.
  - rewrite (filter_ext_in _ (fun _ => true)); [clear; induction b; cbn; congruence|].
    intros x Hx. rewrite key_eq_ecmp. specialize (Hf x Hx). unfold slt in Hf. destruct (Z.eqb_spec (ecmp ic e x) 0); [lia|reflexivity].
Qed.
Lemma perm_filter' {A} (p : A -> bool) l l' : Permutation l l' -> Permutation (filter p l) (filter p l').
Proof.
  induction 1; cbn; auto.
  - destruct (p x); auto.
  - destruct (p x), (p y); auto. apply perm_swap.
  - eapply perm_trans; eauto.
Qed.
Lemma remove_entry_spec ic ix pos e : inv ic ix -> nth_error (items (i_ents ix)) pos = Some e ->
  exists a b ix', items (i_ents ix) = a ++ e :: b /\ length a = pos /\ remove_entry ic ix pos = (0, ix') /\
    items (i_ents ix') = a ++ b /\ inv ic ix' /\ i_next ix' = i_next ix.
Proof.
  intros Hi He. destruct (nth_error_split _ _ He) as (a & b & E & L).
  exists a, b. eexists. split; [exact E|]. split; [exact L|]. unfold remove_entry. rewrite He. unfold vremove.
  assert (pos < length (items (i_ents ix)))%nat by (apply nth_error_Some; congruence).
  destruct (Nat.leb_spec (length (items (i_ents ix))) pos); [lia|].
  split; [reflexivity|]. cbn [items i_ents].
  assert (firstn pos (items (i_ents ix)) ++ skipn (pos + 1) (items (i_ents ix)) = a ++ b) as R.
  { rewrite E, <- L, firstn_app, firstn_all, Nat.sub_diag. cbn [firstn]. rewrite app_nil_r. f_equal.
    rewrite skipn_app, skipn_all2 by lia. cbn [app]. replace (length a + 1 - length a)%nat with 1%nat by lia. reflexivity. }
  rewrite R. split; [reflexivity|]. split; [|reflexivity].
  destruct Hi as [I1 I2 I3 I4 I5]. rewrite E in *. split; cbn [items i_ents flag i_map i_next].
  - exact I1.
  - apply ss_app in I2 as (S1 & S2 & S3). apply StronglySorted_inv in S2 as [S2 _]. apply ss_app. split; [exact S1|]. split; [exact S2|].
    intros x y Hx Hy. apply S3; [exact Hx|right; exact Hy].
  - rewrite <- (filter_key ic (a ++ e :: b) e I2 a b eq_refl). apply perm_filter'. exact I3.
  - rewrite map_app in *. cbn in I4. apply NoDup_remove_1 in I4. exact I4.
  - intros x Hx. apply I5. apply in_app_or in Hx. apply in_or_app. cbn. tauto.
Qed.

(** What a sequence of removals may do. *)
Definition removes (ic : bool) (C : entry -> Prop) (ix ix' : index) : Prop :=
  inv ic ix' /\ i_next ix' = i_next ix /\ incl (items (i_ents ix')) (items (i_ents ix)) /\
  (forall e, In e (items (i_ents ix)) -> In e (items (i_ents ix')) \/ C e).
Lemma removes_refl ic C ix : inv ic ix -> removes ic C ix ix.
Proof. intros H. split; [exact H|]. split; [reflexivity|]. split; [apply incl_refl|auto]. Qed.
Lemma removes_trans ic C a b c : removes ic C a b -> removes ic C b c -> removes ic C a c.
Proof.
  intros (_ & N1 & I1 & K1) (J2 & N2 & I2 & K2). split; [exact J2|]. split; [congruence|]. split; [eapply incl_tran; eauto|].
  intros e He. destruct (K1 e He) as [H|H]; auto.
Qed.
Lemma removes_weaken ic (C D : entry -> Prop) a b : (forall e, C e -> D e) -> removes ic C a b -> removes ic D a b.
Proof. intros H (J & N & I & K). split; [exact J|]. split; [exact N|]. split; [exact I|]. intros e He. destruct (K e He); auto. Qed.
Lemma remove_one ic ix pos e (C : entry -> Prop) : inv ic ix -> nth_error (items (i_ents ix)) pos = Some e -> C e ->
  exists ix', remove_entry ic ix pos = (0, ix') /\ removes ic C ix ix' /\
    (length (items (i_ents ix')) < length (items (i_ents ix)))%nat /\ ~ In e (items (i_ents ix')) /\
    firstn pos (items (i_ents ix')) = firstn pos (items (i_ents ix)) /\ skipn pos (items (i_ents ix')) = skipn (S pos) (items (i_ents ix)).
Proof.
  intros Hi He HC. destruct (remove_entry_spec ic ix pos e Hi He) as (a & b & ix' & E & L & R & I' & J' & N').
  exists ix'. split; [exact R|]. split; [|].
  - split; [exact J'|]. split; [exact N'|]. rewrite E, I'. split.
    + intros x Hx. apply in_app_or in Hx. apply in_or_app. cbn. tauto.
    + intros x Hx. apply in_app_or in Hx as [Hx|[<-|Hx]]; [left; apply in_or_app; auto|auto|left; apply in_or_app; auto].
  - rewrite E, I', !app_length. cbn [length]. split; [lia|]. split.
    + intros Hin. assert (P := inv_ptr _ _ Hi). rewrite E, map_app in P. cbn in P. apply NoDup_remove_2 in P. apply P.
      rewrite <- map_app. apply in_map. exact Hin.
    + rewrite <- L, !firstn_app, firstn_all, Nat.sub_diag. cbn [firstn]. split; [reflexivity|].
      rewrite !skipn_app, skipn_all, Nat.sub_diag, (skipn_all2 (n := S (length a))) by lia. cbn [app skipn]. replace (S (length a) - length a)%nat with 1%nat by lia. reflexivity.
Qed.

(** *** Byte-level facts *)
Lemma pncmp_firstn n : forall a b, (n <= length a)%nat -> (n <= length b)%nat -> pncmp false a b n = 0 <-> firstn n a = firstn n b.
Proof.
  induction n as [|n IH]; intros [|x a] [|y b] Ha Hb; cbn in *; try lia; try tauto.
  unfold fold. cbn [andb]. destruct (Z.eqb_spec x y) as [->|N].
  - rewrite IH by lia. split; [intros ->; reflexivity|congruence].
  - split; [lia|congruence].
Qed.
Lemma under_intro dir p : (length dir < length p)%nat -> firstn (length dir) p = dir -> nth (length dir) p 0 = 47 -> under dir p.
Proof.
  intros L F N. exists (skipn (S (length dir)) p). rewrite <- (firstn_skipn (length dir) p) at 1. rewrite F. f_equal.
  destruct (skipn (length dir) p) as [|c r] eqn:E.
  { assert (length (skipn (length dir) p) = 0)%nat by (rewrite E; reflexivity). rewrite skipn_length in H. lia. }
  assert (c = 47) as ->.
  { rewrite <- N. rewrite <- (firstn_skipn (length dir) p) at 1. rewrite app_nth2; rewrite firstn_length, min_l by lia; [|lia].
    rewrite Nat.sub_diag, E. reflexivity. }
  f_equal. change (S (length dir)) with (1 + length dir)%nat. rewrite <- (skipn_skipn 1 (length dir)). rewrite E. reflexivity.
Qed.
Lemma under_elim dir p : under dir p -> (length dir < length p)%nat /\ firstn (length dir) p = dir /\ nth (length dir) p 0 = 47.
Proof.
  intros [r ->]. rewrite app_length, firstn_app, firstn_all, Nat.sub_diag, app_nth2, Nat.sub_diag by lia. cbn.
  rewrite app_nil_r. repeat split. lia.
Qed.
Lemma folded_false p : folded false p = p.
Proof. unfold folded. induction p as [|c p IH]; cbn; [reflexivity|]. rewrite IH. reflexivity. Qed.
(** Paths with a given prefix are contiguous. *)
Lemma prefix_gap name : forall p q, lex name p = Lt -> firstn (length name) p <> name -> lex p q <> Gt -> firstn (length name) q <> name.
Proof.
  induction name as [|x n IH]; intros p q H1 H2 H3; [cbn in H2; congruence|].
  destruct p as [|y p]; [discriminate|]. cbn in H1, H2. destruct q as [|z q]; cbn; [discriminate|]. cbn in H3.
  destruct (Z.compare_spec x y) as [->|L|L]; [|intros E; injection E as -> E; destruct (Z.compare_spec y x); try lia; congruence|discriminate].
  intros E. injection E as -> E. rewrite Z.compare_refl in H3. apply (IH p q); auto. congruence.
Qed.
Lemma lex_prefix a r : r <> [] -> lex a (a ++ r) = Lt.
Proof. intros H. induction a as [|x a IH]; cbn; [destruct r; congruence|]. rewrite Z.compare_refl. exact IH. Qed.

(** *** The removal loops: a pure description on the remaining entries *)
Fixpoint prune (stop drop : entry -> bool) (l : list entry) : list entry :=
  match l with
  | [] => []
  | p :: r => if stop p then l else if drop p then prune stop drop r else p :: prune stop drop r
  end.
Lemma remove_at ic ix pre p suf : inv ic ix -> items (i_ents ix) = pre ++ p :: suf ->
  exists ix', remove_entry ic ix (length pre) = (0, ix') /\ items (i_ents ix') = pre ++ suf /\ inv ic ix' /\ i_next ix' = i_next ix.
Proof.
  intros Hi E. assert (N : nth_error (items (i_ents ix)) (length pre) = Some p) by (rewrite E, nth_error_app2, Nat.sub_diag by lia; reflexivity).
  destruct (remove_entry_spec ic ix _ p Hi N) as (a & b & ix' & E' & L & R & I' & J & X).
  exists ix'. split; [exact R|]. split; [|auto]. rewrite I'. rewrite E in E'.
  assert (pre = a /\ p :: suf = p :: b) as [-> F]; [|congruence].
  clear -L E'. revert a L E'. induction pre as [|x pre IH]; intros [|y a] L E'; cbn in *; try lia; [auto|].
  injection E' as -> E'. destruct (IH a ltac:(lia) E') as [-> ->]. auto.
Qed.

Definition hf_stop (name : list Z) (p : entry) : bool :=
  (length (e_path p) <=? length name)%nat || negb (pncmp false name (e_path p) (length name) =? 0).
Definition hf_drop (name : list Z) (st : Z) (p : entry) : bool :=
  (e_stage p =? st) && (nth (length name) (e_path p) 0 =? 47).
Lemma has_file_name_prune ic name st fuel : forall ix pre suf, inv ic ix -> items (i_ents ix) = pre ++ suf -> (length suf < fuel)%nat ->
  exists ix', has_file_name fuel ic ix name st (length pre) true = Ok (true, ix') /\ inv ic ix' /\ i_next ix' = i_next ix /\
    items (i_ents ix') = pre ++ prune (hf_stop name) (hf_drop name st) suf.
Proof.
  induction fuel as [|f IH]; intros ix pre suf Hi E Hf; [lia|]. cbn [has_file_name].
  rewrite E, nth_error_app2, Nat.sub_diag by lia. destruct suf as [|p suf]; cbn [nth_error prune].
  { exists ix. auto. }
  unfold hf_stop at 1, hf_drop at 1.
  destruct (length (e_path p) <=? length name)%nat; cbn [orb]; [exists ix; auto|].
  destruct (negb (pncmp false name (e_path p) (length name) =? 0)); [exists ix; auto|].
  destruct (IH ix (pre ++ [p]) suf Hi ltac:(rewrite <- app_assoc; exact E) ltac:(cbn in Hf; lia)) as (ix1 & R1 & J1 & N1 & I1).
  rewrite app_length, Nat.add_comm in R1. cbn [length Nat.add] in R1. rewrite <- app_assoc in I1.
  destruct (e_stage p =? st); cbn [negb andb]; [|exists ix1; auto].
  destruct (nth (length name) (e_path p) 0 =? 47); cbn [negb]; [|exists ix1; auto].
  destruct (remove_at ic ix pre p suf Hi E) as (ix' & R & E' & J & N). rewrite R. change (0 <? 0) with false. cbv iota.
  destruct (IH ix' pre suf J E' ltac:(cbn in Hf; lia)) as (ix2 & R2 & J2 & N2 & I2). exists ix2. split; [exact R2|]. split; [exact J2|]. split; [congruence|exact I2].
Qed.

Definition rd_stop (pfx : list Z) (p : entry) : bool := negb (prefixb pfx (e_path p)).
Lemma remove_dir_prune ic pfx st fuel : forall ix pre suf, inv ic ix -> items (i_ents ix) = pre ++ suf -> (length suf < fuel)%nat ->
  exists ix', remove_dir_loop fuel ic ix pfx st (length pre) = Ok (0, ix') /\ inv ic ix' /\ i_next ix' = i_next ix /\
    items (i_ents ix') = pre ++ prune (rd_stop pfx) (fun p => e_stage p =? st) suf.
Proof.
  induction fuel as [|f IH]; intros ix pre suf Hi E Hf; [lia|]. cbn [remove_dir_loop].
  rewrite E, nth_error_app2, Nat.sub_diag by lia. destruct suf as [|p suf]; cbn [nth_error prune].
  { exists ix. auto. }
  unfold rd_stop at 1. destruct (negb (prefixb pfx (e_path p))); [exists ix; auto|].
  destruct (IH ix (pre ++ [p]) suf Hi ltac:(rewrite <- app_assoc; exact E) ltac:(cbn in Hf; lia)) as (ix1 & R1 & J1 & N1 & I1).
  rewrite app_length, Nat.add_comm in R1. cbn [length Nat.add] in R1. rewrite <- app_assoc in I1.
  destruct (e_stage p =? st); cbn [negb]; [|exists ix1; auto].
  destruct (remove_at ic ix pre p suf Hi E) as (ix' & R & E' & J & N). rewrite R. change (0 =? 0) with true. cbv iota.
  destruct (IH ix' pre suf J E' ltac:(cbn in Hf; lia)) as (ix2 & R2 & J2 & N2 & I2). exists ix2. split; [exact R2|]. split; [exact J2|]. split; [congruence|exact I2].
Qed.

Definition cr_stop (ic : bool) (path : option (list Z)) (p : entry) : bool :=
  match path with Some q => negb (pcmp ic (e_path p) q =? 0) | None => false end.
Lemma conflict_remove_prune ic path fuel : forall ix pre suf, inv ic ix -> items (i_ents ix) = pre ++ suf -> (length suf < fuel)%nat ->
  exists ix', conflict_remove_loop fuel ic ix path (length pre) = Ok (0, ix') /\ inv ic ix' /\ i_next ix' = i_next ix /\
    items (i_ents ix') = pre ++ prune (cr_stop ic path) (fun p => negb (e_stage p =? 0)) suf.
Proof.
  induction fuel as [|f IH]; intros ix pre suf Hi E Hf; [lia|]. cbn [conflict_remove_loop].
  rewrite E, nth_error_app2, Nat.sub_diag by lia. destruct suf as [|p suf]; cbn [nth_error prune].
  { exists ix. auto. }
  unfold cr_stop at 1. destruct (match path with Some q => negb (pcmp ic (e_path p) q =? 0) | None => false end); [exists ix; auto|].
  destruct (IH ix (pre ++ [p]) suf Hi ltac:(rewrite <- app_assoc; exact E) ltac:(cbn in Hf; lia)) as (ix1 & R1 & J1 & N1 & I1).
  rewrite app_length, Nat.add_comm in R1. cbn [length Nat.add] in R1. rewrite <- app_assoc in I1.
  destruct (e_stage p =? 0); cbn [negb]; [exists ix1; auto|].
  destruct (remove_at ic ix pre p suf Hi E) as (ix' & R & E' & J & N). rewrite R. change (0 <? 0) with false. cbv iota.
  destruct (IH ix' pre suf J E' ltac:(cbn in Hf; lia)) as (ix2 & R2 & J2 & N2 & I2). exists ix2. split; [exact R2|]. split; [exact J2|]. split; [congruence|exact I2].
Qed.

Lemma prune_incl stop drop l : incl (prune stop drop l) l.
Proof.
  induction l as [|p l IH]; cbn; [apply incl_refl|]. destruct (stop p); [apply incl_refl|]. destruct (drop p).
  - apply incl_tl, IH.
  - intros x [<-|Hx]; [left; reflexivity|right; apply IH, Hx].
Qed.
Lemma prune_keep stop drop l e : In e l -> In e (prune stop drop l) \/ (stop e = false /\ drop e = true).
Proof.
  induction l as [|p l IH]; cbn; [tauto|]. intros [<-|H].
  - destruct (stop p) eqn:S; [left; left; reflexivity|]. destruct (drop p) eqn:D; [auto|left; left; reflexivity].
  - destruct (stop p) eqn:S; [left; right; exact H|]. destruct (drop p); destruct (IH H); auto. left. right. assumption.
Qed.
(** If everything after a stopping entry stops too, pruning is filtering. *)
Lemma prune_filter stop drop l : (forall a b p, l = a ++ p :: b -> stop p = true -> forall q, In q b -> stop q = true) ->
  prune stop drop l = filter (fun e => stop e || negb (drop e)) l.
Proof.
  induction l as [|p l IH]; intros H; [reflexivity|]. cbn [prune filter].
  destruct (stop p) eqn:S; cbn [orb].
  - f_equal. rewrite (filter_ext_in _ (fun _ => true)); [clear; induction l; cbn; congruence|].
    intros q Hq. rewrite (H [] l p eq_refl S q Hq). reflexivity.
  - assert (IH' : prune stop drop l = filter (fun e => stop e || negb (drop e)) l).
    { apply IH. intros a b q E Sq z Hz. apply (H (p :: a) b q); auto. rewrite E. reflexivity. }
    rewrite IH'. destruct (drop p); reflexivity.
Qed.

Lemma hf_stop_false name p : hf_stop name p = false <-> (length name < length (e_path p))%nat /\ firstn (length name) (e_path p) = name.
Proof.
  unfold hf_stop. rewrite orb_false_iff, Nat.leb_gt, negb_false_iff, Z.eqb_eq. split.
  - intros [L E]. split; [exact L|]. apply pncmp_firstn in E; [|lia|lia]. rewrite firstn_all in E. congruence.
  - intros [L E]. split; [exact L|]. apply pncmp_firstn; [lia|lia|]. rewrite firstn_all. congruence.
Qed.
Lemma hf_under name st p : hf_stop name p = false /\ hf_drop name st p = true <-> e_stage p = st /\ under name (e_path p).
Proof.
  rewrite hf_stop_false. unfold hf_drop. rewrite andb_true_iff, !Z.eqb_eq. split.
  - intros ((L & E) & S & N). split; [exact S|]. apply under_intro; auto.
  - intros (S & U). apply under_elim in U as (L & E & N). auto.
Qed.
Lemma hf_complete name st l : StronglySorted (slt false) l -> (forall e, In e l -> lex name (e_path e) = Lt) ->
  forall e, In e (prune (hf_stop name) (hf_drop name st) l) -> e_stage e = st -> ~ under name (e_path e).
Proof.
  intros Hs Hlt e He Hst Hu. rewrite prune_filter in He.
  - apply filter_In in He as [_ He]. destruct (proj2 (hf_under name st e) (conj Hst Hu)) as [A B]. rewrite A, B in He. discriminate.
  - intros a b p E Sp q Hq. subst l. destruct (hf_stop name q) eqn:Sq; [reflexivity|]. exfalso.
    apply hf_stop_false in Sq as [L F]. revert F. apply (prefix_gap name (e_path p) (e_path q)).
    + apply Hlt, in_or_app. right. left. reflexivity.
    + intros Fp. destruct (Nat.le_gt_cases (length (e_path p)) (length name)) as [Lp|Lp].
      * rewrite firstn_all2 in Fp by lia. assert (X := Hlt p). rewrite Fp, lex_refl in X. specialize (X ltac:(apply in_or_app; right; left; reflexivity)). discriminate.
      * assert (hf_stop name p = false) by (apply hf_stop_false; auto). congruence.
    + apply ss_app in Hs as (_ & Hs & _). apply StronglySorted_inv in Hs as [_ Hs]. rewrite Forall_forall in Hs. specialize (Hs q Hq). unfold slt in Hs.
      assert (S1 : ecmp false p q <= 0) by lia. apply ecmp_le_pcmp in S1. assert (X := pcmp_lex false (e_path p) (e_path q)). rewrite !folded_false in X.
      rewrite <- X. unfold sgn_cmp. destruct (Z.compare_spec (pcmp false (e_path p) (e_path q)) 0); [discriminate|discriminate|lia].
Qed.

(** *** has_dir_name *)
Lemma in_subdir_spec l dir st : in_subdir l dir st = true -> exists q, In q l /\ e_stage q = st /\ under dir (e_path q).
Proof.
  induction l as [|p l IH]; cbn [in_subdir]; [discriminate|].
  destruct ((length (e_path p) <=? length dir)%nat || negb (nth (length dir) (e_path p) 0 =? 47) || negb (pncmp false (e_path p) dir (length dir) =? 0)) eqn:C; [discriminate|].
  apply orb_false_iff in C as [C C3]. apply orb_false_iff in C as [C1 C2]. apply Nat.leb_gt in C1. apply negb_false_iff, Z.eqb_eq in C2, C3.
  destruct (Z.eqb_spec (e_stage p) st) as [E|N].
  - intros _. exists p. split; [left; reflexivity|]. split; [exact E|]. apply under_intro; auto.
    apply pncmp_firstn in C3; [|lia|lia]. rewrite firstn_all in C3. exact C3.
  - intros H. destruct (IH H) as (q & Hq & R). exists q. split; [right; exact Hq|exact R].
Qed.
Lemma answer_found {A} (l : list A) cmp found pos : search_answer l cmp found pos ->
  (found = true -> exists e, nth_error l pos = Some e /\ cmp e = 0) /\ (found = false -> forall e, In e l -> cmp e <> 0).
Proof.
  intros H. split; intros ->; [exact H|]. destruct H as (_ & H1 & H2). intros e He. apply In_nth_error in He as [i Hi].
  destruct (Nat.lt_ge_cases i pos) as [L|L]; [specialize (H1 i e L Hi); lia|specialize (H2 i e L Hi); lia].
Qed.
Lemma under_split name len : nth len name 0 = 47 -> (len < length name)%nat -> under (firstn len name) name.
Proof.
  intros N L. apply under_intro; rewrite firstn_length, min_l by lia; auto.
Qed.
Lemma under_firstn d name : under d name -> d = firstn (length d) name /\ nth (length d) name 0 = 47 /\ (length d < length name)%nat.
Proof. intros U. apply under_elim in U as (L & F & N). auto. Qed.
Lemma under_trans a b c : under a b -> under b c -> under a c.
Proof. intros [r ->] [s ->]. exists (r ++ 47 :: s). rewrite <- app_assoc. reflexivity. Qed.
Lemma under_shorter a b c : under a c -> under b c -> (length a < length b)%nat -> under a b.
Proof.
  intros A B L. apply under_firstn in A as (A1 & A2 & A3). apply under_firstn in B as (B1 & B2 & B3).
  apply under_intro; [exact L| |].
  - rewrite B1, firstn_firstn, min_l by lia. symmetry. exact A1.
  - rewrite B1. rewrite <- A2. transitivity (nth (length a) (firstn (length b) c ++ skipn (length b) c) 0); [|rewrite firstn_skipn; reflexivity]. rewrite app_nth1; [reflexivity|]. rewrite firstn_length. lia.
Qed.

Lemma has_dir_name_spec ic name st : 0 <= st -> forall slash ix, inv ic ix -> (slash <= length name)%nat ->
  exists ix', has_dir_name slash ic ix name st true = Ok (true, ix') /\
    removes ic (dir_collision ic name st) ix ix' /\
    (ic = false -> (forall a b, In a (items (i_ents ix)) -> In b (items (i_ents ix)) -> e_stage a = st -> e_stage b = st -> ~ under (e_path a) (e_path b)) ->
     forall e, In e (items (i_ents ix')) -> e_stage e = st -> e_path e <> [] -> (length (e_path e) < slash)%nat -> ~ under (e_path e) name).
Proof.
  intros Hst. induction slash as [|len IH]; intros ix Hi Hl.
  { exists ix. split; [reflexivity|]. split; [apply removes_refl, Hi|]. intros _ _ e _ _ _ L. lia. }
  destruct len as [|len'] eqn:El.
  { exists ix. split; [reflexivity|]. split; [apply removes_refl, Hi|]. intros _ _ e _ _ Ne L. destruct (e_path e); [congruence|cbn in L; lia]. }
  rewrite <- El in *. assert (U : has_dir_name (S len) ic ix name st true =
      (if nth len name 0 =? 47 then
        do (fp, ix) <- ifind ic ix (firstn len name) st ;;
        let '(found, pos) := fp in
        if (found : bool) then
          (let '(r, ix') := remove_entry ic ix pos in
               if r <? 0 then Ok (true, ix') else has_dir_name len ic ix' name st true)
        else if in_subdir (skipn pos (items (i_ents ix))) (firstn len name) st then Ok (true, ix)
        else has_dir_name len ic ix name st true
      else has_dir_name len ic ix name st true)) by (rewrite El; reflexivity).
  rewrite U. clear U El len'.
  destruct (Z.eqb_spec (nth len name 0) 47) as [Hs|Hs].
  2:{ destruct (IH ix Hi ltac:(lia)) as (ix' & E & R & K). exists ix'. split; [exact E|]. split; [exact R|].
      intros Hic Hcf e He Hes Hne Hlen Hu. destruct (Nat.eq_dec (length (e_path e)) len) as [El|El].
      - apply under_firstn in Hu as (_ & Hu & _). rewrite El in Hu. contradiction.
      - exact (K Hic Hcf e He Hes Hne ltac:(lia) Hu). }
  assert (Hud : under (firstn len name) name) by (apply under_split; [exact Hs|lia]).
  destruct (ifind_spec ic ix (firstn len name) st Hi) as (found & pos & E & A). rewrite E. cbn [bindr].
  destruct (answer_found _ _ _ _ A) as [A1 A2]. destruct found.
  - destruct (A1 eq_refl) as (e0 & He0 & Hk). rewrite srch_ecmp in Hk by lia. apply ecmp_eq in Hk. cbn [e_path e_stage] in Hk.
    destruct (remove_one ic ix pos e0 (dir_collision ic name st) Hi He0 ltac:(exists (firstn len name); auto)) as (ix1 & E1 & R1 & _ & Nin & _).
    rewrite E1. change (0 <? 0) with false. cbv iota.
    destruct R1 as (J1 & R1). destruct (IH ix1 J1 ltac:(lia)) as (ix' & E2 & R2 & K). exists ix'. split; [exact E2|].
    split; [apply (removes_trans ic _ ix ix1 ix'); [split; assumption|exact R2]|].
    intros Hic Hcf e He Hes Hne Hlen Hu.
    assert (Hinc : incl (items (i_ents ix1)) (items (i_ents ix))) by apply R1.
    destruct (Nat.eq_dec (length (e_path e)) len) as [El|El].
    + apply under_firstn in Hu as (Hu & _ & _). rewrite El in Hu.
      assert (e = e0).
      { apply (ss_key ic (items (i_ents ix)) e e0 (inv_sorted _ _ Hi)); [apply Hinc, R2, He|eapply nth_error_In, He0|].
        apply ecmp_eq. rewrite Hu, Hes. exact Hk. }
      subst e0. apply Nin, R2, He.
    + refine (K Hic _ e He Hes Hne ltac:(lia) Hu). intros a b Ha Hb. apply Hcf; apply Hinc; assumption.
  - destruct (in_subdir (skipn pos (items (i_ents ix))) (firstn len name) st) eqn:Es.
    + exists ix. split; [reflexivity|]. split; [apply removes_refl, Hi|].
      apply in_subdir_spec in Es as (q & Hq & Hqs & Hqu).
      assert (Hq' : In q (items (i_ents ix))) by (rewrite <- (firstn_skipn pos (items (i_ents ix))); apply in_or_app; auto).
      intros Hic Hcf e He Hes Hne Hlen Hu.
      destruct (Nat.eq_dec (length (e_path e)) len) as [El|El].
      * apply (A2 eq_refl e He). rewrite srch_ecmp by lia. apply ecmp_eq. cbn [e_path e_stage].
        apply under_firstn in Hu as (Hu & _ & _). rewrite El in Hu. split; [rewrite Hu; reflexivity|congruence].
      * apply (Hcf e q He Hq' Hes Hqs). apply (under_trans _ (firstn len name)); [|exact Hqu].
        apply (under_shorter _ _ name); auto. rewrite firstn_length. lia.
    + destruct (IH ix Hi ltac:(lia)) as (ix' & E' & R & K). exists ix'. split; [exact E'|]. split; [exact R|].
      intros Hic Hcf e He Hes Hne Hlen Hu. destruct (Nat.eq_dec (length (e_path e)) len) as [El|El].
      * apply (A2 eq_refl e); [apply R, He|]. rewrite srch_ecmp by lia. apply ecmp_eq. cbn [e_path e_stage].
        apply under_firstn in Hu as (Hu & _ & _). rewrite El in Hu. split; [rewrite Hu; reflexivity|congruence].
      * exact (K Hic Hcf e He Hes Hne ltac:(lia) Hu).
Qed.

(** *** Insertion *)
Lemma folded_length ic p : length (folded ic p) = length p.
Proof. apply map_length. Qed.
Lemma collides_other ic path st x : collides ic path st x -> ~ same_key ic path st (e_path x) (e_stage x).
Proof.
  intros [(_ & U)|(d & U & F & _)] (E & _).
  - apply under_elim in U as (L & _). assert (H := f_equal (@length Z) E). rewrite !folded_length in H. lia.
  - apply under_elim in U as (L & _). assert (H := f_equal (@length Z) E). assert (G := f_equal (@length Z) F). rewrite !folded_length in *. lia.
Qed.
Lemma check_collision_spec ic ix e pos : inv ic ix -> 0 <= e_stage e -> (pos <= length (items (i_ents ix)))%nat ->
  exists ix', check_collision ic ix e pos true = Ok (true, ix') /\
    removes ic (collides ic (e_path e) (e_stage e)) ix ix' /\
    (ic = false -> collision_free (items (i_ents ix)) ->
     (forall x, In x (items (i_ents ix')) -> e_stage x = e_stage e -> e_path x <> [] -> ~ under (e_path x) (e_path e)) /\
     (pos = 0%nat -> (forall x, In x (items (i_ents ix)) -> lex (e_path e) (e_path x) = Lt) ->
      forall x, In x (items (i_ents ix')) -> e_stage x = e_stage e -> ~ under (e_path e) (e_path x))).
Proof.
  intros Hi Hst Hpos. unfold check_collision.
  assert (Lf : length (firstn pos (items (i_ents ix))) = pos) by (rewrite firstn_length; lia).
  destruct (has_file_name_prune ic (e_path e) (e_stage e) (S (2 * length (items (i_ents ix)))) ix (firstn pos (items (i_ents ix))) (skipn pos (items (i_ents ix))) Hi) as (ix1 & E1 & J1 & N1 & I1);
    [symmetry; apply firstn_skipn|rewrite skipn_length; lia|].
  rewrite Lf in E1. rewrite E1. cbn [bindr].
  destruct (has_dir_name_spec ic (e_path e) (e_stage e) Hst (length (e_path e)) ix1 J1 (le_n _)) as (ix2 & E2 & R2 & K2).
  exists ix2. split; [exact E2|].
  assert (R1 : removes ic (collides ic (e_path e) (e_stage e)) ix ix1).
  { split; [exact J1|]. split; [exact N1|]. rewrite I1. split.
    - intros x Hx. rewrite <- (firstn_skipn pos (items (i_ents ix))). apply in_app_or in Hx. apply in_or_app. destruct Hx as [Hx|Hx]; [auto|right; apply prune_incl in Hx; exact Hx].
    - intros x Hx. rewrite <- (firstn_skipn pos (items (i_ents ix))) in Hx. apply in_app_or in Hx as [Hx|Hx]; [left; apply in_or_app; auto|].
      destruct (prune_keep (hf_stop (e_path e)) (hf_drop (e_path e) (e_stage e)) _ x Hx) as [H|H]; [left; apply in_or_app; auto|].
      right. left. apply hf_under. exact H. }
  split; [eapply removes_trans; [exact R1|]; eapply removes_weaken; [|exact R2]; intros x Hx; right; exact Hx|].
  intros Hic Hcf. split.
  - intros x Hx Hxs Hne Hu. assert (U := under_elim _ _ Hu). apply (K2 Hic) with (e := x); auto; [|apply U].
    intros a b Ha Hb Has Hbs. apply Hcf; [apply R1, Ha|apply R1, Hb|congruence].
  - intros -> Hlt x Hx Hxs. cbn [firstn skipn app] in I1. subst ic.
    apply (hf_complete (e_path e) (e_stage x) (items (i_ents ix)) (inv_sorted _ _ Hi) Hlt); [|reflexivity].
    rewrite Hxs, <- I1. apply R2, Hx.
Qed.

Lemma ss_map ic f l : (forall x, In x l -> ecmp ic (f x) x = 0) -> StronglySorted (slt ic) l -> StronglySorted (slt ic) (map f l).
Proof.
  intros Hf H. induction H as [|x l H IH F]; cbn; [constructor|]. constructor; [apply IH; intros; apply Hf; right; assumption|].
  rewrite Forall_forall in *. intros y Hy. apply in_map_iff in Hy as (z & <- & Hz). specialize (F z Hz). unfold slt in *.
  assert (E1 := Hf x (or_introl eq_refl)). assert (E2 := Hf z (or_intror Hz)).
  assert (P := ecmp_ok ic). apply (cmp_eq_sym _ P) in E2.
  apply (cmp_lt_le_trans _ P _ z); [|lia]. apply (cmp_le_lt_trans _ P _ x); lia.
Qed.
Lemma nodup_ptr_eq l (a b : entry) : NoDup (map e_ptr l) -> In a l -> In b l -> e_ptr a = e_ptr b -> a = b.
Proof.
  induction l as [|x l IH]; cbn; [tauto|]. intros H Ha Hb E. inversion H; subst.
  destruct Ha as [<-|Ha], Hb as [<-|Hb]; auto.
  - exfalso. apply H2. rewrite E. apply in_map, Hb.
  - exfalso. apply H2. rewrite <- E. apply in_map, Ha.
Qed.

Definition final (e : entry) (n : entry) : Prop :=
  e_path n = e_path e /\ e_stage n = e_stage e /\ e_mode n = create_mode (e_mode e) /\ e_data n = e_data e.
Lemma insert_spec ic ix e id_ok : inv ic ix -> 0 <= e_stage e -> (e_ptr e < i_next ix)%nat -> ~ In (e_ptr e) (map e_ptr (items (i_ents ix))) ->
  exists c ix', insert ic ix e true id_ok = Ok (c, ix') /\ inv ic ix' /\ i_next ix' = i_next ix /\
    (id_ok = false -> c = -1 /\ ix' = ix) /\
    (id_ok = true -> c = 0 /\ exists n, final e n /\ In n (items (i_ents ix')) /\ (e_ptr n = e_ptr e \/ In (e_ptr n) (map e_ptr (items (i_ents ix)))) /\
       (forall x, In x (items (i_ents ix')) -> x = n \/ (In x (items (i_ents ix)) /\ ~ same_key ic (e_path e) (e_stage e) (e_path x) (e_stage x))) /\
       (forall x, In x (items (i_ents ix)) -> ~ same_key ic (e_path e) (e_stage e) (e_path x) (e_stage x) ->
          In x (items (i_ents ix')) \/ collides ic (e_path e) (e_stage e) x) /\
       (ic = false -> collision_free (items (i_ents ix)) ->
        (forall x, In x (items (i_ents ix')) -> e_stage x = e_stage e -> e_path x <> [] -> ~ under (e_path x) (e_path e)) /\
        ((forall x, In x (items (i_ents ix)) -> lex (e_path e) (e_path x) = Lt) ->
         forall x, In x (items (i_ents ix')) -> e_stage x = e_stage e -> ~ under (e_path e) (e_path x)))).
Proof.
  intros Hi Hst Hp Hfresh. unfold insert, vsort. rewrite (inv_flag _ _ Hi). cbn [bindr].
  replace (mki (i_ents ix) (i_map ix) (i_next ix)) with ix by (destruct ix; reflexivity).
  unfold existing_and_pos. destruct (ifind_spec ic ix (e_path e) (e_stage e) Hi) as (found & pos & Ef & A). rewrite Ef. cbn [bindr].
  destruct (answer_found _ _ _ _ A) as [A1 A2].
  set (e' := mke (e_ptr e) (e_path e) (e_stage e) (create_mode (e_mode e)) (e_data e)).
  destruct found.
  - destruct (A1 eq_refl) as (old & Hold & Hk). rewrite (aget_some _ _ _ Hold). cbn [bindr].
    rewrite srch_ecmp in Hk by lia. apply ecmp_eq in Hk. cbn [e_path e_stage] in Hk.
    destruct id_ok; cbn [negb]; [|exists (-1), ix; split; [reflexivity|]; split; [exact Hi|]; split; [reflexivity|]; split; [auto|discriminate]].
    assert (pos < length (items (i_ents ix)))%nat by (apply nth_error_Some; congruence).
    destruct (check_collision_spec ic ix e' pos Hi Hst ltac:(lia)) as (ix1 & E1 & R1 & K1). rewrite E1. cbn [bindr negb e'] in *. cbn [e_path e_stage] in *.
    destruct R1 as (J1 & N1 & Inc & Keep).
    assert (Hin : In old (items (i_ents ix1))).
    { destruct (Keep old (nth_error_In _ _ Hold)) as [H'|H']; [exact H'|]. apply collides_other in H'. contradiction. }
    eexists 0, _. split; [reflexivity|]. cbn [i_ents i_map i_next items flag].
    assert (Hov : forall x, In x (items (i_ents ix1)) -> ecmp ic (overwrite old e' x) x = 0).
    { intros x Hx. unfold overwrite. destruct (Nat.eqb_spec (e_ptr x) (e_ptr old)) as [E|E]; [|apply cmp_refl, ecmp_ok].
      assert (x = old) as -> by (eapply nodup_ptr_eq; [apply (inv_ptr _ _ J1)|exact Hx|exact Hin|exact E]).
      apply ecmp_eq. cbn [e_path e_stage e']. exact Hk. }
    assert (Hptr : forall x, e_ptr (overwrite old e' x) = e_ptr x).
    { intros x. unfold overwrite. destruct (Nat.eqb_spec (e_ptr x) (e_ptr old)) as [E|E]; [rewrite E; reflexivity|reflexivity]. }
    assert (Hpm : map e_ptr (map (overwrite old e') (items (i_ents ix1))) = map e_ptr (items (i_ents ix1))).
    { rewrite map_map. apply map_ext. exact Hptr. }
    split.
    { split; cbn [i_ents i_map i_next items flag].
      - apply J1.
      - apply ss_map; [exact Hov|apply J1].
      - apply Permutation_map, J1.
      - rewrite Hpm. apply J1.
      - intros x Hx. apply in_map_iff in Hx as (y & <- & Hy). rewrite Hptr. apply (inv_next _ _ J1), Hy. }
    split; [exact N1|]. split; [discriminate|]. intros _. split; [reflexivity|].
    exists (overwrite old e' old). split; [unfold overwrite; rewrite Nat.eqb_refl; repeat split|].
    split; [apply in_map; exact Hin|].
    split; [right; rewrite Hptr; apply in_map; eapply nth_error_In, Hold|].
    assert (Hback : forall x, In x (map (overwrite old e') (items (i_ents ix1))) -> x = overwrite old e' old \/ (In x (items (i_ents ix1)) /\ e_ptr x <> e_ptr old)).
    { intros x Hx. apply in_map_iff in Hx as (y & <- & Hy). destruct (Nat.eqb_spec (e_ptr y) (e_ptr old)) as [E|E].
      - assert (y = old) as -> by (eapply nodup_ptr_eq; [apply (inv_ptr _ _ J1)|exact Hy|exact Hin|exact E]). auto.
      - right. unfold overwrite. destruct (Nat.eqb_spec (e_ptr y) (e_ptr old)); [contradiction|]. auto. }
    split; [|split].
    + intros x Hx. destruct (Hback x Hx) as [Hx'|[Hx' Hne]]; [left; exact Hx'|].
      right. split; [apply Inc, Hx'|]. intros Hsk. apply Hne. f_equal.
      apply (ss_key ic (items (i_ents ix1)) x old (inv_sorted _ _ J1) Hx' Hin). apply ecmp_eq. destruct Hsk as [S1 S2], Hk as [S3 S4]. split; congruence.
    + intros x Hx Hsk. destruct (Keep x Hx) as [Hk'|Hc]; [|right; exact Hc]. left. apply in_map_iff. exists x. split; [|exact Hk'].
      unfold overwrite. destruct (Nat.eqb_spec (e_ptr x) (e_ptr old)) as [E|E]; [|reflexivity].
      assert (x = old) as -> by (eapply nodup_ptr_eq; [apply (inv_ptr _ _ J1)|exact Hk'|exact Hin|exact E]). contradiction.
    + intros Hic Hcf. destruct (K1 Hic Hcf) as [K1a K1b]. split.
      * intros x Hx Hxs Hne Hu. destruct (Hback x Hx) as [Hx'|[Hx' _]]; [|exact (K1a x Hx' Hxs Hne Hu)].
        subst x. unfold overwrite in Hu. rewrite Nat.eqb_refl in Hu. cbn [e_path e'] in Hu. apply under_elim in Hu as (L & _). lia.
      * intros Hlt. exfalso. specialize (Hlt old (nth_error_In _ _ Hold)). subst ic. destruct Hk as [Hk _]. rewrite !folded_false in Hk. rewrite Hk, lex_refl in Hlt. discriminate.
  - cbn [bindr]. destruct id_ok; cbn [negb]; [|exists (-1), ix; split; [reflexivity|]; split; [exact Hi|]; split; [reflexivity|]; split; [auto|discriminate]].
    destruct (check_collision_spec ic ix e' 0 Hi Hst ltac:(lia)) as (ix1 & E1 & R1 & K1). rewrite E1. cbn [bindr negb e'] in *. cbn [e_path e_stage] in *.
    destruct R1 as (J1 & N1 & Inc & Keep).
    assert (Hno : forall x, In x (items (i_ents ix)) -> ~ same_key ic (e_path e) (e_stage e) (e_path x) (e_stage x)).
    { intros x Hx Hsk. apply (A2 eq_refl x Hx). rewrite srch_ecmp by lia. apply ecmp_eq. exact Hsk. }
    unfold vinsert_sorted, vsort. rewrite (inv_flag _ _ J1). cbn [bindr].
    destruct (bsearch_spec _ _ (sorted_ordered (ecmp ic) (ecmp_ok ic) _ e' (ss_sorted _ _ (inv_sorted _ _ J1)))) as (f & p & Eb & Sb).
    rewrite Eb. cbn [bindr].
    assert (f = false) as ->.
    { destruct f; [|reflexivity]. destruct Sb as (x & Hx & Hc). apply ecmp_eq in Hc. apply nth_error_In in Hx. exfalso. apply (Hno x (Inc x Hx)). exact Hc. }
    cbn [bindr]. change (0 <? 0) with false. cbv iota.
    cbn [bindr]. change (0 <? 0) with false. cbv iota.
    set (L := items (i_ents ix1)) in *.
    assert (Hpm : Permutation (e' :: L) (firstn p L ++ e' :: skipn p L)).
    { rewrite <- (firstn_skipn p L) at 1. apply Permutation_middle. }
    assert (Hmem : forall x, In x (firstn p L ++ e' :: skipn p L) <-> x = e' \/ In x L).
    { intros x. split.
      - intros Hx. apply (Permutation_in _ (Permutation_sym Hpm)) in Hx. destruct Hx as [<-|Hx]; auto.
      - intros Hx. apply (Permutation_in _ Hpm). destruct Hx as [->|Hx]; [left; reflexivity|right; exact Hx]. }
    eexists 0, _. split; [reflexivity|]. cbn [i_ents i_map i_next items flag].
    split.
    { split; cbn [i_ents i_map i_next items flag].
      - apply J1.
      - destruct Sb as (S0 & S1 & S2). assert (S := inv_sorted _ _ J1). fold L in S. rewrite <- (firstn_skipn p L) in S. apply ss_app in S as (Sa & Sb & Sc).
        assert (Hf1 : forall x, In x (firstn p L) -> slt ic x e').
        { intros x Hx. apply In_nth_error in Hx as [i Hx]. assert (i < length (firstn p L))%nat by (apply nth_error_Some; congruence). rewrite firstn_length in H.
          apply (cmp_lt_gt _ (ecmp_ok ic)). apply (S1 i); [lia|]. rewrite <- (firstn_skipn p L). rewrite nth_error_app1 by (rewrite firstn_length; lia). exact Hx. }
        assert (Hf2 : forall x, In x (skipn p L) -> slt ic e' x).
        { intros x Hx. apply In_nth_error in Hx as [i Hx]. apply (S2 (p + i)%nat); [lia|]. rewrite <- (firstn_skipn p L). rewrite nth_error_app2 by (rewrite firstn_length; lia).
          rewrite firstn_length, min_l by lia. replace (p + i - p)%nat with i by lia. exact Hx. }
        apply ss_app. split; [exact Sa|]. split; [constructor; [exact Sb|apply Forall_forall; exact Hf2]|].
        intros x y Hx [<-|Hy]; [apply Hf1, Hx|apply Sc; assumption].
      - eapply perm_trans; [apply Permutation_sym, Hpm|]. unfold map_put. constructor.
        unfold map_remove. rewrite (filter_ext_in _ (fun _ => true)).
        + replace (filter (fun _ => true) (i_map ix1)) with (i_map ix1) by (induction (i_map ix1) as [|z zs IHz]; cbn; [reflexivity|f_equal; exact IHz]). apply J1.
        + intros x Hx. apply (Permutation_in _ (Permutation_sym (inv_map _ _ J1))) in Hx.
          destruct (key_eq ic (e_path e') (e_stage e') x) eqn:Ek; [|reflexivity]. apply key_eq_spec in Ek. exfalso. apply (Hno x (Inc x Hx)). exact Ek.
      - apply (Permutation_NoDup (Permutation_map e_ptr Hpm)). cbn [map]. constructor; [|apply J1].
        intros H'. apply Hfresh. apply in_map_iff in H' as (x & Ex & Hx). change (e_ptr e) with (e_ptr e'). rewrite <- Ex. apply in_map, Inc, Hx.
      - intros x Hx. apply Hmem in Hx as [->|Hx]; [cbn [e_ptr e']; lia|apply (inv_next _ _ J1), Hx]. }
    split; [exact N1|]. split; [discriminate|]. intros _. split; [reflexivity|]. exists e'. split; [repeat split|]. split; [apply Hmem; auto|]. split; [left; reflexivity|].
    split; [|split].
    + intros x Hx. apply Hmem in Hx as [->|Hx]; [auto|]. right. split; [apply Inc, Hx|apply Hno, Inc, Hx].
    + intros x Hx _. destruct (Keep x Hx) as [H'|H']; [left; apply Hmem; auto|right; exact H'].
    + intros Hic Hcf. destruct (K1 Hic Hcf) as [K1a K1b]. split.
      * intros x Hx Hxs Hne Hu. apply Hmem in Hx as [->|Hx]; [apply under_elim in Hu as (Lu & _); cbn [e_path e'] in Lu; lia|exact (K1a x Hx Hxs Hne Hu)].
      * intros Hlt x Hx Hxs. apply Hmem in Hx as [->|Hx]; [intros Hu; apply under_elim in Hu as (Lu & _); cbn [e_path e'] in Lu; lia|]. exact (K1b eq_refl Hlt x Hx Hxs).
Qed.
