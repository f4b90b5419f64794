(** Proofs about the id shortener. *)
From Verif Require Import Base OidModel OidSpec OidProofs ShortenModel ShortenSpec.

Definition pre (p a : list Z) : Prop := firstn (length p) a = p.
Lemma pre_nil a : pre [] a. Proof. reflexivity. Qed.
Lemma pre_app p v : pre p (p ++ v).
Proof. unfold pre. rewrite firstn_app, firstn_all, Nat.sub_diag. cbn. apply app_nil_r. Qed.
Lemma pre_split p a : pre p a -> a = p ++ skipn (length p) a.
Proof. intros H. unfold pre in H. rewrite <- (firstn_skipn (length p) a) at 1. rewrite H. reflexivity. Qed.
Lemma pre_trans p q a : pre p q -> pre q a -> pre p a.
Proof. intros H1 H2. apply pre_split in H2. rewrite H2. apply pre_split in H1. rewrite H1. rewrite <- app_assoc. apply pre_app. Qed.
Lemma pre_le p q a : pre p a -> pre q a -> (length p <= length q)%nat -> pre p q.
Proof. unfold pre. intros H1 H2 H. rewrite <- H2. rewrite firstn_firstn. rewrite Nat.min_l by lia. exact H1. Qed.
Lemma pre_full p a : pre p a -> length p = length a -> p = a.
Proof. unfold pre. intros H L. rewrite L, firstn_all in H. auto. Qed.
Lemma pre_firstn n a : (n <= length a)%nat -> pre (firstn n a) a.
Proof. intros H. unfold pre. rewrite firstn_length, Nat.min_l by lia. reflexivity. Qed.
Lemma pre_antisym p q : pre p q -> pre q p -> p = q.
Proof. intros H1 H2. apply pre_split in H1 as E1. apply pre_split in H2 as E2. apply pre_full; [exact H1|].
  apply (f_equal (@length Z)) in E1, E2. rewrite app_length in E1, E2. lia. Qed.

Definition tail_ok (t v : list Z) : Prop := bytes t /\ (length v <= length t)%nat /\ digits_of (firstn (length v) t) v.

Record Inv (A : list (list Z)) (os : shorten) (G : list (list Z)) (pend : option nat) : Prop := {
  i_cnt : length G = s_count os;
  i_size : (s_count os <= length (s_nodes os))%nat;
  i_pos : (1 <= s_count os)%nat;
  i_lt : Z.of_nat (s_count os) < SHRT_MAX;
  i_notfull : s_full os = false;
  i_root : nth_error G 0 = Some [];
  i_nd : NoDup G;
  i_root_kids : exists ch, nth_error (s_nodes os) 0 = Some (Kids ch);
  i_kids : forall j p ch, nth_error G j = Some p -> nth_error (s_nodes os) j = Some (Kids ch) ->
     length ch = 16%nat /\ (length p < 40)%nat /\ forall c, 0 <= c < 16 -> exists k, nth_error ch (Z.to_nat c) = Some k /\
       ((k = 0 /\ forall a, In a A -> ~ pre (p ++ [c]) a) \/
        (k <> 0 /\ nth_error G (Z.to_nat (Z.abs k)) = Some (p ++ [c]) /\
         (k < 0 -> (exists t, nth_error (s_nodes os) (Z.to_nat (Z.abs k)) = Some (Leaf t)) /\ pend <> Some (Z.to_nat (Z.abs k))) /\
         (0 < k -> (exists ch', nth_error (s_nodes os) (Z.to_nat (Z.abs k)) = Some (Kids ch')) \/ pend = Some (Z.to_nat (Z.abs k)) \/ length (p ++ [c]) = 40%nat)));
  i_leaf : forall j p t, nth_error G j = Some p -> nth_error (s_nodes os) j = Some (Leaf t) ->
     p <> [] /\ exists v, tail_ok t v /\ length (p ++ v) = 40%nat /\ In (p ++ v) A /\ forall a, In a A -> pre p a -> a = p ++ v;
  i_has : forall p, In p G -> p <> [] -> exists a, In a A /\ pre p a;
  i_par : forall j p c, nth_error G j = Some (p ++ [c]) -> exists jp ch, nth_error G jp = Some p /\ nth_error (s_nodes os) jp = Some (Kids ch);
  i_ids : forall a, In a A -> id40 a }.

Lemma nd_inj {A} (l : list A) i j x : NoDup l -> nth_error l i = Some x -> nth_error l j = Some x -> i = j.
Proof. intros N Hi Hj. rewrite NoDup_nth_error in N. apply N; [apply nth_error_Some; congruence|congruence]. Qed.
Lemma snoc_inj (p q : list Z) c d : p ++ [c] = q ++ [d] -> p = q /\ c = d.
Proof. apply app_inj_tail. Qed.
Lemma nth_upd {A} (l : list A) i j x : nth_error (upd l i x) j = if (j =? i)%nat then (match nth_error l i with Some _ => Some x | None => None end) else nth_error l j.
Proof.
  revert i j. induction l as [|a l IH]; intros [|i] [|j]; cbn; try reflexivity; [destruct (j =? i)%nat; reflexivity|apply IH].
Qed.

Lemma push_spec os idx c oid ch : (idx < s_count os)%nat -> (s_count os <= length (s_nodes os))%nat -> Z.of_nat (s_count os) < SHRT_MAX -> (1 <= s_count os)%nat ->
  nth_error (s_nodes os) idx = Some (Kids ch) -> 0 <= c < 16 ->
  (exists os', push_leaf os idx c oid = Ok (false, os') /\ s_full os' = true) \/
  (exists os', push_leaf os idx c oid = Ok (true, os') /\ s_count os' = S (s_count os) /\ (s_count os' <= length (s_nodes os'))%nat /\ Z.of_nat (s_count os') < SHRT_MAX /\
     s_min os' = s_min os /\ s_full os' = s_full os /\
     forall j, (j <= s_count os)%nat -> nth_error (s_nodes os') j = if (j =? s_count os)%nat then Some (Leaf oid) else if (j =? idx)%nat then Some (Kids (upd ch (Z.to_nat c) (- Z.of_nat (s_count os)))) else nth_error (s_nodes os) j).
Proof.
  intros Hi Hs Hl Hp Hn Hc. unfold push_leaf.
  set (nodes := if (length (s_nodes os) <=? s_count os)%nat then s_nodes os ++ repeat zeros (length (s_nodes os)) else s_nodes os).
  assert (Ln : (S (s_count os) <= length nodes)%nat) by (unfold nodes; destruct (Nat.leb_spec (length (s_nodes os)) (s_count os)); rewrite ?app_length, ?repeat_length; lia).
  assert (En : forall j, (j < s_count os)%nat -> nth_error nodes j = nth_error (s_nodes os) j).
  { intros j Hj. unfold nodes. destruct (length (s_nodes os) <=? s_count os)%nat; [|reflexivity]. apply nth_error_app1. lia. }
  clearbody nodes. destruct (Z.eqb_spec (Z.of_nat (S (s_count os))) SHRT_MAX) as [|N]; [left; eexists; split; reflexivity|]. right.
  unfold set_child, get, with_nodes. cbn [s_nodes]. rewrite En, Hn by lia. cbn [bindr]. destruct (Z.ltb_spec c 0), (Z.leb_spec 16 c); cbn [orb]; try lia. cbn [bindr s_nodes s_count s_min s_full].
  set (n1 := upd nodes idx (Kids (upd ch (Z.to_nat c) (- Z.of_nat (s_count os))))).
  assert (L1 : length n1 = length nodes) by apply upd_length.
  destruct (nth_error n1 (s_count os)) eqn:E1; [|apply nth_error_None in E1; lia]. cbn [bindr].
  eexists. split; [reflexivity|]. cbn [s_nodes s_count s_min s_full]. rewrite upd_length, L1.
  split; [reflexivity|]. split; [lia|]. split; [lia|]. split; [reflexivity|]. split; [reflexivity|].
  intros j Hj. rewrite nth_upd. destruct (Nat.eqb_spec j (s_count os)) as [->|Nj]; [rewrite E1; reflexivity|].
  unfold n1. rewrite nth_upd. destruct (Nat.eqb_spec j idx) as [->|]; [rewrite En, Hn by lia; reflexivity|]. apply En. lia.
Qed.

Lemma Some_inj {A} (a b : A) : Some a = Some b -> a = b. Proof. congruence. Qed.
Lemma Kids_inj a b : Kids a = Kids b -> a = b. Proof. congruence. Qed.
(** A step to a leaf: its index turns positive. *)
Lemma flip_ok A os G idx p ch c k : Inv A os G None -> nth_error G idx = Some p -> nth_error (s_nodes os) idx = Some (Kids ch) -> 0 <= c < 16 ->
  nth_error ch (Z.to_nat c) = Some k -> k < 0 ->
  exists os', set_child os idx c (- k) = Ok os' /\ Inv A os' G (Some (Z.to_nat (- k))) /\ s_min os' = s_min os /\
    nth_error G (Z.to_nat (- k)) = Some (p ++ [c]) /\ exists t, nth_error (s_nodes os') (Z.to_nat (- k)) = Some (Leaf t).
Proof.
  intros I Hp Hn Hc Hk Kn. unfold set_child, get. rewrite Hn. cbn [bindr]. destruct (Z.ltb_spec c 0), (Z.leb_spec 16 c); cbn [orb]; try lia.
  eexists. split; [reflexivity|].
  destruct (i_kids _ _ _ _ I idx p ch Hp Hn) as (Lch & Lp & HK). destruct (HK c Hc) as (k' & Hk' & Hcase). assert (k' = k) by congruence. subst k'.
  destruct Hcase as [[? _]|(_ & HG & Hneg & _)]; [lia|]. destruct (Hneg Kn) as ((t & Ht) & _).
  replace (Z.abs k) with (- k) in * by lia.
  assert (Ni : Z.to_nat (- k) <> idx) by (intros E; rewrite E in HG; assert (p = p ++ [c]) as C by congruence; apply (f_equal (@length Z)) in C; rewrite app_length in C; cbn in C; lia).
  assert (Hnode : forall j, nth_error (upd (s_nodes os) idx (Kids (upd ch (Z.to_nat c) (- k)))) j = if (j =? idx)%nat then Some (Kids (upd ch (Z.to_nat c) (- k))) else nth_error (s_nodes os) j).
  { intros j. rewrite nth_upd, Hn. reflexivity. }
  split; [|split; [reflexivity|split; [exact HG|]]].
  2:{ exists t. cbn [with_nodes s_nodes]. rewrite Hnode. destruct (Nat.eqb_spec (Z.to_nat (- k)) idx); [contradiction|exact Ht]. }
  constructor; cbn [with_nodes s_nodes s_count s_min s_full]; try apply I.
  - rewrite upd_length. apply I.
  - destruct (i_root_kids _ _ _ _ I) as (ch0 & Hroot0). rewrite Hnode. destruct (Nat.eqb_spec 0 idx); eauto.
  - intros j q ch' Hq Hj. rewrite Hnode in Hj. destruct (Nat.eqb_spec j idx) as [->|Nj].
    + injection Hj as <-. assert (q = p) by congruence. subst q. rewrite upd_length. split; [exact Lch|]. split; [exact Lp|].
      intros c' Hc'. rewrite nth_upd. destruct (Nat.eqb_spec (Z.to_nat c') (Z.to_nat c)) as [E|Nc].
      * assert (c' = c) by lia. subst c'. rewrite Hk. exists (- k). split; [reflexivity|]. right. replace (Z.abs (- k)) with (- k) by lia.
        split; [lia|]. split; [exact HG|]. split; [lia|]. auto.
      * destruct (HK c' Hc') as (k2 & Hk2 & Hcase). exists k2. split; [exact Hk2|]. destruct Hcase as [?|(N2 & HG2 & Hn2 & Hp2)]; [auto|right].
        assert (D : Z.to_nat (Z.abs k2) <> Z.to_nat (- k)) by (intros E; rewrite E in HG2; assert (p ++ [c] = p ++ [c']) as C by congruence; apply snoc_inj in C; lia).
        assert (D2 : Z.to_nat (Z.abs k2) <> idx) by (intros E; rewrite E in HG2; assert (p = p ++ [c']) as C by congruence; apply (f_equal (@length Z)) in C; rewrite app_length in C; cbn in C; lia).
        rewrite !Hnode. destruct (Nat.eqb_spec (Z.to_nat (Z.abs k2)) idx); [contradiction|]. split; [exact N2|]. split; [exact HG2|]. split.
        -- intros K2. destruct (Hn2 K2) as [? _]. split; [assumption|congruence].
        -- intros K2. destruct (Hp2 K2) as [?|[?|?]]; auto. discriminate.
    + destruct (i_kids _ _ _ _ I j q ch' Hq Hj) as (Lc' & Lq & HK'). split; [exact Lc'|]. split; [exact Lq|].
      intros c' Hc'. destruct (HK' c' Hc') as (k2 & Hk2 & Hcase). exists k2. split; [exact Hk2|]. destruct Hcase as [?|(N2 & HG2 & Hn2 & Hp2)]; [auto|right].
      assert (D : Z.to_nat (Z.abs k2) <> Z.to_nat (- k)).
      { intros E. rewrite E in HG2. assert (p ++ [c] = q ++ [c']) as C by congruence. apply snoc_inj in C as [C _]. subst q. apply Nj. eapply nd_inj; [apply I|exact Hq|exact Hp]. }
      rewrite !Hnode. split; [exact N2|]. split; [exact HG2|]. split.
      * intros K2. destruct (Hn2 K2) as [(t2 & Ht2) _]. split; [|congruence]. exists t2. destruct (Nat.eqb_spec (Z.to_nat (Z.abs k2)) idx) as [E|]; [rewrite E in Ht2; congruence|exact Ht2].
      * intros K2. destruct (Hp2 K2) as [(ch2 & ?)|[?|?]]; [|discriminate|auto]. left. destruct (Z.to_nat (Z.abs k2) =? idx)%nat; eauto.
  - intros j q t' Hq Hj. rewrite Hnode in Hj. destruct (Nat.eqb_spec j idx); [discriminate|]. eapply (i_leaf _ _ _ _ I); eauto.
  - intros j q c' Hj. destruct (i_par _ _ _ _ I j q c' Hj) as (jp & chp & H1 & H2). exists jp. rewrite Hnode. destruct (Nat.eqb_spec jp idx) as [->|]; eauto.
Qed.

Lemma tail_head t d v : tail_ok t (d :: v) -> exists t0 r, t = t0 :: r /\ fromhex t0 = Ok d /\ 0 <= d < 16 /\ tail_ok r v.
Proof.
  intros (Bt & Lt & Dt). destruct t as [|t0 r]; [cbn in Lt; lia|]. cbn [length firstn] in Dt. inversion Dt as [|? ? ? ? Hh Hr]; subst.
  exists t0, r. split; [reflexivity|]. inversion_clear Bt. rewrite fromhex_spec by assumption. rewrite Hh. split; [reflexivity|]. split; [eapply hexval_range; eauto|].
  split; [assumption|]. split; [cbn in Lt; lia|exact Hr].
Qed.

Lemma idx_lt A os G pend idx p : Inv A os G pend -> nth_error G idx = Some p -> (idx < s_count os)%nat.
Proof. intros I H. rewrite <- (i_cnt _ _ _ _ I). apply nth_error_Some. congruence. Qed.

(** Turning a leaf into an inner node. *)
Lemma convert_ok A os G idx p t : Inv A os G (Some idx) -> nth_error G idx = Some p -> nth_error (s_nodes os) idx = Some (Leaf t) -> (length p < 40)%nat ->
  exists t0 d, rd t 0 = Ok t0 /\ fromhex t0 = Ok d /\
  ((exists os', push_leaf (with_nodes os (upd (s_nodes os) idx zeros)) idx d (tl t) = Ok (false, os') /\ s_full os' = true) \/
   (exists os' G' ch, push_leaf (with_nodes os (upd (s_nodes os) idx zeros)) idx d (tl t) = Ok (true, os') /\ Inv A os' G' None /\ s_min os' = s_min os /\
      nth_error G' idx = Some p /\ nth_error (s_nodes os') idx = Some (Kids ch))).
Proof.
  intros I Hp Hn Lp. destruct (i_leaf _ _ _ _ I idx p t Hp Hn) as (Np & v & Tv & Lv & InA & Uniq).
  destruct v as [|d v]; [rewrite app_nil_r in Lv; lia|]. destruct (tail_head t d v Tv) as (t0 & r & -> & Hd & Rd & Tr).
  exists t0, d. split; [reflexivity|]. split; [exact Hd|]. cbn [tl].
  pose proof (idx_lt _ _ _ _ _ _ I Hp) as Hlt.
  destruct (push_spec (with_nodes os (upd (s_nodes os) idx zeros)) idx d r (repeat 0 16)) as [HF|(os' & E & C1 & C2 & C3 & C4 & C5 & Hnode)]; cbn [with_nodes s_nodes s_count s_min s_full]; try apply I; auto.
  { rewrite upd_length. apply I. }
  { rewrite nth_upd, Nat.eqb_refl, Hn. reflexivity. }
  right. cbn [with_nodes s_nodes s_count s_min s_full] in *. set (n := s_count os) in *.
  set (G' := G ++ [p ++ [d]]). assert (LG : length G = n) by apply I.
  assert (G1 : forall j q, nth_error G j = Some q -> nth_error G' j = Some q) by (intros j q H; unfold G'; rewrite nth_error_app1; auto; apply nth_error_Some; congruence).
  assert (G2 : nth_error G' n = Some (p ++ [d])) by (unfold G'; rewrite nth_error_app2, LG, Nat.sub_diag by lia; reflexivity).
  assert (G3 : forall j q, nth_error G' j = Some q -> (j < n)%nat /\ nth_error G j = Some q \/ j = n /\ q = p ++ [d]).
  { intros j q H. destruct (Nat.lt_trichotomy j n) as [L|[->|L]]; [left; split; [exact L|]; unfold G' in H; rewrite nth_error_app1 in H by lia; exact H|right; split; congruence|].
    assert (nth_error G' j = None) by (apply nth_error_None; unfold G'; rewrite app_length; cbn; lia). congruence. }
  assert (Hnode' : forall j, (j < n)%nat -> nth_error (s_nodes os') j = if (j =? idx)%nat then Some (Kids (upd (repeat 0 16) (Z.to_nat d) (- Z.of_nat n))) else nth_error (s_nodes os) j).
  { intros j Hj. rewrite Hnode by lia. destruct (Nat.eqb_spec j n); [lia|]. destruct (Nat.eqb_spec j idx); [reflexivity|]. rewrite nth_upd. destruct (Nat.eqb_spec j idx); [contradiction|reflexivity]. }
  assert (HnodeN : nth_error (s_nodes os') n = Some (Leaf r)) by (rewrite Hnode, Nat.eqb_refl by lia; reflexivity).
  assert (Fresh : ~ In (p ++ [d]) G).
  { intros Hin. apply In_nth_error in Hin as [j Hj]. destruct (i_par _ _ _ _ I j p d Hj) as (jp & chp & H1 & H2). assert (jp = idx) by (eapply nd_inj; [apply I|exact H1|exact Hp]). congruence. }
  exists os', G', (upd (repeat 0 16) (Z.to_nat d) (- Z.of_nat n)). split; [exact E|]. split; [|split; [exact C4|split; [apply G1; exact Hp|rewrite Hnode', Nat.eqb_refl by lia; reflexivity]]].
  constructor; try assumption; try apply I.
  - unfold G'. rewrite app_length, LG, C1. cbn. lia.
  - lia.
  - rewrite C5. apply I.
  - apply G1. apply I.
  - unfold G'. rewrite <- (rev_involutive (G ++ [p ++ [d]])). apply NoDup_rev. rewrite rev_app_distr. cbn. constructor; [rewrite <- in_rev; exact Fresh|]. apply NoDup_rev. apply I.
  - destruct (i_root_kids _ _ _ _ I) as (ch0 & Hroot0). rewrite Hnode' by (pose proof (i_pos _ _ _ _ I); lia). destruct (Nat.eqb_spec 0 idx); eauto.
  - intros j q ch Hq Hj. apply G3 in Hq as [[Lj Hq]|[-> ->]]; [|congruence]. rewrite Hnode' in Hj by lia. destruct (Nat.eqb_spec j idx) as [->|Nj].
    + apply Some_inj in Hj; apply Kids_inj in Hj; subst ch. assert (q = p) by congruence. subst q. split; [rewrite upd_length, repeat_length; reflexivity|]. split; [exact Lp|].
      intros c Hc. rewrite nth_upd. destruct (Nat.eqb_spec (Z.to_nat c) (Z.to_nat d)) as [Ec|Nc].
      * assert (c = d) by lia. subst c. destruct (nth_error (repeat 0 16) (Z.to_nat d)) eqn:E0; [|apply nth_error_None in E0; rewrite repeat_length in E0; lia].
        exists (- Z.of_nat n). split; [reflexivity|]. right. replace (Z.to_nat (Z.abs (- Z.of_nat n))) with n by lia. pose proof (i_pos _ _ _ _ I). fold n in H.
        split; [lia|]. split; [exact G2|]. split; [intros _; split; [eauto|discriminate]|lia].
      * exists 0. split; [rewrite nth_error_repeat by lia; reflexivity|]. left. split; [reflexivity|]. intros a Ha Hpre.
        assert (pre p a) as Hpa by (eapply pre_trans; [apply pre_app|exact Hpre]). rewrite (Uniq a Ha Hpa) in Hpre.
        unfold pre in Hpre. rewrite app_length in Hpre. cbn [length] in Hpre. rewrite firstn_app, firstn_all2 in Hpre by lia. replace (length p + 1 - length p)%nat with 1%nat in Hpre by lia. cbn in Hpre. apply snoc_inj in Hpre as [_ ?]. lia.
    + destruct (i_kids _ _ _ _ I j q ch Hq Hj) as (Lc & Lq & HK). split; [exact Lc|]. split; [exact Lq|].
      intros c Hc. destruct (HK c Hc) as (k & Hk & Hcase). exists k. split; [exact Hk|]. destruct Hcase as [?|(Nk & HG & Hneg & Hpos)]; [auto|right].
      pose proof (idx_lt _ _ _ _ _ _ I HG) as Hkl. fold n in Hkl.
      split; [exact Nk|]. split; [apply G1; exact HG|]. split.
      * intros K. destruct (Hneg K) as [(t' & Ht') Np']. split; [|discriminate]. exists t'. rewrite Hnode' by lia. destruct (Nat.eqb_spec (Z.to_nat (Z.abs k)) idx); [congruence|exact Ht'].
      * intros K. rewrite Hnode' by lia. destruct (Hpos K) as [(ch' & Hch')|[Ep|?]]; [left|left|auto].
        -- destruct (Z.to_nat (Z.abs k) =? idx)%nat; eauto.
        -- injection Ep as Ep. destruct (Nat.eqb_spec (Z.to_nat (Z.abs k)) idx); [eauto|congruence].
  - intros j q t' Hq Hj. apply G3 in Hq as [[Lj Hq]|[-> ->]].
    + rewrite Hnode' in Hj by lia. destruct (Nat.eqb_spec j idx); [discriminate|]. eapply (i_leaf _ _ _ _ I); eauto.
    + assert (t' = r) by congruence. subst t'. split; [destruct p; discriminate|]. exists v. rewrite <- app_assoc. cbn [app]. split; [exact Tr|]. split; [exact Lv|]. split; [exact InA|].
      intros a Ha Hpre. apply Uniq; [exact Ha|]. eapply pre_trans; [apply pre_app|exact Hpre].
  - intros q Hq Nq. unfold G' in Hq. apply in_app_or in Hq as [Hq|[<-|[]]]; [apply (i_has _ _ _ _ I); assumption|]. exists (p ++ d :: v). split; [exact InA|].
    replace (p ++ d :: v) with ((p ++ [d]) ++ v) by (rewrite <- app_assoc; reflexivity). apply pre_app.
  - intros j q c Hj. apply G3 in Hj as [[Lj Hj]|[-> Hj]].
    + destruct (i_par _ _ _ _ I j q c Hj) as (jp & chp & H1 & H2). pose proof (idx_lt _ _ _ _ _ _ I H1) as Hl. fold n in Hl. exists jp. rewrite Hnode' by lia.
      destruct (Nat.eqb_spec jp idx); eauto.
    + apply snoc_inj in Hj as [-> ->]. exists idx. rewrite Hnode' by lia. rewrite Nat.eqb_refl. eauto.
Qed.

(** Every prefix of a node's path is the path of an inner node. *)
Lemma prefixes_kids A os G pend : Inv A os G pend -> forall n q j p, nth_error G j = Some p -> length p = n -> pre q p -> q <> p -> exists jq ch, nth_error G jq = Some q /\ nth_error (s_nodes os) jq = Some (Kids ch).
Proof.
  intros I. induction n as [|n IH]; intros q j p Hj Ln Hq Nq.
  - destruct p; [|discriminate]. unfold pre in Hq. rewrite firstn_nil in Hq. congruence.
  - destruct p as [|x p'] using rev_ind; [discriminate|]. clear IHp'. rewrite app_length in Ln. cbn in Ln.
    destruct (i_par _ _ _ _ I j p' x Hj) as (jp & ch & H1 & H2).
    destruct (list_eq_dec Z.eq_dec q p') as [->|N]; [eauto|]. apply (IH q jp p' H1 ltac:(lia)); [|exact N].
    assert (length q <= length p')%nat. { assert (length q <> S (length p')) by (intros E; apply Nq; apply pre_full; [exact Hq|rewrite app_length; cbn; lia]).
      apply (f_equal (@length Z)) in Hq. rewrite firstn_length, app_length in Hq. cbn in Hq. lia. }
    eapply pre_le; [exact Hq|apply pre_app|assumption].
Qed.

(** The final leaf. *)
Lemma finish_ok A os G idx p ch c s text : Inv A os G None -> nth_error G idx = Some p -> nth_error (s_nodes os) idx = Some (Kids ch) -> 0 <= c < 16 ->
  nth_error ch (Z.to_nat c) = Some 0 -> id40 s -> pre (p ++ [c]) s -> tail_ok text (skipn (length (p ++ [c])) s) ->
  (exists os', push_leaf os idx c text = Ok (false, os') /\ s_full os' = true) \/
  (exists os' G', push_leaf os idx c text = Ok (true, os') /\ Inv (s :: A) os' G' None /\ s_min os' = s_min os).
Proof.
  intros I Hp Hn Hc Hk Hs Hpre Ht. pose proof (idx_lt _ _ _ _ _ _ I Hp) as Hlt.
  destruct (push_spec os idx c text ch) as [HF|(os' & E & C1 & C2 & C3 & C4 & C5 & Hnode)]; try apply I; auto.
  right. set (n := s_count os) in *. set (G' := G ++ [p ++ [c]]). assert (LG : length G = n) by apply I.
  assert (G1 : forall j q, nth_error G j = Some q -> nth_error G' j = Some q) by (intros j q H; unfold G'; rewrite nth_error_app1; auto; apply nth_error_Some; congruence).
  assert (G2 : nth_error G' n = Some (p ++ [c])) by (unfold G'; rewrite nth_error_app2, LG, Nat.sub_diag by lia; reflexivity).
  assert (G3 : forall j q, nth_error G' j = Some q -> (j < n)%nat /\ nth_error G j = Some q \/ j = n /\ q = p ++ [c]).
  { intros j q H. destruct (Nat.lt_trichotomy j n) as [L|[->|L]]; [left; split; [exact L|]; unfold G' in H; rewrite nth_error_app1 in H by lia; exact H|right; split; congruence|].
    assert (nth_error G' j = None) by (apply nth_error_None; unfold G'; rewrite app_length; cbn; lia). congruence. }
  assert (Hnode' : forall j, (j < n)%nat -> nth_error (s_nodes os') j = if (j =? idx)%nat then Some (Kids (upd ch (Z.to_nat c) (- Z.of_nat n))) else nth_error (s_nodes os) j).
  { intros j Hj. rewrite Hnode by lia. destruct (Nat.eqb_spec j n); [lia|]. reflexivity. }
  assert (HnodeN : nth_error (s_nodes os') n = Some (Leaf text)) by (rewrite Hnode, Nat.eqb_refl by lia; reflexivity).
  destruct (i_kids _ _ _ _ I idx p ch Hp Hn) as (Lch & Lp & HK).
  destruct (HK c Hc) as (k0 & Hk0 & Hcase0). assert (k0 = 0) by congruence. subst k0. destruct Hcase0 as [[_ Hnone]|[? _]]; [|lia].
  assert (Fresh : ~ In (p ++ [c]) G).
  { intros Hin. destruct (i_has _ _ _ _ I _ Hin) as (a & Ha & Pa); [destruct p; discriminate|]. exact (Hnone a Ha Pa). }
  assert (Len1 : length (p ++ [c]) = S (length p)) by (rewrite app_length; cbn; lia).
  assert (Es : s = (p ++ [c]) ++ skipn (length (p ++ [c])) s) by (apply pre_split; exact Hpre).
  assert (Pps : pre p s) by (eapply pre_trans; [apply pre_app|exact Hpre]).
  (* nodes on the way of s *)
  assert (OnPath : forall j q, nth_error G j = Some q -> pre q s -> pre q p).
  { intros j q Hj Hq. destruct (Nat.le_gt_cases (length q) (length p)); [eapply pre_le; eauto|]. exfalso.
    assert (pre (p ++ [c]) q) by (eapply pre_le; [exact Hpre|exact Hq|lia]).
    destruct (i_has _ _ _ _ I q (nth_error_In _ _ Hj)) as (a & Ha & Pa); [destruct q; [cbn in *; lia|discriminate]|]. apply (Hnone a Ha). eapply pre_trans; eauto. }
  exists os', G'. split; [exact E|]. split; [|exact C4].
  constructor; try assumption; try apply I.
  - unfold G'. rewrite app_length, LG, C1. cbn. lia.
  - lia.
  - rewrite C5. apply I.
  - apply G1. apply I.
  - unfold G'. rewrite <- (rev_involutive (G ++ [p ++ [c]])). apply NoDup_rev. rewrite rev_app_distr. cbn. constructor; [rewrite <- in_rev; exact Fresh|]. apply NoDup_rev. apply I.
  - destruct (i_root_kids _ _ _ _ I) as (ch0 & Hroot0). rewrite Hnode' by (pose proof (i_pos _ _ _ _ I); lia). destruct (Nat.eqb_spec 0 idx); eauto.
  - intros j q ch' Hq Hj. apply G3 in Hq as [[Lj Hq]|[-> ->]]; [|congruence]. rewrite Hnode' in Hj by lia.
    assert (HH : exists ch0, nth_error (s_nodes os) j = Some (Kids ch0) /\ length ch' = length ch0 /\ forall c', 0 <= c' < 16 -> (j = idx /\ c' = c) \/ nth_error ch' (Z.to_nat c') = nth_error ch0 (Z.to_nat c')).
    { destruct (Nat.eqb_spec j idx) as [->|Nj]; [|eauto]. injection Hj as <-. exists ch. rewrite upd_length. split; [exact Hn|]. split; [reflexivity|].
      intros c' Hc'. destruct (Z.eq_dec c' c); [auto|right]. rewrite nth_upd. destruct (Nat.eqb_spec (Z.to_nat c') (Z.to_nat c)); [lia|reflexivity]. }
    destruct HH as (ch0 & Hj0 & Lc0 & Hch). destruct (i_kids _ _ _ _ I j q ch0 Hq Hj0) as (Lc & Lq & HK'). split; [congruence|]. split; [exact Lq|].
    intros c' Hc'. destruct (Hch c' Hc') as [[-> ->]|Esame].
    + rewrite Nat.eqb_refl in Hj. injection Hj as <-. assert (q = p) by congruence. subst q. rewrite nth_upd, Nat.eqb_refl, Hk. exists (- Z.of_nat n). split; [reflexivity|]. right.
      replace (Z.to_nat (Z.abs (- Z.of_nat n))) with n by lia. pose proof (i_pos _ _ _ _ I). fold n in H.
      split; [lia|]. split; [exact G2|]. split; [intros _; split; [eauto|discriminate]|lia].
    + rewrite Esame. destruct (HK' c' Hc') as (k & Hk' & Hcase). exists k. split; [exact Hk'|]. destruct Hcase as [[-> Hno]|(Nk & HG & Hneg & Hpos)]; [left|right].
      * split; [reflexivity|]. intros a [<-|Ha]; [|apply Hno; exact Ha]. intros Hpr.
        assert (Pq : pre q s) by (eapply pre_trans; [apply pre_app|exact Hpr]).
        assert (Pqp : pre q p) by (eapply OnPath; eauto).
        assert (Lq1 : length (q ++ [c']) = S (length q)) by (rewrite app_length; cbn; lia).
        destruct (list_eq_dec Z.eq_dec q p) as [->|Nqp].
        -- assert (j = idx) by (eapply nd_inj; [apply I|exact Hq|exact Hp]). subst j.
           assert (p ++ [c'] = p ++ [c]) as C by (apply pre_full; [eapply pre_le; [exact Hpr|exact Hpre|lia]|lia]). apply snoc_inj in C as [_ ->].
           rewrite Nat.eqb_refl in Hj. injection Hj as <-. rewrite nth_upd, Nat.eqb_refl, Hk in Esame. assert (ch0 = ch) by congruence. subst ch0. rewrite Hk in Esame. injection Esame as Esame. pose proof (i_pos _ _ _ _ I). lia.
        -- assert (length q < length p)%nat. { assert (length q <> length p) by (intros EL; apply Nqp; apply pre_full; assumption). apply (f_equal (@length Z)) in Pqp. rewrite firstn_length in Pqp. lia. }
           assert (pre (q ++ [c']) p) by (eapply pre_le; [exact Hpr|exact Pps|lia]).
           destruct (i_has _ _ _ _ I p (nth_error_In _ _ Hp)) as (a & Ha & Pa); [destruct p; [cbn in *; lia|discriminate]|].
           apply (Hno a Ha). eapply pre_trans; eauto.
      * pose proof (idx_lt _ _ _ _ _ _ I HG) as Hkl. fold n in Hkl.
        split; [exact Nk|]. split; [apply G1; exact HG|]. split.
        -- intros K. destruct (Hneg K) as [(t' & Ht') _]. split; [|discriminate]. exists t'. rewrite Hnode' by lia. destruct (Nat.eqb_spec (Z.to_nat (Z.abs k)) idx); [congruence|exact Ht'].
        -- intros K. rewrite Hnode' by lia. destruct (Hpos K) as [(ch2 & Hch')|[Ep|?]]; [left|discriminate|auto]. destruct (Z.to_nat (Z.abs k) =? idx)%nat; eauto.
  - intros j q t' Hq Hj. apply G3 in Hq as [[Lj Hq]|[-> ->]].
    + rewrite Hnode' in Hj by lia. destruct (Nat.eqb_spec j idx) as [|Nji]; [discriminate|]. destruct (i_leaf _ _ _ _ I j q t' Hq Hj) as (Nq & v & Tv & Lv & InA & Un).
      split; [exact Nq|]. exists v. split; [exact Tv|]. split; [exact Lv|]. split; [right; exact InA|]. intros a [<-|Ha] Hpr; [|auto]. exfalso.
      assert (Pqp : pre q p) by (eapply OnPath; eauto). destruct (list_eq_dec Z.eq_dec q p) as [->|Nqp].
      * apply Nji. eapply nd_inj; [apply I|exact Hq|exact Hp].
      * destruct (prefixes_kids A os G None I (length p) q idx p Hp eq_refl Pqp Nqp) as (jq & chq & H1 & H2). assert (jq = j) by (eapply nd_inj; [apply I|exact H1|exact Hq]). congruence.
    + assert (t' = text) by congruence. subst t'. split; [destruct p; discriminate|]. exists (skipn (length (p ++ [c])) s). split; [exact Ht|]. rewrite <- Es.
      split; [apply Hs|]. split; [left; reflexivity|]. intros a [<-|Ha] Hpr; [reflexivity|]. exfalso. exact (Hnone a Ha Hpr).
  - intros q Hq Nq. unfold G' in Hq. apply in_app_or in Hq as [Hq|[<-|[]]].
    + destruct (i_has _ _ _ _ I q Hq Nq) as (a & Ha & Pa). exists a. split; [right; exact Ha|exact Pa].
    + exists s. split; [left; reflexivity|exact Hpre].
  - intros j q c' Hj. apply G3 in Hj as [[Lj Hj]|[-> Hj]].
    + destruct (i_par _ _ _ _ I j q c' Hj) as (jp & chp & H1 & H2). pose proof (idx_lt _ _ _ _ _ _ I H1) as Hl. fold n in Hl. exists jp. rewrite Hnode' by lia.
      destruct (Nat.eqb_spec jp idx); eauto.
    + apply snoc_inj in Hj as [-> ->]. exists idx. rewrite Hnode' by lia. rewrite Nat.eqb_refl. eauto.
  - intros a [<-|Ha]; [exact Hs|apply (i_ids _ _ _ _ I); exact Ha].
Qed.

(** Adding an id that is already there. *)
Lemma dup_ok A os G pend idx s : Inv A os G pend -> nth_error G idx = Some s -> length s = 40%nat -> (pend = None \/ pend = Some idx) -> id40 s -> Inv (s :: A) os G None.
Proof.
  intros I Hi Ls Hp Hs. assert (InA : In s A).
  { destruct (i_has _ _ _ _ I s (nth_error_In _ _ Hi)) as (a & Ha & Pa); [destruct s; discriminate|]. replace s with a; [exact Ha|]. symmetry. apply pre_full; [exact Pa|]. destruct (i_ids _ _ _ _ I a Ha). lia. }
  constructor; try apply I.
  - intros j p ch Hj Hn. destruct (i_kids _ _ _ _ I j p ch Hj Hn) as (Lc & Lp & HK). split; [exact Lc|]. split; [exact Lp|].
    intros c Hc. destruct (HK c Hc) as (k & Hk & Hcase). exists k. split; [exact Hk|]. destruct Hcase as [[-> Hno]|(Nk & HG & Hneg & Hpos)]; [left|right].
    + split; [reflexivity|]. intros a [<-|Ha]; auto.
    + split; [exact Nk|]. split; [exact HG|]. split; [intros K; split; [apply Hneg; exact K|discriminate]|].
      intros K. destruct (Hpos K) as [?|[Ep|?]]; auto. right. right. destruct Hp as [->|E0]; [discriminate|]. assert (Z.to_nat (Z.abs k) = idx) by congruence. rewrite H in HG. assert (s = p ++ [c]) by congruence. congruence.
  - intros j p t Hj Hn. destruct (i_leaf _ _ _ _ I j p t Hj Hn) as (Np & v & Tv & Lv & In' & Un). split; [exact Np|]. exists v. split; [exact Tv|]. split; [exact Lv|]. split; [right; exact In'|].
    intros a [<-|Ha]; auto.
  - intros q Hq Nq. destruct (i_has _ _ _ _ I q Hq Nq) as (a & Ha & Pa). exists a. split; [right; exact Ha|exact Pa].
  - intros a [<-|Ha]; [exact Hs|apply (i_ids _ _ _ _ I); exact Ha].
Qed.

Lemma text_char text s i c : text_of text s -> nth_error s i = Some c -> exists ch, rd text i = Ok ch /\ fromhex ch = Ok c /\ 0 <= c < 16.
Proof.
  intros (Bt & Lt & Dt) Hi.
  assert (G : forall a b, digits_of a b -> forall i c, nth_error b i = Some c -> exists ch, nth_error a i = Some ch /\ hexval ch = Some c).
  { intros a b F. induction F as [|x y a b Hxy F IH]; intros [|j] d Hd; try discriminate; cbn in *; [injection Hd as <-; eauto|eauto]. }
  destruct (G _ _ Dt i c Hi) as (ch & Hch & Hv). exists ch.
  assert (Ht : nth_error text i = Some ch) by (rewrite <- (firstn_skipn 40 text); rewrite nth_error_app1; [exact Hch|apply nth_error_Some; congruence]).
  unfold rd. rewrite Ht. split; [reflexivity|]. unfold bytes in Bt. rewrite Forall_forall in Bt. rewrite fromhex_spec by (apply Bt; eapply nth_error_In; eauto). rewrite Hv. split; [reflexivity|eapply hexval_range; eauto].
Qed.
Lemma text_tail text s n : text_of text s -> (n <= 40)%nat -> tail_ok (skipn n text) (skipn n s).
Proof.
  intros (Bt & Lt & Dt) Hn.
  assert (Ls : length s = 40%nat). { assert (G : forall a b, digits_of a b -> length b = length a) by (intros a b F; induction F; cbn; congruence). rewrite (G _ _ Dt), firstn_length. lia. }
  repeat split.
  - unfold bytes in *. rewrite Forall_forall in *. intros x Hx. apply Bt. rewrite <- (firstn_skipn n text). apply in_or_app. auto.
  - rewrite !skipn_length. lia.
  - rewrite skipn_length, Ls, firstn_skipn_comm. replace (n + (40 - n))%nat with 40%nat by lia.
    clear - Dt. revert n. generalize dependent s. generalize (firstn 40 text). intros l s Dt. induction Dt; intros [|n]; cbn; try constructor; auto; try apply IHDt.
Qed.

(** One addition ends where the new id leaves the common prefixes. *)
Definition ends_at (A : list (list Z)) (s : list Z) (e : nat) : Prop :=
  (e <= 40)%nat /\ (e = 0%nat \/ exists a, In a A /\ firstn e a = firstn e s) /\ ((e < 40)%nat -> forall a, In a A -> firstn (S e) a <> firstn (S e) s).

Lemma loop_ok text s A : text_of text s -> id40 s -> forall n i idx (leaf : bool) os G,
  (n + i = 40)%nat -> Inv A os G (if leaf then Some idx else None) -> nth_error G idx = Some (firstn i s) ->
  (if leaf then exists t, nth_error (s_nodes os) idx = Some (Leaf t) else i = 40%nat \/ exists ch, nth_error (s_nodes os) idx = Some (Kids ch)) ->
  (exists e os' G', add_loop n i idx leaf text os = Ok (Some e, os') /\ s_min os' = s_min os /\ Inv (s :: A) os' G' None /\ ends_at A s e) \/
  (exists os', add_loop n i idx leaf text os = Ok (None, os') /\ s_full os' = true).
Proof.
  intros Ht Hs. induction n as [|n IH]; intros i idx leaf os G Hi I HG Hnd.
  - assert (i = 40)%nat by lia. subst i. cbn [add_loop]. left. assert (Es : firstn 40 s = s) by (apply firstn_all2; destruct Hs; lia). rewrite Es in HG.
    exists 40%nat, os, G. split; [reflexivity|]. split; [reflexivity|]. split.
    + eapply dup_ok; [exact I|exact HG|apply Hs| |exact Hs]. destruct leaf; auto.
    + split; [lia|]. split; [|lia]. right. destruct (i_has _ _ _ _ I s (nth_error_In _ _ HG)) as (a & Ha & Pa); [destruct Hs as [L _]; destruct s; [discriminate|discriminate]|].
      exists a. split; [exact Ha|]. destruct Hs as [L _]. unfold pre in Pa. rewrite L in Pa. congruence.
  - cbn [add_loop]. destruct (nth_error s i) as [c|] eqn:Ec; [|apply nth_error_None in Ec; destruct Hs; lia].
    destruct (text_char text s i c Ht Ec) as (ch & -> & Hc & Rc). cbn [bindr]. rewrite Hc. cbn [bindr]. destruct (Z.eqb_spec c (-1)); [lia|].
    set (p := firstn i s) in *. assert (Lp : length p = i) by (unfold p; rewrite firstn_length; destruct Hs; lia).
    assert (Epc : firstn (S i) s = p ++ [c]).
    { unfold p. destruct Hs as [L _]. clear - Ec. revert s Ec. induction i as [|i IHi]; intros [|x s] Ec; try discriminate; cbn in Ec; [injection Ec as ->; reflexivity|]. cbn [firstn app]. f_equal. apply IHi. exact Ec. }
    (* after the conversion, if any *)
    assert (Conv : (exists os1, (if leaf then do nd <- get os idx ;; match nd with Kids _ => UB | Leaf tail => do t0 <- rd tail 0 ;; do d <- fromhex t0 ;; push_leaf (with_nodes os (upd (s_nodes os) idx zeros)) idx d (tl tail) end else Ok (true, os)) = Ok (false, os1) /\ s_full os1 = true) \/
      (exists os1 G1 kids, (if leaf then do nd <- get os idx ;; match nd with Kids _ => UB | Leaf tail => do t0 <- rd tail 0 ;; do d <- fromhex t0 ;; push_leaf (with_nodes os (upd (s_nodes os) idx zeros)) idx d (tl tail) end else Ok (true, os)) = Ok (true, os1) /\
         Inv A os1 G1 None /\ s_min os1 = s_min os /\ nth_error G1 idx = Some p /\ nth_error (s_nodes os1) idx = Some (Kids kids))).
    { destruct leaf.
      - destruct Hnd as (t & Hnt). destruct (convert_ok A os G idx p t I HG Hnt ltac:(lia)) as (t0 & d & E0 & Ed & [(os1 & E1 & F1)|(os1 & G1 & kids & E1 & I1 & M1 & HG1 & Hn1)]).
        + left. exists os1. unfold get. rewrite Hnt. cbn [bindr]. rewrite E0. cbn [bindr]. rewrite Ed. cbn [bindr]. auto.
        + right. exists os1, G1, kids. unfold get. rewrite Hnt. cbn [bindr]. rewrite E0. cbn [bindr]. rewrite Ed. cbn [bindr]. auto.
      - destruct Hnd as [?|(kids & Hk)]; [lia|]. right. exists os, G, kids. auto. }
    cbv zeta. destruct Conv as [(os1 & -> & F1)|(os1 & G1 & kids & -> & I1 & M1 & HG1 & Hn1)]; cbn [bindr negb].
    { right. eauto. }
    unfold get. rewrite Hn1. cbn [bindr]. destruct (i_kids _ _ _ _ I1 idx p kids HG1 Hn1) as (Lk & _ & HK). destruct (HK c Rc) as (k & Hk & Hcase).
    assert (Hrd : rd kids (Z.to_nat c) = Ok k) by (unfold rd; rewrite Hk; reflexivity). rewrite !Hrd. cbn [bindr]. clear Hrd. destruct (Z.eqb_spec k 0) as [->|Nk].
    + destruct Hcase as [[_ Hno]|[? _]]; [|lia].
      assert (Hps : pre (p ++ [c]) s) by (rewrite <- Epc; apply pre_firstn; destruct Hs; lia).
      assert (Lpc : length (p ++ [c]) = S i) by (rewrite app_length; cbn; lia).
      assert (Htl : tail_ok (skipn (S i) text) (skipn (length (p ++ [c])) s)) by (rewrite Lpc; apply text_tail; [exact Ht|lia]).
      destruct (finish_ok A os1 G1 idx p kids c s (skipn (S i) text) I1 HG1 Hn1 Rc Hk Hs Hps Htl) as [(os2 & E2 & F2)|(os2 & G2 & E2 & I2 & M2)].
      * right. exists os2. rewrite E2. cbn [bindr]. split; [reflexivity|exact F2].
      * left. exists i, os2, G2. rewrite E2. cbn [bindr]. split; [reflexivity|]. split; [congruence|]. split; [exact I2|]. split; [lia|]. split.
        -- destruct i as [|i']; [left; reflexivity|right].
           destruct (i_has _ _ _ _ I1 p (nth_error_In _ _ HG1)) as (a & Ha & Pa); [intros E0; rewrite E0 in Lp; discriminate|]. exists a. split; [exact Ha|]. unfold pre in Pa. rewrite Lp in Pa. exact Pa.
        -- intros _ a Ha Ea. apply (Hno a Ha). unfold pre. rewrite Lpc, Ea. exact Epc.
    + destruct Hcase as [[? _]|(_ & HGk & Hneg & Hpos)]; [contradiction|]. destruct (Z.ltb_spec k 0) as [K|K].
      * destruct (flip_ok A os1 G1 idx p kids c k I1 HG1 Hn1 Rc Hk K) as (os2 & -> & I2 & M2 & HG2 & t2 & Ht2). cbn [bindr].
        specialize (IH (S i) (Z.to_nat (- k)) true os2 G1 ltac:(lia) I2). rewrite Epc in IH. specialize (IH HG2 (ex_intro _ t2 Ht2)).
        destruct IH as [(e & os3 & G3 & E3 & M3 & I3 & En)|(os3 & E3 & F3)]; [left; exists e, os3, G3; rewrite E3; split; [reflexivity|]; split; [congruence|]; split; [exact I3|exact En]|right; eauto].
      * replace (Z.abs k) with k in * by lia.
        specialize (IH (S i) (Z.to_nat k) false os1 G1 ltac:(lia) I1). rewrite Epc in IH. specialize (IH HGk).
        destruct IH as [(e & os3 & G3 & E3 & M3 & I3 & En)|(os3 & E3 & F3)].
        -- destruct (Hpos ltac:(lia)) as [?|[?|L40]]; [right; assumption|discriminate|left; rewrite app_length in L40; cbn in L40; lia].
        -- left. exists e, os3, G3. rewrite E3. split; [reflexivity|]. split; [congruence|]. split; [exact I3|exact En].
        -- right. eauto.
Qed.
