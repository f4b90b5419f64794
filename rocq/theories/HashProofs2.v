From Verif Require Import Base Arr HashModel HashSpec HashProofs.

Lemma perm_filter {A} (p : A -> bool) l l' : Permutation l l' -> Permutation (filter p l) (filter p l').
Proof.
  induction 1; cbn.
  - constructor.
  - destruct (p x); [constructor|]; assumption.
  - destruct (p x), (p y); try apply perm_swap; apply Permutation_refl.
  - eapply Permutation_trans; eassumption.
Qed.
Lemma filter_all {A} (p : A -> bool) l : (forall x, In x l -> p x = true) -> filter p l = l.
Proof. induction l as [|a l IH]; cbn; intros H; [reflexivity|]. rewrite (H a) by auto. f_equal. apply IH. auto. Qed.

Lemma least_true (p : nat -> bool) : forall n, (exists s, (s < n)%nat /\ p s = true) ->
  exists e, (e < n)%nat /\ p e = true /\ forall t, (t < e)%nat -> p t = false.
Proof.
  induction n as [|n IH]; intros (s & Hs & Hp); [lia|].
  destruct (existsb p (seq 0 n)) eqn:E.
  - apply existsb_exists in E. destruct E as (t & Ht & Hpt). apply in_seq in Ht.
    destruct IH as (e & He & Hpe & Hmin); [exists t; split; [lia|exact Hpt]|]. exists e. split; [lia|auto].
  - assert (Hf : forall t, (t < n)%nat -> p t = false).
    { intros t Ht. destruct (p t) eqn:Et; [|reflexivity]. exfalso.
      assert (existsb p (seq 0 n) = true) by (apply existsb_exists; exists t; split; [apply in_seq; lia|exact Et]). congruence. }
    exists n. split; [lia|]. split; [|exact Hf]. destruct (Nat.eq_dec s n) as [->|]; [exact Hp|]. rewrite Hf in Hp by lia. discriminate.
Qed.

Section P.
  Context {K V : Type} (hash : K -> nat) (eqk : K -> K -> bool).
  Context (Erefl : forall a, eqk a a = true) (Esym : forall a b, eqk a b = true -> eqk b a = true)
          (Etrans : forall a b c, eqk a b = true -> eqk b c = true -> eqk a c = true)
          (Ehash : forall a b, eqk a b = true -> hash a = hash b).
  Notation slot := (@slot K V).
  Implicit Types (s : list slot) (k : K) (v : V).

  Definition ent (x : slot) : list (K * V) := match x with SFull k v => [(k, v)] | _ => [] end.
  Definition entries s : list (K * V) := flat_map ent s.
  Definition nonempty (x : slot) : bool := match x with SEmpty => false | _ => true end.

  Fixpoint pu (l : list (K * V)) : Prop :=
    match l with [] => True | a :: r => (forall b, In b r -> eqk (fst a) (fst b) = false) /\ pu r end.

  Lemma eqk_false_sym a b : eqk a b = false -> eqk b a = false.
  Proof. intros H. destruct (eqk b a) eqn:E; [|reflexivity]. apply Esym in E. congruence. Qed.

  Lemma pu_perm l l' : Permutation l l' -> pu l -> pu l'.
  Proof.
    induction 1; cbn; auto.
    - intros [H1 H2]. split; [|auto]. intros b Hb. apply H1. eapply Permutation_in; [apply Permutation_sym, H|exact Hb].
    - intros (H1 & H2 & H3). split; [|split; [intros b Hb; apply H1; right; exact Hb|exact H3]].
      intros b [<-|Hb]; [apply eqk_false_sym, H1; left; reflexivity|apply H2, Hb].
  Qed.
  Lemma pu_in l a b : pu l -> In a l -> In b l -> eqk (fst a) (fst b) = true -> a = b.
  Proof.
    induction l as [|x l IH]; cbn; [contradiction|]. intros [H1 H2] [<-|Ha] [<-|Hb] E; auto.
    - rewrite (H1 b Hb) in E. discriminate.
    - rewrite (eqk_false_sym _ _ (H1 a Ha)) in E. discriminate.
  Qed.
  Lemma pu_split A0 a B : pu (A0 ++ a :: B) -> (forall b, In b (A0 ++ B) -> eqk (fst b) (fst a) = false) /\ pu (A0 ++ B).
  Proof.
    intros H. assert (Hp : pu (a :: A0 ++ B)) by (eapply pu_perm; [apply Permutation_sym, Permutation_middle|exact H]).
    destruct Hp as [H1 H2]. split; [|exact H2]. intros b Hb. apply eqk_false_sym, H1, Hb.
  Qed.

  Lemma entries_app s1 s2 : entries (s1 ++ s2) = entries s1 ++ entries s2.
  Proof. apply flat_map_app. Qed.
  Lemma in_entries s k v : In (k, v) (entries s) <-> exists i, nth_error s i = Some (SFull k v).
  Proof.
    unfold entries. rewrite in_flat_map. split.
    - intros (x & Hx & Hin). apply In_nth_error in Hx. destruct Hx as (i & Hi). exists i. destruct x; cbn in Hin; try contradiction.
      destruct Hin as [E|[]]. congruence.
    - intros (i & Hi). exists (SFull k v). split; [eapply nth_error_In, Hi|left; reflexivity].
  Qed.

  Lemma upd_split {B} (l : list B) i x y : nth_error l i = Some x -> exists l1 l2, l = l1 ++ x :: l2 /\ length l1 = i /\ upd l i y = l1 ++ y :: l2.
  Proof.
    intros H. destruct (nth_error_split l i H) as (l1 & l2 & -> & <-). exists l1, l2. split; [reflexivity|]. split; [reflexivity|].
    clear. induction l1 as [|a l1 IH]; cbn; [reflexivity|]. rewrite IH. reflexivity.
  Qed.

  (** *** the map facts *)
  Lemma fget_some (mp : fmap K V) k v : fget eqk mp k = Some v -> exists k', In (k', v) mp /\ eqk k' k = true.
  Proof.
    induction mp as [|[k' v'] mp IH]; cbn; [discriminate|]. destruct (eqk k' k) eqn:E.
    - intros [= ->]. exists k'. auto.
    - intros H. destruct (IH H) as (k2 & H1 & H2). exists k2. auto.
  Qed.
  Lemma fget_none (mp : fmap K V) k : fget eqk mp k = None -> forall e, In e mp -> eqk (fst e) k = false.
  Proof.
    induction mp as [|[k' v'] mp IH]; cbn; [intros _ e []|]. destruct (eqk k' k) eqn:E; [discriminate|].
    intros H e [<-|He]; [exact E|auto].
  Qed.

  (** *** search along the probe sequence *)
  Definition stopsb s k (i : nat) : bool :=
    match nth_error s i with Some SEmpty => true | Some SDel => false | Some (SFull k' _) => eqk k' k | None => true end.
  Definition reach s k (i : nat) : Prop :=
    exists st, (st < length s)%nat /\ ppos (hash k) (length s) st = i /\
      forall t, (t < st)%nat -> nth_error s (ppos (hash k) (length s) t) <> Some SEmpty.
  Definition wf s : Prop := forall i k v, nth_error s i = Some (SFull k v) -> reach s k i.

  Lemma search_stop s k m : length s = (2 ^ m)%nat -> (exists i, nth_error s i = Some SEmpty) ->
    exists e, (e < length s)%nat /\ stopsb s k (ppos (hash k) (length s) e) = true /\
      forall t, (t < e)%nat -> stopsb s k (ppos (hash k) (length s) t) = false.
  Proof.
    intros Hn (i & Hi). apply (least_true (fun t => stopsb s k (ppos (hash k) (length s) t))).
    assert (Hl : (i < length s)%nat) by (apply nth_error_Some; congruence).
    destruct (ppos_surj (hash k) (length s) m i Hn Hl) as (st & Hs & E). exists st. split; [exact Hs|].
    unfold stopsb. rewrite E, Hi. reflexivity.
  Qed.

  Lemma absent_if_empty s k e : wf s -> (e < length s)%nat ->
    nth_error s (ppos (hash k) (length s) e) = Some SEmpty ->
    (forall t, (t < e)%nat -> stopsb s k (ppos (hash k) (length s) t) = false) ->
    forall a, In a (entries s) -> eqk (fst a) k = false.
  Proof.
    intros Hw He Hemp Hmin [k' v] Ha. cbn. destruct (eqk k' k) eqn:E; [exfalso|reflexivity].
    apply in_entries in Ha. destruct Ha as (i & Hi). destruct (Hw i k' v Hi) as (st & Hs & Hp & Hne).
    rewrite (Ehash _ _ E) in Hp, Hne.
    destruct (Nat.lt_trichotomy st e) as [L|[->|L]].
    - specialize (Hmin st L). unfold stopsb in Hmin. rewrite Hp, Hi, E in Hmin. discriminate.
    - rewrite Hp, Hi in Hemp. discriminate.
    - exact (Hne e L Hemp).
  Qed.

  Lemma ppos_step h n st : maskn (ppos h n st + (st + 1)) n = ppos h n (S st).
  Proof. cbn [ppos]. rewrite Nat.add_1_r. reflexivity. Qed.

  Lemma idx_loop_spec s k m e : length s = (2 ^ m)%nat -> (e < length s)%nat ->
    stopsb s k (ppos (hash k) (length s) e) = true ->
    (forall t, (t < e)%nat -> stopsb s k (ppos (hash k) (length s) t) = false) ->
    forall fuel st, (st <= e)%nat -> (e - st <= fuel)%nat ->
    idx_loop eqk fuel s k (ppos (hash k) (length s) st) (ppos (hash k) (length s) 0) st =
      Ok (match nth_error s (ppos (hash k) (length s) e) with Some (SFull _ _) => Some (ppos (hash k) (length s) e) | _ => None end).
  Proof.
    intros Hn He Hstop Hmin. set (P := ppos (hash k) (length s)) in *.
    induction fuel as [|f IH]; intros st Hst Hf.
    - assert (st = e) by lia. subst st. cbn [idx_loop].
      destruct (aget_ok s (P e)) as (x & -> & Hx); [apply (ppos_lt _ _ m); exact Hn|]. cbn [bindr].
      unfold stopsb in Hstop. rewrite Hx in *. destruct x; [reflexivity|discriminate|]. rewrite Hstop. reflexivity.
    - cbn [idx_loop].
      destruct (aget_ok s (P st)) as (x & -> & Hx); [apply (ppos_lt _ _ m); exact Hn|]. cbn [bindr].
      destruct (Nat.eq_dec st e) as [->|N].
      + unfold stopsb in Hstop. rewrite Hx in *. destruct x; [reflexivity|discriminate|]. rewrite Hstop. reflexivity.
      + assert (Hc : match x with SEmpty => false | SDel => true | SFull k0 _ => negb (eqk k0 k) end = true).
        { assert (Hm := Hmin st ltac:(lia)). unfold stopsb in Hm. rewrite Hx in Hm. destruct x; [discriminate|reflexivity|]. rewrite Hm. reflexivity. }
        rewrite Hc. unfold P. rewrite ppos_step. fold P.
        destruct (Nat.eqb_spec (P (S st)) (P 0%nat)) as [E|_].
        { apply (ppos_inj _ _ m) in E; [lia|exact Hn|lia|lia]. }
        rewrite Nat.add_1_r. apply IH; lia.
  Qed.

  Lemma put_loop_spec s k m e : length s = (2 ^ m)%nat -> (e < length s)%nat ->
    stopsb s k (ppos (hash k) (length s) e) = true ->
    (forall t, (t < e)%nat -> stopsb s k (ppos (hash k) (length s) t) = false) ->
    forall fuel st site, (st <= e)%nat -> (e - st <= fuel)%nat ->
    (forall x, site = Some x -> exists t, (t < st)%nat /\ x = ppos (hash k) (length s) t /\ nth_error s x = Some SDel) ->
    exists t x, put_loop eqk fuel s k (ppos (hash k) (length s) st) (ppos (hash k) (length s) 0) st site = Ok x /\
      (t <= e)%nat /\ x = ppos (hash k) (length s) t /\
      ((exists k' v', nth_error s x = Some (SFull k' v') /\ eqk k' k = true /\ t = e) \/
       (nth_error s (ppos (hash k) (length s) e) = Some SEmpty /\ (nth_error s x = Some SEmpty \/ nth_error s x = Some SDel))).
  Proof.
    intros Hn He Hstop Hmin. set (P := ppos (hash k) (length s)) in *.
    assert (Hbase : forall site x, nth_error s (P e) = Some x ->
       (forall y, site = Some y -> exists t, (t < e)%nat /\ y = P t /\ nth_error s y = Some SDel) ->
       exists t x0, match x, site with SEmpty, Some y => Ok y | _, _ => Ok (P e) end = Ok x0 /\ (t <= e)%nat /\ x0 = P t /\
      ((exists k' v', nth_error s x0 = Some (SFull k' v') /\ eqk k' k = true /\ t = e) \/
       (nth_error s (P e) = Some SEmpty /\ (nth_error s x0 = Some SEmpty \/ nth_error s x0 = Some SDel)))).
    { intros site x Hx Hs. unfold stopsb in Hstop. rewrite Hx in Hstop. destruct x as [| |k' v']; [|discriminate|].
      - destruct site as [y|].
        + destruct (Hs y eq_refl) as (t & Ht & -> & Hd). exists t, (P t). split; [reflexivity|]. split; [lia|]. split; [reflexivity|]. right. auto.
        + exists e, (P e). split; [reflexivity|]. split; [lia|]. split; [reflexivity|]. right. auto.
      - exists e, (P e). split; [reflexivity|]. split; [lia|]. split; [reflexivity|]. left. exists k', v'. auto. }
    induction fuel as [|f IH]; intros st site Hst Hf Hsite.
    - assert (st = e) by lia. subst st. cbn [put_loop].
      destruct (aget_ok s (P e)) as (x & -> & Hx); [apply (ppos_lt _ _ m); exact Hn|]. cbn [bindr].
      assert (Hc : match x with SEmpty => false | SDel => true | SFull k0 _ => negb (eqk k0 k) end = false).
      { unfold stopsb in Hstop. rewrite Hx in Hstop. destruct x; [reflexivity|discriminate|]. rewrite Hstop. reflexivity. }
      rewrite Hc. apply Hbase; assumption.
    - cbn [put_loop].
      destruct (aget_ok s (P st)) as (x & -> & Hx); [apply (ppos_lt _ _ m); exact Hn|]. cbn [bindr].
      destruct (Nat.eq_dec st e) as [->|N].
      + assert (Hc : match x with SEmpty => false | SDel => true | SFull k0 _ => negb (eqk k0 k) end = false).
        { unfold stopsb in Hstop. rewrite Hx in Hstop. destruct x; [reflexivity|discriminate|]. rewrite Hstop. reflexivity. }
        rewrite Hc. apply Hbase; assumption.
      + assert (Hc : match x with SEmpty => false | SDel => true | SFull k0 _ => negb (eqk k0 k) end = true).
        { assert (Hm := Hmin st ltac:(lia)). unfold stopsb in Hm. rewrite Hx in Hm. destruct x; [discriminate|reflexivity|]. rewrite Hm. reflexivity. }
        rewrite Hc. cbv zeta. unfold P. rewrite ppos_step. fold P.
        destruct (Nat.eqb_spec (P (S st)) (P 0%nat)) as [E|_].
        { apply (ppos_inj _ _ m) in E; [lia|exact Hn|lia|lia]. }
        rewrite Nat.add_1_r. apply IH; try lia.
        intros y Hy. destruct x as [| |k' v'].
        * destruct (Hsite y Hy) as (t & Ht & H1 & H2). exists t. split; [lia|auto].
        * injection Hy as <-. exists st. auto.
        * destruct (Hsite y Hy) as (t & Ht & H1 & H2). exists t. split; [lia|auto].
  Qed.

  (** *** invariant *)
  Definition cnt s : nat := length (filter nonempty s).
  Record inv (t : @table K V) : Prop := {
    i_shape : (slots t = [] /\ upper t = O) \/ (exists m, (2 <= m)%nat /\ n_buckets t = (2 ^ m)%nat /\ upper t = bound77 (n_buckets t));
    i_wf : wf (slots t);
    i_pu : pu (entries (slots t));
    i_size : size t = length (entries (slots t));
    i_occ : n_occupied t = cnt (slots t);
    i_ub : (n_occupied t <= upper t)%nat
  }.

  Lemma bound77_lt n : (4 <= n)%nat -> (bound77 n < n)%nat.
  Proof. intros H. unfold bound77. lia. Qed.
  Lemma pow2_ge4 m : (2 <= m)%nat -> (4 <= 2 ^ m)%nat.
  Proof. intros H. change 4%nat with (2 ^ 2)%nat. apply Nat.pow_le_mono_r; lia. Qed.

  Lemma has_empty s : (cnt s < length s)%nat -> exists i, nth_error s i = Some SEmpty.
  Proof.
    unfold cnt. induction s as [|x s IH]; cbn; [lia|]. destruct x; cbn; intros H.
    - exists O. reflexivity.
    - destruct IH as (i & Hi); [lia|]. exists (S i). exact Hi.
    - destruct IH as (i & Hi); [lia|]. exists (S i). exact Hi.
  Qed.

  Lemma hidx_spec t k : inv t ->
    exists r, hidx hash eqk t k = Ok r /\
      match r with
      | Some i => exists k' v, nth_error (slots t) i = Some (SFull k' v) /\ eqk k' k = true
      | None => forall a, In a (entries (slots t)) -> eqk (fst a) k = false
      end.
  Proof.
    intros Hi. unfold hidx. destruct (i_shape t Hi) as [[Es _]|(m & Hm & Hn & Hu)].
    - unfold n_buckets. rewrite Es. cbn. exists None. split; [reflexivity|]. intros a [].
    - pose proof (pow2_ge4 m Hm). destruct (Nat.eqb_spec (n_buckets t) 0); [lia|].
      assert (He : exists i, nth_error (slots t) i = Some SEmpty).
      { apply has_empty. rewrite <- (i_occ t Hi). pose proof (i_ub t Hi). pose proof (bound77_lt (n_buckets t) ltac:(lia)). unfold n_buckets in *. lia. }
      destruct (search_stop (slots t) k m Hn He) as (e & He1 & He2 & He3).
      cbv zeta. change (maskn (hash k) (n_buckets t)) with (ppos (hash k) (length (slots t)) 0). unfold n_buckets.
      rewrite (idx_loop_spec (slots t) k m e Hn He1 He2 He3 (length (slots t)) 0) by lia.
      eexists. split; [reflexivity|].
      destruct (nth_error (slots t) (ppos (hash k) (length (slots t)) e)) as [[| |k' v]|] eqn:Ex.
      + apply (absent_if_empty (slots t) k e (i_wf t Hi) He1 Ex He3).
      + unfold stopsb in He2. rewrite Ex in He2. discriminate.
      + exists k', v. split; [exact Ex|]. unfold stopsb in He2. rewrite Ex in He2. exact He2.
      + apply nth_error_None in Ex. pose proof (ppos_lt (hash k) (length (slots t)) m e Hn). lia.
  Qed.

  Lemma get_abs t k mp r : inv t -> Permutation (entries (slots t)) mp ->
    match r with
      | Some i => exists k' v, nth_error (slots t) i = Some (SFull k' v) /\ eqk k' k = true
      | None => forall a, In a (entries (slots t)) -> eqk (fst a) k = false
    end ->
    match r with
    | Some i => exists k' v, nth_error (slots t) i = Some (SFull k' v) /\ fget eqk mp k = Some v /\ eqk k' k = true
    | None => fget eqk mp k = None
    end.
  Proof.
    intros Hi Hp Hr. destruct r as [i|].
    - destruct Hr as (k' & v & Hx & E). exists k', v. split; [exact Hx|]. split; [|exact E].
      assert (Hin : In (k', v) (entries (slots t))) by (apply in_entries; eauto).
      destruct (fget eqk mp k) as [v2|] eqn:Eg.
      + destruct (fget_some _ _ _ Eg) as (k2 & H2 & E2). apply (Permutation_in _ (Permutation_sym Hp)) in H2.
        assert ((k', v) = (k2, v2)); [|congruence]. apply (pu_in (entries (slots t))); auto; [apply i_pu, Hi|].
        cbn. apply Etrans with k; [exact E|apply Esym, E2].
      + pose proof (fget_none _ _ Eg (k', v) (Permutation_in _ Hp Hin)) as Hf. cbn in Hf. congruence.
    - destruct (fget eqk mp k) as [v2|] eqn:Eg; [|reflexivity].
      destruct (fget_some _ _ _ Eg) as (k2 & H2 & E2). apply (Permutation_in _ (Permutation_sym Hp)) in H2.
      specialize (Hr _ H2). cbn in Hr. congruence.
  Qed.

  Lemma hget_spec t k mp : inv t -> Permutation (entries (slots t)) mp -> hget hash eqk t k = Ok (fget eqk mp k).
  Proof.
    intros Hi Hp. unfold hget. destruct (hidx_spec t k Hi) as (r & -> & Hr). cbn [bindr].
    apply (get_abs t k mp r Hi Hp) in Hr. destruct r as [i|]; [|congruence].
    destruct Hr as (k' & v & Hx & Hg & _). rewrite (aget_some _ _ _ Hx). cbn. congruence.
  Qed.
  Lemma hcontains_spec t k mp : inv t -> Permutation (entries (slots t)) mp ->
    hcontains hash eqk t k = Ok (match fget eqk mp k with Some _ => true | None => false end).
  Proof.
    intros Hi Hp. unfold hcontains. destruct (hidx_spec t k Hi) as (r & -> & Hr). cbn [bindr].
    apply (get_abs t k mp r Hi Hp) in Hr. destruct r as [i|]; [|rewrite Hr; reflexivity].
    destruct Hr as (k' & v & Hx & Hg & _). rewrite Hg. reflexivity.
  Qed.

  (** *** updates *)
  Lemma reach_mono s x y k i : (forall j, nth_error s j <> Some SEmpty -> nth_error (upd s x y) j <> Some SEmpty) ->
    reach s k i -> reach (upd s x y) k i.
  Proof.
    intros Hm (st & H1 & H2 & H3). exists st. rewrite upd_length. split; [exact H1|]. split; [exact H2|].
    intros t Ht. apply Hm, H3, Ht.
  Qed.
  Lemma upd_nonempty s x y : y <> SEmpty -> forall j, nth_error s j <> Some SEmpty -> nth_error (upd s x y) j <> Some SEmpty.
  Proof.
    intros Hy j Hj. rewrite nth_error_upd. destruct (Nat.eqb_spec x j); [|exact Hj]. destruct (Nat.ltb_spec x (length s)); congruence.
  Qed.

  Lemma wf_upd_del s x : wf s -> wf (upd s x SDel).
  Proof.
    intros Hw i k v Hi. rewrite nth_error_upd in Hi. apply reach_mono; [apply upd_nonempty; discriminate|].
    destruct (Nat.eqb_spec x i); [destruct (x <? length s)%nat; discriminate|]. exact (Hw i k v Hi).
  Qed.
  Lemma wf_upd_full s x k v : wf s -> reach s k x -> wf (upd s x (SFull k v)).
  Proof.
    intros Hw Hr i k' v' Hi. rewrite nth_error_upd in Hi. apply reach_mono; [apply upd_nonempty; discriminate|].
    destruct (Nat.eqb_spec x i) as [->|]; [|exact (Hw i k' v' Hi)].
    destruct (i <? length s)%nat; [|discriminate]. injection Hi as <- <-. exact Hr.
  Qed.

  Lemma del_entries s i k k' v : pu (entries s) -> nth_error s i = Some (SFull k' v) -> eqk k' k = true ->
    filter (fun e => negb (eqk (fst e) k)) (entries s) = entries (upd s i SDel) /\ length (entries s) = S (length (entries (upd s i SDel))).
  Proof.
    intros Hu Hi E. destruct (upd_split s i _ SDel Hi) as (s1 & s2 & Hs & _ & ->). rewrite Hs in *.
    rewrite !entries_app in *. cbn [entries flat_map ent app] in *.
    destruct (pu_split _ _ _ Hu) as [H1 H2].
    assert (Hk : forall b, In b (entries s1 ++ entries s2) -> eqk (fst b) k = false).
    { intros b Hb. specialize (H1 b Hb). cbn in H1. destruct (eqk (fst b) k) eqn:Eb; [|reflexivity].
      rewrite <- H1. symmetry. apply Etrans with k; [exact Eb|apply Esym, E]. }
    split.
    - rewrite filter_app. cbn [filter fst]. rewrite E. cbn [negb]. fold (entries s2).
      rewrite !filter_all; [reflexivity| |]; intros b Hb; rewrite Hk; auto; apply in_or_app; auto.
    - rewrite !app_length. cbn. fold (entries s2). lia.
  Qed.

  Lemma cnt_app s1 s2 : cnt (s1 ++ s2) = (cnt s1 + cnt s2)%nat.
  Proof. unfold cnt. rewrite filter_app, app_length. reflexivity. Qed.
  Lemma cnt_upd s i x y : nth_error s i = Some x -> (cnt (upd s i y) + (if nonempty x then 1 else 0) = cnt s + (if nonempty y then 1 else 0))%nat.
  Proof.
    intros H. destruct (upd_split s i x y H) as (s1 & s2 & -> & _ & ->). rewrite !cnt_app. unfold cnt. cbn.
    destruct (nonempty x), (nonempty y); cbn; lia.
  Qed.

  Lemma hremove_spec t k mp : inv t -> Permutation (entries (slots t)) mp ->
    exists t', hremove hash eqk t k = Ok (match fget eqk mp k with Some _ => true | None => false end, t') /\
      inv t' /\ Permutation (entries (slots t')) (fdel eqk mp k) /\ n_buckets t' = n_buckets t.
  Proof.
    intros Hi Hp. unfold hremove. destruct (hidx_spec t k Hi) as (r & -> & Hr0). cbn [bindr].
    pose proof (get_abs t k mp r Hi Hp Hr0) as Hr. destruct r as [i|].
    - destruct Hr as (k' & v & Hx & Hg & E). rewrite Hg.
      rewrite (aget_some _ _ _ Hx). cbn [bindr].
      assert (Hl : (i < length (slots t))%nat) by (apply nth_error_Some; congruence).
      rewrite aset_ok by exact Hl. cbn [bindr].
      destruct (del_entries (slots t) i k k' v (i_pu t Hi) Hx E) as [Hd Hlen].
      eexists. split; [reflexivity|]. cbn [slots]. split; [|split].
      + constructor; cbn [slots size n_occupied upper].
        * destruct (i_shape t Hi) as [[Es _]|(m & H1 & H2 & H3)]; [rewrite Es in Hl; cbn in Hl; lia|].
          right. exists m. unfold n_buckets in *. cbn [slots]. rewrite upd_length. auto.
        * apply wf_upd_del, i_wf, Hi.
        * rewrite <- Hd. clear -Hi. pose proof (i_pu t Hi) as Hu. induction (entries (slots t)) as [|a l IH]; cbn; [exact I|].
          destruct Hu as [H1 H2]. destruct (negb _); cbn; [|apply IH, H2]. split; [|apply IH, H2].
          intros b Hb. apply filter_In in Hb. apply H1, Hb.
        * rewrite (i_size t Hi). lia.
        * rewrite (i_occ t Hi). pose proof (cnt_upd (slots t) i _ SDel Hx). cbn in H. lia.
        * apply i_ub, Hi.
      + rewrite <- Hd. unfold fdel. apply perm_filter, Hp.
      + unfold n_buckets. cbn [slots]. apply upd_length.
    - rewrite Hr. exists t. split; [reflexivity|]. split; [exact Hi|]. split; [|reflexivity].
      unfold fdel. rewrite filter_all; [exact Hp|]. intros a Ha. rewrite (fget_none _ _ Hr a Ha). reflexivity.
  Qed.

  Lemma hclear_spec t : inv t -> inv (hclear t) /\ entries (slots (hclear t)) = [] /\ n_buckets (hclear t) = n_buckets t.
  Proof.
    intros Hi. unfold hclear. cbn [slots].
    assert (He : entries (map (fun _ => SEmpty) (slots t)) = []) by (induction (slots t) as [|a l IH]; cbn; [reflexivity|exact IH]).
    assert (Hcn : cnt (map (fun _ => SEmpty) (slots t)) = 0%nat) by (clear; unfold cnt; induction (slots t) as [|a l IH]; cbn; [reflexivity|exact IH]).
    split; [|split; [exact He|unfold n_buckets; cbn; apply map_length]].
    constructor; cbn [slots size n_occupied upper].
    - destruct (i_shape t Hi) as [[Es Eu]|(m & H1 & H2 & H3)]; [left; rewrite Es; auto|].
      right. exists m. unfold n_buckets in *. cbn [slots]. rewrite map_length. auto.
    - intros i k v Hx. apply nth_error_In, in_map_iff in Hx. destruct Hx as (? & Hx & _). discriminate.
    - rewrite He. exact I.
    - rewrite He. reflexivity.
    - rewrite Hcn. reflexivity.
    - lia.
  Qed.
End P.
