From Verif Require Import Base Arr HashModel HashSpec HashProofs HashProofs2 HashProofs3.

Section R.
  Context {K V : Type} (hash : K -> nat) (eqk : K -> K -> bool).
  Context (Erefl : forall a, eqk a a = true) (Esym : forall a b, eqk a b = true -> eqk b a = true)
          (Etrans : forall a b c, eqk a b = true -> eqk b c = true -> eqk a c = true)
          (Ehash : forall a b, eqk a b = true -> hash a = hash b).
  Implicit Types (t : @table K V) (k : K) (v : V).

  Definition rchk (m : nat) : bool :=
    (roundup (2 ^ Z.of_nat m - 1) =? 2 ^ Z.of_nat m) && (roundup (2 ^ Z.of_nat m + 1) =? 2 ^ Z.of_nat (S m)).
  Lemma rchk_all : forallb rchk (seq 2 29) = true.
  Proof. vm_compute. reflexivity. Qed.
  Lemma roundup_facts m : (2 <= m <= 30)%nat ->
    roundup (2 ^ Z.of_nat m - 1) = 2 ^ Z.of_nat m /\ roundup (2 ^ Z.of_nat m + 1) = 2 ^ Z.of_nat (S m).
  Proof.
    intros H. pose proof (proj1 (forallb_forall _ _) rchk_all m) as Hc. cbn beta in Hc. unfold rchk in Hc.
    assert (Hin : In m (seq 2 29)) by (apply in_seq; lia). apply Hc, andb_prop in Hin. destruct Hin as [A B].
    apply Z.eqb_eq in A, B. auto.
  Qed.
  Lemma p2z m : Z.of_nat (2 ^ m) = 2 ^ Z.of_nat m.
  Proof. rewrite Nat2Z.inj_pow. reflexivity. Qed.
  Lemma p2n m : Z.to_nat (2 ^ Z.of_nat m) = (2 ^ m)%nat.
  Proof. rewrite <- p2z. apply Nat2Z.id. Qed.
  Lemma p2ge4 m : (2 <= m)%nat -> (2 ^ Z.of_nat m <? 4) = false.
  Proof. intros H. apply Z.ltb_ge. rewrite <- p2z. pose proof (pow2_ge4 m H). lia. Qed.

  Lemma ent_le_cnt (s : list (@slot K V)) : (length (entries s) <= cnt s)%nat.
  Proof. unfold cnt. induction s as [|x s IH]; cbn; [lia|]. destruct x; cbn; unfold entries in IH; lia. Qed.

  Lemma grow_spec t : inv hash eqk t -> Z.of_nat (n_buckets t) <= 2 ^ 30 ->
    exists t1, (if (upper t <=? n_occupied t)%nat then
                if (2 * size t <? n_buckets t)%nat
                then hresize hash t (Z.of_nat (n_buckets t) - 1)
                else hresize hash t (Z.of_nat (n_buckets t) + 1)
              else Ok t) = Ok t1 /\ inv hash eqk t1 /\ Permutation (entries (slots t)) (entries (slots t1)) /\
      (n_occupied t1 < upper t1)%nat /\
      (n_buckets t1 = n_buckets t \/ n_buckets t1 = 4 \/ (n_buckets t <= 2 * size t /\ n_buckets t1 = 2 * n_buckets t))%nat.
  Proof.
    intros Hi Hb. destruct (Nat.leb_spec (upper t) (n_occupied t)) as [L|L].
    2:{ exists t. split; [reflexivity|]. split; [exact Hi|]. split; [apply Permutation_refl|]. auto. }
    assert (Hso : (size t <= n_occupied t)%nat).
    { rewrite (i_size _ _ _ Hi), (i_occ _ _ _ Hi). apply ent_le_cnt. }
    pose proof (i_ub _ _ _ Hi) as Hub.
    destruct (i_shape _ _ _ Hi) as [[Hs Hu]|(m & Hm & Hn & Hu)].
    - assert (E : n_buckets t = O) by (unfold n_buckets; rewrite Hs; reflexivity).
      rewrite E. assert (size t = O) by lia. replace (2 * size t <? 0)%nat with false by (symmetry; apply Nat.ltb_ge; lia).
      destruct (hresize_spec hash eqk Erefl Esym Etrans Ehash t (Z.of_nat 0 + 1) 2 Hi ltac:(lia)) as (t' & H1 & H2 & H3 & H4 & H5 & H6).
      + reflexivity.
      + rewrite E. lia.
      + rewrite H. unfold bound77. cbn. lia.
      + exists t'. split; [exact H1|]. split; [exact H2|]. split; [exact H3|]. split; [exact H5|]. right. left. exact H4.
    - assert (Hm30 : (m <= 30)%nat).
      { rewrite Hn, p2z in Hb. apply Z.pow_le_mono_r_iff in Hb; lia. }
      destruct (roundup_facts m (conj Hm Hm30)) as [R1 R2]. pose proof (pow2_ge4 m Hm) as H4.
      destruct (Nat.ltb_spec (2 * size t) (n_buckets t)) as [A|A].
      + destruct (hresize_spec hash eqk Erefl Esym Etrans Ehash t (Z.of_nat (n_buckets t) - 1) m Hi Hm) as (t' & H1 & H2 & H3 & H5 & H6 & H7).
        * rewrite Hn, p2z, R1, p2ge4 by exact Hm. apply p2n.
        * rewrite Hn. reflexivity.
        * rewrite Hn in A. set (N := (2 ^ m)%nat) in *. unfold bound77. clear - A H4. lia.
        * exists t'. split; [exact H1|]. split; [exact H2|]. split; [exact H3|]. split; [exact H6|]. left. congruence.
      + destruct (hresize_spec hash eqk Erefl Esym Etrans Ehash t (Z.of_nat (n_buckets t) + 1) (S m) Hi ltac:(lia)) as (t' & H1 & H2 & H3 & H5 & H6 & H7).
        * rewrite Hn, p2z, R2, p2ge4 by lia. apply p2n.
        * rewrite Hn. cbn [Nat.pow]. lia.
        * rewrite Hu, Hn in *. cbn [Nat.pow]. set (N := (2 ^ m)%nat) in *. unfold bound77 in *. clear - Hso Hub H4. lia.
        * exists t'. split; [exact H1|]. split; [exact H2|]. split; [exact H3|]. split; [exact H6|]. right. right. split; [exact A|]. rewrite H5, Hn. cbn [Nat.pow]. lia.
  Qed.

  Lemma entries_upd_new s x k v : (nth_error s x = Some SEmpty \/ nth_error s x = Some SDel) ->
    Permutation (entries (upd s x (SFull k v))) ((k, v) :: entries s).
  Proof.
    intros H. assert (Hc : exists y, nth_error s x = Some y /\ ent y = @nil (K * V)) by (destruct H as [H|H]; eauto).
    destruct Hc as (y & Hy & Hny). destruct (upd_split s x y (SFull k v) Hy) as (s1 & s2 & -> & _ & ->).
    rewrite !entries_app. cbn [entries flat_map ent app]. rewrite Hny. cbn [app]. apply Permutation_sym, Permutation_middle.
  Qed.
  Lemma entries_upd_full s x k v k' v' : pu eqk (entries s) -> nth_error s x = Some (SFull k' v') -> eqk k' k = true ->
    Permutation (entries (upd s x (SFull k v))) ((k, v) :: fdel eqk (entries s) k) /\ length (entries (upd s x (SFull k v))) = length (entries s).
  Proof.
    intros Hu Hx E. destruct (del_entries hash eqk Erefl Esym Etrans Ehash s x k k' v' Hu Hx E) as [H1 H2]. unfold fdel. rewrite H1.
    destruct (upd_split s x _ (SFull k v) Hx) as (s1 & s2 & Hs & Hl & ->).
    assert (HD : upd s x SDel = s1 ++ SDel :: s2).
    { destruct (upd_split s x _ SDel Hx) as (a & b & Ha & Hla & ->). rewrite Hs in Ha. clear -Ha Hl Hla. assert (s1 = a /\ s2 = b) as [-> ->]; [|reflexivity].
      revert a Ha Hla. subst x. induction s1 as [|y s1 IH]; intros [|z a] Ha Hla; try discriminate; cbn in Ha.
      - injection Ha as ->. auto.
      - injection Ha as -> Ha. destruct (IH a Ha) as [-> ->]; [cbn in Hla; lia|auto]. }
    rewrite HD. rewrite Hs. rewrite !entries_app. cbn [entries flat_map ent app]. split; [apply Permutation_sym, Permutation_middle|].
    rewrite !app_length. reflexivity.
  Qed.

  Lemma fdel_absent (l : list (K * V)) k : (forall a, In a l -> eqk (fst a) k = false) -> fdel eqk l k = l.
  Proof. intros H. unfold fdel. apply filter_all. intros x Hx. rewrite (H x Hx). reflexivity. Qed.

  Lemma pu_fput l k v : pu eqk l -> pu eqk ((k, v) :: fdel eqk l k).
  Proof.
    intros H. split.
    - intros b Hb. unfold fdel in Hb. apply filter_In in Hb. destruct Hb as [_ Hb]. cbn. apply (eqk_false_sym eqk Esym).
      destruct (eqk (fst b) k); [discriminate|reflexivity].
    - unfold fdel. induction l as [|a l IH]; cbn; [exact I|]. destruct H as [H1 H2]. destruct (negb _); [|auto].
      split; [|auto]. intros b Hb. apply filter_In in Hb. apply H1, Hb.
  Qed.

  Lemma hput_spec t k v mp : inv hash eqk t -> Z.of_nat (n_buckets t) <= 2 ^ 30 -> Permutation (entries (slots t)) mp ->
    exists t', hput hash eqk t k v = Ok t' /\ inv hash eqk t' /\ Permutation (entries (slots t')) (fput eqk mp k v) /\
      (n_buckets t' = n_buckets t \/ n_buckets t' = 4 \/ (n_buckets t <= 2 * size t /\ n_buckets t' = 2 * n_buckets t))%nat.
  Proof.
    intros Hi Hb Hp. unfold hput. destruct (grow_spec t Hi Hb) as (t1 & -> & Hi1 & Hp1 & Hocc & Hbk). cbn [bindr].
    destruct (i_shape _ _ _ Hi1) as [[Hs Hu]|(m & Hm & Hn & Hu)]; [lia|].
    pose proof (pow2_ge4 m Hm) as H4. destruct (Nat.eqb_spec (n_buckets t1) 0) as [E|_]; [lia|].
    unfold n_buckets in Hn. set (s := slots t1) in *.
    assert (Hemp : exists i, nth_error s i = Some SEmpty).
    { apply (has_empty hash eqk Erefl Esym Etrans Ehash). pose proof (i_occ _ _ _ Hi1) as Ho. fold s in Ho. rewrite <- Ho. unfold n_buckets in Hu. fold s in Hu.
      pose proof (bound77_lt (length s)). lia. }
    destruct (search_stop hash eqk s k m Hn Hemp) as (e & He & Hstop & Hmin).
    change (n_buckets t1) with (length s). change (maskn (hash k) (length s)) with (ppos (hash k) (length s) 0).
    destruct (put_loop_spec hash eqk Erefl Esym Etrans Ehash s k m e Hn He Hstop Hmin (length s) O None) as (u & x & Hl & Hue & Hx & Hcase); [lia|lia|discriminate|].
    destruct (aget_ok s (ppos (hash k) (length s) 0)) as (s0 & -> & Hs0); [apply (ppos_lt _ _ m); exact Hn|]. cbn [bindr].
    assert (Hsel : exists u x, match s0 with SEmpty => Ok (ppos (hash k) (length s) 0) | _ => put_loop eqk (length s) s k (ppos (hash k) (length s) 0) (ppos (hash k) (length s) 0) 0 None end = Ok x /\
       (u <= e)%nat /\ x = ppos (hash k) (length s) u /\
       ((exists k' v', nth_error s x = Some (SFull k' v') /\ eqk k' k = true /\ u = e) \/
       (nth_error s (ppos (hash k) (length s) e) = Some SEmpty /\ (nth_error s x = Some SEmpty \/ nth_error s x = Some SDel)))).
    { destruct s0; [|exists u, x; auto|exists u, x; auto].
      assert (e = O). { destruct e; [reflexivity|]. specialize (Hmin O ltac:(lia)). unfold stopsb in Hmin. rewrite Hs0 in Hmin. discriminate. }
      subst e. exists O, (ppos (hash k) (length s) 0). split; [reflexivity|]. split; [lia|]. split; [reflexivity|]. right. auto. }
    clear u x Hl Hue Hx Hcase. destruct Hsel as (u & x & -> & Hue & Hx & Hcase). cbn [bindr].
    assert (Hxl : (x < length s)%nat) by (rewrite Hx; apply (ppos_lt _ _ m); exact Hn).
    destruct (aget_ok s x Hxl) as (sx & -> & Hsx). cbn [bindr]. rewrite aset_ok by exact Hxl. cbn [bindr].
    assert (Hreach : reach hash s k x).
    { exists u. split; [lia|]. split; [symmetry; exact Hx|]. intros w Hw Habs. specialize (Hmin w ltac:(lia)). unfold stopsb in Hmin. rewrite Habs in Hmin. discriminate. }
    pose proof (cnt_upd s x sx (SFull k v) Hsx) as Hcnt. cbn [nonempty] in Hcnt.
    assert (Hmain : Permutation (entries (upd s x (SFull k v))) ((k, v) :: fdel eqk (entries s) k) /\
       length (entries (upd s x (SFull k v))) = (length (entries s) + match sx with SFull _ _ => 0 | _ => 1 end)%nat).
    { destruct Hcase as [(k' & v' & Hf & Ek & _)|(Hemp2 & Hfree)].
      - assert (sx = SFull k' v') by congruence. subst sx.
        destruct (entries_upd_full s x k v k' v' (i_pu _ _ _ Hi1) Hf Ek) as [P1 P2]. split; [exact P1|lia].
      - rewrite fdel_absent by (apply (absent_if_empty hash eqk Ehash s k e); auto; apply (i_wf _ _ _ Hi1)).
        pose proof (entries_upd_new s x k v Hfree) as P1. split; [exact P1|]. rewrite (Permutation_length P1). cbn.
        destruct Hfree as [F|F]; rewrite F in Hsx; injection Hsx as <-; lia. }
    destruct Hmain as [P1 P2].
    assert (Hfin : forall sz oc, sz = length (entries (upd s x (SFull k v))) -> oc = cnt (upd s x (SFull k v)) -> (oc <= upper t1)%nat ->
      inv hash eqk (mktable (upd s x (SFull k v)) sz oc (upper t1))).
    { intros sz oc -> -> Hle. constructor; cbn [slots size n_occupied upper]; auto.
      - right. exists m. unfold n_buckets. cbn [slots]. rewrite upd_length. split; [exact Hm|]. split; [exact Hn|]. rewrite Hu. reflexivity.
      - apply wf_upd_full; [apply (i_wf _ _ _ Hi1)|exact Hreach].
      - eapply pu_perm; [exact Esym|apply Permutation_sym, P1|]. apply pu_fput, (i_pu _ _ _ Hi1). }
    assert (Hperm : Permutation (entries (upd s x (SFull k v))) (fput eqk mp k v)).
    { eapply Permutation_trans; [exact P1|]. unfold fput. apply perm_skip. unfold fdel. apply perm_filter.
      eapply Permutation_trans; [apply Permutation_sym, Hp1|exact Hp]. }
    pose proof (i_size _ _ _ Hi1) as Hz. pose proof (i_occ _ _ _ Hi1) as Ho. fold s in Hz, Ho.
    assert (Hbk' : forall sz oc, (n_buckets (mktable (upd s x (SFull k v)) sz oc (upper t1)) = n_buckets t \/ n_buckets (mktable (upd s x (SFull k v)) sz oc (upper t1)) = 4 \/
        n_buckets t <= 2 * size t /\ n_buckets (mktable (upd s x (SFull k v)) sz oc (upper t1)) = 2 * n_buckets t)%nat).
    { intros sz oc. replace (n_buckets (mktable (upd s x (SFull k v)) sz oc (upper t1))) with (n_buckets t1); [exact Hbk|].
      unfold n_buckets. cbn [slots]. rewrite upd_length. reflexivity. }
    destruct sx; eexists; (split; [reflexivity|]); cbn [slots]; (split; [|split; [exact Hperm|apply Hbk']]); cbn [nonempty] in Hcnt; apply Hfin; lia.
  Qed.

  Lemma iter_next_spec (s : list (@slot K V)) : forall n i, (i + n = length s)%nat ->
    match entries (skipn i s) with
    | [] => iter_next n s i = Ok None
    | (k, v) :: r => exists i', iter_next n s i = Ok (Some (k, v, i')) /\ entries (skipn i' s) = r /\ (i < i' <= length s)%nat
    end.
  Proof.
    induction n as [|n IH]; intros i Hi.
    - rewrite skipn_all2 by lia. reflexivity.
    - cbn [iter_next]. destruct (aget_ok s i) as (x & -> & Hx); [lia|]. cbn [bindr].
      assert (Hsk : skipn i s = x :: skipn (S i) s).
      { clear -Hx. revert i Hx. induction s as [|a s IHs]; intros [|i] Hx; try discriminate; cbn in *; [congruence|]. apply IHs, Hx. }
      specialize (IH (S i) ltac:(lia)). rewrite Hsk. destruct x as [| |k v]; cbn [entries flat_map ent app] in *.
      + destruct (entries (skipn (S i) s)) as [|[k v] r] eqn:E; unfold entries in E; rewrite E in *; [exact IH|].
        destruct IH as (i' & H1 & H2 & H3). exists i'. split; [exact H1|]. split; [exact H2|lia].
      + destruct (entries (skipn (S i) s)) as [|[k v] r] eqn:E; unfold entries in E; rewrite E in *; [exact IH|].
        destruct IH as (i' & H1 & H2 & H3). exists i'. split; [exact H1|]. split; [exact H2|lia].
      + exists (S i). split; [reflexivity|]. split; [reflexivity|lia].
  Qed.
  Lemma hiter_spec t : hiter t = Ok (entries (slots t)).
  Proof.
    unfold hiter. assert (Hg : forall fuel i, (i <= n_buckets t)%nat -> (n_buckets t - i < fuel)%nat -> iter_all fuel t i = Ok (entries (skipn i (slots t)))).
    { induction fuel as [|f IH]; intros i Hi Hf; [lia|]. cbn [iter_all].
      pose proof (iter_next_spec (slots t) (n_buckets t - i) i ltac:(unfold n_buckets in *; lia)) as H.
      destruct (entries (skipn i (slots t))) as [|[k v] r] eqn:E.
      - rewrite H. reflexivity.
      - destruct H as (i' & -> & Hr & Hi'). cbn [bindr]. rewrite IH; [cbn [bindr]; rewrite Hr; reflexivity| |]; unfold n_buckets in *; lia. }
    apply Hg; lia.
  Qed.

  Lemma set_next_spec (s : list (@slot K V)) : forall n i, (i + n = length s)%nat ->
    match entries (skipn i s) with
    | [] => set_iter_next n s i = Ok None
    | (k, v) :: r => exists i', set_iter_next n s i = Ok (Some (k, i')) /\ entries (skipn i' s) = (k, v) :: r /\ (i <= i' < length s)%nat
    end.
  Proof.
    induction n as [|n IH]; intros i Hi.
    - rewrite skipn_all2 by lia. reflexivity.
    - cbn [set_iter_next]. destruct (aget_ok s i) as (x & -> & Hx); [lia|]. cbn [bindr].
      assert (Hsk : skipn i s = x :: skipn (S i) s).
      { clear -Hx. revert i Hx. induction s as [|a s IHs]; intros [|i] Hx; try discriminate; cbn in *; [congruence|]. apply IHs, Hx. }
      specialize (IH (S i) ltac:(lia)). rewrite Hsk. destruct x as [| |k v]; cbn [entries flat_map ent app] in *.
      + destruct (entries (skipn (S i) s)) as [|[k v] r] eqn:E; unfold entries in E; rewrite E in *; [exact IH|].
        destruct IH as (i' & H1 & H2 & H3). exists i'. split; [exact H1|]. split; [exact H2|lia].
      + destruct (entries (skipn (S i) s)) as [|[k v] r] eqn:E; unfold entries in E; rewrite E in *; [exact IH|].
        destruct IH as (i' & H1 & H2 & H3). exists i'. split; [exact H1|]. split; [exact H2|lia].
      + exists i. split; [reflexivity|]. split; [rewrite Hsk; reflexivity|lia].
  Qed.
  Lemma set_foreach_loops t k v r : forall fuel i, (i <= n_buckets t)%nat -> entries (skipn i (slots t)) = (k, v) :: r ->
    set_foreach fuel t i = Ok (repeat k fuel, false).
  Proof.
    induction fuel as [|f IH]; intros i Hi He; [reflexivity|]. cbn [set_foreach].
    pose proof (set_next_spec (slots t) (n_buckets t - i) i ltac:(unfold n_buckets in *; lia)) as H. rewrite He in H.
    destruct H as (i' & -> & H2 & H3). cbn [bindr]. rewrite (IH i'); [reflexivity|unfold n_buckets; lia|exact H2].
  Qed.
End R.
