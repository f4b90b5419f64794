(** From the prepared walk to the sequence of commits [git_revwalk_next] returns. *)
From Verif Require Import Base Arr PQueueModel PQueueProofs GraphModel GraphSpec GraphProofs GraphBases GraphTotal RevModel RevSpec RevProofs RevLimit RevTopo.
From Coq Require Import Permutation.

Section RD.
  Context (g : graph).
  Local Notation P := (g_parents g).
  Local Notation tm := (g_time g).

  (** [get_next] called repeatedly returns [l] and then reports the end. *)
  Inductive gives (fuel : nat) : rwalk -> list nat -> Prop :=
  | gv_nil w : get_next g fuel w = Err GIT_ITEROVER -> gives fuel w []
  | gv_cons w c w' l : get_next g fuel w = Ok (c, w') -> r_walking w' = r_walking w -> r_hidecb w' = r_hidecb w -> r_get w' = r_get w ->
      r_it_rev w' = (if match r_get w with GReverse => true | _ => false end then tl (r_it_rev w) else r_it_rev w) ->
      gives fuel w' l -> gives fuel w (c :: l).

  Lemma rev_all_gives fuel w l : gives fuel w l -> r_walking w = true -> forall n, (length l < n)%nat ->
    exists w1, rev_all g n fuel w = Ok (l, rev_reset w1) /\ r_hidecb w1 = r_hidecb w.
  Proof.
    induction 1 as [w H|w c w' l H Hw Hc Hg Hr G IH]; intros W n Hn; (destruct n as [|n]; [cbn in Hn; lia|]); cbn [rev_all]; unfold rev_next; rewrite W, H.
    - replace (GIT_ITEROVER =? GIT_ITEROVER) with true by reflexivity. cbn [bindr]. eauto.
    - cbn [bindr]. destruct (IH ltac:(congruence) n) as (w1 & -> & E); [cbn in Hn; lia|]. cbn [bindr]. exists w1. split; [reflexivity|congruence].
  Qed.

  Lemma gives_walking fuel w l b : gives fuel w l -> gives fuel (with_walking w b) l.
  Proof.
    assert (T : forall f w, next_time g f (with_walking w b) = match next_time g f w with Ok (c, w') => Ok (c, with_walking w' b) | Err e => Err e | UB => UB | NoFuel => NoFuel end).
    { induction f as [|f IH]; intros v; cbn [next_time]; change (r_it_time (with_walking v b)) with (r_it_time v);
        destruct (pqueue_pop _ _) as [[[c|] q]| | |]; cbn [bindr]; auto; change (n_unint (r_nodes (with_walking v b)) c) with (n_unint (r_nodes v) c);
        destruct (n_unint (r_nodes v) c); auto. apply (IH (with_iters v q (r_it_topo v) (r_it_rand v) (r_it_rev v))). }
    assert (U : forall f gf w, next_unsorted g f gf (with_walking w b) = match next_unsorted g f gf w with Ok (c, w') => Ok (c, with_walking w' b) | Err e => Err e | UB => UB | NoFuel => NoFuel end).
    { induction f as [|f IH]; intros gf v; cbn [next_unsorted];
        change (get_revision g gf (with_walking v b) (r_nodes (with_walking v b)) (r_it_rand (with_walking v b))) with (get_revision g gf v (r_nodes v) (r_it_rand v));
        destruct (get_revision g gf v (r_nodes v) (r_it_rand v)) as [[[c s] q]| | |]; cbn [bindr fst snd]; auto;
        destruct (n_unint s c); auto. apply (IH gf (with_iters (with_nodes v s) (r_it_time v) (r_it_topo v) q (r_it_rev v))). }
    assert (Q : forall f gf w, next_topo g f gf (with_walking w b) = match next_topo g f gf w with Ok (c, w') => Ok (c, with_walking w' b) | Err e => Err e | UB => UB | NoFuel => NoFuel end).
    { induction f as [|f IH]; intros gf v; cbn [next_topo];
        change (get_revision g gf (with_walking v b) (r_nodes (with_walking v b)) (r_it_topo (with_walking v b))) with (get_revision g gf v (r_nodes v) (r_it_topo v));
        destruct (get_revision g gf v (r_nodes v) (r_it_topo v)) as [[[c s] q]| | |]; cbn [bindr fst snd]; auto;
        destruct (n_unint s c); auto. apply (IH gf (with_iters (with_nodes v s) (r_it_time v) q (r_it_rand v) (r_it_rev v))). }
    assert (N : forall v, get_next g fuel (with_walking v b) = match get_next g fuel v with Ok (c, w') => Ok (c, with_walking w' b) | Err e => Err e | UB => UB | NoFuel => NoFuel end).
    { intros v. unfold get_next. change (r_get (with_walking v b)) with (r_get v). destruct (r_get v); auto.
      unfold next_reverse. change (r_it_rev (with_walking v b)) with (r_it_rev v). destruct (r_it_rev v); reflexivity. }
    induction 1 as [w H|w c w' l H Hw Hc Hg Hr G IH].
    - constructor. rewrite N, H. reflexivity.
    - apply gv_cons with (w' := with_walking w' b); auto. rewrite N, H. reflexivity.
  Qed.

  (** Collecting in reverse. *)
  Definition set_rev (w : rwalk) (x : list nat) : rwalk := with_iters w (r_it_time w) (r_it_topo w) (r_it_rand w) x.
  Lemma gives_rev fuel w x : r_get w <> GReverse ->
    get_next g fuel (set_rev w x) = match get_next g fuel w with Ok (c, w') => Ok (c, set_rev w' x) | Err e => Err e | UB => UB | NoFuel => NoFuel end.
  Proof.
    assert (T : forall f w, next_time g f (set_rev w x) = match next_time g f w with Ok (c, w') => Ok (c, set_rev w' x) | Err e => Err e | UB => UB | NoFuel => NoFuel end).
    { induction f as [|f IH]; intros v; cbn [next_time]; change (r_it_time (set_rev v x)) with (r_it_time v);
        destruct (pqueue_pop _ _) as [[[c|] q]| | |]; cbn [bindr]; auto; change (n_unint (r_nodes (set_rev v x)) c) with (n_unint (r_nodes v) c);
        destruct (n_unint (r_nodes v) c); auto. apply (IH (with_iters v q (r_it_topo v) (r_it_rand v) (r_it_rev v))). }
    assert (U : forall f gf w, next_unsorted g f gf (set_rev w x) = match next_unsorted g f gf w with Ok (c, w') => Ok (c, set_rev w' x) | Err e => Err e | UB => UB | NoFuel => NoFuel end).
    { induction f as [|f IH]; intros gf v; cbn [next_unsorted];
        change (get_revision g gf (set_rev v x) (r_nodes (set_rev v x)) (r_it_rand (set_rev v x))) with (get_revision g gf v (r_nodes v) (r_it_rand v));
        destruct (get_revision g gf v (r_nodes v) (r_it_rand v)) as [[[c s] q]| | |]; cbn [bindr fst snd]; auto;
        destruct (n_unint s c); auto. apply (IH gf (with_iters (with_nodes v s) (r_it_time v) (r_it_topo v) q (r_it_rev v))). }
    assert (Q : forall f gf w, next_topo g f gf (set_rev w x) = match next_topo g f gf w with Ok (c, w') => Ok (c, set_rev w' x) | Err e => Err e | UB => UB | NoFuel => NoFuel end).
    { induction f as [|f IH]; intros gf v; cbn [next_topo];
        change (get_revision g gf (set_rev v x) (r_nodes (set_rev v x)) (r_it_topo (set_rev v x))) with (get_revision g gf v (r_nodes v) (r_it_topo v));
        destruct (get_revision g gf v (r_nodes v) (r_it_topo v)) as [[[c s] q]| | |]; cbn [bindr fst snd]; auto;
        destruct (n_unint s c); auto. apply (IH gf (with_iters (with_nodes v s) (r_it_time v) q (r_it_rand v) (r_it_rev v))). }
    intros Hg. unfold get_next. change (r_get (set_rev w x)) with (r_get w). destruct (r_get w); auto. congruence.
  Qed.

  Lemma gives_set_rev fuel w l x : gives fuel w l -> r_get w <> GReverse -> gives fuel (set_rev w x) l.
  Proof.
    induction 1 as [w H|w c w' l H Hw Hc Hg Hr G IH]; intros NR.
    - constructor. rewrite gives_rev, H by auto. reflexivity.
    - apply gv_cons with (w' := set_rev w' x); auto.
      + rewrite gives_rev, H by auto. reflexivity.
      + cbn. destruct (r_get w); auto. congruence.
      + apply IH. congruence.
  Qed.

  Lemma gives_reverse fuel w : r_get w = GReverse -> gives fuel w (r_it_rev w).
  Proof.
    remember (r_it_rev w) as l eqn:E. revert w E. induction l as [|c l IH]; intros w E G.
    - constructor. unfold get_next, next_reverse. rewrite G, <- E. reflexivity.
    - eapply gv_cons.
      + unfold get_next, next_reverse. rewrite G, <- E. reflexivity.
      + reflexivity.
      + reflexivity.
      + reflexivity.
      + rewrite G, <- E. reflexivity.
      + apply IH; auto.
  Qed.

  Lemma collect_ok fuel l : forall w n, gives fuel w l -> r_get w <> GReverse -> (length l <= n)%nat ->
    exists w', collect_reverse g n fuel w = Ok w' /\ r_it_rev w' = rev l ++ r_it_rev w /\ r_hidecb w' = r_hidecb w /\ r_walking w' = r_walking w.
  Proof.
    induction l as [|c l IH]; intros w n G NR Hn; inversion G as [? H|? ? w' ? H Hw Hc Hg Hr G']; subst.
    - exists w. destruct n; cbn; rewrite H; replace (GIT_ITEROVER =? GIT_ITEROVER) with true by reflexivity; auto.
    - destruct n as [|n]; [cbn in Hn; lia|]. cbn [collect_reverse]. rewrite H.
      destruct (IH (set_rev w' (c :: r_it_rev w')) n) as (w2 & E & A & B & C).
      + apply gives_set_rev; auto. congruence.
      + cbn. congruence.
      + cbn in Hn. lia.
      + unfold set_rev in E. exists w2. split; [exact E|]. rewrite A, B, C. cbn.
        assert (r_it_rev w' = r_it_rev w) as -> by (destruct (r_get w); congruence).
        rewrite <- app_assoc. auto.
  Qed.

  (** The iterators of a limited walk. *)
  Local Notation lv := (fun (s : nst) l => filter (fun x => negb (n_unint s x)) l).
  Lemma rand_next f : forall w, r_limited w = true -> (length (r_it_rand w) <= f)%nat -> forall gf,
    match lv (r_nodes w) (r_it_rand w) with
    | [] => next_unsorted g f gf w = Err GIT_ITEROVER
    | c :: r => exists q, next_unsorted g f gf w = Ok (c, with_iters w (r_it_time w) (r_it_topo w) q (r_it_rev w)) /\ lv (r_nodes w) q = r /\ (length q < length (r_it_rand w))%nat
    end.
  Proof.
    induction f as [|f IH]; intros w L Hf gf; destruct (r_it_rand w) as [|c r] eqn:E; cbn [length] in Hf; try lia.
    - cbn. rewrite E. reflexivity.
    - cbn. rewrite E. reflexivity.
    - cbn [next_unsorted filter]. rewrite E. unfold get_revision. rewrite L. cbn [bindr fst snd].
      destruct (n_unint (r_nodes w) c) eqn:Eu; cbn [negb].
      + specialize (IH (with_iters (with_nodes w (r_nodes w)) (r_it_time w) (r_it_topo w) r (r_it_rev w)) L).
        cbn [r_it_rand with_iters with_nodes r_nodes] in IH. specialize (IH ltac:(lia) gf).
        destruct (filter _ r) as [|c' r'] eqn:Ef; [exact IH|].
        destruct IH as (q & A & B & C). exists q. split; [exact A|]. split; [exact B|cbn; lia].
      + exists r. split; [reflexivity|]. split; [reflexivity|cbn; lia].
  Qed.
  Lemma topo_next f : forall w, r_limited w = true -> (length (r_it_topo w) <= f)%nat -> forall gf,
    match lv (r_nodes w) (r_it_topo w) with
    | [] => next_topo g f gf w = Err GIT_ITEROVER
    | c :: r => exists q, next_topo g f gf w = Ok (c, with_iters w (r_it_time w) q (r_it_rand w) (r_it_rev w)) /\ lv (r_nodes w) q = r /\ (length q < length (r_it_topo w))%nat
    end.
  Proof.
    induction f as [|f IH]; intros w L Hf gf; destruct (r_it_topo w) as [|c r] eqn:E; cbn [length] in Hf; try lia.
    - cbn. rewrite E. reflexivity.
    - cbn. rewrite E. reflexivity.
    - cbn [next_topo filter]. rewrite E. unfold get_revision. rewrite L. cbn [bindr fst snd].
      destruct (n_unint (r_nodes w) c) eqn:Eu; cbn [negb].
      + specialize (IH (with_iters (with_nodes w (r_nodes w)) (r_it_time w) r (r_it_rand w) (r_it_rev w)) L).
        cbn [r_it_topo with_iters with_nodes r_nodes] in IH. specialize (IH ltac:(lia) gf).
        destruct (filter _ r) as [|c' r'] eqn:Ef; [exact IH|].
        destruct IH as (q & A & B & C). exists q. split; [exact A|]. split; [exact B|cbn; lia].
      + exists r. split; [reflexivity|]. split; [reflexivity|cbn; lia].
  Qed.

  Lemma rand_gives fuel l : forall w, r_limited w = true -> r_get w = GUnsorted -> (length (r_it_rand w) <= fuel)%nat ->
    lv (r_nodes w) (r_it_rand w) = l -> gives fuel w l.
  Proof.
    induction l as [|c l IH]; intros w L G Hf E; pose proof (rand_next fuel w L Hf fuel) as H; cbv beta in *; rewrite E in H.
    - constructor. unfold get_next. rewrite G. exact H.
    - destruct H as (q & A & B & C). eapply gv_cons; [unfold get_next; rewrite G; exact A|reflexivity|reflexivity|reflexivity|rewrite G; reflexivity|].
      apply IH; auto. cbn. lia.
  Qed.
  Lemma topo_gives fuel l : forall w, r_limited w = true -> r_get w = GTopo -> (length (r_it_topo w) <= fuel)%nat ->
    lv (r_nodes w) (r_it_topo w) = l -> gives fuel w l.
  Proof.
    induction l as [|c l IH]; intros w L G Hf E; pose proof (topo_next fuel w L Hf fuel) as H; cbv beta in *; rewrite E in H.
    - constructor. unfold get_next. rewrite G. exact H.
    - destruct H as (q & A & B & C). eapply gv_cons; [unfold get_next; rewrite G; exact A|reflexivity|reflexivity|reflexivity|rewrite G; reflexivity|].
      apply IH; auto. cbn. lia.
  Qed.

  Lemma time_cmp_ok : cmp_ok (time_cmp g).
  Proof.
    constructor; intros *; unfold time_cmp.
    - destruct (Z.ltb_spec (tm a) (tm b)), (Z.ltb_spec (tm b) (tm a)); cbn; lia.
    - destruct (Z.ltb_spec (tm a) (tm b)), (Z.ltb_spec (tm b) (tm a)), (Z.ltb_spec (tm b) (tm c)), (Z.ltb_spec (tm c) (tm b)), (Z.ltb_spec (tm a) (tm c)), (Z.ltb_spec (tm c) (tm a)); lia.
  Qed.
  Lemma time_cmp_le a b : time_cmp g a b <= 0 <-> tm b <= tm a.
  Proof. unfold time_cmp. destruct (Z.ltb_spec (tm a) (tm b)), (Z.ltb_spec (tm b) (tm a)); lia. Qed.

  Lemma time_next f : forall w, heap (time_cmp g) (r_it_time w) -> (length (r_it_time w) <= f)%nat ->
    (lv (r_nodes w) (r_it_time w) = [] /\ next_time g f w = Err GIT_ITEROVER) \/
    exists c q, next_time g f w = Ok (c, with_iters w q (r_it_topo w) (r_it_rand w) (r_it_rev w)) /\ heap (time_cmp g) q /\
      Permutation (lv (r_nodes w) (r_it_time w)) (c :: lv (r_nodes w) q) /\ (forall y, In y q -> tm y <= tm c) /\ (length q < length (r_it_time w))%nat.
  Proof.
    induction f as [|f IH]; intros w Hh Hf; pose proof (pop_ok (time_cmp g) time_cmp_ok (r_it_time w) Hh) as HP;
      destruct (r_it_time w) as [|a r] eqn:E; cbn [length] in Hf; try lia.
    - left. split; [reflexivity|]. cbn. rewrite E. reflexivity.
    - left. split; [reflexivity|]. cbn [next_time]. rewrite E, HP. reflexivity.
    - destruct HP as (m & q & E1 & H1 & P1 & M1). cbn [next_time]. rewrite E, E1. cbn [bindr].
      assert (Hlen : length (a :: r) = S (length q)) by (rewrite (Permutation_length P1); reflexivity). cbn [length] in Hlen.
      pose proof (perm_filter (fun x => negb (n_unint (r_nodes w) x)) _ _ P1) as PF. cbn [filter] in PF.
      destruct (n_unint (r_nodes w) m) eqn:Eu; cbn [negb] in PF.
      + destruct (IH (with_iters w q (r_it_topo w) (r_it_rand w) (r_it_rev w))) as [(A & B)|(c & q' & A & B & C & D & L)]; cbn [r_it_time with_iters r_nodes] in *; auto; try lia.
        * left. split; [|exact B]. rewrite A in PF. apply Permutation_sym, Permutation_nil in PF. exact PF.
        * right. exists c, q'. split; [exact A|]. split; [exact B|]. split; [etransitivity; [exact PF|exact C]|]. split; [exact D|cbn; lia].
      + right. exists m, q. split; [reflexivity|]. split; [exact H1|]. split; [exact PF|]. split; [|cbn; lia]. intros y Hy. apply time_cmp_le. auto.
  Qed.

  Lemma time_gives fuel k : forall w, (length (r_it_time w) <= k)%nat -> heap (time_cmp g) (r_it_time w) -> r_get w = GTime -> (length (r_it_time w) <= fuel)%nat ->
    exists l, gives fuel w l /\ Permutation (lv (r_nodes w) (r_it_time w)) l /\ newest_first tm l.
  Proof.
    induction k as [|k IH]; intros w Hk Hh G Hf; (destruct (time_next fuel w Hh Hf) as [(A & B)|(c & q & A & B & C & D & L)]; [|]).
    1,3: exists []; cbv beta in *; rewrite A; split; [constructor; unfold get_next; rewrite G; exact B|split; [constructor|exact I]].
    - lia.
    - destruct (IH (with_iters w q (r_it_topo w) (r_it_rand w) (r_it_rev w))) as (l & H1 & H2 & H3); cbn [r_it_time with_iters r_get] in *; auto; try lia.
      exists (c :: l). split; [|split].
      + eapply gv_cons; [unfold get_next; rewrite G; exact A|reflexivity|reflexivity|reflexivity|rewrite G; reflexivity|exact H1].
      + etransitivity; [exact C|]. constructor. exact H2.
      + split; [|exact H3]. intros y Hy. apply (Permutation_in _ (Permutation_sym H2)) in Hy. apply filter_In in Hy. apply D, Hy.
  Qed.

  Lemma enqueue_ok l : forall q, heap (time_cmp g) q -> exists q', enqueue_all g l q = Ok q' /\ heap (time_cmp g) q' /\ Permutation q' (l ++ q).
  Proof.
    induction l as [|c l IH]; intros q Hh; cbn [enqueue_all]; [eauto|].
    destruct (insert_ok (time_cmp g) time_cmp_ok None q c Hh) as (q1 & -> & H1 & H2); [discriminate|]. cbn [bindr].
    destruct (IH q1 H1) as (q2 & E & A & B). exists q2. split; [exact E|]. split; [exact A|].
    etransitivity; [exact B|]. etransitivity; [apply Permutation_app_head, H2|]. apply Permutation_sym, Permutation_middle.
  Qed.

  (** The unlimited walk: the same commits in the same order as [limit_list] without hides. *)
  Lemma lazy_gives (first : bool) (PS : nat -> Prop) fuel k : forall s L out T slop s' l (w : rwalk),
    inv g first None PS (fun _ => False) s L out ->
    limit_loop g k fuel first None s L out T slop = Ok (s', l) ->
    r_limited w = false -> r_first w = first -> r_hidecb w = None -> r_get w = GUnsorted -> r_nodes w = s -> r_it_rand w = L ->
    exists l', l = rev out ++ l' /\ gives fuel w l'.
  Proof.
    induction k as [|k IH]; intros s L out T slop s' l w I H W1 W2 W3 W4 W5 W6; destruct L as [|c rest]; cbn [limit_loop] in H; try discriminate.
    1,2: injection H as <- <-; exists []; rewrite app_nil_r; split; [reflexivity|]; constructor; unfold get_next; rewrite W4;
         destruct fuel; cbn; rewrite W6; reflexivity.
    destruct (add_parents g fuel first None s c rest) as [[s1 l1]| | |] eqn:Ea; cbn [bindr] in H; try discriminate.
    assert (Ec : n_unint s c = false).
    { destruct (n_unint s c) eqn:E; auto. apply (iU _ _ _ _ _ _ _ _ I) in E. destruct E as (h & [] & _). }
    destruct (step_int _ _ _ _ _ _ _ _ _ _ _ _ I Ec Ea) as (I1 & U1 & _ & _ & _ & _). cbn [hcb] in I1.
    rewrite U1, Ec in H.
    destruct (IH _ _ _ _ _ _ _ (with_iters (with_nodes w s1) (r_it_time w) (r_it_topo w) l1 (r_it_rev w)) I1 H) as (l' & E1 & G1); auto.
    exists (c :: l'). split; [rewrite E1; cbn; rewrite <- app_assoc; reflexivity|].
    eapply gv_cons; [| | | | |exact G1]; try reflexivity.
    - unfold get_next. rewrite W4. destruct fuel; cbn [next_unsorted]; unfold get_revision; rewrite W1, W5, W6, W2, W3, Ea; cbn [bindr fst snd]; rewrite U1, Ec; reflexivity.
    - rewrite W4. reflexivity.
  Qed.
End RD.
