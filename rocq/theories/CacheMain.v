(** Every step preserves the invariant and touches no freed object. *)
From Verif Require Import Base CacheModel CacheProofs.
Local Open Scope Z_scope.

Lemma isobj0 s k q oid flags o : nth_error (c_objs s) q = Some o -> isobj (c_objs s) k 0 q -> oid = k -> (flags = 0 \/ o_flags o = flags) -> isobj (c_objs s) oid flags q.
Proof. intros E (o' & E' & K & _) -> F. assert (o' = o) as -> by congruence. exists o. auto. Qed.

Lemma give_ok objs th p r : alike objs p r -> logok objs th -> logok objs (give th p r).
Proof. intros A [L1 L2]. split; [exact L1|]. intros x y [E|Hin]; [injection E as <- <-; exact A|apply L2; exact Hin]. Qed.
Lemma give_self objs th p : (exists o, nth_error objs p = Some o) -> logok objs th -> logok objs (give th p p).
Proof. intros (o & E). apply give_ok. eapply alike_refl; eauto. Qed.

(** A clear starts: the references of the table move to the thread. *)
Lemma start_clear s t th k rd' wr' : Inv s -> nth_error (c_thr s) t = Some th -> clearing (t_pc th) = false -> nclear (c_thr s) = 0%nat ->
  (forall p, cnt p (pcrefs (t_pc th)) = cnt p (kref k)) -> (forall p, fresh (t_pc th) p = false) -> reading (t_pc th) = false ->
  rd' = c_rd s -> (b2n wr' + b2n (writing (t_pc th)) = b2n (c_wr s) + 1)%nat -> (wr' = true -> rd' = 0%nat) ->
  match k with CKclear => True | CKoff p | CKevict p => exists o, nth_error (c_objs s) p = Some o end ->
  Inv (mk s t (go th (clear_start s k)) (c_rc s) (c_map s) rd' wr').
Proof.
  intros I H C N R F Rd -> W X Hk. eapply keep; eauto; try apply I.
  - intros p. pose proof (clear_refs s t th (go th (clear_start s k)) (c_map s) (c_rd s) wr' p H) as T. pose proof (nclear_upd s t th (go th (clear_start s k)) H) as Nu. rewrite C, N in Nu. rewrite N in T.
    unfold refs in T. rewrite !cnt_app, R in T. unfold clear_start in *. destruct (c_map s) as [|e m] eqn:Em; cbn [go t_pc t_held pcrefs clearing b2n] in *.
    + replace (nclear (upd (c_thr s) t (go th (CL2 k)))) with 0%nat in T by lia. rewrite ?cnt_nil in T. cbn [go map cnt] in T. lia.
    + replace (nclear (upd (c_thr s) t (go th (CL1 (map snd (e :: m)) k)))) with 1%nat in T by lia. rewrite cnt_app in T. lia.
  - intros p. rewrite F. unfold clear_start. destruct (c_map s); reflexivity.
  - rewrite Rd. unfold clear_start. destruct (c_map s); cbn; lia.
  - unfold clear_start. destruct (c_map s); cbn [go t_pc writing b2n]; lia.
  - unfold clear_start. destruct (c_map s); exact Hk.
  - exact (v_log s I t th H).
Qed.

Lemma step_ok s t l : Inv s -> good (step s t l).
Proof.
  intros I. unfold step. destruct (nth_error (c_thr s) t) as [th|] eqn:H; [|exact Logic.I]. cbv zeta.
  pose proof (v_pc s I t th H) as P. pose proof (v_log s I t th H) as Lg. pose proof (held_total s t th) as HT.
  destruct th as [c held log puts]. cbn [t_pc] in *. destruct c; destruct l; cbn [t_held t_log pcrefs] in *; try exact Logic.I; try (destruct n; exact Logic.I); try (destruct todo; exact Logic.I).
  - (* BGet *) eapply inv_move; eauto; try reflexivity; try exact Logic.I.
  - (* BStore *)
    destruct ((o_flags o =? RAW) || (o_flags o =? PARSED)); [|exact Logic.I]. cbn [good].
    set (th := {| t_pc := Idle; t_held := held; t_log := log; t_put := puts |}) in *. set (p0 := length (c_objs s)).
    set (s' := {| c_objs := c_objs s ++ [o]; c_rc := c_rc s ++ [Some 0]; c_map := c_map s; c_rd := c_rd s; c_wr := c_wr s; c_thr := upd (c_thr s) t (go th (S1 p0)) |}).
    assert (T : forall p, total s' p = total s p) by (intros p; pose proof (total_same s t th (go th (S1 p0)) (c_rc s) (c_rd s) (c_wr s) p H eq_refl) as T; unfold refs in T; cbn [go th t_pc t_held pcrefs] in T; unfold total, mapref in *; cbn [s' mk c_thr c_map] in *; lia).
    assert (Fr : forall p, nfresh s' p = (nfresh s p + b2n (p0 =? p)%nat)%nat) by (intros p; pose proof (fresh_upd s t th (go th (S1 p0)) (c_rc s) (c_map s) (c_rd s) (c_wr s) p H) as T'; unfold nfresh in *; cbn [s' mk c_thr th go t_pc fresh b2n] in *; lia).
    assert (Out : nth_error (c_rc s) p0 = None) by (apply nth_error_None; unfold p0; rewrite (v_len s I); lia).
    pose proof (v_rc s I p0) as V0. rewrite Out in V0.
    assert (Mono : forall oid fl q, isobj (c_objs s) oid fl q -> isobj (c_objs s ++ [o]) oid fl q).
    { intros oid fl q (o' & E & R). exists o'. split; [|exact R]. rewrite nth_error_app1; [exact E|]. apply nth_error_Some. congruence. }
    assert (Mono2 : forall q r, alike (c_objs s) q r -> alike (c_objs s ++ [o]) q r).
    { intros q r (a & b & Ea & Eb & R). exists a, b. rewrite !nth_error_app1 by (apply nth_error_Some; congruence). auto. }
    constructor; cbn [s' c_objs c_rc c_map c_rd c_wr c_thr].
    + rewrite !app_length, (v_len s I). reflexivity.
    + intros p. rewrite T, Fr. destruct (Nat.eqb_spec p0 p) as [<-|N]; cbn [b2n].
      * rewrite nth_error_app2 by (unfold p0; rewrite (v_len s I); lia). unfold p0 at 1. rewrite (v_len s I), Nat.sub_diag. cbn [nth_error]. split; lia.
      * rewrite Nat.add_0_r. destruct (Nat.lt_ge_cases p p0) as [L|L]; [rewrite nth_error_app1 by (rewrite (v_len s I); exact L); apply I|].
        pose proof (v_rc s I p) as V. assert (nth_error (c_rc s) p = None) as E by (apply nth_error_None; rewrite (v_len s I); exact L). rewrite E in V.
        assert (nth_error (c_rc s ++ [Some 0]) p = None) as E2 by (apply nth_error_None; rewrite app_length, (v_len s I); cbn; unfold p0 in *; lia). rewrite E2. exact V.
    + intros p. rewrite T, Fr. pose proof (v_fresh s I p) as [V1 V2]. destruct (Nat.eqb_spec p0 p) as [<-|N]; cbn [b2n]; [lia|]. rewrite Nat.add_0_r. auto.
    + pose proof (v_rd s I) as V. pose proof (sumt_upd (fun th => b2n (reading (t_pc th))) _ _ _ (go th (S1 p0)) H) as E. cbn in E. lia.
    + pose proof (v_wr s I) as V. pose proof (sumt_upd (fun th => b2n (writing (t_pc th))) _ _ _ (go th (S1 p0)) H) as E. cbn in E. lia.
    + apply I.
    + apply I.
    + intros k q Hq. apply Mono. apply (v_map s I k q Hq).
    + assert (Mo : forall q, (exists o', nth_error (c_objs s) q = Some o') -> exists o', nth_error (c_objs s ++ [o]) q = Some o') by (intros q (o' & E); exists o'; rewrite nth_error_app1; [exact E|apply nth_error_Some; congruence]).
      intros t' x Hx. rewrite (nth_thr _ _ _ _ _ H) in Hx. destruct (Nat.eqb_spec t' t).
      * assert (x = go th (S1 p0)) as -> by congruence. exists o. unfold p0. rewrite nth_error_app2, Nat.sub_diag by lia. reflexivity.
      * pose proof (v_pc s I t' x Hx) as V. destruct (t_pc x); cbn in *; auto; try (destruct V; split; auto; fail); try (destruct r; auto; fail); destruct k; auto.
    + intros t' x Hx. rewrite (nth_thr _ _ _ _ _ H) in Hx.
      assert (Lx : logok (c_objs s) x) by (destruct (Nat.eqb_spec t' t); [assert (x = go th (S1 p0)) as -> by congruence; exact Lg|eapply (v_log s I); eauto]).
      destruct Lx as [L1 L2]. split; [intros oid fl q Hq; apply Mono; apply L1; exact Hq|intros q r Hq; apply Mono2; apply L2; exact Hq].
  - (* BDup *) destruct (existsb (Nat.eqb p) held) eqn:E; [|exact Logic.I]. apply existsb_exists in E as (x & Hx & Ex). apply Nat.eqb_eq in Ex. subst x.
    eapply inv_incref; eauto; try reflexivity; try exact Logic.I.
    + refs_tac.
    + left. apply HT; [exact H|]. rewrite app_nil_r. exact Hx.
    + discriminate.
  - (* BFree *) destruct (existsb (Nat.eqb p) held) eqn:E; [|exact Logic.I]. apply existsb_exists in E as (x & Hx & Ex). apply Nat.eqb_eq in Ex. subst x.
    eapply inv_decref; eauto; try reflexivity; try exact Logic.I.
    refs_tac. rewrite (cnt_drop1 _ _ _ Hx). lia.
  - (* BClear *) eapply inv_move; eauto; try reflexivity; try exact Logic.I.
  - (* G1 *) destruct b.
    + destruct (c_wr s) eqn:W; [exact Logic.I|]. apply (keep0 s t _ (go {| t_pc := G1 oid flags; t_held := held; t_log := log; t_put := puts |} (G2 oid flags)) (S (c_rd s)) false I H); try reflexivity; try exact Logic.I; try exact Lg; try lock_tac; try (rewrite W; lock_tac); discriminate.
    + eapply inv_move; eauto; try reflexivity. split; [|apply Lg]. intros o f p [Hp|Hp]; [discriminate|]. apply Lg. exact Hp.
  - (* G2 *) pose proof (no_clear s t _ I H eq_refl eq_refl) as NC. destruct (lookup (c_map s) oid) as [p|] eqn:El.
    + apply lookup_in in El. destruct (deref_ok s p I (map_alive s p I NC (in_snd _ _ _ El))) as (o & -> & Ho). cbn [bindr].
      destruct (negb (flags =? 0) && negb (o_flags o =? flags)) eqn:Ef; eapply inv_move; eauto; try reflexivity; cbn [t_pc go pcok]; auto.
      split; [apply (in_snd _ _ _ El)|]. eapply isobj0; eauto; [apply (v_map s I); eauto|]. apply andb_false_iff in Ef as [Ef|Ef]; apply negb_false_iff, Z.eqb_eq in Ef; auto.
    + eapply inv_move; eauto; reflexivity.
  - (* G3 *) pose proof (no_clear s t _ I H eq_refl eq_refl) as NC. destruct P as [Pm Po].
    eapply inv_incref; eauto; try reflexivity; [refs_tac|left; apply map_alive; auto|discriminate].
  - (* G4 *) assert (Er : (c_rd s >= 1)%nat) by (rewrite (v_rd s I); pose proof (sumt_ge (fun th => b2n (reading (t_pc th))) _ _ _ H) as G; cbn in G; lia).
    apply (keep0 s t _ {| t_pc := Idle; t_held := match r with Some p => p :: held | None => held end; t_log := (oid, flags, r) :: log; t_put := puts |} (c_rd s - 1)%nat (c_wr s) I H); try reflexivity; try exact Logic.I.
    + destruct r; refs_tac.
    + lock_tac.
    + intros W. rewrite (v_rw s I W). reflexivity.
    + split; [|apply Lg]. intros o f p [Hp|Hp]; [injection Hp as <- <- ->; exact P|apply Lg; exact Hp].
  - (* S1 *) eapply inv_incref; eauto; try reflexivity; try exact Logic.I; [refs_tac|]. cbn. intros x Hx. apply Nat.eqb_eq in Hx. auto.
  - (* S2 *) destruct b; [|destruct n]; eapply inv_move; eauto; try reflexivity; try exact Logic.I; try (apply give_self; [exact P|exact Lg]); refs_tac.
  - (* S4 *) destruct b.
    + destruct (c_wr s) eqn:W; cbn [orb]; [exact Logic.I|]. destruct (Nat.eqb_spec (c_rd s) 0) as [R|]; cbn [negb]; [|exact Logic.I].
      apply (keep0 s t _ (go {| t_pc := S4 p; t_held := held; t_log := log; t_put := puts |} (S5 p)) (c_rd s) true I H); try reflexivity; try exact Logic.I; try exact Lg; auto. rewrite W. reflexivity.
    + eapply inv_move; eauto; try reflexivity; try exact Logic.I; try (apply give_self; [exact P|exact Lg]); refs_tac.
  - (* S5 *) destruct b.
    + pose proof (no_clear s t _ I H eq_refl eq_refl) as NC.
      destruct (Nat.ltb_spec (length (c_map s)) (Nat.max 8 (length (c_map s) / 2048))).
      * apply (start_clear s t _ (CKevict p) (c_rd s) (c_wr s) I H); try reflexivity; auto; try lock_tac. apply I.
      * eapply inv_move; eauto; try reflexivity. split; [assumption|exact P].
    + eapply inv_move; eauto; try reflexivity; try exact Logic.I.
  - (* S6 *) pose proof (no_clear s t _ I H eq_refl eq_refl) as NC.
    assert (Ap : (1 <= total s p)%nat) by (apply HT; [exact H|]; apply in_or_app; right; left; reflexivity).
    destruct (deref_ok s p I Ap) as (o & -> & Ho). cbn [bindr].
    destruct (lookup (c_map s) (o_oid o)) as [q|] eqn:El.
    + pose proof (lookup_in _ _ _ El) as Hq. destruct (v_map s I _ _ Hq) as (oq' & Hoq' & Koq & _). destruct (deref_ok s q I (map_alive s q I NC (in_snd _ _ _ Hq))) as (oq & -> & Hoq). cbn [bindr].
      assert (oq' = oq) as -> by congruence.
      assert (Alike : o_flags oq = o_flags o \/ o_flags oq = RAW -> alike (c_objs s) p q) by (intros R; exists o, oq; auto).
      assert (Same : alike (c_objs s) p q -> good (Ok (with_thr s t (go {| t_pc := S6 p; t_held := held; t_log := log; t_put := puts |} (S7a p q))))) by (intros Al; eapply inv_move; eauto; try reflexivity; split; [apply (in_snd _ _ _ Hq)|exact Al]).
      destruct (o_flags oq =? o_flags o) eqn:E1; [exact (Same (Alike (or_introl (proj1 (Z.eqb_eq _ _) E1))))|]. destruct ((o_flags oq =? RAW) && (o_flags o =? PARSED)) eqn:E2; [|eapply inv_move; eauto; try reflexivity; eapply alike_refl; eauto].
      apply andb_prop in E2 as [E2 _]. apply Z.eqb_eq in E2. destruct b; [|exact (Same (Alike (or_intror E2)))].
      apply (keep s t _ (go {| t_pc := S6 p; t_held := held; t_log := log; t_put := puts |} (S7c p q)) (put (c_map s) (o_oid o) p) (c_rd s) (c_wr s) I H); try reflexivity; auto.
      * intros x. pose proof (clear_refs s t _ (go {| t_pc := S6 p; t_held := held; t_log := log; t_put := puts |} (S7c p q)) (put (c_map s) (o_oid o) p) (c_rd s) (c_wr s) x H) as T.
        pose proof (nclear_upd s t _ (go {| t_pc := S6 p; t_held := held; t_log := log; t_put := puts |} (S7c p q)) H) as Nu. cbn [go t_pc clearing b2n] in Nu. rewrite NC in Nu, T.
        cbn [go t_pc t_held t_log] in *. match type of Nu with (nclear ?y + _ = _)%nat => replace (nclear y) with 0%nat in T by lia end.
        unfold refs, go in T. cbn [t_held t_pc t_log pcrefs] in T. rewrite !cnt_app, !cnt_cons, !cnt_nil in T. pose proof (put_cnt _ _ p _ x El). unfold go; cbn [t_held t_log]. lia.
      * apply I.
      * rewrite (put_fst _ _ _ _ El). apply I.
      * intros k r Hr. apply put_in in Hr as [Hr|[-> ->]]; [apply (v_map s I k r Hr)|]. exists o. auto.
      * split; [apply put_has|eapply alike_refl; eauto].
    + destruct b; [|eapply inv_move; eauto; try reflexivity; eapply alike_refl; eauto].
      apply (keep s t _ (go {| t_pc := S6 p; t_held := held; t_log := log; t_put := puts |} (S7 p)) (put (c_map s) (o_oid o) p) (c_rd s) (c_wr s) I H); try reflexivity; auto.
      * intros x. pose proof (clear_refs s t _ (go {| t_pc := S6 p; t_held := held; t_log := log; t_put := puts |} (S7 p)) (put (c_map s) (o_oid o) p) (c_rd s) (c_wr s) x H) as T.
        pose proof (nclear_upd s t _ (go {| t_pc := S6 p; t_held := held; t_log := log; t_put := puts |} (S7 p)) H) as Nu. cbn [go t_pc clearing b2n] in Nu. rewrite NC in Nu, T.
        cbn [go t_pc t_held t_log] in *. match type of Nu with (nclear ?y + _ = _)%nat => replace (nclear y) with 0%nat in T by lia end.
        unfold refs, go in T. cbn [t_held t_pc t_log pcrefs] in T. rewrite (put_new _ _ p El), map_app, !cnt_app in T. cbn [map snd] in T. rewrite !cnt_cons, !cnt_nil in T. unfold go; cbn [t_held t_log]. rewrite (put_new _ _ p El). lia.
      * apply I.
      * rewrite (put_new _ _ p El), map_app. cbn. apply lookup_none in El. rewrite <- (rev_involutive (_ ++ _)). apply NoDup_rev. rewrite rev_app_distr. cbn. constructor; [rewrite <- in_rev; exact El|]. apply NoDup_rev. apply I.
      * intros k r Hr. apply put_in in Hr as [Hr|[-> ->]]; [apply (v_map s I k r Hr)|]. exists o. auto.
      * split; [apply put_has|eapply alike_refl; eauto].
  - (* S7 *) pose proof (no_clear s t _ I H eq_refl eq_refl) as NC. destruct P as [P1 P2].
    eapply inv_incref; eauto; try reflexivity; [refs_tac|left; apply map_alive; auto|discriminate].
  - (* S7a *) eapply inv_decref; eauto; try reflexivity; refs_tac; exact P.
  - (* S7b *) pose proof (no_clear s t _ I H eq_refl eq_refl) as NC. destruct P as [P1 P2].
    eapply inv_incref; eauto; try reflexivity; [refs_tac|left; apply map_alive; auto|discriminate].
  - (* S7c *) eapply inv_decref; eauto; try reflexivity; refs_tac; exact P.
  - (* S9 *) assert (W : c_wr s = true). { pose proof (v_wr s I) as V. pose proof (sumt_ge (fun th => b2n (writing (t_pc th))) _ _ _ H) as G. cbn in G. destruct (c_wr s); [reflexivity|cbn in V; lia]. }
    apply (keep0 s t _ (give {| t_pc := S9 p r; t_held := held; t_log := log; t_put := puts |} p r) (c_rd s) false I H); try reflexivity; try exact Logic.I.
    + refs_tac.
    + rewrite W. reflexivity.
    + discriminate.
    + apply give_ok; [exact P|exact Lg].
  - (* E1 *) pose proof (no_clear s t _ I H eq_refl eq_refl) as NC. cbn [pcok] in P. destruct P as [P P']. destruct n; [eapply inv_move; eauto; try reflexivity; exact P'|].
    destruct (nth_error (c_map s) n0) as [[k q]|] eqn:En; [|exact Logic.I].
    destruct (deref_ok s q I (map_alive s q I NC (in_snd _ _ _ (nth_error_In _ _ En)))) as (o & -> & Ho). cbn [bindr].
    apply (keep s t _ (go {| t_pc := E1 p (S n); t_held := held; t_log := log; t_put := puts |} (E2 p q n)) (remove_key (c_map s) k) (c_rd s) (c_wr s) I H); try reflexivity; auto.
    * intros x. pose proof (clear_refs s t _ (go {| t_pc := E1 p (S n); t_held := held; t_log := log; t_put := puts |} (E2 p q n)) (remove_key (c_map s) k) (c_rd s) (c_wr s) x H) as T.
      pose proof (nclear_upd s t _ (go {| t_pc := E1 p (S n); t_held := held; t_log := log; t_put := puts |} (E2 p q n)) H) as Nu. cbn [go t_pc clearing b2n] in Nu. rewrite NC in Nu, T.
      cbn [go t_pc t_held t_log] in *. match type of Nu with (nclear ?y + _ = _)%nat => replace (nclear y) with 0%nat in T by lia end.
      unfold refs, go in T. cbn [t_held t_pc t_log pcrefs] in T. rewrite !cnt_app, !cnt_cons, !cnt_nil in T. pose proof (remove_cnt _ _ _ _ x (v_keys s I) En). unfold go; cbn [t_held t_log]. lia.
    * apply I.
    * apply remove_keys, I.
    * intros k' r Hr. apply remove_in in Hr. apply (v_map s I k' r Hr).
    * cbn [go t_pc pcok]. pose proof (remove_length _ _ _ _ En). split; [lia|exact P'].
  - (* E2 *) eapply inv_decref; eauto; try reflexivity; refs_tac; exact P.
  - (* CL0 *) destruct b.
    + destruct (c_wr s) eqn:W; cbn [orb]; [exact Logic.I|]. destruct (Nat.eqb_spec (c_rd s) 0) as [R|]; cbn [negb]; [|exact Logic.I].
      pose proof (no_clear_unlocked s I W) as NC.
      apply (start_clear s t _ k (c_rd s) true I H); try reflexivity; auto. rewrite W. reflexivity.
    + destruct k; eapply inv_move; eauto; try reflexivity; try exact Logic.I; try (apply give_self; [exact P|exact Lg]); refs_tac.
  - (* CL1 *) destruct todo as [|q r].
    + pose proof (nclear_upd s t _ (go {| t_pc := CL1 [] k; t_held := held; t_log := log; t_put := puts |} (CL2 k)) H) as Nu. cbn [go t_pc clearing b2n] in Nu.
      assert (N1 : nclear (c_thr s) = 1%nat). { pose proof (sumt_ge (fun th => b2n (clearing (t_pc th))) _ _ _ H) as G. cbn in G. unfold nclear. 
        assert (sumt (fun th => b2n (clearing (t_pc th))) (c_thr s) <= sumt (fun th => b2n (writing (t_pc th))) (c_thr s))%nat as L. { clear. induction (c_thr s) as [|x l IH]; cbn; [lia|]. assert (b2n (clearing (t_pc x)) <= b2n (writing (t_pc x)))%nat by (destruct (t_pc x); cbn; lia). lia. }
        rewrite <- (v_wr s I) in L. destruct (c_wr s); cbn in L; lia. }
      apply (keep s t _ (go {| t_pc := CL1 [] k; t_held := held; t_log := log; t_put := puts |} (CL2 k)) [] (c_rd s) (c_wr s) I H); try reflexivity; auto.
      * intros x. pose proof (clear_refs s t _ (go {| t_pc := CL1 [] k; t_held := held; t_log := log; t_put := puts |} (CL2 k)) [] (c_rd s) (c_wr s) x H) as T. rewrite N1 in Nu, T.
        cbn [go t_pc t_held t_log] in *. match type of Nu with (nclear ?y + _ = _)%nat => replace (nclear y) with 0%nat in T by lia end.
        unfold refs, go in T. cbn [t_held t_pc t_log pcrefs app map] in T. rewrite cnt_nil in T. unfold go; cbn [t_held t_log]. lia.
      * apply I.
      * constructor.
      * intros ? ? [].
    + eapply inv_decref; eauto; try reflexivity; try exact Logic.I. refs_tac. rewrite ?cnt_app. lia.
  - (* CL2 *) assert (W : c_wr s = true). { pose proof (v_wr s I) as V. pose proof (sumt_ge (fun th => b2n (writing (t_pc th))) _ _ _ H) as G. cbn in G. destruct (c_wr s); [reflexivity|cbn in V; lia]. }
    destruct k.
    + apply (keep0 s t _ (go {| t_pc := CL2 CKclear; t_held := held; t_log := log; t_put := puts |} Idle) (c_rd s) false I H); try reflexivity; try exact Logic.I; try exact Lg; [rewrite W; reflexivity|discriminate].
    + apply (keep0 s t _ (give {| t_pc := CL2 (CKoff p); t_held := held; t_log := log; t_put := puts |} p p) (c_rd s) false I H); try reflexivity; try exact Logic.I; [refs_tac|rewrite W; reflexivity|discriminate|apply give_self; [exact P|exact Lg]].
    + eapply inv_move; eauto; try reflexivity; try exact Logic.I.
Qed.
