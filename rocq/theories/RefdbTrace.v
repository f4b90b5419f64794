From Verif Require Import Base Str RefdbModel RefdbSpec RefdbProofs.

Section S.
Variable prog : nat -> rop.

Lemma holds_started o pc r : holds o pc = Some r -> started pc.
Proof. destruct o, pc; cbn; try discriminate; auto. Qed.

Lemma started_idle pc : started pc -> pc <> RIdle.
Proof. destruct pc; cbn; congruence. Qed.

Lemma packing_other s s' p q : r_pc s' q = r_pc s q -> q <> p -> packing prog s' q -> packing prog s q.
Proof. unfold packing. intros -> _. auto. Qed.
Lemma deleting_other s s' q r : r_pc s' q = r_pc s q -> deleting prog s' q r -> deleting prog s q r.
Proof. unfold deleting. intros ->. auto. Qed.

Lemma leqb_if (A : Type) x r (a b : A) : (if leqb x r then a else b) = a \/ (x <> r /\ (if leqb x r then a else b) = b).
Proof. destruct (leqb_dec_cases x r) as [[_ ->]|[H ->]]; auto. Qed.

(** packed-refs only loses entries, except through packing. *)
Lemma packed_mono s p s' x : frame prog s p s' -> ~ packing prog s p -> r_packed s x = None -> r_packed s' x = None.
Proof.
  intros F Hn H. destruct (fr_packed _ _ _ _ F) as [E|[E|(r & _ & _ & E)]]; [now rewrite E|tauto|].
  rewrite E. destruct (leqb x r); auto.
Qed.

Lemma inv_step s p c s' : inv prog s -> discipline prog s p -> rstep s p prog c = Some s' -> inv prog s'.
Proof.
  intros I D Hs. assert (F := step_frame prog s p c s' I Hs).
  assert (NH : forall q r, q <> p -> holds (prog q) (r_pc s q) = Some r -> holds (prog p) (r_pc s p) <> Some r).
  { intros q r Hq H1 H2. apply Hq. exact (i_ex _ _ I q p r H1 H2). }
  assert (SL : forall q r, q <> p -> holds (prog q) (r_pc s q) = Some r -> r_loose s' r = r_loose s r).
  { intros q r Hq H1. destruct (fr_loose _ _ _ _ F r) as [E|E]; [exact E|]. exfalso; exact (NH q r Hq H1 E). }
  assert (SV : forall q r, q <> p -> holds (prog q) (r_pc s q) = Some r -> val s' r = val s r).
  { intros q r Hq H1. destruct (fr_val _ _ _ _ F r) as [E|(o & nv & _ & _ & _ & E)]; [exact E|]. exfalso; exact (NH q r Hq H1 E). }
  (* if somebody else is packing, p neither packs nor deletes *)
  assert (OP : forall q, q <> p -> packing prog s q ->
     (forall x, r_packed s' x = r_packed s x) /\ (forall x, r_loose s x <> None -> r_loose s' x <> None)).
  { intros q Hq Hpk. destruct (i_pk _ _ I q p Hpk (not_eq_sym Hq)) as [N1 N2]. split.
    - destruct (fr_packed _ _ _ _ F) as [E|[E|(r & E & _)]]; [exact E|tauto|now apply N2 in E].
    - intros x Hx Hy. destruct (fr_gone _ _ _ _ F x Hx Hy) as [E|[r E]]; [tauto|now apply N2 in E]. }
  (* if somebody else is deleting, p does not pack *)
  assert (OD : forall q r, q <> p -> deleting prog s q r -> ~ packing prog s p).
  { intros q r Hq Hd Hpk. destruct (i_pk _ _ I p q Hpk Hq) as [_ N]. exact (N r Hd). }
  constructor.
  - intros q. destruct (Nat.eq_dec q p) as [-> | Hq]; [exact (fr_pinv _ _ _ _ F)|].
    rewrite (fr_oth _ _ _ _ F q Hq).
    assert (Iq := i_pc _ _ I q). assert (SLq := SL q). assert (SVq := SV q). assert (OPq := OP q Hq). assert (ODq := OD q).
    unfold packing, deleting in OPq, ODq.
    destruct (prog q) as [r new force old|r old| |r] eqn:Eo.
    + destruct (r_pc s q) eqn:Epc; cbn in Iq |- *; auto;
        specialize (SLq r Hq eq_refl); specialize (SVq r Hq eq_refl); rewrite ?SLq, ?SVq; auto.
    + destruct (r_pc s q) eqn:Epc; cbn in Iq |- *; auto;
        specialize (SLq r Hq eq_refl); specialize (SVq r Hq eq_refl); rewrite ?SLq, ?SVq; auto.
      * (* RDPLock *) destruct Iq as (A & B & C). split; [exact A|].
        assert (P : forall x, r_packed s' x = r_packed s x).
        { assert (Dq : deleting prog s q r) by (split; [eauto|rewrite Epc; exact Logic.I]).
          destruct (fr_packed _ _ _ _ F) as [E|[E|(r' & E1 & E2 & _)]]; [exact E| |].
          - exfalso. exact (OD q r Hq Dq E).
          - exfalso. destruct (i_del _ _ I q p r r' Dq E1 Hq); congruence. }
        rewrite P. split; [exact B|]. intros x. rewrite P. apply C.
      * (* RDPWrite *) destruct Iq as (A & B & C). split; [exact A|].
        assert (P : forall x, r_packed s' x = r_packed s x).
        { assert (Dq : deleting prog s q r) by (split; [eauto|rewrite Epc; exact Logic.I]).
          destruct (fr_packed _ _ _ _ F) as [E|[E|(r' & E1 & E2 & _)]]; [exact E| |].
          - exfalso. exact (OD q r Hq Dq E).
          - exfalso. destruct (i_del _ _ I q p r r' Dq E1 Hq); congruence. }
        rewrite P. split; [exact B|]. intros x. rewrite P. apply C.
      * destruct Iq as (A & B). split; [|exact B]. apply (packed_mono s p s' r F); [|exact A].
        apply (OD q r Hq). split; [eauto|rewrite Epc; exact Logic.I].
      * destruct Iq as (A & B). split; [|exact B]. apply (packed_mono s p s' r F); [|exact A].
        apply (OD q r Hq). split; [eauto|rewrite Epc; exact Logic.I].
    + destruct (r_pc s q) eqn:Epc; cbn in Iq |- *; auto;
        destruct (OPq (conj eq_refl Logic.I)) as [P L].
      * intros x. destruct (Iq x) as [A B]. split; [intros Hf; apply L, A, Hf|]. intros Hf. rewrite P. auto.
      * intros x. destruct (Iq x) as [A B]. split; [intros Hf; apply L, A, Hf|]. intros Hf. rewrite P. auto.
      * intros x. destruct (Iq x) as [A B]. split; [intros Hf; apply L, A, Hf|]. intros Hf. rewrite P. auto.
      * intros x. rewrite P. auto.
      * intros x. rewrite P. auto.
      * intros x. rewrite P. auto.
      * destruct Iq as (A & v & B & C). split; [intros x; rewrite P; auto|]. exists v.
        rewrite (SLq r Hq eq_refl). auto.
      * intros x. rewrite P. auto.
    + destruct (r_pc s q); cbn in Iq |- *; auto.
  - intros q r Hh. destruct (Nat.eq_dec q p) as [-> | Hq]; [exact (proj1 (fr_hold _ _ _ _ F r Hh))|].
    rewrite (fr_oth _ _ _ _ F q Hq) in Hh. assert (Hl := i_lock _ _ I q r Hh).
    destruct (fr_lock _ _ _ _ F r) as [E|[[E _]|E]]; [now rewrite E|congruence|]. exfalso. exact (NH q r Hq Hh E).
  - assert (K : forall q r, q <> p -> holds (prog q) (r_pc s' q) = Some r -> holds (prog p) (r_pc s' p) = Some r -> False).
    { intros q r Hq H1 H2. rewrite (fr_oth _ _ _ _ F q Hq) in H1.
      destruct (fr_hold _ _ _ _ F r H2) as [_ [E|E]]; [exact (NH q r Hq H1 E)|].
      rewrite (i_lock _ _ I q r H1) in E. discriminate. }
    intros q q' r H1 H2.
    destruct (Nat.eq_dec q p) as [-> | Hq]; destruct (Nat.eq_dec q' p) as [-> | Hq']; auto.
    + exfalso. eauto.
    + exfalso. eauto.
    + rewrite (fr_oth _ _ _ _ F q Hq) in H1. rewrite (fr_oth _ _ _ _ F q' Hq') in H2.
      exact (i_ex _ _ I q q' r H1 H2).
  - intros q q' Hpk Hne.
    assert (PB : forall x, x <> p -> packing prog s' x -> packing prog s x).
    { intros x Hx. apply (packing_other s s' p x (fr_oth _ _ _ _ F x Hx) Hx). }
    assert (DB : forall x r, x <> p -> deleting prog s' x r -> deleting prog s x r).
    { intros x r Hx. apply (deleting_other s s' x r (fr_oth _ _ _ _ F x Hx)). }
    destruct (Nat.eq_dec q p) as [-> | Hq].
    + (* p packs *)
      destruct Hpk as [Ec Hst]. destruct (fr_start _ _ _ _ F Hst) as [Hs0|Hs0].
      * destruct (i_pk _ _ I p q' (conj Ec Hs0) Hne) as [N1 N2]. split.
        -- intros X. apply N1. auto.
        -- intros r X. apply (N2 r). auto.
      * destruct (D Hs0) as [D1 _]. destruct (D1 Ec q') as [N1 N2]. split.
        -- intros X. apply N1. auto.
        -- intros r X. apply (N2 r). auto.
    + assert (Hpk0 := PB q Hq Hpk). destruct (Nat.eq_dec q' p) as [-> | Hq'].
      * split.
        -- intros [Ec Hst]. destruct (fr_start _ _ _ _ F Hst) as [Hs0|Hs0].
           ++ destruct (i_pk _ _ I q p Hpk0 Hne) as [N1 _]. apply N1. split; auto.
           ++ destruct (D Hs0) as [D1 _]. destruct (D1 Ec q) as [N1 _]. auto.
        -- intros r [[old Ec] Hst]. destruct (fr_start _ _ _ _ F Hst) as [Hs0|Hs0].
           ++ destruct (i_pk _ _ I q p Hpk0 Hne) as [_ N1]. apply (N1 r). split; eauto.
           ++ destruct (D Hs0) as [_ D1]. destruct (D1 r old Ec q) as [N1 _]. auto.
      * destruct (i_pk _ _ I q q' Hpk0 Hne) as [N1 N2]. split.
        -- intros X. apply N1. auto.
        -- intros r X. apply (N2 r). auto.
  - assert (DB : forall x r, x <> p -> deleting prog s' x r -> deleting prog s x r).
    { intros x r Hx. apply (deleting_other s s' x r (fr_oth _ _ _ _ F x Hx)). }
    assert (NP : forall x r, deleting prog s' x r -> ~ packing prog s p).
    { intros x r Hd Hpk. destruct (Nat.eq_dec x p) as [-> | Hx].
      - destruct Hd as [[old E1] _]. destruct Hpk as [E2 _]. congruence.
      - exact (OD x r Hx (DB x r Hx Hd) Hpk). }
    assert (K : forall q r r', q <> p -> deleting prog s' p r -> deleting prog s' q r' ->
       r_packed s r = None \/ r_packed s r' = None).
    { intros q r r' Hq [[old Ec] Hst] Hd. apply DB in Hd; [|exact Hq].
      destruct (fr_start _ _ _ _ F Hst) as [Hs0|Hs0].
      - apply (i_del _ _ I p q r r'); auto. split; eauto.
      - destruct (D Hs0) as [_ D1]. destruct (D1 r old Ec q) as [_ N1]. auto. }
    intros q q' r r' Hd Hd' Hne.
    assert (M : forall x, r_packed s x = None -> r_packed s' x = None).
    { intros x. apply (packed_mono s p s' x F). eapply NP; eauto. }
    destruct (Nat.eq_dec q p) as [-> | Hq]; [|destruct (Nat.eq_dec q' p) as [-> | Hq']].
    + destruct (K q' r r' (not_eq_sym Hne) Hd Hd'); auto.
    + destruct (K q r' r Hq Hd' Hd); auto.
    + destruct (i_del _ _ I q q' r r' (DB _ _ Hq Hd) (DB _ _ Hq' Hd') Hne); auto.
Qed.

Lemma init_inv s : rinit s -> inv prog s.
Proof.
  intros H. constructor.
  - intros p. rewrite H. destruct (prog p); exact Logic.I.
  - intros p r. rewrite H. destruct (prog p); discriminate.
  - intros p q r. rewrite H. destruct (prog p); discriminate.
  - intros p q [_ X]. rewrite H in X. destruct X.
  - intros p q r r' [_ X]. rewrite H in X. destruct X.
Qed.

Lemma exec_inv s0 tr s : rinit s0 -> rexec true prog s0 tr s -> inv prog s.
Proof.
  intros H0. induction 1 as [|tr s p c s' E IH D Hs]; [now apply init_inv|].
  exact (inv_step s p c s' IH (D eq_refl) Hs).
Qed.

(** *** What each process has done so far. *)
Definition quiet (tr : list revent) (p : nat) : Prop :=
  forall s s', In (p, s, s') tr -> forall x, val s' x = val s x.
Definition did (tr : list revent) (p : nat) (r : rname) (old nv : option rv) : Prop :=
  exists s s', In (p, s, s') tr /\ matches old (val s r) /\ val s' r = nv.

Definition ended (tr : list revent) (p : nat) (r : rname) (old nv : option rv) (e : Z) : Prop :=
  (e = 0 -> did tr p r old nv) /\ (e <> 0 -> quiet tr p).


Definition tinv (tr : list revent) (s : rst) (p : nat) : Prop :=
  match prog p with
  | OWrite r new force old =>
      match r_pc s p with
      | RDead => True
      | RLinked => did tr p r old (Some new)
      | RUnlock e | RDone e => not_zero new -> ended tr p r old (Some new) e
      | _ => quiet tr p
      end
  | ODelete r old =>
      match r_pc s p with
      | RDead => True
      | RDPUnlock | RDUnlink => (r_loose s r <> None -> quiet tr p) /\ (r_loose s r = None -> did tr p r old None)
      | RUnlock e | RDone e => ended tr p r old None e
      | _ => quiet tr p
      end
  | _ => True
  end.

Lemma quiet_app_other tr p q s s' : q <> p -> quiet tr p -> quiet (tr ++ [(q, s, s')]) p.
Proof.
  intros Hn H a b Hin. apply in_app_or in Hin as [Hin|[[= E1 E2 E3]|[]]]; [now apply H|congruence].
Qed.
Lemma did_app tr p r old nv e : did tr p r old nv -> did (tr ++ [e]) p r old nv.
Proof. intros (a & b & H & X). exists a, b. split; [apply in_or_app; now left|exact X]. Qed.
Lemma quiet_app tr p s s' : quiet tr p -> (forall x, val s' x = val s x) -> quiet (tr ++ [(p, s, s')]) p.
Proof.
  intros H Hv a b Hin. apply in_app_or in Hin as [Hin|[[= <- <-]|[]]]; [now apply H|exact Hv].
Qed.
Lemma did_now tr p r old nv s s' : matches old (val s r) -> val s' r = nv -> did (tr ++ [(p, s, s')]) p r old nv.
Proof. intros H1 H2. exists s, s'. split; [apply in_or_app; right; now left|auto]. Qed.

Lemma tinv_other tr s p q s' : q <> p -> r_pc s' p = r_pc s p ->
  (forall r, holds (prog p) (r_pc s p) = Some r -> r_loose s' r = r_loose s r) ->
  tinv tr s p -> tinv (tr ++ [(q, s, s')]) s' p.
Proof.
  intros Hq Hpc Hl H. unfold tinv in *. rewrite Hpc. destruct (prog p) as [r new force old|r old| |r]; auto.
  - assert (Q := quiet_app_other tr p q s s' Hq). assert (DD := did_app tr p r old (Some new) (q, s, s')).
    destruct (r_pc s p); auto; intros Hz; destruct (H Hz); split; auto.
  - assert (Q := quiet_app_other tr p q s s' Hq). assert (DD := did_app tr p r old None (q, s, s')).
    destruct (r_pc s p); auto; try (rewrite (Hl r eq_refl)); destruct H; split; auto.
Qed.

(** The value does not change in a step that leaves the loose file and
    packed-refs entries alone. *)
Lemma same_loose_packed s s' :
  (forall x, r_loose s' x = r_loose s x) -> (forall x, r_packed s' x = r_packed s x) -> forall x, val s' x = val s x.
Proof. intros H1 H2 x. now apply val_loose_packed. Qed.

Lemma same_value_eq new v : not_zero new -> same_value new v = true -> v = Some new.
Proof.
  intros Hz H. unfold same_value in H. destruct (cmp_old new v) eqn:E; [discriminate|].
  apply cmp_old_matches in E. destruct E as [E|[-> (z & E1 & E2)]]; [exact E|].
  rewrite (Hz z E1) in E2. discriminate.
Qed.

Lemma cmp_old_err o v e : cmp_old o v = Some e -> e <> 0.
Proof.
  unfold cmp_old, ENOTFOUND, EMODIFIED. destruct v as [w|].
  - destruct (rv_eqb o w); [discriminate|]. intros [= <-]. lia.
  - destruct o as [z|t]; [destruct (zero_oid z); [discriminate|]|]; intros [= <-]; lia.
Qed.

Lemma tinv_self tr s p c s' : inv prog s -> tinv tr s p -> rstep s p prog c = Some s' ->
  tinv (tr ++ [(p, s, s')]) s' p.
Proof.
  intros I T H.
  assert (F := step_frame prog s p c s' I H).
  assert (Ip := i_pc _ _ I p).
  unfold rstep in H.
  assert (C : c = RCrash \/ c <> RCrash) by (destruct c; auto; right; discriminate).
  destruct C as [-> | C].
  { unfold tinv. assert (E : r_pc s' p = RDead).
    { destruct (r_pc s p); try discriminate H; injection H as <-; cbn; apply pcset_eq. }
    rewrite E. destruct (prog p); exact Logic.I. }
  assert (H' : match prog p with
      | OWrite r new force old => write_step s p r new force old (r_pc s p) c
      | ODelete r old => delete_step s p r old (r_pc s p) c
      | OCompress => compress_step s p (r_pc s p) c
      | OLookup r => lookup_step s p r (r_pc s p) c
      end = Some s') by (destruct c; auto; congruence). clear H C. rename H' into H.
  unfold tinv in *. unfold ELOCKED, EEXISTS in *.
  destruct (prog p) as [r new force old|r old| |r] eqn:Eo; auto.
  - (* write *)
    assert (QL : quiet tr p -> (forall x, r_loose s' x = r_loose s x) -> (forall x, r_packed s' x = r_packed s x) ->
       quiet (tr ++ [(p, s, s')]) p).
    { intros Q H1 H2. apply quiet_app; [exact Q|]. now apply same_loose_packed. }
    assert (EE : forall e, e <> 0 -> quiet (tr ++ [(p, s, s')]) p -> not_zero new -> ended (tr ++ [(p, s, s')]) p r old (Some new) e).
    { intros e He Q _. split; [congruence|auto]. }
    assert (AP : forall v, quiet (tr ++ [(p, s, s')]) p ->
      match (match old with None => RNewL | Some o => match cmp_old o v with None => RNewL | Some e => RUnlock e end end) with
      | RDead => True
      | RLinked => did (tr ++ [(p, s, s')]) p r old (Some new)
      | RUnlock e | RDone e => not_zero new -> ended (tr ++ [(p, s, s')]) p r old (Some new) e
      | _ => quiet (tr ++ [(p, s, s')]) p
      end).
    { intros v Q. destruct old as [o|]; [|exact Q]. destruct (cmp_old o v) eqn:E; [|exact Q].
      apply EE; auto. eapply cmp_old_err; eauto. }
    assert (AN : forall v, matches old (val s r) -> v = val s r -> (forall x, val s' x = val s x) -> quiet tr p ->
      match (if same_value new v then RUnlock 0 else RCommit) with
      | RDead => True
      | RLinked => did (tr ++ [(p, s, s')]) p r old (Some new)
      | RUnlock e | RDone e => not_zero new -> ended (tr ++ [(p, s, s')]) p r old (Some new) e
      | _ => quiet (tr ++ [(p, s, s')]) p
      end).
    { intros v Hm Hv Hx Q. destruct (same_value new v) eqn:E.
      - intros Hz. apply same_value_eq in E; [|exact Hz]. split; [|congruence]. intros _.
        apply did_now; [exact Hm|]. rewrite Hx, <- Hv. exact E.
      - now apply quiet_app. }
    destruct (r_pc s p) eqn:Epc; cbn [write_step] in H; try discriminate H; cbn in Ip.
    + destruct c; try discriminate H.
      * destruct force; [|destruct (r_loose s r)]; injection H as <-; cbn; rewrite pcset_eq; auto;
          apply EE; [unfold EEXISTS, ELOCKED; lia|]; apply QL; cbn; auto.
      * injection H as <-; cbn; rewrite pcset_eq; auto. apply EE; [unfold EEXISTS, ELOCKED; lia|]. apply QL; cbn; auto.
    + destruct c; try discriminate H.
      * destruct (r_packed s r); injection H as <-; cbn; rewrite pcset_eq; auto;
          apply EE; [unfold EEXISTS, ELOCKED; lia|]; apply QL; cbn; auto.
      * injection H as <-; cbn; rewrite pcset_eq; auto. apply EE; [unfold EEXISTS, ELOCKED; lia|]. apply QL; cbn; auto.
    + unfold take_lock in H. destruct c; try discriminate H.
      * destruct (r_lock s r); injection H as <-; cbn; rewrite pcset_eq; auto.
        -- apply EE; [unfold ELOCKED; lia|]. apply QL; cbn; auto.
        -- destruct old; apply QL; cbn; auto.
      * injection H as <-; cbn; rewrite pcset_eq; auto. apply EE; [unfold EEXISTS, ELOCKED; lia|]. apply QL; cbn; auto.
    + unfold cmp_loose in H. destruct c; try discriminate H.
      * destruct (r_loose s r) as [v|]; injection H as <-; cbn; rewrite pcset_eq; auto.
        apply (AP (Some v)). apply QL; cbn; auto.
      * injection H as <-; cbn; rewrite pcset_eq; auto. apply EE; [unfold EEXISTS, ELOCKED; lia|]. apply QL; cbn; auto.
    + unfold cmp_packed in H. destruct c; try discriminate H; injection H as <-; cbn; rewrite pcset_eq.
      * apply (AP (option_map Dir (r_packed s r))). apply QL; cbn; auto.
      * apply EE; [unfold EEXISTS, ELOCKED; lia|]. apply QL; cbn; auto.
    + unfold cmp_loose in H. destruct c; try discriminate H.
      * destruct (r_loose s r) as [v|] eqn:El in H; injection H as <-; cbn; rewrite pcset_eq; auto.
        apply (AN (Some v)); auto. unfold val. now rewrite El.
      * injection H as <-; cbn; rewrite pcset_eq; auto. apply EE; [unfold EEXISTS, ELOCKED; lia|]. apply QL; cbn; auto.
    + unfold cmp_packed in H. destruct Ip as [Ip1 Ip2]. destruct c; try discriminate H; injection H as <-; cbn; rewrite pcset_eq.
      * apply (AN (option_map Dir (r_packed s r))); auto. unfold val. now rewrite Ip1.
      * apply EE; [unfold EEXISTS, ELOCKED; lia|]. apply QL; cbn; auto.
    + destruct c; try discriminate H.
      * injection H as <-; cbn; rewrite pcset_eq. intros _. split; [|congruence]. intros _.
        apply did_now; [exact Ip|]. unfold val. cbn. now rewrite nset_eq.
      * destruct (r_loose s r) eqn:El; [discriminate H|]. injection H as <-; cbn; rewrite pcset_eq.
        apply did_now; [exact Ip|]. unfold val. cbn. now rewrite nset_eq.
      * injection H as <-; cbn; rewrite pcset_eq. apply EE; [unfold EEXISTS, ELOCKED; lia|]. apply QL; cbn; auto.
    + destruct c; try discriminate H; injection H as <-; cbn; rewrite pcset_eq; intros _; (split; [|congruence]);
        intros _; now apply did_app.
    + destruct c; try discriminate H; injection H as <-; cbn; rewrite pcset_eq; intros Hz; destruct (T Hz) as [T1 T2];
        (split; [intros He; apply did_app; auto|intros He; apply QL; cbn; auto]).
  - (* delete *)
    assert (QL : quiet tr p -> (forall x, r_loose s' x = r_loose s x) -> (forall x, r_packed s' x = r_packed s x) ->
       quiet (tr ++ [(p, s, s')]) p).
    { intros Q H1 H2. apply quiet_app; [exact Q|]. now apply same_loose_packed. }
    assert (EE : forall e, e <> 0 -> quiet (tr ++ [(p, s, s')]) p -> ended (tr ++ [(p, s, s')]) p r old None e).
    { intros e He Q. split; [congruence|auto]. }
    assert (AP : forall v, quiet (tr ++ [(p, s, s')]) p ->
      match (match old with None => RDReload | Some o => match cmp_old o v with None => RDReload | Some e => RUnlock e end end) with
      | RDead => True
      | RDPUnlock | RDUnlink => (r_loose s' r <> None -> quiet (tr ++ [(p, s, s')]) p) /\ (r_loose s' r = None -> did (tr ++ [(p, s, s')]) p r old None)
      | RUnlock e | RDone e => ended (tr ++ [(p, s, s')]) p r old None e
      | _ => quiet (tr ++ [(p, s, s')]) p
      end).
    { intros v Q. destruct old as [o|]; [|exact Q]. destruct (cmp_old o v) eqn:E; [|exact Q].
      apply EE; auto. eapply cmp_old_err; eauto. }
    destruct (r_pc s p) eqn:Epc; cbn [delete_step] in H; try discriminate H; cbn in Ip.
    + unfold take_lock in H. destruct c; try discriminate H.
      * destruct (r_lock s r); injection H as <-; cbn; rewrite pcset_eq; auto.
        -- apply EE; [unfold ELOCKED; lia|]. apply QL; cbn; auto.
        -- destruct old; apply QL; cbn; auto.
      * injection H as <-; cbn; rewrite pcset_eq; auto. apply EE; [unfold EEXISTS, ELOCKED; lia|]. apply QL; cbn; auto.
    + unfold cmp_loose in H. destruct c; try discriminate H.
      * destruct (r_loose s r) as [v|]; injection H as <-; cbn; rewrite pcset_eq; auto.
        apply (AP (Some v)). apply QL; cbn; auto.
      * injection H as <-; cbn; rewrite pcset_eq; auto. apply EE; [unfold EEXISTS, ELOCKED; lia|]. apply QL; cbn; auto.
    + unfold cmp_packed in H. destruct c; try discriminate H; injection H as <-; cbn; rewrite pcset_eq.
      * apply (AP (option_map Dir (r_packed s r))). apply QL; cbn; auto.
      * apply EE; [unfold EEXISTS, ELOCKED; lia|]. apply QL; cbn; auto.
    + destruct c; try discriminate H.
      * destruct (r_packed s r) eqn:Ek in H; injection H as <-; cbn; rewrite pcset_eq.
        -- apply QL; cbn; auto.
        -- split; [intros _; apply QL; cbn; auto|]. intros El. apply did_now; [exact Ip|].
           unfold val. cbn. now rewrite El, Ek.
      * injection H as <-; cbn; rewrite pcset_eq; auto. apply EE; [unfold EEXISTS, ELOCKED; lia|]. apply QL; cbn; auto.
    + destruct c; try discriminate H.
      * destruct (r_plock s); injection H as <-; cbn; rewrite pcset_eq.
        -- apply EE; [unfold ELOCKED; lia|]. apply QL; cbn; auto.
        -- apply QL; cbn; auto.
      * injection H as <-; cbn; rewrite pcset_eq; auto. apply EE; [unfold EEXISTS, ELOCKED; lia|]. apply QL; cbn; auto.
    + destruct Ip as (P1 & P2 & P3).
      assert (V : forall s2, r_loose s2 = r_loose s -> r_packed s2 = c0 ->
         (r_loose s r <> None -> forall x, val s2 x = val s x) /\ (r_loose s r = None -> val s2 r = None)).
      { intros s2 H1 H2. unfold val. rewrite H1, H2. split.
        - intros Hl x. destruct (r_loose s x) eqn:El; [reflexivity|]. rewrite P3.
          destruct (leqb_dec_cases x r) as [[-> _]|[_ ->]]; [congruence|reflexivity].
        - intros Hl. rewrite Hl, P3, leqb_refl'. reflexivity. }
      destruct c; try discriminate H.
      * injection H as <-; cbn; rewrite pcset_eq. match goal with |- context [(p, s, ?x)] => destruct (V x eq_refl eq_refl) as [V1 V2] end.
        split; intros Hl; [apply quiet_app; auto|apply did_now; auto].
      * injection H as <-; cbn; rewrite pcset_eq. match goal with |- context [(p, s, ?x)] => destruct (V x eq_refl eq_refl) as [V1 V2] end.
        split; intros Hl; [apply quiet_app; auto|apply did_now; auto].
      * injection H as <-; cbn; rewrite pcset_eq; auto. apply EE; [unfold EEXISTS, ELOCKED; lia|]. apply QL; cbn; auto.
    + destruct T as [T1 T2]. destruct c; try discriminate H; injection H as <-; cbn; rewrite pcset_eq;
        (split; [intros Hl; apply QL; cbn; auto|intros Hl; apply did_app; auto]).
    + destruct T as [T1 T2]. destruct Ip as [P1 P2]. destruct c; try discriminate H.
      * injection H as <-; cbn; rewrite pcset_eq. split; [|congruence]. intros _.
        destruct (r_loose s r) eqn:El.
        -- apply did_now; [apply P2; discriminate|]. unfold val. cbn. now rewrite nset_eq, P1.
        -- apply did_app. auto.
      * destruct (r_loose s r) eqn:El in H; [|discriminate H]. injection H as <-; cbn; rewrite pcset_eq.
        apply EE; [unfold EEXISTS, ELOCKED; lia|]. apply QL; cbn; auto. apply T1. congruence.
    + destruct T as [T1 T2]. destruct c; try discriminate H; injection H as <-; cbn; rewrite pcset_eq;
        (split; [intros He; apply did_app; auto|intros He; apply QL; cbn; auto]).
Qed.

Lemma exec_tinv s0 tr s : rinit s0 -> rexec true prog s0 tr s -> forall p, tinv tr s p.
Proof.
  intros H0 E. induction E as [|tr s p c s' E IH D Hs].
  - intros p. unfold tinv. rewrite H0. destruct (prog p); auto; intros a b [].
  - assert (I := exec_inv s0 tr s H0 E). assert (F := step_frame prog s p c s' I Hs).
    intros q. destruct (Nat.eq_dec q p) as [-> | Hq]; [eapply tinv_self; eauto|].
    apply tinv_other; auto; [exact (fr_oth _ _ _ _ F q Hq)|].
    intros r Hh. destruct (fr_loose _ _ _ _ F r) as [X|X]; [exact X|].
    exfalso. apply Hq. exact (i_ex _ _ I q p r Hh X).
Qed.

End S.
