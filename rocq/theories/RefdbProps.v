(** C19, C20, C42, C43: conditional reference updates, packing, concurrent
    lookups. *)
From Verif Require Import Base Str RefdbModel RefdbSpec RefdbProofs RefdbTrace.

(** *** C19: conditional updates are compare-and-swap. *)

(** Whenever a step changes the value of some reference, the process making the
    step is executing a write or delete of that very reference, the value up to
    then is one its caller expected, and the new value is the one it asked for:
    nothing else ever changes a reference. *)
Theorem refdb_cas prog s0 tr s : rinit s0 -> rexec true prog s0 tr s ->
  forall p a b x, In (p, a, b) tr -> val b x <> val a x ->
  exists old nv, intent (prog p) = Some (x, old, nv) /\ matches old (val a x) /\ val b x = nv.
Proof.
  intros H0 E. induction E as [|tr s p c s' E IH D Hs]; intros q a b x Hin Hv; [destruct Hin|].
  apply in_app_or in Hin as [Hin|[[= <- <- <-]|[]]]; [eapply IH; eauto|].
  assert (F := step_frame prog s p c s' (exec_inv prog s0 tr s H0 E) Hs).
  destruct (fr_val _ _ _ _ F x) as [X|(old & nv & A & B & C & _)]; [congruence|].
  exists old, nv. auto.
Qed.

(** A write or delete that returned success took effect at one of its steps: the
    value was one it expected, and right after the step it is the one asked for
    (writing the all-zero id is excluded: the code takes it for "missing"). *)
Theorem refdb_success prog s0 tr s p r old nv : rinit s0 -> rexec true prog s0 tr s ->
  intent (prog p) = Some (r, old, nv) -> (forall v, nv = Some v -> not_zero v) ->
  r_pc s p = RDone 0 ->
  exists a b, In (p, a, b) tr /\ matches old (val a r) /\ val b r = nv.
Proof.
  intros H0 E Hi Hz Hp. assert (T := exec_tinv prog s0 tr s H0 E p). unfold tinv in T. rewrite Hp in T.
  destruct (prog p) as [r' new force old'|r' old'| |r']; try discriminate Hi; injection Hi as <- <- <-.
  - exact (proj1 (T (Hz new eq_refl)) eq_refl).
  - exact (proj1 T eq_refl).
Qed.

(** One that returned an error changed no reference. *)
Theorem refdb_failure prog s0 tr s p r old nv e : rinit s0 -> rexec true prog s0 tr s ->
  intent (prog p) = Some (r, old, nv) -> (forall v, nv = Some v -> not_zero v) ->
  r_pc s p = RDone e -> e <> 0 ->
  forall a b, In (p, a, b) tr -> forall x, val b x = val a x.
Proof.
  intros H0 E Hi Hz Hp He. assert (T := exec_tinv prog s0 tr s H0 E p). unfold tinv in T. rewrite Hp in T.
  destruct (prog p) as [r' new force old'|r' old'| |r']; try discriminate Hi; injection Hi as <- <- <-.
  - exact (proj2 (T (Hz new eq_refl)) He).
  - exact (proj2 T He).
Qed.

(** The reference's lock: two processes never hold it at once. *)
Theorem refdb_lock_exclusive prog s0 tr s p q r : rinit s0 -> rexec true prog s0 tr s ->
  holds_lock prog s p r -> holds_lock prog s q r -> p = q.
Proof. intros H0 E. exact (i_ex _ _ (exec_inv prog s0 tr s H0 E) p q r). Qed.

(** *** C20: packing changes no reference, at no step, whatever else runs. *)
Theorem refdb_packing_transparent prog s0 tr s p : rinit s0 -> rexec true prog s0 tr s ->
  prog p = OCompress -> forall a b, In (p, a, b) tr -> forall x, val b x = val a x.
Proof.
  intros H0 E Hp a b Hin x.
  assert (D : val b x = val a x \/ val b x <> val a x).
  { destruct (val b x) as [[u|u]|], (val a x) as [[w|w]|]; try (right; discriminate); auto;
      destruct (list_eq_dec Z.eq_dec u w); [left|right|left|right]; congruence. }
  destruct D as [D|D]; [exact D|].
  destruct (refdb_cas prog s0 tr s H0 E p a b x Hin D) as (old & nv & X & _). rewrite Hp in X. discriminate.
Qed.

(** Lookups change nothing either; and when only packing and lookups run, every
    reference keeps its value from beginning to end. *)
Theorem refdb_packing_only prog s0 tr s : rinit s0 -> rexec true prog s0 tr s ->
  (forall p, prog p = OCompress \/ exists r, prog p = OLookup r) ->
  forall x, val s x = val s0 x.
Proof.
  intros H0 E Hall. induction E as [|tr s p c s' E IH D Hs]; intros x; [reflexivity|].
  rewrite <- (IH x). assert (F := step_frame prog s p c s' (exec_inv prog s0 tr s H0 E) Hs).
  destruct (fr_val _ _ _ _ F x) as [X|(old & nv & A & _)]; [exact X|].
  destruct (Hall p) as [X|[r X]]; rewrite X in A; discriminate.
Qed.

(** *** C42: a lookup running beside writers and a packer returns a value the
    reference had during the lookup. *)
Section R.
Variable prog : nat -> rop.
Variable r : rname.
Hypothesis ND : forall q old, prog q <> ODelete r old.

Definition acts (tr : list revent) (p : nat) : Prop := exists s s', In (p, s, s') tr.

Lemma during_app tr p v e : during tr p r v -> during (tr ++ [e]) p r v.
Proof.
  intros (t1 & a & b & t2 & -> & H). exists t1, a, b, (t2 ++ [e]). split; [now rewrite <- app_assoc|].
  destruct H as [H|[H|(q & x & y & Hin & H)]]; auto. right. right. exists q, x, y. split; [apply in_or_app; now left|exact H].
Qed.
Lemma during_acts tr p v : during tr p r v -> acts tr p.
Proof. intros (t1 & a & b & t2 & -> & _). exists a, b. apply in_or_app. right. now left. Qed.
Lemma during_new tr p q s s' v : acts tr p -> val s' r = v -> during (tr ++ [(q, s, s')]) p r v.
Proof.
  intros (a & b & Hin) Hv. apply in_split in Hin as (t1 & t2 & ->).
  exists t1, a, b, (t2 ++ [(q, s, s')]). split; [now rewrite <- app_assoc|].
  right. right. exists q, s, s'. split; [apply in_or_app; right; now left|exact Hv].
Qed.

Definition rd (tr : list revent) (s : rst) (p : nat) : Prop :=
  match r_pc s p with
  | RLkP => during tr p r (option_map Dir (r_packed s r)) /\
      forall q t fl, prog q = OCompress ->
        (r_pc s q = RCLoad t fl \/ r_pc s q = RCPLock t fl \/ r_pc s q = RCPWrite t fl) -> fl r = true ->
        during tr p r (option_map Dir (t r))
  | RFound v => during tr p r v
  | _ => True
  end.

Lemma rd_step tr s p q c s' : prog p = OLookup r -> inv prog s -> rd tr s p -> rstep s q prog c = Some s' ->
  rd (tr ++ [(q, s, s')]) s' p.
Proof.
  intros Hp I R H. assert (F := step_frame prog s q c s' I H).
  assert (FV := fr_val _ _ _ _ F r).
  destruct (Nat.eq_dec q p) as [-> | Hq].
  - (* the reader itself *)
    unfold rstep in H. rewrite Hp in H.
    assert (C : c = RCrash \/ c <> RCrash) by (destruct c; auto; right; discriminate).
    destruct C as [-> | C].
    { unfold rd. assert (E : r_pc s' p = RDead).
      { destruct (r_pc s p); try discriminate H; injection H as <-; cbn; apply pcset_eq. }
      now rewrite E. }
    assert (H' : lookup_step s p r (r_pc s p) c = Some s') by (destruct c; auto; congruence). clear H C.
    unfold rd in *. destruct (r_pc s p) eqn:Epc; destruct c; cbn [lookup_step] in H'; try discriminate H'.
    + destruct (r_loose s r) as [v|] eqn:El; injection H' as <-; cbn; rewrite pcset_eq.
      * exists tr, s. eexists. exists []. split; [reflexivity|]. left. unfold val. now rewrite El.
      * split.
        -- exists tr, s. eexists. exists []. split; [reflexivity|]. left. unfold val. now rewrite El.
        -- intros q t fl Hc Hpc Hf. exfalso.
           assert (Hq : q <> p) by congruence. rewrite pcset_neq in Hpc by auto.
           assert (Iq := i_pc _ _ I q). rewrite Hc in Iq.
           destruct Hpc as [E|[E|E]]; rewrite E in Iq; cbn in Iq; now destruct (proj1 (Iq r) Hf).
    + injection H' as <-; cbn; rewrite pcset_eq; exact Logic.I.
    + injection H' as <-; cbn; rewrite pcset_eq. apply during_app. apply R.
    + injection H' as <-; cbn; rewrite pcset_eq; exact Logic.I.
  - (* another process *)
    assert (E := fr_oth _ _ _ _ F p (not_eq_sym Hq)). unfold rd in *. rewrite E.
    destruct (r_pc s p) eqn:Epc; auto; [|now apply during_app].
    destruct R as [R1 R2].
    assert (Ha : acts tr p) by (eapply during_acts; eauto).
    assert (Iq := i_pc _ _ I q).
    (* other packers' tables are untouched *)
    assert (OT : forall q' t fl, q' <> q -> prog q' = OCompress ->
        (r_pc s' q' = RCLoad t fl \/ r_pc s' q' = RCPLock t fl \/ r_pc s' q' = RCPWrite t fl) -> fl r = true ->
        during (tr ++ [(q, s, s')]) p r (option_map Dir (t r))).
    { intros q' t fl Hq' Hc Hpc Hf. rewrite (fr_oth _ _ _ _ F q' Hq') in Hpc. apply during_app. eauto. }
    destruct (prog q) as [r' new force old|r' old| |r'] eqn:Eo.
    1,2,4: (split; [|intros q' t fl Hc Hpc Hf; apply (OT q' t fl); auto; congruence]);
      assert (P : r_packed s' r = r_packed s r); [|rewrite P; now apply during_app].
    + destruct (fr_packed _ _ _ _ F) as [X|[[X _]|(x & [[o X] _] & _)]]; [apply X|congruence|congruence].
    + destruct (fr_packed _ _ _ _ F) as [X|[[X _]|(x & [[o X] _] & _ & Y)]]; [apply X|congruence|].
      rewrite Y. destruct (leqb_dec_cases r x) as [[-> _]|[_ ->]]; [|reflexivity]. now apply ND in X.
    + destruct (fr_packed _ _ _ _ F) as [X|[[X _]|(x & [[o X] _] & _)]]; [apply X|congruence|congruence].
    + (* a packer *)
      unfold rstep in H. rewrite Eo in H.
      assert (C : c = RCrash \/ c <> RCrash) by (destruct c; auto; right; discriminate).
      destruct C as [-> | C].
      { assert (Hs' : s' = mkr (r_loose s) (r_lock s) (r_packed s) (r_plock s) (pcset (r_pc s) q RDead)).
        { destruct (r_pc s q); try discriminate H; congruence. }
        split; [subst s'; cbn; now apply during_app|].
        intros q' t fl Hc Hpc Hf. destruct (Nat.eq_dec q' q) as [-> | Hn]; [|now apply (OT q' t fl)].
        exfalso. rewrite Hs' in Hpc. cbn in Hpc. rewrite pcset_eq in Hpc. destruct Hpc as [X|[X|X]]; discriminate. }
      assert (H' : compress_step s q (r_pc s q) c = Some s') by (destruct c; auto; congruence). clear H C.
      assert (R2q := fun t fl => R2 q t fl Eo).
      assert (OTq := fun q' t fl (Hn : q' <> q) => OT q' t fl Hn).
      (* it is enough to know what it did to packed-refs and to its own table *)
      assert (Suff : (during (tr ++ [(q, s, s')]) p r (option_map Dir (r_packed s' r))) ->
          (forall t fl, (r_pc s' q = RCLoad t fl \/ r_pc s' q = RCPLock t fl \/ r_pc s' q = RCPWrite t fl) -> fl r = true ->
             during (tr ++ [(q, s, s')]) p r (option_map Dir (t r))) ->
          during (tr ++ [(q, s, s')]) p r (option_map Dir (r_packed s' r)) /\
          (forall q' t fl, prog q' = OCompress ->
             (r_pc s' q' = RCLoad t fl \/ r_pc s' q' = RCPLock t fl \/ r_pc s' q' = RCPWrite t fl) -> fl r = true ->
             during (tr ++ [(q, s, s')]) p r (option_map Dir (t r)))).
      { intros A B. split; [exact A|]. intros q' t fl Hc Hpc Hf.
        destruct (Nat.eq_dec q' q) as [-> | Hn]; [now apply (B t fl)|now apply (OT q' t fl)]. }
      clear OT OTq.
      assert (Same : forall pc', s' = mkr (r_loose s) (r_lock s) (r_packed s) (r_plock s) (pcset (r_pc s) q pc') ->
         (forall t fl, (pc' = RCLoad t fl \/ pc' = RCPLock t fl \/ pc' = RCPWrite t fl) -> fl r = true ->
             during (tr ++ [(q, s, s')]) p r (option_map Dir (t r))) ->
         during (tr ++ [(q, s, s')]) p r (option_map Dir (r_packed s' r)) /\
          (forall q' t fl, prog q' = OCompress ->
             (r_pc s' q' = RCLoad t fl \/ r_pc s' q' = RCPLock t fl \/ r_pc s' q' = RCPWrite t fl) -> fl r = true ->
             during (tr ++ [(q, s, s')]) p r (option_map Dir (t r)))).
      { intros pc' Hs' B. apply Suff; [subst s'; cbn; now apply during_app|].
        intros t fl Hpc Hf. apply (B t fl); [|exact Hf]. rewrite Hs' in Hpc. cbn in Hpc. now rewrite pcset_eq in Hpc. }
      assert (SameL : forall a b d pc', s' = mkr a b (r_packed s) d (pcset (r_pc s) q pc') ->
         (forall t fl, (pc' = RCLoad t fl \/ pc' = RCPLock t fl \/ pc' = RCPWrite t fl) -> fl r = true ->
             during (tr ++ [(q, s, s')]) p r (option_map Dir (t r))) ->
         during (tr ++ [(q, s, s')]) p r (option_map Dir (r_packed s' r)) /\
          (forall q' t fl, prog q' = OCompress ->
             (r_pc s' q' = RCLoad t fl \/ r_pc s' q' = RCPLock t fl \/ r_pc s' q' = RCPWrite t fl) -> fl r = true ->
             during (tr ++ [(q, s, s')]) p r (option_map Dir (t r)))).
      { intros a b d pc' Hs' B. apply Suff; [subst s'; cbn; now apply during_app|].
        intros t fl Hpc Hf. apply (B t fl); [|exact Hf]. rewrite Hs' in Hpc. cbn in Hpc. now rewrite pcset_eq in Hpc. }
      assert (NoT : forall pc', (forall t fl, pc' <> RCLoad t fl /\ pc' <> RCPLock t fl /\ pc' <> RCPWrite t fl) ->
        forall t fl, (pc' = RCLoad t fl \/ pc' = RCPLock t fl \/ pc' = RCPWrite t fl) -> fl r = true ->
             during (tr ++ [(q, s, s')]) p r (option_map Dir (t r))).
      { intros pc' Hn t fl Hpc. destruct (Hn t fl) as (A & B & C). destruct Hpc as [X|[X|X]]; congruence. }
      destruct (r_pc s q) eqn:Eq; destruct c; cbn [compress_step] in H'; try discriminate H'; cbn in Iq.
      * injection H' as H'. apply (Same _ (eq_sym H')). intros t fl [X|[X|X]]; try discriminate.
        injection X as <- <-. discriminate.
      * injection H' as H'. apply (Same _ (eq_sym H')). apply NoT. intros t fl. repeat split; discriminate.
      * injection H' as H'. apply (Same _ (eq_sym H')). intros t fl' [X|[X|X]] Hf; try discriminate.
        injection X as <- <-. apply during_app. eapply R2q; eauto.
      * injection H' as H'. apply (Same _ (eq_sym H')). apply NoT. intros t fl'. repeat split; discriminate.
      * (* loads a loose reference *)
        destruct (r_loose s r0) as [[v|v]|] eqn:El; injection H' as H'; apply (Same _ (eq_sym H'));
          intros t fl' [X|[X|X]] Hf; try discriminate; injection X as <- <-.
        -- destruct (leqb_dec_cases r r0) as [[<- _]|[Hn _]].
           ++ rewrite nset_eq. apply during_new; [exact Ha|]. rewrite <- H'. unfold val. cbn. now rewrite El.
           ++ rewrite nset_neq in Hf by auto. rewrite nset_neq by auto. apply during_app. eapply R2q; eauto.
        -- apply during_app. eapply R2q; eauto.
        -- apply during_app. eapply R2q; eauto.
      * destruct (r_plock s) eqn:Epl in H'; injection H' as H'.
        -- apply (SameL _ _ _ _ (eq_sym H')). apply NoT. intros t fl'. repeat split; discriminate.
        -- apply (SameL _ _ _ _ (eq_sym H')). intros t fl' [X|[X|X]] Hf; try discriminate.
           injection X as <- <-. apply during_app. eapply R2q; eauto.
      * injection H' as H'. apply (Same _ (eq_sym H')). apply NoT. intros t fl'. repeat split; discriminate.
      * (* publishes the new packed-refs *)
        injection H' as H'. apply Suff.
        -- rewrite <- H'. cbn. rewrite H'. apply during_app. destruct (fl r) eqn:Ef; [eapply R2q; eauto|].
           rewrite (proj2 (Iq r) Ef). exact R1.
        -- rewrite <- H'. cbn. rewrite pcset_eq. rewrite H'. apply NoT. intros t fl'. repeat split; discriminate.
      * injection H' as H'. apply Suff.
        -- rewrite <- H'. cbn. rewrite H'. apply during_app. destruct (fl r) eqn:Ef; [eapply R2q; eauto|].
           rewrite (proj2 (Iq r) Ef). exact R1.
        -- rewrite <- H'. cbn. rewrite pcset_eq. rewrite H'. apply NoT. intros t fl'. repeat split; discriminate.
      * injection H' as H'. apply (Same _ (eq_sym H')). apply NoT. intros t fl'. repeat split; discriminate.
      * injection H' as H'. apply (SameL _ _ _ _ (eq_sym H')). apply NoT. intros t fl'. repeat split; discriminate.
      * injection H' as H'. apply (Same _ (eq_sym H')). apply NoT. intros t fl'. repeat split; discriminate.
      * injection H' as H'. apply (Same _ (eq_sym H')). apply NoT. intros t fl'. repeat split; discriminate.
      * destruct (fl r0); [|discriminate H']. destruct (r_lock s r0) eqn:El in H'; injection H' as H'.
        -- apply (Same _ (eq_sym H')). apply NoT. intros t fl'. repeat split; discriminate.
        -- apply (SameL _ _ _ _ (eq_sym H')). apply NoT. intros t fl'. repeat split; discriminate.
      * destruct (r_loose s r0) as [[v|v]|], (c0 r0) as [w|]; try destruct (leqb v w); injection H' as H';
          apply (Same _ (eq_sym H')); apply NoT; intros t fl'; repeat split; discriminate.
      * injection H' as H'. apply (SameL _ _ _ _ (eq_sym H')). apply NoT. intros t fl'. repeat split; discriminate.
      * injection H' as H'. apply (Same _ (eq_sym H')). apply NoT. intros t fl'. repeat split; discriminate.
      * injection H' as H'. apply (SameL _ _ _ _ (eq_sym H')). apply NoT. intros t fl'. repeat split; discriminate.
      * injection H' as H'. apply (Same _ (eq_sym H')). apply NoT. intros t fl'. repeat split; discriminate.
      * injection H' as H'. apply (SameL _ _ _ _ (eq_sym H')). apply NoT. intros t fl'. repeat split; discriminate.
      * injection H' as H'. apply (Same _ (eq_sym H')). apply NoT. intros t fl'. repeat split; discriminate.
Qed.
End R.

Theorem refdb_lookup_linearizable prog s0 tr s p r v : rinit s0 -> rexec true prog s0 tr s ->
  (forall q old, prog q <> ODelete r old) ->
  prog p = OLookup r -> r_pc s p = RFound v -> during tr p r v.
Proof.
  intros H0 E ND Hp Hf.
  assert (R : rd prog r tr s p).
  { clear Hf. induction E as [|tr s q c s' E IH D Hs]; [unfold rd; rewrite H0; exact Logic.I|].
    eapply rd_step; eauto. eapply exec_inv; eauto. }
  unfold rd in R. rewrite Hf in R. exact R.
Qed.

(** *** Concrete executions: non-vacuity, and what happens without the
    discipline. *)
Fixpoint rrun (prog : nat -> rop) (s : rst) (l : list (nat * rchoice)) : option (list revent * rst) :=
  match l with
  | [] => Some ([], s)
  | (p, c) :: k =>
      match rstep s p prog c with
      | Some s' => match rrun prog s' k with Some (tr, e) => Some ((p, s, s') :: tr, e) | None => None end
      | None => None
      end
  end.
Lemma rrun_exec g prog (G : forall s p, g = true -> discipline prog s p) :
  forall l s0 tr s tr' s', rexec g prog s0 tr s -> rrun prog s l = Some (tr', s') -> rexec g prog s0 (tr ++ tr') s'.
Proof.
  induction l as [|[p c] l IH]; cbn; intros s0 tr s tr' s' E H.
  - injection H as <- <-. now rewrite app_nil_r.
  - destruct (rstep s p prog c) as [s1|] eqn:Es; [|discriminate].
    destruct (rrun prog s1 l) as [[t e]|] eqn:Er; [|discriminate]. injection H as <- <-.
    replace (tr ++ (p, s, s1) :: t) with ((tr ++ [(p, s, s1)]) ++ t) by (rewrite <- app_assoc; reflexivity).
    eapply IH; [|exact Er]. econstructor; eauto.
Qed.
Lemma no_discipline prog s p : false = true -> discipline prog s p.
Proof. discriminate. Qed.

Definition nA := bs "refs/heads/a".
Definition nB := bs "refs/heads/b".
Definition o1 : roid := [1].
Definition o2 : roid := [2].
Definition fs0 (loose : rname -> option rv) (packed : rname -> option roid) : rst :=
  mkr loose (fun _ => false) packed false (fun _ => RIdle).
Definition empty {A} : rname -> option A := fun _ => None.
Definition goes (p n : nat) : list (nat * rchoice) := repeat (p, RGo) n.

(** A complete compare-and-swap race: two writers expecting o1; one wins, the
    other is told GIT_EMODIFIED; a packer runs in between. *)
Definition ex_prog (p : nat) : rop :=
  match p with
  | 0%nat => OWrite nA (Dir o2) true (Some (Dir o1))
  | 1%nat => OWrite nA (Dir [3]) true (Some (Dir o1))
  | 2%nat => OCompress
  | _ => OLookup nA
  end.
Example ex_cas :
  match rrun ex_prog (fs0 (nset empty nA (Some (Dir o1))) empty)
     (goes 2 1 ++ [(2%nat, RName nA)] ++ goes 2 3 ++ [(2%nat, RName nA)] ++ goes 2 4
      ++ goes 0 3 ++ goes 1 2 ++ goes 0 4 ++ goes 3 1) with
  | Some (tr, s) => (r_pc s 0%nat, r_pc s 1%nat, r_pc s 2%nat, r_pc s 3%nat, val s nA, r_packed s nA)
  | None => (RIdle, RIdle, RIdle, RIdle, None, None)
  end = (RDone 0, RDone ELOCKED, RDone 0, RFound (Some (Dir o2)), Some (Dir o2), Some o1).
Proof. vm_compute. reflexivity. Qed.
Lemma single_packer_discipline prog q0 : (forall q, prog q = OCompress -> q = q0) -> (forall q r old, prog q <> ODelete r old) ->
  forall s p, true = true -> discipline prog s p.
Proof.
  intros H1 H2 s p _ Hi. split.
  - intros Hc q. split.
    + intros [A B]. assert (q = p) by (rewrite (H1 _ A), (H1 _ Hc); reflexivity). subst q. rewrite Hi in B. exact B.
    + intros r [[old A] _]. now apply H2 in A.
  - intros r old A. now apply H2 in A.
Qed.
Example ex_cas_disciplined : exists tr s, rexec true ex_prog (fs0 (nset empty nA (Some (Dir o1))) empty) tr s /\
  r_pc s 0%nat = RDone 0 /\ r_pc s 3%nat = RFound (Some (Dir o2)).
Proof.
  pose proof (rexec_nil true ex_prog (fs0 (nset empty nA (Some (Dir o1))) empty)) as E0.
  assert (G : forall s p, true = true -> discipline ex_prog s p).
  { apply (single_packer_discipline ex_prog 2).
    - intros [|[|[|q]]]; cbn; congruence.
    - intros [|[|[|q]]]; cbn; congruence. }
  destruct (rrun ex_prog (fs0 (nset empty nA (Some (Dir o1))) empty)
     (goes 2 1 ++ [(2%nat, RName nA)] ++ goes 2 3 ++ [(2%nat, RName nA)] ++ goes 2 4
      ++ goes 0 3 ++ goes 1 2 ++ goes 0 4 ++ goes 3 1)) as [[tr s]|] eqn:Er.
  - exists tr, s. split; [exact (rrun_exec true ex_prog G _ _ _ _ _ _ E0 Er)|].
    pose proof ex_cas as X. rewrite Er in X. injection X as A _ _ B _ _. auto.
  - pose proof ex_cas as X. rewrite Er in X. discriminate.
Qed.

(** Run [l], observe [obs] of the final state. *)
Definition obs_run {A} (prog : nat -> rop) (s : rst) (l : list (nat * rchoice)) (obs : list revent -> rst -> A) : option A :=
  match rrun prog s l with Some (tr, e) => Some (obs tr e) | None => None end.
Lemma obs_exec {A} g prog (G : forall s p, g = true -> discipline prog s p) s l (obs : list revent -> rst -> A) x :
  obs_run prog s l obs = Some x -> exists tr e, rexec g prog s tr e /\ obs tr e = x.
Proof.
  unfold obs_run. intros H. destruct (rrun prog s l) as [[tr e]|] eqn:Er; [|discriminate]. injection H as <-.
  exists tr, e. split; [|reflexivity].
  exact (rrun_exec g prog G _ _ _ _ _ _ (rexec_nil g prog s) Er).
Qed.
Ltac run_it prog s l g G o v :=
  let X := fresh "X" in
  assert (X : obs_run prog s l o = Some v) by (vm_compute; reflexivity);
  destruct (obs_exec g prog G s l o v X) as (tr & e & E & Y);
  exists tr, e; split; [exact E|]; injection Y; auto.

(** Two deletions of different packed references: packed-refs is read before
    its lock is taken, so the second writer brings the first reference back. *)
Definition del_prog (p : nat) : rop := match p with 0%nat => ODelete nA None | _ => ODelete nB None end.
Definition packedAB : rname -> option roid := nset (nset empty nA (Some o1)) nB (Some o2).
Theorem refdb_delete_delete_refuted : exists tr s, rexec false del_prog (fs0 empty packedAB) tr s /\
  r_pc s 0%nat = RDone 0 /\ r_pc s 1%nat = RDone 0 /\ val s nA = Some (Dir o1).
Proof.
  run_it del_prog (fs0 empty packedAB) (goes 0 2 ++ goes 1 2 ++ goes 0 4 ++ goes 1 4) false (no_discipline del_prog)
    (fun (_ : list revent) e => (r_pc e 0%nat, r_pc e 1%nat, val e nA)) (RDone 0, RDone 0, Some (Dir o1)).
Qed.

(** A deletion overlapping with packing: a reference nobody touched is lost. *)
Definition pd_prog (p : nat) : rop := match p with 0%nat => OCompress | _ => ODelete nB None end.
Theorem refdb_pack_delete_refuted : exists tr s,
  rexec false pd_prog (fs0 (nset empty nA (Some (Dir o1))) (nset empty nB (Some o2))) tr s /\
  r_pc s 0%nat = RDone 0 /\ r_pc s 1%nat = RDone 0 /\ val s nA = None.
Proof.
  run_it pd_prog (fs0 (nset empty nA (Some (Dir o1))) (nset empty nB (Some o2)))
    (goes 1 2 ++ goes 0 1 ++ [(0%nat, RName nA)] ++ goes 0 3 ++ [(0%nat, RName nA)] ++ goes 0 4 ++ goes 1 4) false (no_discipline pd_prog)
    (fun (_ : list revent) e => (r_pc e 0%nat, r_pc e 1%nat, val e nA)) (RDone 0, RDone 0, @None rv).
Qed.

(** Overlapping packers: a successful conditional update is undone. *)
Definition pp_prog (p : nat) : rop :=
  match p with 1%nat => OWrite nA (Dir o2) true (Some (Dir o1)) | _ => OCompress end.
Definition pack_all (p : nat) : list (nat * rchoice) :=
  goes p 1 ++ [(p, RName nA)] ++ goes p 3 ++ [(p, RName nA)] ++ goes p 4.
Theorem refdb_pack_pack_refuted : exists tr s,
  rexec false pp_prog (fs0 (nset empty nA (Some (Dir o1))) empty) tr s /\
  r_pc s 1%nat = RDone 0 /\ val s nA = Some (Dir o1).
Proof.
  run_it pp_prog (fs0 (nset empty nA (Some (Dir o1))) empty)
    (goes 0 1 ++ [(0%nat, RName nA)] ++ pack_all 2 ++ goes 1 7 ++ pack_all 3 ++ goes 0 3) false (no_discipline pp_prog)
    (fun (_ : list revent) e => (r_pc e 1%nat, val e nA)) (RDone 0, Some (Dir o1)).
Qed.

(** Creating a reference without force is not atomic: the existence check is
    made before the lock is taken, so two creations can both succeed and the
    second overwrites the first. *)
Definition cc_prog (p : nat) : rop :=
  match p with 0%nat => OWrite nA (Dir o1) false None | _ => OWrite nA (Dir o2) false None end.
Theorem refdb_create_no_force_refuted : exists tr s, rexec true cc_prog (fs0 empty empty) tr s /\
  r_pc s 0%nat = RDone 0 /\ r_pc s 1%nat = RDone 0 /\ val s nA = Some (Dir o2).
Proof.
  assert (G : forall s p, true = true -> discipline cc_prog s p).
  { apply (single_packer_discipline cc_prog 0); intros [|q]; cbn; congruence. }
  run_it cc_prog (fs0 empty empty) (goes 0 2 ++ goes 1 2 ++ goes 0 4 ++ goes 1 3) true G
    (fun (_ : list revent) e => (r_pc e 0%nat, r_pc e 1%nat, val e nA)) (RDone 0, RDone 0, Some (Dir o2)).
Qed.

(** A lookup beside a write and a deletion can miss a reference that exists at
    every moment: it finds no loose file, the reference gets a new loose value,
    the deletion removes the packed one, and the lookup then reads packed-refs. *)
Definition ld_prog (p : nat) : rop :=
  match p with 0%nat => OLookup nA | 1%nat => OWrite nA (Dir o2) true None | 2%nat => ODelete nA None | _ => OLookup nB end.
Theorem refdb_lookup_delete_refuted : exists tr s, rexec true ld_prog (fs0 empty (nset empty nA (Some o1))) tr s /\
  r_pc s 0%nat = RFound None /\ ~ during tr 0%nat nA None.
Proof.
  assert (G : forall s p, true = true -> discipline ld_prog s p).
  { intros s p _ Hi.
    assert (D : forall q r old, ld_prog q = ODelete r old -> q = 2%nat) by (intros [|[|[|q]]]; cbn; congruence).
    assert (C : forall q, ld_prog q <> OCompress) by (intros [|[|[|q]]]; cbn; congruence).
    split; [intros X; now apply C in X|]. intros r old X q. split; [intros [Y _]; now apply C in Y|].
    intros r' [[old' Y] Z]. apply D in X. apply D in Y. subst p q. rewrite Hi in Z. destruct Z. }
  set (s0 := fs0 empty (nset empty nA (Some o1))).
  set (l := goes 0 1 ++ goes 1 5 ++ goes 2 4 ++ goes 0 1).
  set (chk := fun ev : revent => match val (snd (fst ev)) nA, val (snd ev) nA with Some _, Some _ => true | _, _ => false end).
  assert (X : obs_run ld_prog s0 l (fun tr e => (r_pc e 0%nat, forallb chk tr)) = Some (RFound None, true)) by (vm_compute; reflexivity).
  destruct (obs_exec true ld_prog G s0 l _ _ X) as (tr & e & E & Y). injection Y as Y K.
  exists tr, e. split; [exact E|]. clear E X. split; [exact Y|].
  rewrite forallb_forall in K.
  assert (K2 : forall q a b, In (q, a, b) tr -> val a nA <> None /\ val b nA <> None).
  { intros q a b Hin. specialize (K _ Hin). unfold chk in K. cbn [fst snd] in K. destruct (val a nA), (val b nA); try discriminate K; split; discriminate. }
  intros (t1 & a & b & t2 & -> & H).
  assert (Hin : In (0%nat, a, b) (t1 ++ (0%nat, a, b) :: t2)) by (apply in_or_app; right; now left).
  destruct (K2 _ _ _ Hin) as [N1 N2]. destruct H as [H|[H|(q & x & y & Hin2 & H)]]; try congruence.
  assert (Hin3 : In (q, x, y) (t1 ++ (0%nat, a, b) :: t2)) by (apply in_or_app; right; now right).
  destruct (K2 _ _ _ Hin3). congruence.
Qed.
Print Assumptions refdb_cas.
Print Assumptions refdb_lookup_linearizable.
