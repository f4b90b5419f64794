From Verif Require Import Base Str RefdbModel RefdbSpec.

Lemma leqb_refl' a : leqb a a = true.
Proof. unfold leqb. destruct (list_eq_dec Z.eq_dec a a); congruence. Qed.
Lemma leqb_true a b : leqb a b = true -> a = b.
Proof. unfold leqb. destruct (list_eq_dec Z.eq_dec a b); congruence. Qed.
Lemma leqb_false a b : leqb a b = false -> a <> b.
Proof. unfold leqb. destruct (list_eq_dec Z.eq_dec a b); congruence. Qed.
Lemma nset_eq {A} (f : rname -> A) r x : nset f r x r = x.
Proof. unfold nset. now rewrite leqb_refl'. Qed.
Lemma nset_neq {A} (f : rname -> A) r q x : q <> r -> nset f r x q = f q.
Proof. unfold nset. intros H. destruct (leqb q r) eqn:E; [apply leqb_true in E; congruence|reflexivity]. Qed.
Lemma pcset_eq {A} (f : nat -> A) p x : pcset f p x p = x.
Proof. unfold pcset. now rewrite Nat.eqb_refl. Qed.
Lemma pcset_neq {A} (f : nat -> A) p q x : q <> p -> pcset f p x q = f q.
Proof. unfold pcset. intros H. now rewrite (proj2 (Nat.eqb_neq q p) H). Qed.

Lemma rv_eqb_true a b : rv_eqb a b = true -> a = b.
Proof. destruct a, b; cbn; try discriminate; intros H; apply leqb_true in H; congruence. Qed.
Lemma rv_eqb_refl a : rv_eqb a a = true.
Proof. destruct a; cbn; apply leqb_refl'. Qed.

Lemma cmp_old_matches o v : cmp_old o v = None <-> matches (Some o) v.
Proof.
  unfold cmp_old, matches. destruct v as [w|].
  - destruct (rv_eqb o w) eqn:E.
    + apply rv_eqb_true in E. subst. split; auto.
    + split; [discriminate|]. intros [[= ->]|[H _]]; [now rewrite rv_eqb_refl in E|discriminate].
  - destruct o as [z|t].
    + destruct (zero_oid z) eqn:E; split; auto.
      * intros _. right. split; [reflexivity|eauto].
      * discriminate.
      * intros [H|[_ (z' & [= <-] & H)]]; [discriminate|congruence].
    + split; [discriminate|]. intros [H|[_ (z' & H & _)]]; discriminate.
Qed.

Section S.
Variable prog : nat -> rop.

Definition ploose (s : rst) (t : pcache) (fl : rname -> bool) : Prop :=
  forall x, (fl x = true -> r_loose s x <> None) /\ (fl x = false -> t x = r_packed s x).

Definition pinv (o : rop) (s : rst) (pc : rpc) : Prop :=
  match o with
  | OWrite r new force old =>
      match pc with
      | RIdle | RExP | RLock | RCmpL | RLinked | RUnlock _ | RDone _ | RDead => True
      | RCmpP => r_loose s r = None
      | RNewL | RCommit => matches old (val s r)
      | RNewP => r_loose s r = None /\ matches old (val s r)
      | _ => False
      end
  | ODelete r old =>
      match pc with
      | RIdle | RCmpL | RUnlock _ | RDone _ | RDead => True
      | RCmpP => r_loose s r = None
      | RDReload => matches old (val s r)
      | RDPLock t | RDPWrite t =>
          matches old (val s r) /\ r_packed s r <> None /\
          forall x, t x = if leqb x r then None else r_packed s x
      | RDPUnlock | RDUnlink => r_packed s r = None /\ (r_loose s r <> None -> matches old (val s r))
      | _ => False
      end
  | OCompress =>
      match pc with
      | RIdle | RPFail _ | RDone _ | RDead => True
      | RCLoad t fl | RCPLock t fl | RCPWrite t fl => ploose s t fl
      | RCPUnlock t fl | RCRem t fl | RCRemRead _ t fl | RCRemUnlock _ t fl => forall x, r_packed s x = t x
      | RCRemUnlink r t fl =>
          (forall x, r_packed s x = t x) /\ exists v, r_loose s r = Some (Dir v) /\ t r = Some v
      | _ => False
      end
  | OLookup r =>
      match pc with RIdle | RLkP | RFound _ | RDone _ | RDead => True | _ => False end
  end.

Record inv (s : rst) : Prop := {
  i_pc : forall p, pinv (prog p) s (r_pc s p);
  i_lock : forall p r, holds (prog p) (r_pc s p) = Some r -> r_lock s r = true;
  i_ex : forall p q r, holds (prog p) (r_pc s p) = Some r -> holds (prog q) (r_pc s q) = Some r -> p = q;
  i_pk : forall p q, packing prog s p -> q <> p -> ~ packing prog s q /\ forall r, ~ deleting prog s q r;
  i_del : forall p q r r', deleting prog s p r -> deleting prog s q r' -> p <> q ->
            r_packed s r = None \/ r_packed s r' = None
}.

(** What one step may do to the shared state. *)
Record frame (s : rst) (p : nat) (s' : rst) : Prop := {
  fr_oth : forall q, q <> p -> r_pc s' q = r_pc s q;
  fr_loose : forall x, r_loose s' x = r_loose s x \/ holds (prog p) (r_pc s p) = Some x;
  fr_gone : forall x, r_loose s x <> None -> r_loose s' x = None -> packing prog s p \/ exists r, deleting prog s p r;
  fr_packed : (forall x, r_packed s' x = r_packed s x) \/ packing prog s p \/
     exists r, deleting prog s p r /\ r_packed s r <> None /\ forall x, r_packed s' x = if leqb x r then None else r_packed s x;
  fr_val : forall x, val s' x = val s x \/
     exists old nv, intent (prog p) = Some (x, old, nv) /\ matches old (val s x) /\ val s' x = nv /\
        holds (prog p) (r_pc s p) = Some x;
  fr_lock : forall x, r_lock s' x = r_lock s x \/
     (r_lock s x = false /\ holds (prog p) (r_pc s' p) = Some x) \/
     holds (prog p) (r_pc s p) = Some x;
  fr_hold : forall x, holds (prog p) (r_pc s' p) = Some x ->
     r_lock s' x = true /\ (holds (prog p) (r_pc s p) = Some x \/ r_lock s x = false);
  fr_start : started (r_pc s' p) -> started (r_pc s p) \/ r_pc s p = RIdle;
  fr_pinv : pinv (prog p) s' (r_pc s' p)
}.

Lemma val_loose_packed s s' x :
  r_loose s' x = r_loose s x -> r_packed s' x = r_packed s x -> val s' x = val s x.
Proof. unfold val. intros -> ->. reflexivity. Qed.

Lemma leqb_dec_cases x r : (x = r /\ leqb x r = true) \/ (x <> r /\ leqb x r = false).
Proof. destruct (leqb x r) eqn:E; [left|right]; split; auto; [now apply leqb_true|now apply leqb_false]. Qed.

(** Moves that only change the process's own state. *)
Lemma frame_goto s p pc' :
  inv s ->
  pinv (prog p) s pc' ->
  (holds (prog p) pc' = holds (prog p) (r_pc s p) \/ holds (prog p) pc' = None) ->
  (started (r_pc s p) \/ r_pc s p = RIdle) ->
  frame s p (mkr (r_loose s) (r_lock s) (r_packed s) (r_plock s) (pcset (r_pc s) p pc')).
Proof.
  intros I Hp Hh Hs. constructor; cbn; auto.
  - intros q Hq. now rewrite pcset_neq.
  - congruence.
  - rewrite pcset_eq. intros x Hx. destruct Hh as [Hh|Hh]; rewrite Hh in Hx; [|discriminate].
    split; [exact (i_lock s I p x Hx)|now left].
  - rewrite pcset_eq. destruct (prog p), pc'; cbn in *; auto.
Qed.

Lemma frame_lock s p r pc' :
  inv s -> r_lock s r = false ->
  pinv (prog p) s pc' -> holds (prog p) pc' = Some r ->
  (started (r_pc s p) \/ r_pc s p = RIdle) ->
  frame s p (mkr (r_loose s) (nset (r_lock s) r true) (r_packed s) (r_plock s) (pcset (r_pc s) p pc')).
Proof.
  intros I Hl Hp Hh Hs. constructor; cbn; auto.
  - intros q Hq. now rewrite pcset_neq.
  - congruence.
  - intros x. rewrite pcset_eq. destruct (leqb_dec_cases x r) as [[-> _]|[Hn _]].
    + right. left. auto.
    + left. now rewrite nset_neq.
  - rewrite pcset_eq. intros x Hx. assert (x = r) by congruence. subst x. rewrite nset_eq. auto.
  - rewrite pcset_eq. destruct (prog p), pc'; cbn in *; auto.
Qed.

Lemma frame_unlock s p r pc' :
  inv s -> holds (prog p) (r_pc s p) = Some r ->
  pinv (prog p) s pc' -> holds (prog p) pc' = None ->
  started (r_pc s p) ->
  frame s p (mkr (r_loose s) (nset (r_lock s) r false) (r_packed s) (r_plock s) (pcset (r_pc s) p pc')).
Proof.
  intros I Hl Hp Hh Hs. constructor; cbn; auto.
  - intros q Hq. now rewrite pcset_neq.
  - congruence.
  - intros x. rewrite pcset_eq. destruct (leqb_dec_cases x r) as [[-> _]|[Hn _]]; auto.
    left. now rewrite nset_neq.
  - rewrite pcset_eq. congruence.
  - rewrite pcset_eq. destruct (prog p), pc'; cbn in *; auto.
Qed.

Lemma frame_plock s p b pc' :
  inv s ->
  pinv (prog p) s pc' ->
  (holds (prog p) pc' = holds (prog p) (r_pc s p) \/ holds (prog p) pc' = None) ->
  started (r_pc s p) ->
  frame s p (mkr (r_loose s) (r_lock s) (r_packed s) b (pcset (r_pc s) p pc')).
Proof.
  intros I Hp Hh Hs. constructor; cbn; auto.
  - intros q Hq. now rewrite pcset_neq.
  - congruence.
  - rewrite pcset_eq. intros x Hx. destruct Hh as [Hh|Hh]; rewrite Hh in Hx; [|discriminate].
    split; [exact (i_lock s I p x Hx)|now left].
  - rewrite pcset_eq. destruct (prog p), pc'; cbn in *; auto.
Qed.

Lemma step_frame s p c s' : inv s -> rstep s p prog c = Some s' -> frame s p s'.
Proof.
  intros I H. unfold rstep in H.
  assert (Ip := i_pc s I p). assert (HL := i_lock s I p).
  assert (C : c = RCrash \/ c <> RCrash) by (destruct c; auto; right; discriminate).
  destruct C as [-> | C].
  { destruct (r_pc s p) eqn:Epc; try discriminate H; injection H as <-;
      (apply frame_goto; [exact I|destruct (prog p); exact Logic.I|right; destruct (prog p); reflexivity|left; rewrite Epc; exact Logic.I]). }
  assert (H' : match prog p with
      | OWrite r new force old => write_step s p r new force old (r_pc s p) c
      | ODelete r old => delete_step s p r old (r_pc s p) c
      | OCompress => compress_step s p (r_pc s p) c
      | OLookup r => lookup_step s p r (r_pc s p) c
      end = Some s') by (destruct c; auto; congruence). clear H C. rename H' into H.
  destruct (prog p) as [r new force old|r old| |r] eqn:Eo.
  - (* write *)
    assert (Ea : forall v, v = val s r -> pinv (OWrite r new force old) s
       match old with None => RNewL | Some o => match cmp_old o v with None => RNewL | Some e => RUnlock e end end).
    { intros v ->. destruct old as [o|]; cbn; [|exact Logic.I].
      destruct (cmp_old o (val s r)) eqn:E; cbn; [exact Logic.I|]. now apply cmp_old_matches. }
    assert (Eh : forall v, holds (OWrite r new force old)
       match old with None => RNewL | Some o => match cmp_old o v with None => RNewL | Some e => RUnlock e end end = Some r).
    { intros v. destruct old as [o|]; cbn; [|reflexivity]. now destruct (cmp_old o v). }
    destruct (r_pc s p) eqn:Epc; cbn [write_step] in H; try discriminate H.
    + (* RIdle *) destruct c; try discriminate H.
      * destruct force; [|destruct (r_loose s r)]; injection H as <-;
          (apply frame_goto; rewrite ?Eo, ?Epc; [exact I|exact Logic.I|auto|auto]).
      * injection H as <-. apply frame_goto; rewrite ?Eo, ?Epc; [exact I|exact Logic.I|auto|auto].
    + (* RExP *) destruct c; try discriminate H.
      * destruct (r_packed s r); injection H as <-;
          (apply frame_goto; rewrite ?Eo, ?Epc; [exact I|exact Logic.I|auto|left; exact Logic.I]).
      * injection H as <-. apply frame_goto; rewrite ?Eo, ?Epc; [exact I|exact Logic.I|auto|left; exact Logic.I].
    + (* RLock *) unfold take_lock in H. destruct c; try discriminate H.
      * destruct (r_lock s r) eqn:El; injection H as <-.
        -- apply frame_goto; rewrite ?Eo, ?Epc; [exact I|exact Logic.I|auto|left; exact Logic.I].
        -- apply frame_lock; rewrite ?Eo, ?Epc; [exact I|exact El| |destruct old; reflexivity|left; exact Logic.I].
           destruct old; exact Logic.I.
      * injection H as <-. apply frame_goto; rewrite ?Eo, ?Epc; [exact I|exact Logic.I|auto|left; exact Logic.I].
    + (* RCmpL *) unfold cmp_loose in H. destruct c; try discriminate H.
      * destruct (r_loose s r) as [v|] eqn:El; injection H as <-;
          (apply frame_goto; rewrite ?Eo, ?Epc; [exact I| | |left; exact Logic.I]).
        -- apply (Ea (Some v)). unfold val. now rewrite El.
        -- left. exact (Eh (Some v)).
        -- exact El.
        -- now left.
      * injection H as <-. apply frame_goto; rewrite ?Eo, ?Epc; [exact I|exact Logic.I|auto|left; exact Logic.I].
    + (* RCmpP *) unfold cmp_packed in H. cbn in Ip. destruct c; try discriminate H; injection H as <-;
          (apply frame_goto; rewrite ?Eo, ?Epc; [exact I| | |left; exact Logic.I]).
      * apply (Ea (option_map Dir (r_packed s r))). unfold val. now rewrite Ip.
      * left. exact (Eh (option_map Dir (r_packed s r))).
      * exact Logic.I.
      * now left.
    + (* RNewL *) unfold cmp_loose in H. cbn in Ip. destruct c; try discriminate H.
      * destruct (r_loose s r) as [v|] eqn:El; injection H as <-;
          (apply frame_goto; rewrite ?Eo, ?Epc; [exact I| | |left; exact Logic.I]).
        -- destruct (same_value new (Some v)); cbn; auto.
        -- destruct (same_value new (Some v)); cbn; auto.
        -- cbn. auto.
        -- now left.
      * injection H as <-. apply frame_goto; rewrite ?Eo, ?Epc; [exact I|exact Logic.I|auto|left; exact Logic.I].
    + (* RNewP *) unfold cmp_packed in H. cbn in Ip. destruct c; try discriminate H; injection H as <-;
          (apply frame_goto; rewrite ?Eo, ?Epc; [exact I| | |left; exact Logic.I]).
      * destruct (same_value new _); cbn; tauto.
      * destruct (same_value new _); cbn; auto.
      * exact Logic.I.
      * now left.
    + (* RCommit *) cbn in Ip.
      assert (V : forall l' p' k pc, val (mkr (nset (r_loose s) r (Some new)) l' p' k pc) r = Some new).
      { intros. unfold val. cbn. now rewrite nset_eq. }
      destruct c; try discriminate H.
      * injection H as <-. constructor; cbn; rewrite ?Eo, ?Epc, ?pcset_eq; cbn; auto.
        -- intros q Hq. now rewrite pcset_neq.
        -- intros x. destruct (leqb_dec_cases x r) as [[-> _]|[Hn _]]; auto. left. now rewrite nset_neq.
        -- intros x Hx Hy. exfalso. destruct (leqb_dec_cases x r) as [[-> _]|[Hn _]].
           ++ rewrite nset_eq in Hy. discriminate.
           ++ rewrite nset_neq in Hy by auto. auto.
        -- intros x. destruct (leqb_dec_cases x r) as [[-> _]|[Hn _]].
           ++ right. exists old, (Some new). auto.
           ++ left. unfold val. cbn. now rewrite nset_neq.
        -- intros x. destruct (leqb_dec_cases x r) as [[-> _]|[Hn _]]; auto. left. now rewrite nset_neq.
        -- discriminate.
      * destruct (r_loose s r) eqn:El; [discriminate H|]. injection H as <-.
        constructor; cbn; rewrite ?Eo, ?Epc, ?pcset_eq; cbn; auto.
        -- intros q Hq. now rewrite pcset_neq.
        -- intros x. destruct (leqb_dec_cases x r) as [[-> _]|[Hn _]]; auto. left. now rewrite nset_neq.
        -- intros x Hx Hy. exfalso. destruct (leqb_dec_cases x r) as [[-> _]|[Hn _]].
           ++ rewrite nset_eq in Hy. discriminate.
           ++ rewrite nset_neq in Hy by auto. auto.
        -- intros x. destruct (leqb_dec_cases x r) as [[-> _]|[Hn _]].
           ++ right. exists old, (Some new). auto.
           ++ left. unfold val. cbn. now rewrite nset_neq.
      * injection H as <-. apply frame_goto; rewrite ?Eo, ?Epc; [exact I|exact Logic.I|auto|left; exact Logic.I].
    + (* RLinked *) destruct c; try discriminate H; injection H as <-.
      * apply frame_unlock; rewrite ?Eo, ?Epc; cbn; auto.
      * apply frame_goto; rewrite ?Eo, ?Epc; cbn; auto.
    + (* RUnlock *) destruct c; try discriminate H; injection H as <-.
      * apply frame_unlock; rewrite ?Eo, ?Epc; cbn; auto.
      * apply frame_goto; rewrite ?Eo, ?Epc; cbn; auto.
  - (* delete *)
    assert (HD : started (r_pc s p) -> deleting prog s p r).
    { intros Hst. split; [exists old; exact Eo|exact Hst]. }
    assert (Ea : forall v, v = val s r -> pinv (ODelete r old) s
       match old with None => RDReload | Some o => match cmp_old o v with None => RDReload | Some e => RUnlock e end end).
    { intros v ->. destruct old as [o|]; cbn; [|exact Logic.I].
      destruct (cmp_old o (val s r)) eqn:E; cbn; [exact Logic.I|]. now apply cmp_old_matches. }
    assert (Eh : forall v, holds (ODelete r old)
       match old with None => RDReload | Some o => match cmp_old o v with None => RDReload | Some e => RUnlock e end end = Some r).
    { intros v. destruct old as [o|]; cbn; [|reflexivity]. now destruct (cmp_old o v). }
    destruct (r_pc s p) eqn:Epc; cbn [delete_step] in H; try discriminate H.
    + (* RIdle *) unfold take_lock in H. destruct c; try discriminate H.
      * destruct (r_lock s r) eqn:El; injection H as <-.
        -- apply frame_goto; rewrite ?Eo, ?Epc; [exact I|exact Logic.I|auto|auto].
        -- apply frame_lock; rewrite ?Eo, ?Epc; [exact I|exact El| |destruct old; reflexivity|auto].
           destruct old; exact Logic.I.
      * injection H as <-. apply frame_goto; rewrite ?Eo, ?Epc; [exact I|exact Logic.I|auto|auto].
    + (* RCmpL *) unfold cmp_loose in H. destruct c; try discriminate H.
      * destruct (r_loose s r) as [v|] eqn:El; injection H as <-;
          (apply frame_goto; rewrite ?Eo, ?Epc; [exact I| | |left; exact Logic.I]).
        -- apply (Ea (Some v)). unfold val. now rewrite El.
        -- left. exact (Eh (Some v)).
        -- exact El.
        -- now left.
      * injection H as <-. apply frame_goto; rewrite ?Eo, ?Epc; [exact I|exact Logic.I|auto|left; exact Logic.I].
    + (* RCmpP *) unfold cmp_packed in H. cbn in Ip. destruct c; try discriminate H; injection H as <-;
          (apply frame_goto; rewrite ?Eo, ?Epc; [exact I| | |left; exact Logic.I]).
      * apply (Ea (option_map Dir (r_packed s r))). unfold val. now rewrite Ip.
      * left. exact (Eh (option_map Dir (r_packed s r))).
      * exact Logic.I.
      * now left.
    + (* RDReload *) cbn in Ip. destruct c; try discriminate H.
      * destruct (r_packed s r) as [v|] eqn:El; injection H as <-;
          (apply frame_goto; rewrite ?Eo, ?Epc; [exact I| |auto|left; exact Logic.I]); cbn.
        -- split; [exact Ip|]. split; [congruence|]. intros x. unfold nset. reflexivity.
        -- auto.
      * injection H as <-. apply frame_goto; rewrite ?Eo, ?Epc; [exact I|exact Logic.I|auto|left; exact Logic.I].
    + (* RDPLock *) cbn in Ip. destruct c; try discriminate H.
      * assert (Hb : r_plock s = true \/ r_plock s = false) by (destruct (r_plock s); auto); destruct Hb as [Epl|Epl]; rewrite Epl in H; try rewrite <- Epl in H; injection H as <-.
        -- apply frame_goto; rewrite ?Eo, ?Epc; [exact I|exact Logic.I|auto|left; exact Logic.I].
        -- apply frame_plock; rewrite ?Eo, ?Epc; [exact I|exact Ip|auto|exact Logic.I].
      * injection H as <-. apply frame_goto; rewrite ?Eo, ?Epc; [exact I|exact Logic.I|auto|left; exact Logic.I].
    + (* RDPWrite *) cbn in Ip. destruct Ip as (P1 & P2 & P3).
      assert (V : forall l' k pc x, x <> r -> val (mkr (r_loose s) l' c0 k pc) x = val s x).
      { intros l' k pc x Hx. unfold val. cbn. rewrite P3.
        destruct (leqb_dec_cases x r) as [[-> _]|[Hn ->]]; [congruence|reflexivity]. }
      assert (V2 : forall l' k pc, val (mkr (r_loose s) l' c0 k pc) r = val s r \/
                     val (mkr (r_loose s) l' c0 k pc) r = None /\ r_loose s r = None).
      { intros. unfold val. cbn. rewrite P3, leqb_refl'. destruct (r_loose s r); auto. }
      assert (V3 : forall l' k pc, r_loose s r <> None -> matches old (val (mkr (r_loose s) l' c0 k pc) r)).
      { intros l' k pc Hx. destruct (V2 l' k pc) as [-> |[_ Hy]]; [exact P1|congruence]. }
      assert (T0 : c0 r = None) by (rewrite P3, leqb_refl'; reflexivity).
      assert (HX : forall l' k pc x, val (mkr (r_loose s) l' c0 k pc) x = val s x \/
         (exists (old0 nv : option rv), Some (r, old, None) = Some (x, old0, nv) /\
            matches old0 (val s x) /\ val (mkr (r_loose s) l' c0 k pc) x = nv /\ Some r = Some x)).
      { intros l' k pc x. destruct (leqb_dec_cases x r) as [[-> _]|[Hn _]].
        - destruct (V2 l' k pc) as [E|[E _]]; [now left|]. right. exists old, None. auto.
        - left. now apply V. }
      destruct c; try discriminate H.
      * injection H as <-.
        constructor; cbn; rewrite ?Eo, ?Epc, ?pcset_eq; cbn; auto.
        -- intros q Hq. now rewrite pcset_neq.
        -- congruence.
        -- right. right. exists r. split; [apply HD; exact Logic.I|]. auto.
      * injection H as <-.
        constructor; cbn; rewrite ?Eo, ?Epc, ?pcset_eq; cbn; auto.
        -- intros q Hq. now rewrite pcset_neq.
        -- congruence.
        -- right. right. exists r. split; [apply HD; exact Logic.I|]. auto.
      * injection H as <-. apply frame_plock; rewrite ?Eo, ?Epc; [exact I|exact Logic.I|auto|exact Logic.I].
    + (* RDPUnlock *) destruct c; try discriminate H; injection H as <-.
      * apply frame_plock; rewrite ?Eo, ?Epc; [exact I|exact Ip|auto|exact Logic.I].
      * apply frame_goto; rewrite ?Eo, ?Epc; [exact I|exact Ip|auto|left; exact Logic.I].
    + (* RDUnlink *) cbn in Ip. destruct Ip as (P1 & P2).
      assert (V : forall l' k pc x, x <> r -> val (mkr (nset (r_loose s) r None) l' (r_packed s) k pc) x = val s x).
      { intros l' k pc x Hx. unfold val. cbn. now rewrite nset_neq. }
      assert (V2 : forall l' k pc, val (mkr (nset (r_loose s) r None) l' (r_packed s) k pc) r = None).
      { intros. unfold val. cbn. now rewrite nset_eq, P1. }
      assert (HX : forall l' k pc x, val (mkr (nset (r_loose s) r None) l' (r_packed s) k pc) x = val s x \/
         (exists (old0 nv : option rv), Some (r, old, None) = Some (x, old0, nv) /\
            matches old0 (val s x) /\ val (mkr (nset (r_loose s) r None) l' (r_packed s) k pc) x = nv /\ Some r = Some x)).
      { intros l' k pc x. destruct (leqb_dec_cases x r) as [[-> _]|[Hn _]].
        - destruct (r_loose s r) as [v|] eqn:El.
          + right. exists old, None. split; [reflexivity|]. split; [|auto]. apply P2. discriminate.
          + left. rewrite V2. unfold val. now rewrite El, P1.
        - left. now apply V. }
      destruct c; try discriminate H.
      * injection H as <-. constructor; cbn; rewrite ?Eo, ?Epc, ?pcset_eq; cbn; auto.
        -- intros q Hq. now rewrite pcset_neq.
        -- intros x. destruct (leqb_dec_cases x r) as [[-> _]|[Hn _]]; auto. left. now rewrite nset_neq.
        -- intros x Hx Hy. right. exists r. apply HD. exact Logic.I.
      * destruct (r_loose s r); [|discriminate H]. injection H as <-.
        apply frame_goto; rewrite ?Eo, ?Epc; [exact I|exact Logic.I|auto|left; exact Logic.I].
    + (* RUnlock *) destruct c; try discriminate H; injection H as <-.
      * apply frame_unlock; rewrite ?Eo, ?Epc; cbn; auto.
      * apply frame_goto; rewrite ?Eo, ?Epc; cbn; auto.
  - (* compress *)
    assert (HK : started (r_pc s p) -> packing prog s p).
    { intros Hst. split; [exact Eo|exact Hst]. }
    destruct (r_pc s p) eqn:Epc; destruct c; cbn [compress_step] in H; try discriminate H; cbn in Ip.
    + injection H as <-. apply frame_goto; rewrite ?Eo, ?Epc; [exact I| |auto|auto].
      intros x. split; [discriminate|reflexivity].
    + injection H as <-. apply frame_goto; rewrite ?Eo, ?Epc; [exact I|exact Logic.I|auto|auto].
    + injection H as <-. apply frame_goto; rewrite ?Eo, ?Epc; [exact I|exact Ip|auto|left; exact Logic.I].
    + injection H as <-. apply frame_goto; rewrite ?Eo, ?Epc; [exact I|exact Logic.I|auto|left; exact Logic.I].
    + assert (Hs' : s' = mkr (r_loose s) (r_lock s) (r_packed s) (r_plock s)
         (pcset (r_pc s) p match r_loose s r with Some (Dir v) => RCLoad (nset c0 r (Some v)) (nset fl r true) | _ => RCLoad c0 fl end)).
      { destruct (r_loose s r) as [[v|v]|]; congruence. }
      subst s'. apply frame_goto; rewrite ?Eo, ?Epc; [exact I| |left; now destruct (r_loose s r) as [[v|v]|]|left; exact Logic.I].
      destruct (r_loose s r) as [[v|v]|] eqn:El; try exact Ip.
      intros x. destruct (leqb_dec_cases x r) as [[-> _]|[Hn _]].
      * rewrite nset_eq. split; [congruence|discriminate].
      * rewrite !nset_neq by auto. apply Ip.
    + assert (Hb : r_plock s = true \/ r_plock s = false) by (destruct (r_plock s); auto); destruct Hb as [Epl|Epl]; rewrite Epl in H; try rewrite <- Epl in H; injection H as <-.
      * apply frame_goto; rewrite ?Eo, ?Epc; [exact I|exact Logic.I|auto|left; exact Logic.I].
      * apply frame_plock; rewrite ?Eo, ?Epc; [exact I|exact Ip|auto|exact Logic.I].
    + injection H as <-. apply frame_goto; rewrite ?Eo, ?Epc; [exact I|exact Logic.I|auto|left; exact Logic.I].
    + assert (V : forall l' k pc x, val (mkr (r_loose s) l' c0 k pc) x = val s x).
      { intros. unfold val. cbn. destruct (Ip x) as [A B]. destruct (r_loose s x) eqn:El; [reflexivity|].
        destruct (fl x); [now destruct (A eq_refl)|now rewrite B]. }
      injection H as <-. constructor; cbn; rewrite ?Eo, ?Epc, ?pcset_eq; cbn; auto.
      * intros q Hq. now rewrite pcset_neq.
      * congruence.
      * right. left. apply HK. exact Logic.I.
    + assert (V : forall l' k pc x, val (mkr (r_loose s) l' c0 k pc) x = val s x).
      { intros. unfold val. cbn. destruct (Ip x) as [A B]. destruct (r_loose s x) eqn:El; [reflexivity|].
        destruct (fl x); [now destruct (A eq_refl)|now rewrite B]. }
      injection H as <-. constructor; cbn; rewrite ?Eo, ?Epc, ?pcset_eq; cbn; auto.
      * intros q Hq. now rewrite pcset_neq.
      * congruence.
      * right. left. apply HK. exact Logic.I.
    + injection H as <-. apply frame_goto; rewrite ?Eo, ?Epc; [exact I|exact Logic.I|auto|left; exact Logic.I].
    + injection H as <-. apply frame_plock; rewrite ?Eo, ?Epc; [exact I|exact Ip|auto|exact Logic.I].
    + injection H as <-. apply frame_goto; rewrite ?Eo, ?Epc; [exact I|exact Ip|auto|left; exact Logic.I].
    + injection H as <-. apply frame_goto; rewrite ?Eo, ?Epc; [exact I|exact Logic.I|auto|left; exact Logic.I].
    + destruct (fl r); [|discriminate H]. destruct (r_lock s r) eqn:El; injection H as <-.
      * apply frame_goto; rewrite ?Eo, ?Epc; [exact I|exact Logic.I|auto|left; exact Logic.I].
      * apply frame_lock; rewrite ?Eo, ?Epc; [exact I|exact El|exact Ip|reflexivity|left; exact Logic.I].
    + assert (Hs' : s' = mkr (r_loose s) (r_lock s) (r_packed s) (r_plock s)
         (pcset (r_pc s) p match r_loose s r, c0 r with Some (Dir v), Some w => if leqb v w then RCRemUnlink r c0 fl else RCRemUnlock r c0 fl | _, _ => RCRemUnlock r c0 fl end)).
      { destruct (r_loose s r) as [[v|v]|], (c0 r) as [w|]; try destruct (leqb v w); congruence. }
      subst s'. apply frame_goto; rewrite ?Eo, ?Epc; [exact I| | |left; exact Logic.I].
      * destruct (r_loose s r) as [[v|v]|] eqn:El, (c0 r) as [w|] eqn:Ew; try exact Ip.
        destruct (leqb v w) eqn:E; [|exact Ip]. apply leqb_true in E. subst w. split; [exact Ip|]. eauto.
      * left. destruct (r_loose s r) as [[v|v]|], (c0 r) as [w|]; try reflexivity. now destruct (leqb v w).
    + destruct Ip as (P1 & v & P2 & P3).
      assert (V : forall l' k pc x, val (mkr (nset (r_loose s) r None) l' (r_packed s) k pc) x = val s x).
      { intros. unfold val. cbn. destruct (leqb_dec_cases x r) as [[-> _]|[Hn _]].
        - rewrite nset_eq, P2, P1, P3. reflexivity.
        - now rewrite nset_neq. }
      injection H as <-. constructor; cbn; rewrite ?Eo, ?Epc, ?pcset_eq; cbn; auto.
      * intros q Hq. now rewrite pcset_neq.
      * intros x. destruct (leqb_dec_cases x r) as [[-> _]|[Hn _]]; auto. left. now rewrite nset_neq.
      * intros x _ _. left. apply HK. exact Logic.I.
    + injection H as <-. apply frame_goto; rewrite ?Eo, ?Epc; [exact I|exact (proj1 Ip)|auto|left; exact Logic.I].
    + injection H as <-. apply frame_unlock; rewrite ?Eo, ?Epc; [exact I|reflexivity|exact Ip|reflexivity|exact Logic.I].
    + injection H as <-. apply frame_goto; rewrite ?Eo, ?Epc; [exact I|exact Ip|auto|left; exact Logic.I].
    + injection H as <-. apply frame_plock; rewrite ?Eo, ?Epc; [exact I|exact Logic.I|auto|exact Logic.I].
    + injection H as <-. apply frame_goto; rewrite ?Eo, ?Epc; [exact I|exact Logic.I|auto|left; exact Logic.I].
  - (* lookup *)
    destruct (r_pc s p) eqn:Epc; destruct c; cbn [lookup_step] in H; try discriminate H.
    + destruct (r_loose s r); injection H as <-;
        (apply frame_goto; rewrite ?Eo, ?Epc; [exact I|exact Logic.I|auto|auto]).
    + injection H as <-. apply frame_goto; rewrite ?Eo, ?Epc; [exact I|exact Logic.I|auto|auto].
    + injection H as <-. apply frame_goto; rewrite ?Eo, ?Epc; [exact I|exact Logic.I|auto|left; exact Logic.I].
    + injection H as <-. apply frame_goto; rewrite ?Eo, ?Epc; [exact I|exact Logic.I|auto|left; exact Logic.I].
Qed.
End S.
