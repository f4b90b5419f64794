From Verif Require Import Base Str FilebufModel FilebufSpec.

Section S.
Variable prog : nat -> wprog.
Hypothesis GP : good_progs prog.

Definition cat (l : list fop) : list Z := concat (map op_data l).
Definition kdata (k : cont) : list Z :=
  match k with KWrite d | KReserve d | KPrintf d => d | _ => [] end.
Definition only_writes (l : list fop) := forall o, In o l -> exists d, o = OpWrite d.

(** What the process at [pc] knows about the file system. *)
Definition pinv (w : wprog) (f : fsys) (pc : wpc) : Prop :=
  match pc with
  | PStart | PCreate | PSyncDir _ | PDone _ => True
  | PAppend i => f_lck f = Some i /\ f_tgt f <> Some i /\ (i < f_next f)%nat /\ f_data f i = [] /\ w_append w = true
  | PCopy i src off =>
      f_lck f = Some i /\ f_tgt f <> Some i /\ (i < f_next f)%nat /\ w_append w = true /\
      f_tgt f = Some src /\ f_data f i = firstn off (f_data f src)
  | PRun i buf err ops =>
      f_lck f = Some i /\ f_tgt f <> Some i /\ (i < f_next f)%nat /\
      (length buf <= w_size w)%nat /\
      (w_nobuf w = true -> buf = [] /\ only_writes ops) /\
      (err = false -> f_data f i ++ buf ++ cat ops = new_content w (target f))
  | PFlush i out buf k ops =>
      f_lck f = Some i /\ f_tgt f <> Some i /\ (i < f_next f)%nat /\
      buf = [] /\ (w_nobuf w = true -> (k = KDirect \/ k = KCommit) /\ only_writes ops) /\
      (forall d, k = KReserve d -> (length d <= w_size w)%nat) /\
      (k = KCommit -> ops = []) /\
      f_data f i ++ out ++ kdata k ++ cat ops = new_content w (target f)
  | PClose i | PLink i | PRename i =>
      f_lck f = Some i /\ f_tgt f <> Some i /\ (i < f_next f)%nat /\
      f_data f i = new_content w (target f)
  | PUnlink i => f_lck f = Some i /\ f_tgt f = Some i
  | PClean i | PCleanUnlink i => f_lck f = Some i /\ f_tgt f <> Some i /\ (i < f_next f)%nat
  end.

Definition holding (pc : wpc) : Prop :=
  match pc with PStart | PCreate | PSyncDir _ | PDone _ => False | _ => True end.

Record inv (s : wstate) : Prop := {
  inv_tgt : forall i, f_tgt (w_fs s) = Some i -> (i < f_next (w_fs s))%nat;
  inv_lck : forall i, f_lck (w_fs s) = Some i -> (i < f_next (w_fs s))%nat;
  inv_pc : forall p, pinv (prog p) (w_fs s) (w_pc s p);
  inv_ex : forall p q, holding (w_pc s p) -> holding (w_pc s q) -> p = q
}.

Lemma holding_lck w f pc : pinv w f pc -> holding pc -> f_lck f <> None.
Proof. destruct pc; cbn; intros H Hh; try tauto; destruct H as [H _]; rewrite H; discriminate. Qed.

Lemma not_holding_pinv w f pc : ~ holding pc -> pinv w f pc.
Proof. destruct pc; cbn; tauto. Qed.

Lemma pset_eq {A} (f : nat -> A) p x : pset f p x p = x.
Proof. unfold pset. now rewrite Nat.eqb_refl. Qed.
Lemma pset_neq {A} (f : nat -> A) p q x : q <> p -> pset f p x q = f q.
Proof. unfold pset. intros H. now rewrite (proj2 (Nat.eqb_neq q p) H). Qed.
Lemma dset_eq d i c : dset d i c i = c.
Proof. unfold dset. now rewrite Nat.eqb_refl. Qed.
Lemma dset_neq d i j c : j <> i -> dset d i c j = d j.
Proof. unfold dset. intros H. now rewrite (proj2 (Nat.eqb_neq j i) H). Qed.

(** A step by a process that held the lock, or that moves to a state without
    it, keeps the others' knowledge: nobody else holds. *)
Lemma inv_step_holder s p fs' pc' :
  inv s -> holding (w_pc s p) ->
  (forall i, f_tgt fs' = Some i -> (i < f_next fs')%nat) ->
  (forall i, f_lck fs' = Some i -> (i < f_next fs')%nat) ->
  pinv (prog p) fs' pc' ->
  inv (mkw fs' (pset (w_pc s) p pc')).
Proof.
  intros I Hh Ht Hl Hp. constructor; cbn; auto.
  - intros q. destruct (Nat.eq_dec q p) as [-> | Hn].
    + now rewrite pset_eq.
    + rewrite pset_neq by auto. apply not_holding_pinv.
      intros Hq. apply Hn. exact (inv_ex s I q p Hq Hh).
  - intros q r Hq Hr.
    assert (forall x, holding (pset (w_pc s) p pc' x) -> x = p) as K.
    { intros x Hx. destruct (Nat.eq_dec x p) as [-> | Hn]; [reflexivity|].
      rewrite pset_neq in Hx by auto. exact (inv_ex s I x p Hx Hh). }
    rewrite (K q Hq), (K r Hr). reflexivity.
Qed.

Lemma inv_step_local s p pc' :
  inv s -> ~ holding pc' -> inv (mkw (w_fs s) (pset (w_pc s) p pc')).
Proof.
  intros I Hh. constructor; cbn.
  - apply (inv_tgt s I).
  - apply (inv_lck s I).
  - intros q. destruct (Nat.eq_dec q p) as [-> | Hn].
    + rewrite pset_eq. now apply not_holding_pinv.
    + rewrite pset_neq by auto. apply (inv_pc s I).
  - intros q r. destruct (Nat.eq_dec q p) as [-> | Hn]; [rewrite pset_eq; tauto|].
    rewrite pset_neq by auto.
    destruct (Nat.eq_dec r p) as [-> | Hn2]; [rewrite pset_eq; tauto|].
    rewrite pset_neq by auto. apply (inv_ex s I).
Qed.

Lemma skipn_firstn_cat (A : Type) n (l : list A) r : firstn n l ++ skipn n l ++ r = l ++ r.
Proof. now rewrite app_assoc, firstn_skipn. Qed.

Lemma only_writes_tl o l : only_writes (o :: l) -> only_writes l.
Proof. intros H x Hx. apply H. now right. Qed.

Lemma fresh_of p : forall o ops, w_nobuf (prog p) = true -> only_writes (o :: ops) -> exists d, o = OpWrite d.
Proof. intros o ops _ H. apply H. now left. Qed.

Lemma write_turn_inv p f i buf d ops :
  f_lck f = Some i -> f_tgt f <> Some i -> (i < f_next f)%nat ->
  (length buf <= w_size (prog p))%nat -> w_nobuf (prog p) = false ->
  f_data f i ++ buf ++ d ++ cat ops = new_content (prog p) (target f) ->
  pinv (prog p) f (write_turn (w_size (prog p)) i buf d ops).
Proof.
  intros H1 H2 H3 H4 Hb H5. unfold write_turn.
  destruct (length d <? w_size (prog p) - length buf)%nat eqn:E.
  - cbn. do 3 (split; [assumption|]). split.
    { apply Nat.ltb_lt in E. rewrite app_length. lia. }
    split; [congruence|]. intros _. now rewrite <- !app_assoc.
  - cbn. do 3 (split; [assumption|]). split; [reflexivity|]. split; [congruence|].
    split; [congruence|]. split; [congruence|].
    rewrite <- !app_assoc. now rewrite skipn_firstn_cat.
Qed.

Lemma fb_op_inv p f i buf err o ops :
  pinv (prog p) f (PRun i buf err (o :: ops)) -> pinv (prog p) f (fb_op (prog p) i buf err o ops).
Proof.
  intros H. assert (H' := H). cbn in H. destruct H as (H1 & H2 & H3 & H4 & H5 & H6).
  assert (forall e, e = true -> pinv (prog p) f (PRun i buf e ops)) as K.
  { intros e ->. cbn. do 4 (split; [assumption|]). split; [|discriminate].
    intros Hb. destruct (H5 Hb) as [H7 H8]. split; [exact H7|]. now apply only_writes_tl in H8. }
  destruct err eqn:Ee.
  { destruct o; cbn; unfold fb_write, fb_reserve, fb_printf; apply K; reflexivity. }
  specialize (H6 eq_refl). unfold cat in H6. cbn [map concat] in H6. fold (cat ops) in H6.
  destruct (w_nobuf (prog p)) eqn:Eb.
  { destruct (H5 eq_refl) as [-> H7]. destruct (H7 o (or_introl eq_refl)) as [d ->].
    cbn. unfold fb_write. rewrite Eb. cbn. do 3 (split; [assumption|]).
    split; [reflexivity|]. split; [intros _; split; [now left|now apply only_writes_tl in H7]|].
    split; [congruence|]. split; [congruence|]. cbn in H6. exact H6. }
  destruct o as [d|d|d]; cbn [fb_op op_data] in H6 |- *.
  - unfold fb_write. rewrite Eb. now apply write_turn_inv.
  - unfold fb_reserve. destruct (w_size (prog p) <? length d)%nat eqn:E1; [apply K; reflexivity|].
    destruct (w_size (prog p) - length buf <=? length d)%nat eqn:E2; cbn.
    + do 3 (split; [assumption|]). split; [reflexivity|]. split; [congruence|].
      split. { intros d' [= <-]. apply Nat.ltb_ge in E1. lia. }
      split; [congruence|]. exact H6.
    + do 3 (split; [assumption|]). split; [apply Nat.leb_gt in E2; rewrite app_length; lia|].
      split; [congruence|]. intros _. now rewrite <- !app_assoc.
  - unfold fb_printf. destruct (length d + 1 <=? w_size (prog p) - length buf)%nat eqn:E2; cbn.
    + do 3 (split; [assumption|]). split; [apply Nat.leb_le in E2; rewrite app_length; lia|].
      split; [congruence|]. intros _. now rewrite <- !app_assoc.
    + do 3 (split; [assumption|]). split; [reflexivity|]. split; [congruence|].
      split; [congruence|]. split; [congruence|]. exact H6.
Qed.

Lemma resume_inv p f i k ops :
  pinv (prog p) f (PFlush i [] [] k ops) -> pinv (prog p) f (resume (prog p) i [] k ops).
Proof.
  intros (H1 & H2 & H3 & _ & H4 & H5 & H6 & H7). cbn [app] in H7.
  destruct k as [d| |d|d|]; cbn [resume kdata app] in *.
  - apply write_turn_inv; auto; [cbn; lia|]. destruct (w_nobuf (prog p)); [|reflexivity].
    destruct (H4 eq_refl) as [[X|X] _]; discriminate.
  - cbn. do 3 (split; [assumption|]). split; [lia|]. split; [|auto]. intros Hb. split; [reflexivity|]. now apply H4.
  - cbn. do 3 (split; [assumption|]). split; [now apply H5|]. split; [|auto].
    intros Hb. destruct (H4 Hb) as [[X|X] _]; discriminate.
  - assert (w_nobuf (prog p) = false) as Hb.
    { destruct (w_nobuf (prog p)); [|reflexivity]. destruct (H4 eq_refl) as [[X|X] _]; discriminate. }
    destruct (length d + 1 <=? w_size (prog p) - length (@nil Z))%nat eqn:E.
    + cbn. do 3 (split; [assumption|]). split; [apply Nat.leb_le in E; cbn in E; lia|]. split; [congruence|auto].
    + unfold fb_write. rewrite Hb. apply write_turn_inv; auto. cbn; lia.
  - cbn. do 3 (split; [assumption|]). rewrite (H6 eq_refl) in H7. unfold cat in H7. cbn in H7. now rewrite app_nil_r in H7.
Qed.

Lemma resume_fail_inv p f i out k ops :
  pinv (prog p) f (PFlush i out [] k ops) -> pinv (prog p) f (resume_fail i [] k ops).
Proof.
  intros (H1 & H2 & H3 & _ & H4 & H5 & H6 & H7).
  destruct k; cbn; repeat (split; [assumption|]); try (split; [lia|]; split; [|discriminate];
    intros Hb; split; [reflexivity|now apply H4]). auto.
Qed.

(** Appending to an inode that is not the target leaves the target alone. *)
Lemma target_dset f i c :
  f_tgt f <> Some i -> target (mkfs (f_tgt f) (f_lck f) (dset (f_data f) i c) (f_next f)) = target f.
Proof.
  intros H. unfold target. cbn. destruct (f_tgt f) as [j|]; cbn; [|reflexivity].
  rewrite dset_neq; [reflexivity|congruence].
Qed.

Lemma skipn_nil_len (A : Type) n (l : list A) : skipn n l = [] -> firstn n l = l.
Proof. intros H. rewrite <- (firstn_skipn n l) at 2. rewrite H. now rewrite app_nil_r. Qed.

Lemma firstn_add (A : Type) n m (l : list A) : firstn (n + m) l = firstn n l ++ firstn m (skipn n l).
Proof.
  revert l. induction n as [|n IH]; intros l; cbn; [reflexivity|].
  destruct l; cbn; [now rewrite firstn_nil|]. now rewrite IH.
Qed.
Lemma firstn_len_id (A : Type) n (l : list A) : firstn (length (firstn n l)) l = firstn n l.
Proof.
  rewrite firstn_length. destruct (Nat.le_gt_cases n (length l)) as [H|H].
  - now rewrite Nat.min_l by lia.
  - rewrite Nat.min_r by lia. rewrite !firstn_all2 by lia. reflexivity.
Qed.

Definition after (pc : wpc) : bool :=
  match pc with PUnlink _ | PSyncDir _ => true | PDone r => r =? 0 | _ => false end.

Lemma step_ok s p c s' :
  inv s -> wstep false prog s p c = Some s' ->
  inv s' /\
  ((f_tgt (w_fs s') = f_tgt (w_fs s) /\ target (w_fs s') = target (w_fs s) /\
    after (w_pc s' p) = after (w_pc s p)) \/
   (f_tgt (w_fs s') <> f_tgt (w_fs s) /\ target (w_fs s') = Some (new_content (prog p) (target (w_fs s))) /\
    after (w_pc s' p) = true /\ after (w_pc s p) = false)) /\
  (forall i, f_tgt (w_fs s) = Some i -> f_data (w_fs s') i = f_data (w_fs s) i) /\
  (forall i, (i < f_next (w_fs s))%nat -> f_tgt (w_fs s) <> Some i -> f_lck (w_fs s) <> Some i -> f_data (w_fs s') i = f_data (w_fs s) i) /\
  (f_next (w_fs s) <= f_next (w_fs s'))%nat /\
  (forall q, q <> p -> w_pc s' q = w_pc s q).
Proof.
  intros I H. unfold wstep in H.
  assert (Ip := inv_pc s I p). assert (It := inv_tgt s I). assert (Il := inv_lck s I).
  assert (Hoth : forall f pc q, q <> p -> w_pc (mkw f (pset (w_pc s) p pc)) q = w_pc s q).
  { intros f pc q Hq. cbn. now rewrite pset_neq. }
  (* a purely local move *)
  assert (Lgo : forall pc', (pinv (prog p) (w_fs s) pc' /\ holding (w_pc s p) \/ ~ holding pc') ->
     after pc' = after (w_pc s p) ->
     inv (mkw (w_fs s) (pset (w_pc s) p pc')) /\
     ((f_tgt (w_fs s) = f_tgt (w_fs s) /\ target (w_fs s) = target (w_fs s) /\
       after (pset (w_pc s) p pc' p) = after (w_pc s p)) \/
      (f_tgt (w_fs s) <> f_tgt (w_fs s) /\ target (w_fs s) = Some (new_content (prog p) (target (w_fs s))) /\
       after (pset (w_pc s) p pc' p) = true /\ after (w_pc s p) = false)) /\
     (forall i, f_tgt (w_fs s) = Some i -> f_data (w_fs s) i = f_data (w_fs s) i) /\
     (forall i, (i < f_next (w_fs s))%nat -> f_tgt (w_fs s) <> Some i -> f_lck (w_fs s) <> Some i -> f_data (w_fs s) i = f_data (w_fs s) i) /\
     (f_next (w_fs s) <= f_next (w_fs s))%nat /\
     (forall q, q <> p -> w_pc (mkw (w_fs s) (pset (w_pc s) p pc')) q = w_pc s q)).
  { intros pc' Hp Ha. split.
    - destruct Hp as [[Hp Hh]|Hp]; [|now apply inv_step_local]. now apply inv_step_holder.
    - split; [left; rewrite pset_eq; auto|]. repeat split; auto. }
  destruct (w_pc s p) as [| |i|i src off|i buf err ops|i out buf k ops|i|i|i|i|i|i|i|r] eqn:Epc;
    destruct c as [|n| |]; try discriminate H; cbn [f_tgt] in H.
  - (* PStart *) destruct (f_lck (w_fs s)) eqn:El; injection H as <-; apply Lgo; cbn; auto.
  - (* PCreate Go *) destruct (f_lck (w_fs s)) as [j|] eqn:El; injection H as <-.
    + apply Lgo; cbn; auto.
    + set (f' := mkfs (f_tgt (w_fs s)) (Some (f_next (w_fs s))) (dset (f_data (w_fs s)) (f_next (w_fs s)) []) (S (f_next (w_fs s)))).
      assert (Hnt : f_tgt (w_fs s) <> Some (f_next (w_fs s))).
      { intros E. apply It in E. lia. }
      assert (Ht' : target f' = target (w_fs s)).
      { unfold target, f'. cbn. destruct (f_tgt (w_fs s)) as [j|] eqn:E; cbn; [|reflexivity].
        rewrite dset_neq; [reflexivity|]. congruence. }
      assert (Hnh : forall q, ~ holding (w_pc s q)).
      { intros q Hq. exact (holding_lck _ _ _ (inv_pc s I q) Hq El). }
      cbn [w_fs w_pc]. split; [|split; [left; rewrite pset_eq; split; [reflexivity|]; split; [exact Ht'|now destruct (w_append (prog p))]|]].
      * constructor; cbn.
        -- intros i Hi. apply It in Hi. lia.
        -- intros i [= <-]. lia.
        -- intros q. destruct (Nat.eq_dec q p) as [-> | Hn].
           ++ rewrite pset_eq. destruct (w_append (prog p)) eqn:Ea; cbn.
              ** rewrite dset_eq. repeat split; auto; lia.
              ** rewrite dset_eq. do 3 (split; [first [reflexivity|assumption|lia]|]). split; [lia|].
                 split. { intros Hb. split; [reflexivity|]. exact (proj2 (GP p) Hb). }
                 intros _. unfold new_content. now rewrite Ea.
           ++ rewrite pset_neq by auto. apply not_holding_pinv, Hnh.
        -- assert (forall x (pc' : wpc), holding (pset (w_pc s) p pc' x) -> x = p) as K.
           { intros x pc' Hx. destruct (Nat.eq_dec x p) as [-> | Hn]; [reflexivity|].
             rewrite pset_neq in Hx by auto. now apply Hnh in Hx. }
           intros q r Hq Hr. apply K in Hq. apply K in Hr. congruence.
      * cbn. repeat split.
        -- intros i Hi. apply It in Hi. rewrite dset_neq; [reflexivity|lia].
        -- intros i Hi _ _. rewrite dset_neq; [reflexivity|lia].
        -- lia.
        -- intros q Hq. now rewrite pset_neq.
  - (* PCreate Fail *) injection H as <-. apply Lgo; cbn; auto.
  - (* PAppend Go *) destruct Ip as (H1 & H2 & H3 & H4 & H5).
    destruct (f_tgt (w_fs s)) as [src|] eqn:Et in H; injection H as <-; apply Lgo; auto; left; (split; [|exact Logic.I]); cbn.
    + do 5 (split; [assumption|]). exact H4.
    + do 3 (split; [assumption|]). split; [lia|]. split.
      { intros Hb. split; [reflexivity|]. exact (proj2 (GP p) Hb). }
      intros _. rewrite H4. unfold new_content, target. rewrite H5, Et. reflexivity.
  - (* PAppend Fail *) injection H as <-. apply Lgo; cbn; auto.
  - (* PCopy GoN *) destruct Ip as (H1 & H2 & H3 & H4 & H5 & H6).
    destruct (firstn (S n) (skipn off (f_data (w_fs s) src))) as [|b bs'] eqn:Ec; injection H as <-.
    + apply Lgo; auto. left. split; [|exact Logic.I]. cbn. do 3 (split; [assumption|]).
      split; [lia|]. split.
      { intros Hb. split; [reflexivity|]. exact (proj2 (GP p) Hb). }
      intros _. unfold new_content, target. rewrite H4, H5. cbn [option_map].
      destruct (skipn off (f_data (w_fs s) src)) eqn:E2; [|discriminate Ec].
      apply skipn_nil_len in E2. rewrite H6, E2. reflexivity.
    + assert (Hne : src <> i) by congruence.
      assert (HT := target_dset (w_fs s) i (f_data (w_fs s) i ++ b :: bs') H2).
      split; [|split; [left; split; [reflexivity|]; split; [exact HT|cbn; now rewrite pset_eq]|]].
      * apply inv_step_holder; auto; [rewrite Epc; exact Logic.I|]. unfold pinv. do 5 (split; [assumption|]). cbn [f_data].
        rewrite dset_eq, (dset_neq _ i src) by auto. rewrite (firstn_add _ off). change (S (length bs')) with (length (b :: bs')). rewrite <- Ec, firstn_len_id, H6. reflexivity.
      * cbn. repeat split; auto.
        -- intros j Hj. rewrite dset_neq; [reflexivity|congruence].
        -- intros j _ _ Hj. rewrite dset_neq; [reflexivity|congruence].
        -- intros q Hq. now rewrite pset_neq.
  - (* PCopy Fail *) injection H as <-. apply Lgo; cbn; auto.
  - (* PRun Go *) destruct ops as [|o ops]; cbn in H.
    + destruct err; injection H as <-; apply Lgo; auto; left; (split; [|exact Logic.I]).
      * cbn in Ip |- *. tauto.
      * cbn in Ip |- *. destruct Ip as (H1 & H2 & H3 & H4 & H5 & H6). do 3 (split; [assumption|]).
        split; [reflexivity|]. split; [intros Hb; split; [now right|apply (H5 Hb)]|].
        split; [congruence|]. split; [auto|]. unfold cat in *. cbn in *. now apply H6.
    + injection H as <-. apply Lgo.
      * left. split; [|exact Logic.I]. now apply fb_op_inv.
      * destruct o; cbn; unfold fb_write, fb_reserve, fb_printf, write_turn;
          repeat match goal with |- context [if ?b then _ else _] => destruct b end; reflexivity.
  - (* PRun GoN *) destruct ops; discriminate H.
  - (* PRun Fail *) destruct ops; discriminate H.
  - (* PRun Abort *) assert (Hx : Some (mkw (w_fs s) (pset (w_pc s) p (PClean i))) = Some s') by (destruct ops; exact H).
    injection Hx as <-. apply Lgo; auto. left. split; [|exact Logic.I]. cbn in *; tauto.
  - (* PFlush GoN *) destruct out as [|b out].
    + injection H as <-. apply Lgo.
      * left. split; [|exact Logic.I]. assert (Hb : buf = []) by apply Ip. subst buf. now apply resume_inv.
      * destruct k; cbn; unfold write_turn, fb_write;
          repeat match goal with |- context [if ?b then _ else _] => destruct b end; reflexivity.
    + injection H as <-. assert (Hb : buf = []) by apply Ip. subst buf.
      set (out' := b :: out) in *.
      change (match out with [] => [b] | _ => _ end) with out'.
      pose proof Ip as (H1 & H2 & H3 & _ & H4 & H5 & H6 & H7).
      assert (HT := target_dset (w_fs s) i (f_data (w_fs s) i ++ firstn (S n) out') H2).
      set (f' := mkfs (f_tgt (w_fs s)) (f_lck (w_fs s)) (dset (f_data (w_fs s)) i (f_data (w_fs s) i ++ firstn (S n) out')) (f_next (w_fs s))) in *.
      assert (HP : pinv (prog p) f' (PFlush i (skipn (S n) out') [] k ops)).
      { unfold pinv. do 3 (split; [assumption|]). split; [reflexivity|]. do 3 (split; [assumption|]).
        rewrite HT, <- H7. unfold f'. cbn [f_data]. rewrite dset_eq, <- app_assoc. now rewrite skipn_firstn_cat. }
      assert (HA : after (flush_step (prog p) i out' [] k ops (S n)) = false).
      { unfold flush_step. destruct (skipn (S n) out'); [|reflexivity].
        destruct k; cbn; unfold write_turn, fb_write;
          repeat match goal with |- context [if ?b then _ else _] => destruct b end; reflexivity. }
      split; [|split; [left; split; [reflexivity|]; split; [exact HT|cbn [w_pc]; now rewrite pset_eq]|]].
      * apply inv_step_holder; auto; [rewrite Epc; exact Logic.I|].
        unfold flush_step. destruct (skipn (S n) out') as [|x y] eqn:Es; [now apply resume_inv|exact HP].
      * unfold f'. cbn [w_fs f_tgt f_data f_next f_lck w_pc]. repeat split; auto.
        -- intros j Hj. rewrite dset_neq; [reflexivity|congruence].
        -- intros j _ _ Hj. rewrite dset_neq; [reflexivity|congruence].
        -- intros q Hq. now rewrite pset_neq.
  - (* PFlush Fail *) assert (Hb : buf = []) by apply Ip. subst buf.
    destruct out as [|b out]; [discriminate H|]. injection H as <-. apply Lgo.
    + left. split; [|exact Logic.I]. eapply resume_fail_inv; exact Ip.
    + destruct k; reflexivity.
  - (* PClose Go *) injection H as <-. apply Lgo; auto. left. split; [exact Ip|exact Logic.I].
  - injection H as <-. apply Lgo; auto. left. split; [|exact Logic.I]. cbn in *; tauto.
  - (* PLink Go *) destruct Ip as (H1 & H2 & H3 & H4). rewrite H1 in H.
    destruct (f_tgt (w_fs s)) eqn:Et; [discriminate H|]. injection H as <-.
    split; [|split; [right|]].
    + apply inv_step_holder; [exact I|rewrite Epc; exact Logic.I| | |]; cbn; auto; intros j [= <-]; auto.
    + cbn. rewrite pset_eq. repeat split; try discriminate. unfold target at 1. cbn. now rewrite H4.
    + cbn. repeat split; auto. intros q Hq. now rewrite pset_neq.
  - (* PLink Fail *) injection H as <-. apply Lgo; auto. left. split; [exact Ip|exact Logic.I].
  - (* PUnlink Go *) destruct Ip as (H1 & H2). injection H as <-.
    split; [|split; [left|]].
    + apply inv_step_holder; [exact I|rewrite Epc; exact Logic.I| | |exact Logic.I]; cbn; [auto|discriminate].
    + cbn. rewrite pset_eq. auto.
    + cbn. repeat split; auto. intros q Hq. now rewrite pset_neq.
  - injection H as <-. apply Lgo; cbn; auto.
  - (* PRename Go *) destruct Ip as (H1 & H2 & H3 & H4). rewrite H1 in H. injection H as <-.
    split; [|split; [right|]].
    + apply inv_step_holder; [exact I|rewrite Epc; exact Logic.I| | |exact Logic.I]; cbn; [|discriminate].
      intros j [= <-]. exact H3.
    + cbn. rewrite pset_eq. repeat split; auto. unfold target. cbn. now rewrite H4.
    + cbn. repeat split; auto. intros q Hq. now rewrite pset_neq.
  - injection H as <-. apply Lgo; auto. left. split; [|exact Logic.I]. cbn in *; tauto.
  - (* PSyncDir *) injection H as <-. apply Lgo; cbn; auto.
  - (* PClean *) destruct Ip as (H1 & H2 & H3). rewrite H1 in H. injection H as <-. apply Lgo; auto.
    left. split; [|exact Logic.I]. cbn. auto.
  - (* PCleanUnlink *) destruct Ip as (H1 & H2 & H3). injection H as <-.
    split; [|split; [left|]].
    + apply inv_step_holder; [exact I|rewrite Epc; exact Logic.I| | |exact Logic.I]; cbn; [auto|discriminate].
    + cbn. rewrite pset_eq. auto.
    + cbn. repeat split; auto. intros q Hq. now rewrite pset_neq.
  - injection H as <-. apply Lgo; cbn; auto.
Qed.

End S.
