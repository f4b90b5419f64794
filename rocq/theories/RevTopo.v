(** [sort_in_topological_order]. *)
From Verif Require Import Base Arr PQueueModel PQueueProofs GraphModel GraphSpec GraphProofs GraphBases GraphTotal RevModel RevSpec RevProofs.
From Coq Require Import Permutation.

Section RT.
  Context (g : graph).
  Local Notation P := (g_parents g).
  Definition occ (x : nat) (ps : list nat) : Z := Z.of_nat (length (filter (Nat.eqb x) ps)).
  Lemma occ_cons x p ps : occ x (p :: ps) = (if (x =? p)%nat then 1 else 0) + occ x ps.
  Proof. unfold occ. cbn [filter]. destruct (x =? p)%nat; cbn [length]; lia. Qed.
  Lemma occ_pos x ps : In x ps <-> 0 < occ x ps.
  Proof.
    induction ps as [|p ps IH]; [cbn; unfold occ; cbn; lia|]. rewrite occ_cons. cbn. assert (0 <= occ x ps) by (unfold occ; lia).
    destruct (Nat.eqb_spec x p); subst; intuition (try congruence; try lia).
  Qed.
  Lemma occ_nn x ps : 0 <= occ x ps. Proof. unfold occ. lia. Qed.
  Local Notation ce := (child_edges P).
  Lemma ce_nn l x : 0 <= ce l x.
  Proof. induction l; cbn; lia. Qed.
  Lemma ce_perm l l' x : Permutation l l' -> ce l x = ce l' x.
  Proof. induction 1; cbn; lia. Qed.
  Lemma ce_cons c l x : ce (c :: l) x = occ x (P c) + ce l x.
  Proof. reflexivity. Qed.
  Lemma ce_app l l' x : ce (l ++ l') x = ce l x + ce l' x.
  Proof. induction l; cbn; [reflexivity|]. lia. Qed.
  Lemma ce_pos l x : 0 < ce l x <-> exists c, In c l /\ In x (P c).
  Proof.
    induction l as [|c l IH]; [cbn; split; [lia|intros (? & [] & _)]|]. rewrite ce_cons.
    pose proof (occ_nn x (P c)). pose proof (ce_nn l x). pose proof (occ_pos x (P c)). split.
    - intros Hp. destruct (Z_lt_le_dec 0 (occ x (P c))).
      + exists c. split; [left; auto|tauto].
      + destruct IH as (IH & _). destruct IH as (c' & A & B); [lia|]. exists c'. split; [right|]; auto.
    - intros (c' & [-> | Hc] & Hx); [apply occ_pos in Hx; lia|]. assert (0 < ce l x) by (apply IH; eauto). lia.
  Qed.

  Lemma pq_insert_ok cmp q x : exists q', pq_insert cmp q x = Ok q' /\ Permutation q' (x :: q).
  Proof.
    destruct cmp as [f|]; cbn; [apply insert_any|]. eexists. split; [reflexivity|]. apply Permutation_sym, Permutation_cons_append.
  Qed.
  Lemma pq_pop_ok cmp a q : exists m q', pq_pop cmp (a :: q) = Ok (Some m, q') /\ Permutation (a :: q) (m :: q').
  Proof.
    destruct cmp as [f|]; cbn [pq_pop]; [exact (pop_any f (a :: q))|].
    assert (Hne : a :: q <> []) by discriminate. pose proof (app_removelast_last 0%nat Hne) as E.
    remember (a :: q) as l eqn:El. clear El.
    exists (last l 0%nat), (removelast l). split.
    - assert (K : nth_error (removelast l ++ [last l 0%nat]) (length (removelast l ++ [last l 0%nat]) - 1) = Some (last l 0%nat)).
      { rewrite app_length. cbn [length]. rewrite nth_error_app2 by lia. replace (_ - _)%nat with 0%nat by lia. reflexivity. }
      rewrite <- E in K. rewrite K. reflexivity.
    - rewrite E at 1. apply Permutation_sym, Permutation_cons_append.
  Qed.

  Lemma reset_spec l : forall d x, indeg_reset l d x = if existsb (Nat.eqb x) l then 1 else d x.
  Proof.
    induction l as [|a l IH]; intros d x; cbn; [reflexivity|]. unfold indeg_reset in IH. rewrite IH. unfold fset.
    destruct (existsb (Nat.eqb x) l); [rewrite orb_true_r; reflexivity|]. rewrite orb_false_r. reflexivity.
  Qed.

  Lemma inc_spec d p x : 0 <= d x <= 65535 ->
    indeg_inc d p x = if d x =? 0 then 0 else if (x =? p)%nat then u16 (d x + 1) else d x.
  Proof.
    intros H. unfold indeg_inc. destruct (Z.eqb_spec (d p) 0) as [E|E].
    - destruct (Z.eqb_spec (d x) 0); [lia|]. destruct (Nat.eqb_spec x p); [subst; lia|reflexivity].
    - unfold fset. destruct (Nat.eqb_spec x p) as [-> |].
      + destruct (Z.eqb_spec (d p) 0); [lia|reflexivity].
      + destruct (Z.eqb_spec (d x) 0); lia.
  Qed.
  Lemma u16_range z : 0 <= u16 z <= 65535.
  Proof. unfold u16. lia. Qed.

  (** The count saturates at 0 when it reaches 65536. *)
  Definition sat (v n : Z) : Z := if v =? 0 then 0 else if v + n <=? 65535 then v + n else 0.
  Lemma sat_add v a b : 0 <= v <= 65535 -> 0 <= a -> 0 <= b -> sat (sat v a) b = sat v (a + b).
  Proof. intros. unfold sat. destruct (Z.eqb_spec v 0); [reflexivity|]. destruct (Z.leb_spec (v + a) 65535).
    - destruct (Z.eqb_spec (v + a) 0); [lia|]. replace (v + a + b) with (v + (a + b)) by lia. reflexivity.
    - cbn. destruct (Z.leb_spec (v + (a + b)) 65535); lia. Qed.
  Lemma sat_range v n : 0 <= v <= 65535 -> 0 <= n -> 0 <= sat v n <= 65535.
  Proof. intros. unfold sat. destruct (v =? 0); [lia|]. destruct (Z.leb_spec (v + n) 65535); lia. Qed.
  Lemma fold_inc ps : forall d x, 0 <= d x <= 65535 -> fold_left indeg_inc ps d x = sat (d x) (occ x ps).
  Proof.
    induction ps as [|p ps IH]; intros d x H; cbn [fold_left].
    - unfold occ. cbn [filter length Z.of_nat]. unfold sat. destruct (Z.eqb_spec (d x) 0); [lia|]. rewrite Z.add_0_r. destruct (Z.leb_spec (d x) 65535); lia.
    - assert (E : indeg_inc d p x = sat (d x) (if (x =? p)%nat then 1 else 0)).
      { rewrite inc_spec by auto. unfold sat. destruct (Z.eqb_spec (d x) 0); [reflexivity|].
        destruct (x =? p)%nat; [unfold u16|]; destruct (Z.leb_spec (d x + 1) 65535); destruct (Z.leb_spec (d x + 0) 65535); lia. }
      assert (Hn : 0 <= (if (x =? p)%nat then 1 else 0)) by (destruct (x =? p)%nat; lia).
      rewrite IH; [|rewrite E; apply sat_range; auto]. rewrite E, occ_cons.
      apply sat_add; auto. apply occ_nn.
  Qed.
  Lemma count_spec l : forall d x, 0 <= d x <= 65535 -> indeg_count g l d x = sat (d x) (ce l x).
  Proof.
    induction l as [|c l IH]; intros d x H; unfold indeg_count in *; cbn [fold_left].
    - cbn [child_edges]. unfold sat. destruct (Z.eqb_spec (d x) 0); [lia|]. destruct (Z.leb_spec (d x + 0) 65535); lia.
    - pose proof (fold_inc (P c) d x H) as E.
      rewrite IH; [|rewrite E; apply sat_range; auto; apply occ_nn]. rewrite E, ce_cons. apply sat_add; auto; [apply occ_nn|apply ce_nn].
  Qed.

  Lemma tips_spec cmp (Q : nat -> Prop) l : forall d q, NoDup l -> NoDup q -> (forall x, In x q -> ~ In x l) ->
    exists q', topo_tips cmp l d q = Ok q' /\ NoDup q' /\ (forall x, In x q' <-> In x q \/ (In x l /\ d x = 1)) /\
      (length q' <= length q + length l)%nat.
  Proof.
    induction l as [|a l IH]; intros d q NL NQ HD; cbn [topo_tips].
    - exists q. split; [reflexivity|]. split; [auto|]. split; [intros; cbn; tauto|cbn; lia].
    - apply NoDup_cons_iff in NL. destruct NL as (Na & NL).
      destruct (Z.eqb_spec (d a) 1) as [E|E].
      + destruct (pq_insert_ok cmp q a) as (q1 & -> & HP). cbn [bindr].
        destruct (IH d q1) as (q2 & E2 & A & B & C); auto.
        * eapply Permutation_NoDup; [apply Permutation_sym, HP|]. constructor; auto. intros H. apply (HD a H). left. auto.
        * intros x Hx Hl. apply (Permutation_in _ HP) in Hx. destruct Hx as [<- | Hx]; [auto|]. eapply HD; eauto. right. auto.
        * exists q2. split; [exact E2|]. split; [exact A|]. split.
          -- intros x. rewrite B. assert (In x q1 <-> x = a \/ In x q) as ->.
             { split; intros H; [apply (Permutation_in _ HP) in H; destruct H; auto|apply (Permutation_in _ (Permutation_sym HP)); destruct H; [left|right]; auto]. }
             cbn. intuition (subst; auto).
          -- apply Permutation_length in HP. cbn in *. lia.
      + destruct (IH d q) as (q2 & E2 & A & B & C); auto.
        * intros x Hx Hl. eapply HD; eauto. right. auto.
        * exists q2. split; [exact E2|]. split; [exact A|]. split; [|cbn; lia]. intros x. rewrite B. cbn. intuition (subst; auto; congruence).
  Qed.

  Lemma parents_spec cmp (rem : list nat) (b : nat -> Z) ps : forall d q,
    (forall y, In y rem -> 1 <= b y /\ d y = b y + occ y ps /\ d y <= 65535) -> (forall y, In y ps -> ~ In y rem -> d y = 0) ->
    NoDup q -> (forall y, In y q <-> In y rem /\ d y = 1) ->
    exists d' q', topo_parents cmp ps d q = Ok (d', q') /\ (forall y, In y rem -> d' y = b y) /\ (forall y, ~ In y rem -> d' y = d y) /\
      NoDup q' /\ (forall y, In y q' <-> In y rem /\ d' y = 1).
  Proof.
    induction ps as [|p ps IH]; intros d q H1 H2 NQ HQ; cbn [topo_parents].
    - exists d, q. split; [reflexivity|]. split; [|auto]. intros y Hy. destruct (H1 y Hy) as (_ & E & _). rewrite E. unfold occ. cbn. lia.
    - destruct (Z.eqb_spec (d p) 0) as [E|E].
      + assert (Hp : ~ In p rem). { intros Hp. destruct (H1 p Hp) as (B1 & B2 & _). pose proof (occ_nn p (p :: ps)). lia. }
        apply IH; auto.
        * intros y Hy. destruct (H1 y Hy) as (B1 & B2 & B3). rewrite occ_cons in B2. destruct (Nat.eqb_spec y p); [subst; tauto|]. repeat split; auto; lia.
        * intros y Hy. apply H2. right. auto.
      + assert (Hp : In p rem). { destruct (in_dec Nat.eq_dec p rem); auto. exfalso. apply E, H2; auto. left. auto. }
        destruct (H1 p Hp) as (B1 & B2 & B3). rewrite occ_cons, Nat.eqb_refl in B2. pose proof (occ_nn p ps) as B4.
        assert (Eu : u16 (d p - 1) = d p - 1) by (unfold u16; rewrite Z.mod_small; lia).
        assert (K1 : forall y, In y rem -> 1 <= b y /\ fset d p (u16 (d p - 1)) y = b y + occ y ps /\ fset d p (u16 (d p - 1)) y <= 65535).
        { intros y Hy. destruct (H1 y Hy) as (C1 & C2 & C3). rewrite occ_cons in C2. rewrite Eu. unfold fset.
          destruct (Nat.eqb_spec y p); subst; repeat split; lia. }
        assert (K2 : forall y, In y ps -> ~ In y rem -> fset d p (u16 (d p - 1)) y = 0).
        { intros y Hy Hn. rewrite fset_neq by (intros ->; auto). apply H2; [right|]; auto. }
        cbv zeta. rewrite fset_eq. destruct (Z.eqb_spec (u16 (d p - 1)) 1) as [E1|E1].
        * destruct (pq_insert_ok cmp q p) as (q1 & -> & HP). cbn [bindr].
          assert (Hnq : ~ In p q) by (intros Hq; apply HQ in Hq; lia).
          destruct (IH (fset d p (u16 (d p - 1))) q1) as (d' & q' & Q1 & Q2 & Q3 & Q4 & Q5); auto.
          -- eapply Permutation_NoDup; [apply Permutation_sym, HP|]. constructor; auto.
          -- intros y. assert (In y q1 <-> y = p \/ In y q) as ->.
             { split; intros H; [apply (Permutation_in _ HP) in H; destruct H; auto|apply (Permutation_in _ (Permutation_sym HP)); destruct H; [left|right]; auto]. }
             rewrite HQ. unfold fset. destruct (Nat.eqb_spec y p) as [-> |]; intuition congruence.
          -- exists d', q'. split; [exact Q1|]. split; [exact Q2|]. split; [|auto]. intros y Hy. rewrite Q3 by auto. apply fset_neq. intros ->; auto.
        * destruct (IH (fset d p (u16 (d p - 1))) q) as (d' & q' & Q1 & Q2 & Q3 & Q4 & Q5); auto.
          -- intros y. rewrite HQ. unfold fset. destruct (Nat.eqb_spec y p) as [-> |]; [|tauto]. split; [intros (_ & HH); lia|intros (_ & HH); congruence].
          -- exists d', q'. split; [exact Q1|]. split; [exact Q2|]. split; [|auto]. intros y Hy. rewrite Q3 by auto. apply fset_neq. intros ->; auto.
  Qed.

  Context (AC : acyclic P).

  Lemma children_first_snoc l x : children_first P l -> (forall y, In y l -> ~ In y (P x)) -> children_first P (l ++ [x]).
  Proof.
    induction l as [|a l IH]; cbn; intros H1 H2; [split; [intros ? []|exact I]|].
    destruct H1 as (A & B). split; [|apply IH; auto]. intros c Hc. apply in_app_iff in Hc. destruct Hc as [Hc|[<- |[]]]; auto.
  Qed.

  Lemma topo_loop_ok fuel cmp l : forall d q out rem, Permutation l (out ++ rem) -> NoDup q -> (length rem <= fuel)%nat ->
    NoDup rem ->
    (forall x, In x rem -> d x = 1 + ce rem x /\ d x <= 65535) -> (forall x, ~ In x rem -> d x = 0) ->
    (forall x, In x q <-> In x rem /\ d x = 1) ->
    children_first P (rev out) -> (forall x y, In x rem -> In y out -> ~ In y (P x)) ->
    exists d' out', topo_loop g fuel cmp d q out = Ok (d', out') /\ Permutation l out' /\ children_first P out' /\ (forall x, d' x = 0).
  Proof.
    induction fuel as [|fuel IH]; intros d q out rem HP NQ Hf NR Hd Hd0 HQ CF HO.
    - destruct rem; [|cbn in Hf; lia]. destruct q as [|a q]; [|exfalso; destruct (proj1 (HQ a) (or_introl eq_refl)) as ([] & _)].
      exists d, (rev out). split; [reflexivity|]. rewrite app_nil_r in HP. split; [etransitivity; [exact HP|apply Permutation_rev]|]. split; auto.
    - destruct q as [|a q]; cbn [topo_loop].
      { assert (rem = []) as ->.
        { destruct rem as [|c rem]; auto. exfalso.
          assert (Hk : forall x, In x (c :: rem) -> exists v, In v (c :: rem) /\ In x (P v)).
          { intros x Hx. apply ce_pos. destruct (Hd x Hx) as (E & _). pose proof (ce_nn (c :: rem) x).
            destruct (Z.eq_dec (d x) 1) as [E1|]; [|lia]. exfalso. apply (proj2 (HQ x)). auto. }
          refine (nn_maximal g AC (fun x => In x (c :: rem)) (c :: rem) (fun x h => h) c (or_introl eq_refl) _).
          intros (m & Hm & _ & Hmax). destruct (Hk m Hm) as (v & Hv & Hp).
          assert (v = m) by (apply Hmax; auto; eapply reach_step; [exact Hp|constructor]). subst v.
          apply (AC _ _ Hp). constructor. }
        exists d, (rev out). split; [reflexivity|]. rewrite app_nil_r in HP. split; [etransitivity; [exact HP|apply Permutation_rev]|]. split; auto. }
      destruct (pq_pop_ok cmp a q) as (x & q1 & Epop & HPq). rewrite Epop. cbn [bindr].
      assert (Hxq : In x (a :: q)) by (apply (Permutation_in _ (Permutation_sym HPq)); left; auto).
      assert (NQ1 : NoDup (x :: q1)) by (eapply Permutation_NoDup; eauto).
      apply NoDup_cons_iff in NQ1. destruct NQ1 as (Nx & NQ1).
      destruct (proj1 (HQ x) Hxq) as (Hxr & Hx1).
      destruct (in_split _ _ Hxr) as (r1 & r2 & Er).
      pose (rem' := r1 ++ r2).
      assert (HPr : Permutation rem (x :: rem')) by (rewrite Er; apply Permutation_sym, Permutation_middle).
      assert (NR' : NoDup (x :: rem')) by (eapply Permutation_NoDup; eauto).
      apply NoDup_cons_iff in NR'. destruct NR' as (Nxr & NR').
      assert (Hin : forall y, In y rem <-> y = x \/ In y rem').
      { intros y. split; intros H; [apply (Permutation_in _ HPr) in H; destruct H; auto|apply (Permutation_in _ (Permutation_sym HPr)); destruct H; [left|right]; auto]. }
      assert (Hcx : forall c, In c rem -> ~ In x (P c)).
      { intros c Hc Hp. assert (0 < ce rem x) by (apply ce_pos; eauto). destruct (Hd x Hxr). lia. }
      destruct (parents_spec cmp rem' (fun y => 1 + ce rem' y) (P x) d q1) as (d1 & q2 & E2 & D1 & D2 & NQ2 & HQ2).
      + intros y Hy. destruct (Hd y) as (E & L); [apply Hin; auto|]. rewrite (ce_perm _ _ y HPr), ce_cons in E.
        pose proof (ce_nn rem' y). split; [lia|]. split; [lia|exact L].
      + intros y Hy Hn. apply Hd0. intros Hr. apply Hin in Hr. destruct Hr as [-> |]; [|auto]. eapply Hcx; eauto.
      + exact NQ1.
      + intros y. split.
        * intros Hy. assert (y <> x) by (intros ->; auto).
          assert (In y (a :: q)) by (apply (Permutation_in _ (Permutation_sym HPq)); right; auto).
          apply HQ in H0. destruct H0 as (H0 & H1). apply Hin in H0. destruct H0; [congruence|auto].
        * intros (Hy & Ey). assert (In y (a :: q)) by (apply HQ; split; [apply Hin|]; auto).
          apply (Permutation_in _ HPq) in H. destruct H as [<- |]; [tauto|auto].
      + rewrite E2. cbn [bindr]. apply (IH _ _ _ rem').
        * etransitivity; [exact HP|]. etransitivity; [apply Permutation_app_head, HPr|]. cbn. apply Permutation_sym, Permutation_middle.
        * exact NQ2.
        * apply Permutation_length in HPr. cbn in HPr. lia.
        * exact NR'.
        * intros y Hy. assert (y <> x) by (intros ->; auto). rewrite fset_neq, D1 by auto. split; [lia|].
          destruct (Hd y) as (E & L); [apply Hin; auto|]. rewrite (ce_perm _ _ y HPr), ce_cons in E. pose proof (occ_nn y (P x)). lia.
        * intros y Hy. unfold fset. destruct (Nat.eqb_spec y x); [reflexivity|]. rewrite D2 by auto. apply Hd0. rewrite Hin. tauto.
        * intros y. rewrite HQ2. unfold fset. destruct (Nat.eqb_spec y x) as [-> |]; [|tauto]. intuition congruence.
        * cbn [rev]. apply children_first_snoc; auto. intros y Hy. apply in_rev in Hy. eauto.
        * intros c y Hc [<- | Hy]; [apply Hcx, Hin; auto|]. apply HO; auto. apply Hin. auto.
  Qed.

  Lemma topo_sort_ok fuel time s l : NoDup l -> (forall x, n_indeg s x = 0) -> (forall x, In x l -> ce l x < 65535) ->
    (length l <= fuel)%nat ->
    exists s' out, topo_sort g fuel time s l = Ok (s', out) /\ Permutation l out /\ children_first P out /\
      n_unint s' = n_unint s /\ n_seen s' = n_seen s /\ n_added s' = n_added s /\ n_parsed s' = n_parsed s.
  Proof.
    intros NL H0 HB Hf. unfold topo_sort.
    set (cmp := if time then _ else _). set (d := indeg_count g l (indeg_reset l (n_indeg s))).
    assert (Hd : forall x, d x = if existsb (Nat.eqb x) l then sat 1 (ce l x) else 0).
    { intros x. unfold d. assert (E : indeg_reset l (n_indeg s) x = if existsb (Nat.eqb x) l then 1 else 0).
      { rewrite reset_spec, H0. reflexivity. }
      rewrite count_spec by (rewrite E; destruct (existsb _ _); lia). rewrite E. destruct (existsb _ _); reflexivity. }
    assert (Hin : forall x, In x l <-> existsb (Nat.eqb x) l = true).
    { intros x. rewrite existsb_exists. split; [intros H; exists x; rewrite Nat.eqb_refl; auto|]. intros (y & A & B). apply Nat.eqb_eq in B. subst. auto. }
    assert (Hd1 : forall x, In x l -> d x = 1 + ce l x /\ d x <= 65535).
    { intros x Hx. rewrite Hd, (proj1 (Hin x) Hx). specialize (HB x Hx). pose proof (ce_nn l x).
      unfold sat. replace (1 =? 0) with false by reflexivity. destruct (Z.leb_spec (1 + ce l x) 65535); lia. }
    destruct (tips_spec cmp (fun _ => True) l d []) as (q & -> & NQ & HQ & _); [auto|constructor|intros ? []|]. cbn [bindr].
    set (q1 := if time then q else rev q).
    assert (NQ1 : NoDup q1) by (unfold q1; destruct time; [auto|apply NoDup_rev; auto]).
    assert (HQ1 : forall x, In x q1 <-> In x l /\ d x = 1).
    { intros x. transitivity (In x q); [unfold q1; destruct time; [tauto|symmetry; apply in_rev]|]. rewrite HQ. cbn. tauto. }
    destruct (topo_loop_ok fuel cmp l d q1 [] l) as (d' & out & E & A & B & C); auto.
    - intros x Hx. rewrite Hd. destruct (existsb _ l) eqn:E; auto. apply Hin in E. tauto.
    - cbn. auto.
    - rewrite E. cbn [bindr]. eexists _, out. split; [reflexivity|]. auto 10.
  Qed.
End RT.
