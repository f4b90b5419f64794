(** [limit_list] keeps exactly the commits to show. *)
From Verif Require Import Base GraphModel GraphSpec GraphBases GraphTotal RevModel RevSpec RevProofs.
From Coq Require Import Permutation.

Section RL.
  Context (g : graph).
  Local Notation P := (g_parents g).
  Local Notation tm := (g_time g).
  Context (first : bool) (cb : option (nat -> bool)) (PS HS : nat -> Prop).
  Local Notation eff := (eff g first cb).
  Local Notation hcb := (hcb cb).
  Local Notation hidden := (hidden g HS).
  Local Notation pushed := (pushed g first cb PS).
  Local Notation inv := (inv g first cb PS HS).

  Lemma eff_reach a b : reach eff a b -> reach P a b.
  Proof. induction 1; [constructor|]. eapply reach_step; eauto. apply effl_incl in H. tauto. Qed.

  Lemma final s L out : inv s L out -> (forall y, In y L -> n_unint s y = true) ->
    ((forall h, ~ HS h) \/ ((forall x, eff x = P x) /\ forall y x, In y L -> In x out -> n_unint s x = false -> ~ reach P y x)) ->
    forall x, (In x out /\ n_unint s x = false) <-> (pushed x /\ hcb x = false /\ ~ hidden x).
  Proof.
    intros I HL HC x. destruct I. split.
    - intros (Hin & Hu). destruct (iO2 x Hin) as (A & B & C). split; [exact C|]. split; [exact B|].
      intros (h & Hh & Hr). destruct HC as [HC|(E & HC)]; [eapply HC; eauto|].
      destruct (iI2 h Hh) as (D1 & D2). clear Hh. induction Hr as [c|c p a Hp Hr IH]; [congruence|].
      apply IH; auto.
      + apply iS in D1. destruct D1 as [D1|D1]; [exfalso; apply (HC c a); auto; eapply reach_step; eauto|].
        apply (iK c p); auto. rewrite E. auto.
      + apply iS in D1. destruct D1 as [D1|D1]; [exfalso; apply (HC c a); auto; eapply reach_step; eauto|]. eauto.
    - intros ((p & Hp & Hr) & Hh & Hn).
      assert (K : forall a, n_seen s a = true -> reach eff a x -> n_added s x = true).
      { intros a Ha Hra. induction Hra as [c|c q a Hq Hra IH].
        - apply iS in Ha. destruct Ha as [Ha|Ha]; [|exact Ha]. exfalso. apply Hn, iU, HL, Ha.
        - apply IH; auto.
          + apply (iK c q); auto. apply iS in Ha. destruct Ha as [Ha|Ha]; auto. exfalso. apply Hn.
            eapply hidden_reach; [apply iU, HL, Ha|]. apply eff_reach. eapply reach_step; eauto. }
      assert (Hu : n_unint s x = false) by (destruct (n_unint s x) eqn:E; auto; exfalso; apply Hn, iU, E).
      split; auto. apply iO1; auto. apply (K p); auto.
  Qed.

  Definition TI (s : nst) (L out : list nat) (T : Z) : Prop :=
    (forall x, In x out -> T <= tm x) /\
    ((ord g (n_unint s) L /\ (out <> [] -> forall y, In y L -> n_unint s y = false -> tm y <= T)) \/
     (out = [] /\ exists q, forall y, In y L -> n_unint s y = false -> y = q)).
  Definition dates (L : list nat) : Prop :=
    dates_strict P tm \/ (dates_ordered P tm /\ newest_first tm L).
  Definition case (s : nst) (L out : list nat) (T : Z) : Prop :=
    (forall x, ~ HS x) \/ ((forall x, eff x = P x) /\ TI s L out T /\ dates L).

  Lemma dates_le L : dates L -> forall c p, In p (P c) -> tm p <= tm c.
  Proof. intros [H|(H & _)] c p Hp; [specialize (H c p Hp); lia|auto]. Qed.
  Lemma dates_reach L : dates L -> forall a b, reach P a b -> tm b <= tm a.
  Proof. intros D a b H. induction H; [lia|]. pose proof (dates_le _ D _ _ H). lia. Qed.
  Lemma dates_ins ns r c : dates (c :: r) -> dates (ins g ns r).
  Proof. intros [H|(H & (_ & N))]; [left; auto|right; split; auto]. apply ins_sorted, N. Qed.

  Lemma case_unint (s s2 : nst) (c : nat) rest out T ns : case s (c :: rest) out T ->
    (forall x, n_unint s x = true -> n_unint s2 x = true) -> (forall x, In x ns -> n_unint s2 x = true) ->
    case s2 (ins g ns rest) out T.
  Proof.
    intros [H|(E & (T1 & T2) & D)] M U; [left; auto|]. right. split; [exact E|]. split; [|eapply dates_ins; eauto]. split; [exact T1|].
    assert (HM : forall y, In y (ins g ns rest) -> n_unint s2 y = false -> In y rest /\ n_unint s y = false).
    { intros y Hy Hu. apply ins_in in Hy. destruct Hy as [Hy|Hy]; [rewrite U in Hu by auto; discriminate|]. split; auto.
      destruct (n_unint s y) eqn:Ey; auto. apply M in Ey. congruence. }
    destruct T2 as [((A0 & A) & B)|(A & q & B)].
    - left. split; [apply ord_ins; eapply ord_mono; eauto|]. intros Ho y Hy Hu. destruct (HM y Hy Hu). apply B; auto. right. auto.
    - right. split; [exact A|]. exists q. intros y Hy Hu. destruct (HM y Hy Hu). apply B; auto. right. auto.
  Qed.

  Lemma case_int (s s1 : nst) (c : nat) rest out T ns : case s (c :: rest) out T -> n_unint s c = false ->
    NoDup (live s (c :: rest)) ->
    n_unint s1 = n_unint s -> (forall x, In x ns -> In x (eff c)) ->
    case s1 (ins g ns rest) (if hcb c then out else c :: out) (if hcb c then T else tm c).
  Proof.
    intros [H|(E & (T1 & T2) & D)] Hc ND U N; [left; auto|]. right. split; [exact E|]. split; [|eapply dates_ins; eauto].
    assert (Hns : forall y, In y ns -> tm y <= tm c). { intros y Hy. apply N in Hy. rewrite E in Hy. eapply dates_le; eauto. }
    assert (HO : (forall y, In y rest -> n_unint s y = false -> tm y <= tm c) /\ ord g (n_unint s) rest).
    { destruct T2 as [(A & B)|(A & q & B)]; [exact A|].
      assert (HN : forall y, In y rest -> n_unint s y = true).
      { intros y Hy. destruct (n_unint s y) eqn:Ey; auto. exfalso.
        assert (y = c) by (rewrite (B y), (B c); auto; [left; auto|right; auto]). subst y.
        unfold live in ND. cbn in ND. rewrite Hc in ND. cbn in ND. apply NoDup_cons_iff in ND. destruct ND as (ND & _). apply ND.
        apply filter_In. rewrite Hc. auto. }
      split; [|apply ord_none, HN]. intros y Hy Hu. rewrite (HN y Hy) in Hu. discriminate. }
    destruct HO as (HO1 & HO2).
    assert (Hall : forall y, In y (ins g ns rest) -> n_unint s y = false -> tm y <= tm c).
    { intros y Hy Hu. apply ins_in in Hy. destruct Hy; auto. }
    rewrite <- U in *.
    destruct (hcb c).
    - split; [exact T1|]. left. split; [apply ord_ins, HO2|]. intros Ho y Hy Hu.
      destruct T2 as [(A & B)|(A & _)]; [|congruence]. specialize (B Ho c (or_introl eq_refl) Hc). specialize (Hall y Hy Hu). lia.
    - split.
      + intros x [<- | Hx]; [lia|]. destruct T2 as [(A & B)|(A & _)]; [|subst out; destruct Hx].
        assert (Hne : out <> []) by (intros ->; destruct Hx). specialize (B Hne c (or_introl eq_refl) Hc). specialize (T1 x Hx). lia.
      + left. split; [apply ord_ins, HO2|]. intros _. auto.
  Qed.

  Lemma limit_loop_ok fuel mf : forall s L out T slop s' l, inv s L out -> case s L out T ->
    limit_loop g fuel mf first cb s L out T slop = Ok (s', l) ->
    NoDup l /\ (forall x, (In x l /\ n_unint s' x = false) <-> (pushed x /\ hcb x = false /\ ~ hidden x)) /\
    (forall x, In x l -> pushed x) /\ (forall x, n_unint s' x = true -> hidden x).
  Proof.
    assert (FIN : forall s L out, inv s L out -> (forall x, In x (rev out) -> pushed x) /\ (forall x, n_unint s x = true -> hidden x)).
    { intros s L out I. split; [|exact (iU _ _ _ _ _ _ _ _ I)]. intros x Hx. apply in_rev in Hx. apply (iO2 _ _ _ _ _ _ _ _ I) in Hx. tauto. }
    induction fuel as [|fuel IH]; intros s L out T slop s' l I C H.
    - destruct L; [|discriminate]. injection H as <- <-.
      split; [apply NoDup_rev, (iD1 _ _ _ _ _ _ _ _ I)|]. split.
      + intros x. rewrite <- in_rev. apply (final _ _ _ I); [intros ? []|]. destruct C as [C|(E & _)]; [left; exact C|right; split; [exact E|intros ? ? []]].
      + eapply FIN; eauto.
    - destruct L as [|c rest]; cbn [limit_loop] in H.
      { injection H as <- <-.
        split; [apply NoDup_rev, (iD1 _ _ _ _ _ _ _ _ I)|]. split.
        + intros x. rewrite <- in_rev. apply (final _ _ _ I); [intros ? []|]. destruct C as [C|(E & _)]; [left; exact C|right; split; [exact E|intros ? ? []]].
        + eapply FIN; eauto. }
      destruct (add_parents g mf first cb s c rest) as [[s1 l1]| | |] eqn:Ea; cbn [bindr] in H; try discriminate.
      destruct (n_unint s c) eqn:Ec.
      + destruct (step_unint _ _ _ _ _ _ _ _ _ _ _ _ I Ec Ea) as (I1 & U1 & M1 & _ & ns & E1 & N1 & _).
        rewrite U1 in H. destruct (mark_parents g mf s1 c) as [s2| | |] eqn:Em; cbn [bindr] in H; try discriminate.
        destruct (inv_mark _ _ _ _ _ _ _ _ _ _ _ I1 U1 Em) as (I2 & M2 & _).
        assert (C2 : case s2 l1 out T). { rewrite E1. eapply case_unint; eauto. }
        destruct (still_interesting g (n_unint s2) l1 T slop =? 0) eqn:Es.
        * injection H as <- <-. apply Z.eqb_eq in Es.
          assert (HL : (forall y, In y l1 -> n_unint s2 y = true) /\
                       (forall y, In y l1 -> tm y <= T) /\ (newest_first tm l1 -> forall y, In y l1 -> tm y < T)).
          { unfold still_interesting in Es. destruct l1 as [|x l1]; [split; [intros ? []|split; [intros ? []|intros _ ? []]]|].
            destruct (Z.leb_spec T (tm x)); [unfold SLOP in Es; discriminate|].
            destruct (existsb _ (x :: l1)) eqn:Ex; [unfold SLOP in Es; discriminate|].
            assert (HX : forall y, In y (x :: l1) -> n_unint s2 y = true /\ tm y <= T).
            { intros y Hy. assert (negb (n_unint s2 y) || (T <? tm y) = false).
              { destruct (negb (n_unint s2 y) || (T <? tm y)) eqn:Q; auto.
                assert (existsb (fun y => negb (n_unint s2 y) || (T <? tm y)) (x :: l1) = true); [|congruence].
                apply existsb_exists. eauto. }
              apply orb_false_iff in H0. destruct H0 as (Q1 & Q2). split; [destruct (n_unint s2 y); auto; discriminate|lia]. }
            split; [intros y Hy; apply HX, Hy|]. split; [intros y Hy; apply HX, Hy|].
            intros (NF & _) y [<- | Hy]; [lia|]. specialize (NF y Hy). lia. }
          destruct HL as (HL1 & HL2 & HL3).
          split; [apply NoDup_rev, (iD1 _ _ _ _ _ _ _ _ I2)|]. split.
          -- intros x. rewrite <- in_rev. apply (final _ _ _ I2); auto.
             destruct C2 as [C2|(E & (T1 & _) & D)]; auto. right. split; auto.
             intros y z Hy Hz Huz Hr. specialize (T1 z Hz). pose proof (HL1 y Hy) as Hyu.
             destruct D as [D|(D & NF)].
             ++ destruct Hr as [|y p z Hp Hr]; [congruence|]. pose proof (dates_reach [] (or_introl D) _ _ Hr).
                specialize (D _ _ Hp). specialize (HL2 y Hy). lia.
             ++ pose proof (dates_reach l1 (or_intror (conj D NF)) _ _ Hr). specialize (HL3 NF y Hy). lia.
          -- eapply FIN; eauto.
        * eapply IH; eauto.
      + destruct (step_int _ _ _ _ _ _ _ _ _ _ _ _ I Ec Ea) as (I1 & U1 & _ & _ & _ & ns & E1 & N1 & _).
        rewrite U1, Ec in H. change (match cb with Some h => h c | None => false end) with (hcb c) in H.
        assert (C2 : case s1 l1 (if hcb c then out else c :: out) (if hcb c then T else tm c)).
        { rewrite E1. eapply case_int; eauto. apply (iD3 _ _ _ _ _ _ _ _ I). }
        destruct (hcb c); eapply IH; eauto.
  Qed.

  Lemma add_parents_indeg mf s c l s' l' : add_parents g mf first cb s c l = Ok (s', l') -> n_indeg s' = n_indeg s.
  Proof.
    unfold add_parents. destruct (n_added s c); [intros [= <- <-]; reflexivity|].
    destruct (n_unint (set_added s c) c); intros H.
    - apply (add_unint_spec g (fun _ => False)) in H; [|intros ? []|intros ? ? []]. apply H.
    - apply add_int_spec in H. destruct H as (ns & _ & _ & _ & _ & E & _). exact E.
  Qed.
  Lemma limit_loop_indeg fuel mf : forall s L out T slop s' l, limit_loop g fuel mf first cb s L out T slop = Ok (s', l) -> n_indeg s' = n_indeg s.
  Proof.
    induction fuel as [|fuel IH]; intros s L out T slop s' l H; (destruct L as [|c rest]; cbn [limit_loop] in H; [injection H as <- <-; reflexivity|]); [discriminate|].
    destruct (add_parents g mf first cb s c rest) as [[s1 l1]| | |] eqn:Ea; cbn [bindr] in H; try discriminate.
    apply add_parents_indeg in Ea. destruct (n_unint s1 c).
    - destruct (mark_parents g mf s1 c) as [s2| | |] eqn:Em; cbn [bindr] in H; try discriminate.
      apply mark_parents_spec in Em. destruct Em as (_ & _ & Em & _).
      destruct (_ =? 0); [injection H as <- <-; congruence|]. apply IH in H. congruence.
    - destruct (match cb with Some h => h c | None => false end); apply IH in H; congruence.
  Qed.

  (** Termination. *)
  Context (V : list nat) (HV : NoDup V) (Hclosed : forall x p, In x V -> In p (P x) -> In p V) (Hgok : forall x, In x V -> g_ok g x = true).
  Definition edges : nat := sumf (fun x => length (P x)) V.
  Definition mweight (u : nat -> bool) : nat := sumf (fun x => if u x then 0%nat else S (length (P x))) V.
  Lemma sumf_S l : sumf (fun x => S (length (P x))) l = (length l + sumf (fun x => length (P x)) l)%nat.
  Proof. induction l; cbn; [reflexivity|]. rewrite IHl. lia. Qed.
  Lemma mweight_le u : (mweight u <= length V + edges)%nat.
  Proof.
    unfold mweight, edges. rewrite <- sumf_S. apply sumf_le. intros x _. destruct (u x); lia.
  Qed.
  Lemma deg_le c : In c V -> (length (P c) <= edges)%nat.
  Proof.
    unfold edges. clear HV Hclosed Hgok. induction V as [|a W IH]; cbn; [tauto|]. intros [-> | Hc]; [lia|]. specialize (IH Hc). lia.
  Qed.
  Lemma mark_loop_total fuel parsed : forall u stack, (forall x, In x stack -> In x V) -> (length stack + mweight u <= fuel)%nat ->
    exists u', mark_loop g fuel parsed u stack = Ok u'.
  Proof.
    induction fuel as [|fuel IH]; intros u stack Hs Hf; (destruct stack as [|c rest]; [eexists; reflexivity|]); cbn in Hf; [lia|].
    cbn [mark_loop]. destruct (u c) eqn:Eu.
    - apply IH; [intros; apply Hs; right; auto|lia].
    - assert (Hw : (mweight (fset u c true) + S (length (P c)) <= mweight u)%nat).
      { unfold mweight. apply sumf_drop with (p := c); auto; [apply Hs; left; auto| |].
        - intros x _ Hx. rewrite fset_neq by auto. reflexivity.
        - rewrite fset_eq, Eu. lia. }
      destruct (parsed c); [destruct (P c) as [|p0 ps] eqn:Ec|].
      + apply IH; [intros; apply Hs; right; auto|lia].
      + apply IH.
        * assert (forall p, In p (P c) -> In p V) by (intros p; apply Hclosed, Hs; left; auto). rewrite Ec in H.
          intros x [<- | Hx]; [apply H; left; auto|]. rewrite in_app_iff, <- in_rev in Hx.
          destruct Hx; [apply H; auto|apply Hs; right; auto].
        * cbn [length] in *. rewrite app_length, rev_length. cbn [length]. lia.
      + apply IH; [intros; apply Hs; right; auto|lia].
  Qed.
  Definition mbound : nat := (length V + 2 * edges)%nat.
  Lemma mark_parents_total fuel s c : In c V -> (mbound <= fuel)%nat -> exists s', mark_parents g fuel s c = Ok s'.
  Proof.
    intros Hc Hf. unfold mark_parents.
    destruct (mark_loop_total fuel (n_parsed s) (n_unint s) (rev (P c))) as (u & ->).
    - intros x Hx. apply in_rev in Hx. eauto.
    - rewrite rev_length. pose proof (deg_le c Hc). pose proof (mweight_le (n_unint s)). unfold mbound in Hf. lia.
    - eexists. reflexivity.
  Qed.
  Lemma nparse_total s c : In c V -> exists s', nparse g s c = Ok s'.
  Proof. intros Hc. unfold nparse. rewrite Hgok by auto. destruct (n_parsed s c); eexists; reflexivity. Qed.
  Lemma add_unint_total fuel ps : (mbound <= fuel)%nat -> (forall p, In p ps -> In p V) -> forall s l, exists r, add_unint g fuel ps s l = Ok r.
  Proof.
    intros Hf. induction ps as [|p ps IH]; intros Hps s l; cbn [add_unint]; [eexists; reflexivity|].
    destruct (nparse_total (set_unint s (fset (n_unint s) p true)) p) as (s2 & ->); [apply Hps; left; auto|]. cbn [bindr].
    destruct (mark_parents_total fuel s2 p) as (s3 & ->); [apply Hps; left; auto|auto|]. cbn [bindr].
    apply IH. intros; apply Hps; right; auto.
  Qed.
  Lemma add_int_total ps : (forall p, In p ps -> In p V) -> forall s l, exists r, add_int g first cb ps s l = Ok r.
  Proof.
    induction ps as [|p ps IH]; intros Hps s l; cbn [add_int]; [eexists; reflexivity|].
    destruct (nparse_total s p) as (s2 & ->); [apply Hps; left; auto|]. cbn [bindr].
    assert (Hps' : forall p, In p ps -> In p V) by (intros; apply Hps; right; auto).
    destruct (match cb with Some h => h p | None => false end); [apply IH; auto|].
    destruct (n_seen s2 p); destruct first; eauto.
  Qed.
  Lemma add_parents_total fuel s c l : (mbound <= fuel)%nat -> In c V -> exists r, add_parents g fuel first cb s c l = Ok r.
  Proof.
    intros Hf Hc. unfold add_parents. destruct (n_added s c); [eexists; reflexivity|].
    destruct (n_unint (set_added s c) c); [apply add_unint_total|apply add_int_total]; eauto.
  Qed.
  Definition aweight (a : nat -> bool) : nat := sumf (fun x => if a x then 0%nat else length (P x)) V.
  Lemma aweight_le a : (aweight a <= edges)%nat.
  Proof. apply sumf_le. intros x _. destruct (a x); lia. Qed.
  Lemma aweight_drop a c : In c V -> a c = false -> (aweight (fset a c true) + length (P c) <= aweight a)%nat.
  Proof.
    intros Hc Ha. apply sumf_drop with (p := c); auto.
    - intros x _ Hx. rewrite fset_neq by auto. reflexivity.
    - rewrite fset_eq, Ha. lia.
  Qed.

  Lemma limit_loop_total fuel mf : (mbound <= mf)%nat -> forall s L out T slop, inv s L out -> (forall x, In x L -> In x V) ->
    (length L + aweight (n_added s) <= fuel)%nat -> exists r, limit_loop g fuel mf first cb s L out T slop = Ok r.
  Proof.
    intros Hmf. induction fuel as [|fuel IH]; intros s L out T slop I HL Hf; (destruct L as [|c rest]; [eexists; reflexivity|]); cbn [length] in Hf; [lia|].
    cbn [limit_loop]. assert (Hc : In c V) by (apply HL; left; auto).
    assert (Hrest : forall x, In x rest -> In x V) by (intros; apply HL; right; auto).
    destruct (add_parents_total mf s c rest Hmf Hc) as ([s1 l1] & Ea). rewrite Ea. cbn [bindr].
    destruct (n_unint s c) eqn:Ec.
    - destruct (step_unint _ _ _ _ _ _ _ _ _ _ _ _ I Ec Ea) as (I1 & U1 & M1 & _ & ns & E1 & N1 & D1).
      rewrite U1. destruct (mark_parents_total mf s1 c Hc Hmf) as (s2 & Em). rewrite Em. cbn [bindr].
      destruct (inv_mark _ _ _ _ _ _ _ _ _ _ _ I1 U1 Em) as (I2 & _ & A2 & _).
      destruct (still_interesting _ _ _ _ _ =? 0); [eexists; reflexivity|].
      apply IH; [exact I2| |].
      + rewrite E1. intros x Hx. apply ins_in in Hx. destruct Hx as [Hx|Hx]; auto. destruct (n_added s c); destruct D1 as (-> & _); [destruct Hx|eauto].
      + rewrite E1, ins_length, A2. destruct (n_added s c) eqn:Eac; destruct D1 as (-> & ->); [cbn; lia|].
        pose proof (aweight_drop _ _ Hc Eac). lia.
    - destruct (step_int _ _ _ _ _ _ _ _ _ _ _ _ I Ec Ea) as (I1 & U1 & Eac & A1 & _ & ns & E1 & N1 & LN).
      rewrite U1, Ec. change (match cb with Some h => h c | None => false end) with (hcb c).
      assert (HL1 : forall x, In x l1 -> In x V).
      { rewrite E1. intros x Hx. apply ins_in in Hx. destruct Hx as [Hx|Hx]; auto. apply N1 in Hx. apply effl_incl in Hx. destruct Hx. eauto. }
      assert (HM : (length l1 + aweight (n_added s1) <= fuel)%nat).
      { rewrite E1, ins_length, A1. pose proof (aweight_drop _ _ Hc Eac). lia. }
      destruct (hcb c); apply IH; auto.
  Qed.
End RL.
