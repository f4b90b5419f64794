From Verif Require Import Base CStr Str MergeModel MergeSpec.
Local Open Scope Z_scope.

Definition lookup (p : list Z) (t : list ent) : option ent := find (fun e => leqb (path e) p) t.

Lemma sorted_cons a t : sorted (a :: t) -> sorted t /\ forall b, In b t -> lex (path a) (path b) = Lt.
Proof.
  intros H. split.
  - intros i j x y Hij Hi Hj. apply (H (S i) (S j)); auto. lia.
  - intros b Hb. apply In_nth_error in Hb as [n Hn]. apply (H 0%nat (S n)); auto. lia.
Qed.
Lemma lookup_at p t : at_path t p (lookup p t).
Proof.
  unfold lookup. destruct (find _ t) as [e|] eqn:E; cbn.
  - apply find_some in E as [I E]. split; auto. apply leqb_spec, E.
  - intros e He Hp. apply (find_none _ _ E) in He. assert (leqb (path e) p = true) by (apply leqb_spec, Hp). congruence.
Qed.
Lemma lex_irrefl a : lex a a <> Lt.
Proof. rewrite lex_refl. discriminate. Qed.
Lemma lex_gt a b : lex a b = Gt <-> lex b a = Lt.
Proof. rewrite (lex_antisym a b). destruct (lex a b); cbn; split; congruence. Qed.
Lemma at_unique t p o1 o2 : sorted t -> at_path t p o1 -> at_path t p o2 -> o1 = o2.
Proof.
  intros S H1 H2. destruct o1 as [x|], o2 as [y|]; cbn in *; auto.
  - destruct H1 as [I1 P1], H2 as [I2 P2]. f_equal. apply In_nth_error in I1 as [i Hi], I2 as [j Hj].
    destruct (Nat.lt_trichotomy i j) as [L|[E|L]].
    + exfalso. apply (lex_irrefl p). rewrite <- P1 at 1. rewrite <- P2. eapply S; eauto.
    + subst j. congruence.
    + exfalso. apply (lex_irrefl p). rewrite <- P2 at 1. rewrite <- P1. eapply S; eauto.
  - destruct H1 as [I1 P1]. destruct (H2 x I1 P1).
  - destruct H2 as [I1 P1]. destruct (H1 y I1 P1).
Qed.
Lemma lookup_some p t e : sorted t -> In e t -> path e = p -> lookup p t = Some e.
Proof. intros S I P. apply (at_unique t p); auto; [apply lookup_at|]. cbn. auto. Qed.

(** The scan finds the least head and keeps the heads at its path. *)
Definition keep (fm h : option ent) : option ent :=
  match fm, h with Some f, Some e => if leqb (path e) (path f) then Some e else None | _, _ => None end.
Definition is_min (fm : option ent) (l : list (option ent)) : Prop :=
  match fm with
  | None => forall h, In h l -> h = None
  | Some f => In (Some f) l /\ forall e, In (Some e) l -> lex (path e) (path f) <> Lt
  end.
Lemma leqb_refl s : leqb s s = true. Proof. now apply leqb_spec. Qed.
Lemma leqb_false a b : leqb a b = false <-> a <> b.
Proof. rewrite <- leqb_spec. destruct (leqb a b); split; congruence. Qed.

Lemma scan_gen heads : forall fm pre, is_min fm pre ->
  exists fm', scan heads fm (rev (map (keep fm) pre)) = (fm', map (keep fm') (pre ++ heads)) /\ is_min fm' (pre ++ heads).
Proof.
  induction heads as [|h heads IH]; intros fm pre M; cbn [scan].
  { exists fm. rewrite app_nil_r, rev_involutive. auto. }
  assert (App : pre ++ h :: heads = (pre ++ [h]) ++ heads) by (rewrite <- app_assoc; reflexivity).
  assert (Step : forall fm2, is_min fm2 (pre ++ [h]) -> keep fm2 h :: rev (map (keep fm2) pre) = rev (map (keep fm2) (pre ++ [h]))).
  { intros fm2 _. rewrite map_app, rev_app_distr. reflexivity. }
  destruct h as [e|].
  - destruct fm as [f|].
    + destruct M as [Mi Ml]. unfold entry_cmp. destruct (lex (path e) (path f)) eqn:C.
      * assert (M2 : is_min (Some f) (pre ++ [Some e])).
        { split; [apply in_or_app; auto|]. intros x Hx. apply in_app_iff in Hx as [Hx|[Hx|[]]]; auto. injection Hx as <-. rewrite C. discriminate. }
        destruct (IH (Some f) (pre ++ [Some e]) M2) as (fm' & E & M'). rewrite App. exists fm'. split; auto. rewrite <- E, <- Step by auto. cbn [keep].
        apply lex_eq in C. rewrite C, leqb_refl. reflexivity.
      * assert (M2 : is_min (Some e) (pre ++ [Some e])).
        { split; [apply in_or_app; right; left; auto|]. intros x Hx. apply in_app_iff in Hx as [Hx|[Hx|[]]].
          - intros L. apply (Ml x Hx). eapply lex_lt_trans; eauto.
          - injection Hx as <-. apply lex_irrefl. }
        destruct (IH (Some e) (pre ++ [Some e]) M2) as (fm' & E & M'). rewrite App. exists fm'. split; auto. rewrite <- E, <- Step by auto. cbn [keep].
        rewrite leqb_refl. f_equal. f_equal. rewrite map_rev, map_map. f_equal. apply map_ext_in. intros x Hx. destruct x as [x|]; auto. cbn [keep].
        destruct (leqb (path x) (path e)) eqn:Q; auto. exfalso. apply leqb_spec in Q. apply (Ml x Hx). rewrite Q. exact C.
      * assert (M2 : is_min (Some f) (pre ++ [Some e])).
        { split; [apply in_or_app; auto|]. intros x Hx. apply in_app_iff in Hx as [Hx|[Hx|[]]]; auto. injection Hx as <-. rewrite C. discriminate. }
        destruct (IH (Some f) (pre ++ [Some e]) M2) as (fm' & E & M'). rewrite App. exists fm'. split; auto. rewrite <- E, <- Step by auto. cbn [keep].
        destruct (leqb (path e) (path f)) eqn:Q; auto. apply leqb_spec in Q. rewrite Q, lex_refl in C. discriminate.
    + assert (M2 : is_min (Some e) (pre ++ [Some e])).
      { split; [apply in_or_app; right; left; auto|]. intros x Hx. apply in_app_iff in Hx as [Hx|[Hx|[]]].
        - apply M in Hx. discriminate.
        - injection Hx as <-. apply lex_irrefl. }
      destruct (IH (Some e) (pre ++ [Some e]) M2) as (fm' & E & M'). rewrite App. exists fm'. split; auto. rewrite <- E, <- Step by auto. cbn [keep].
      rewrite leqb_refl. f_equal. f_equal. f_equal. apply map_ext_in. intros x Hx. apply M in Hx. subst x. reflexivity.
  - assert (M2 : is_min fm (pre ++ [None])).
    { destruct fm as [f|]; cbn in *.
      - destruct M as [Mi Ml]. split; [apply in_or_app; auto|]. intros x Hx. apply in_app_iff in Hx as [Hx|[Hx|[]]]; auto. discriminate.
      - intros x Hx. apply in_app_iff in Hx as [Hx|[Hx|[]]]; auto. }
    destruct (IH fm (pre ++ [None]) M2) as (fm' & E & M'). rewrite App. exists fm'. split; auto. rewrite <- E, <- Step by auto. destruct fm; reflexivity.
Qed.
Lemma scan_spec heads : exists fm, scan heads None [] = (fm, map (keep fm) heads) /\ is_min fm heads.
Proof. apply (scan_gen heads None []). intros h []. Qed.

(** Sorted lists of paths. *)
Fixpoint psorted (ps : list (list Z)) : Prop :=
  match ps with [] => True | p :: r => (forall q, In q r -> lex p q = Lt) /\ psorted r end.
Definition total (its : list (list ent)) : nat := fold_right (fun it n => (length it + n)%nat) 0%nat its.

Lemma advance_cons it its c cur : advance (it :: its) (c :: cur) = (match c with Some _ => tl it | None => it end) :: advance its cur.
Proof. reflexivity. Qed.

Lemma walk_spec : forall fuel its, Forall sorted its -> (total its <= fuel)%nat ->
  exists ps, walk fuel its = Ok (map (fun p => map (lookup p) its) ps) /\ psorted ps /\
    forall p, In p ps <-> exists it e, In it its /\ In e it /\ path e = p.
Proof.
  induction fuel as [|fuel IH]; intros its Hs Ht; cbn [walk]; destruct (scan_spec (map (@hd_error ent) its)) as (fm & -> & M).
  - assert (E : forall it, In it its -> it = []).
    { clear -Ht. unfold total in Ht. induction its as [|a its IHi]; intros it Hi; [destruct Hi|]. cbn in Ht. destruct Hi as [<-|Hi]; [destruct a; [auto|cbn in Ht; lia]|]. apply IHi; auto. lia. }
    destruct fm as [f|].
    + destruct M as [Mi _]. apply in_map_iff in Mi as (it & Hh & Hi). rewrite (E it Hi) in Hh. discriminate.
    + exists []. split; [reflexivity|]. split; [exact I|]. intros p. split; [intros []|]. intros (it & e & Hi & He & _). rewrite (E it Hi) in He. destruct He.
  - destruct fm as [f|].
    2:{ exists []. split; [reflexivity|]. split; [exact I|]. intros p. split; [intros []|]. intros (it & e & Hi & He & _).
        destruct it as [|x it]; [destruct He|]. assert (Hh : @hd_error ent (x :: it) = None) by (apply M, in_map, Hi). discriminate. }
    destruct M as [Mi Ml]. set (p := path f).
    assert (Cur : map (keep (Some f)) (map (@hd_error ent) its) = map (lookup p) its).
    { rewrite map_map. apply map_ext_in. intros it Hi. rewrite Forall_forall in Hs. specialize (Hs it Hi).
      destruct it as [|x it]; cbn [hd_error keep]; auto. unfold lookup. cbn [find]. fold p. destruct (leqb (path x) p) eqn:Q; auto.
      symmetry. destruct (find (fun e => leqb (path e) p) it) as [y|] eqn:Fy; auto. exfalso. apply find_some in Fy as [Iy Py]. apply leqb_spec in Py.
      apply sorted_cons in Hs as [_ Hs]. specialize (Hs y Iy). rewrite Py in Hs.
      apply (Ml x); [apply (in_map (@hd_error ent) its (x :: it)) in Hi; exact Hi|]. exact Hs. }
    rewrite Cur.
    assert (Adv : advance its (map (lookup p) its) = map (fun it => filter (fun e => negb (leqb (path e) p)) it) its).
    { clear Cur Mi IH Ht. induction its as [|it its IHi]; [reflexivity|]. cbn [map]. rewrite advance_cons. inversion Hs as [|? ? Hs1 Hs2]; subst.
      rewrite IHi by (auto; intros e He; apply Ml; right; auto). f_equal.
      assert (All : forall t, (forall b, In b t -> lex p (path b) = Lt) -> filter (fun e => negb (leqb (path e) p)) t = t).
      { clear. induction t as [|b t IHt]; intros H; auto. cbn [filter]. assert (leqb (path b) p = false) as ->.
        { apply leqb_false. intros E. apply (lex_irrefl p). rewrite <- E at 2. apply H. left; auto. }
        cbn [negb]. f_equal. apply IHt. intros x Hx. apply H. right; auto. }
      destruct it as [|x it]; [reflexivity|]. apply sorted_cons in Hs1 as [_ Hs1].
      assert (Lx : lex (path x) p <> Lt) by (apply Ml; left; reflexivity).
      unfold lookup. cbn [find filter]. destruct (leqb (path x) p) eqn:Q.
      - cbn [negb tl]. symmetry. apply All. apply leqb_spec in Q. rewrite <- Q. exact Hs1.
      - cbn [negb].
        assert (L2 : lex p (path x) = Lt). { apply lex_gt. destruct (lex (path x) p) eqn:E; auto; [apply lex_eq in E; apply leqb_false in Q; contradiction|congruence]. }
        assert (A2 : filter (fun e => negb (leqb (path e) p)) it = it).
        { apply All. intros b Hb. eapply lex_lt_trans; eauto. }
        rewrite A2. destruct (find (fun e => leqb (path e) p) it) as [y|] eqn:Fy; auto. exfalso. apply find_some in Fy as [Iy Py]. apply leqb_spec in Py.
        apply (lex_irrefl p). rewrite <- Py at 2. eapply lex_lt_trans; eauto. }
    rewrite Adv. set (its' := map _ its).
    assert (Hs' : Forall sorted its').
    { subst its'. apply Forall_forall. intros t Ht'. apply in_map_iff in Ht' as (it & <- & Hi). rewrite Forall_forall in Hs. specialize (Hs it Hi). clear -Hs.
      assert (St : forall t, sorted t <-> match t with [] => True | a :: r => (forall b, In b r -> lex (path a) (path b) = Lt) /\ sorted r end).
      { intros t. destruct t as [|a r]; split; auto.
        - intros _ [|i] j; discriminate.
        - intros H. apply sorted_cons in H. tauto.
        - intros [H1 H2] i j x y Hij Hi Hj. destruct j as [|j]; [lia|]. destruct i as [|i]; cbn in *.
          + injection Hi as <-. apply H1. eapply nth_error_In; eauto.
          + eapply (H2 i j); eauto. lia. }
      induction it as [|x it IHi]; cbn [filter]; auto. apply St in Hs as [H1 H2]. destruct (negb (leqb (path x) p)); auto. apply St. split; auto.
      intros b Hb. apply filter_In in Hb as [Hb _]. auto. }
    assert (Lt_ : (S (total its') <= total its)%nat).
    { subst its'. clear -Mi. apply in_map_iff in Mi as (it & Hh & Hi). destruct it as [|x it]; [discriminate|]. cbn in Hh. injection Hh as ->.
      assert (FL : forall t : list ent, (length (filter (fun e => negb (leqb (path e) p)) t) <= length t)%nat).
      { induction t as [|b t IHt]; cbn; auto. destruct (negb _); cbn; lia. }
      assert (TL : forall l, (total (map (fun it => filter (fun e => negb (leqb (path e) p)) it) l) <= total l)%nat).
      { induction l as [|t l IHl]; cbn [map]; auto. specialize (FL t). change (length (filter (fun e => negb (leqb (path e) p)) t) + total (map (fun it => filter (fun e => negb (leqb (path e) p)) it) l) <= length t + total l)%nat. lia. }
      assert (TC : forall t l, total (t :: l) = (length t + total l)%nat) by reflexivity.
      induction its as [|t its IHi]; [destruct Hi|]. cbn [map]. rewrite !TC. destruct Hi as [->|Hi].
      - cbn [filter]. fold p. rewrite leqb_refl. cbn [negb length]. specialize (FL it). specialize (TL its). lia.
      - specialize (IHi Hi). specialize (FL t). lia. }
    destruct (IH its' Hs' ltac:(lia)) as (ps & E & Sp & Hp). rewrite E. cbn [bindr].
    assert (Mem : forall q, In q ps -> lex p q = Lt).
    { intros q Hq. apply Hp in Hq as (it & e & Hi & He & <-). subst its'. apply in_map_iff in Hi as (t & <- & Hi). apply filter_In in He as [He Hn].
      destruct (leqb (path e) p) eqn:Q; [discriminate|]. apply leqb_false in Q.
      destruct t as [|x t]; [destruct He|].
      assert (Lx : lex (path x) p <> Lt). { apply Ml. apply (in_map (@hd_error ent) its (x :: t)) in Hi. exact Hi. }
      assert (Le : lex (path e) p <> Lt).
      { rewrite Forall_forall in Hs. specialize (Hs _ Hi). apply sorted_cons in Hs as [_ Hs]. destruct He as [->|He]; auto. specialize (Hs e He).
        intros L. apply Lx. eapply lex_lt_trans; eauto. }
      apply lex_gt. destruct (lex (path e) p) eqn:C; auto; [apply lex_eq in C; contradiction|congruence]. }
    exists (p :: ps). split; [|split].
    + cbn [map]. f_equal. f_equal. apply map_ext_in. intros q Hq. subst its'. rewrite map_map. apply map_ext. intros it.
      specialize (Mem q Hq). assert (Npq : p <> q) by (intros <-; exact (lex_irrefl p Mem)).
      unfold lookup. clear -Npq. induction it as [|x it IHi]; cbn [filter find]; auto.
      destruct (leqb (path x) p) eqn:Q; cbn [negb find].
      * apply leqb_spec in Q. assert (leqb (path x) q = false) as -> by (apply leqb_false; congruence). exact IHi.
      * destruct (leqb (path x) q); auto.
    + cbn. split; auto.
    + intros q. cbn [In]. split.
      * intros [<-|Hq].
        -- apply in_map_iff in Mi as (it & Hh & Hi). exists it, f. split; auto. split; auto. destruct it; [discriminate|]. cbn in Hh. injection Hh as ->. left; auto.
        -- apply Hp in Hq as (t & e & Hi & He & Pe). subst its'. apply in_map_iff in Hi as (it & <- & Hi). apply filter_In in He as [He _]. exists it, e. auto.
      * intros (it & e & Hi & He & <-). destruct (leqb (path e) p) eqn:Q; [left; symmetry; apply leqb_spec, Q|]. right. apply Hp.
        exists (filter (fun e => negb (leqb (path e) p)) it), e. split; [subst its'; apply in_map_iff; eauto|]. split; auto. apply filter_In. rewrite Q. auto.
Qed.
