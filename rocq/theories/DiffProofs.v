From Verif Require Import Base CStr Str DiffModel DiffSpec.
Local Open Scope Z_scope.

Lemma lx_irrefl a : lex a a <> Lt. Proof. rewrite (proj2 (lex_eq a a) eq_refl). discriminate. Qed.
Lemma lx_gt a b : lex a b = Gt <-> lex b a = Lt.
Proof. rewrite (lex_antisym a b). destruct (lex a b); cbn; split; congruence. Qed.
Lemma lb_refl s : leqb s s = true. Proof. now apply leqb_spec. Qed.
Lemma lb_false a b : leqb a b = false <-> a <> b.
Proof. split; [intros H E; apply leqb_spec in E; congruence|intros H; destruct (leqb a b) eqn:E; auto; apply leqb_spec in E; contradiction]. Qed.

Definition first (p : list Z) (l : list item) : option item := find (fun e => leqb (i_path e) p) l.
Lemma first_spec p l : first_at l p (first p l).
Proof.
  unfold first. induction l as [|e l IH]; cbn [find]; [intros x []|]. destruct (leqb (i_path e) p) eqn:E.
  - exists [], l. split; auto. split; [now apply leqb_spec|intros x []].
  - apply lb_false in E. destruct (find _ l) as [x|].
    + destruct IH as (pre & post & -> & P & N). exists (e :: pre), post. split; auto. split; auto. intros y [<-|Hy]; auto.
    + intros x [<-|Hx]; auto.
Qed.
Lemma first_unique p l o : first_at l p o -> o = first p l.
Proof.
  destruct o as [e|]; cbn [first_at].
  - intros (pre & post & -> & P & N). unfold first. induction pre as [|x pre IH]; cbn [app find].
    + subst p. now rewrite lb_refl.
    + assert (leqb (i_path x) p = false) as -> by (apply lb_false, N; left; auto). apply IH. intros y Hy. apply N. right; auto.
  - intros N. unfold first. destruct (find _ l) as [x|] eqn:F; auto. apply find_some in F as [I E]. apply leqb_spec in E. destruct (N x I E).
Qed.

Lemma listing_cons inc e r : listing inc (e :: r) ->
  listing inc r /\ forall x, In x r -> lex (i_path e) (i_path x) = Lt \/ (i_path e = i_path x /\ inc = true /\ is_conflict e = true /\ is_conflict x = true).
Proof.
  intros H. split; [intros i j a b L Ha Hb; apply (H (S i) (S j) a b); auto; lia|].
  intros x Hx. apply In_nth_error in Hx as (j & Hj). destruct (H O (S j) e x ltac:(lia) eq_refl Hj) as [|(E & I & A & B)]; auto.
  right. unfold is_conflict. rewrite !Z.ltb_lt. auto.
Qed.
Lemma advance_filter inc e r : listing inc (e :: r) ->
  advance inc (e :: r) = filter (fun x => negb (leqb (i_path x) (i_path e))) r /\ forall x, In x (advance inc (e :: r)) -> lex (i_path e) (i_path x) = Lt.
Proof.
  intros H. apply listing_cons in H as [Hr Hx]. cbn [advance].
  assert (G : skip_same inc e r = filter (fun x => negb (leqb (i_path x) (i_path e))) r).
  { induction r as [|a r IH]; auto. cbn [skip_same filter]. destruct (Hx a (or_introl eq_refl)) as [L|(E & -> & C1 & C2)].
    - assert (N : i_path a <> i_path e) by (intros Q; rewrite Q in L; now apply lx_irrefl in L).
      assert (leqb (i_path e) (i_path a) = false) as -> by (apply lb_false; auto). rewrite andb_false_r.
      assert (leqb (i_path a) (i_path e) = false) as -> by (apply lb_false; auto). cbn [negb]. f_equal.
      assert (A : forall x, In x r -> negb (leqb (i_path x) (i_path e)) = true).
      { intros x I. apply listing_cons in Hr as [_ Hr]. apply negb_true_iff, lb_false. intros Q. destruct (Hr x I) as [L2|(E2 & _)].
        - apply (lx_irrefl (i_path e)). rewrite <- Q at 2. eapply lex_lt_trans; eauto.
        - congruence. }
      clear -A. induction r as [|y r IH]; auto. cbn [filter]. rewrite (A y (or_introl eq_refl)). f_equal. apply IH. intros x I. apply A. right; auto.
    - rewrite C1, C2, E, lb_refl. cbn [andb negb]. rewrite <- E. apply IH; [apply listing_cons in Hr; tauto|intros x I; apply Hx; right; auto]. }
  split; auto. intros x I. rewrite G in I. apply filter_In in I as [I N]. apply negb_true_iff, lb_false in N. destruct (Hx x I) as [L|(E & _)]; auto. congruence.
Qed.
Lemma listing_filter inc f l : listing inc l -> listing inc (filter f l).
Proof.
  induction l as [|a l IH]; intros H; auto. apply listing_cons in H as [Hr Hx]. specialize (IH Hr). cbn [filter]. destruct (f a); auto.
  intros [|i] [|j] x y L E1 E2; cbn in E1, E2; try lia.
  - injection E1 as <-. apply nth_error_In, filter_In in E2 as [I _]. destruct (Hx y I) as [|(Q & -> & C1 & C2)]; auto. unfold is_conflict in *. apply Z.ltb_lt in C1, C2. auto.
  - apply (IH i j); auto. lia.
Qed.
Lemma first_other p e r l' : i_path e <> p -> l' = filter (fun x => negb (leqb (i_path x) (i_path e))) r -> first p l' = first p (e :: r).
Proof.
  intros N ->. unfold first. cbn [find]. assert (leqb (i_path e) p = false) as -> by now apply lb_false.
  induction r as [|a r IH]; auto. cbn [filter find]. destruct (leqb (i_path a) (i_path e)) eqn:Q; cbn [negb].
  - apply leqb_spec in Q. rewrite IH. assert (leqb (i_path a) p = false) as -> by (apply lb_false; congruence). reflexivity.
  - cbn [find]. destruct (leqb (i_path a) p); auto.
Qed.
Lemma filter_len {A} (f : A -> bool) l : (length (filter f l) <= length l)%nat.
Proof. induction l as [|a l IH]; cbn; auto. destruct (f a); cbn; lia. Qed.

(** One comparison. *)
Lemma conflict_spec e : is_conflict e = true <-> 0 < i_stage e. Proof. apply Z.ltb_lt. Qed.
Lemma nonzero_spec i : negb (oid_is_zero i) = true <-> exists b, In b i /\ b <> 0.
Proof.
  rewrite negb_true_iff. unfold oid_is_zero. split.
  - intros H. induction i as [|b i IH]; [discriminate|]. cbn in H. destruct (Z.eqb_spec b 0).
    + destruct (IH H) as (x & I & N). exists x. split; auto. right; auto. + exists b. split; auto. left; auto.
  - intros (b & I & N). destruct (forallb _ i) eqn:E; auto. rewrite forallb_forall in E. apply E, Z.eqb_eq in I. contradiction.
Qed.

Definition appends (f : list delta -> list delta) (L : list delta) : Prop := forall ds, f ds = rev L ++ ds.
Definition cell (op : dopts) (p : list Z) (o n : option item) (L : list delta) : Prop := if o_want op p then reports op o n L else L = [].

Section Steps.
Variable op : dopts.
Hypothesis (Rv : o_reverse op = false) (Tc : o_tctrees op = false).
Lemma from_one_old s e : appends (from_one op s true e) (if o_want op (i_path e) then unless_valid e (only_old s e) else []).
Proof.
  intros ds. unfold from_one, unless_valid, alloc_status. rewrite Rv. cbn [xorb]. destruct (i_valid e), (o_want op (i_path e)); reflexivity.
Qed.
Lemma from_one_new s e : appends (from_one op s false e) (if o_want op (i_path e) then unless_valid e (only_new s e) else []).
Proof.
  intros ds. unfold from_one, unless_valid, alloc_status. rewrite Rv. cbn [xorb]. destruct (i_valid e), (o_want op (i_path e)); reflexivity.
Qed.
Lemma old_step o nx : exists L, appends (unmatched_old op o nx) L /\ cell op (i_path o) (Some o) None L.
Proof.
  exists (if o_want op (i_path o) then unless_valid o (only_old (if is_conflict o then DConflicted else DDeleted) o) else []). split.
  - intros ds. unfold unmatched_old. rewrite Tc. cbn [andb]. apply from_one_old.
  - unfold cell. destruct (o_want op (i_path o)); auto. destruct (is_conflict o) eqn:C.
    + apply r_old_conflict. now apply conflict_spec. + apply r_deleted. unfold is_conflict in C. apply Z.ltb_ge in C. lia.
Qed.
Lemma new_step n ox : exists L, appends (unmatched_new op ox n) L /\ cell op (i_path n) None (Some n) L.
Proof.
  exists (if o_want op (i_path n) then unless_valid n (only_new (if is_conflict n then DConflicted else DAdded) n) else []). split.
  - intros ds. unfold unmatched_new. rewrite Tc. cbn [andb]. apply from_one_new.
  - unfold cell. destruct (o_want op (i_path n)); auto. destruct (is_conflict n) eqn:C.
    + apply r_new_conflict. now apply conflict_spec. + apply r_added. unfold is_conflict in C. apply Z.ltb_ge in C. lia.
Qed.
Lemma from_two_spec s o n ds : s <> DUnmodified -> from_two op s o (i_mode o) n (i_mode n) ds = both s o n :: ds.
Proof. intros N. unfold from_two, alloc_status, both, shown, is_conflict. rewrite Rv. destruct s; try congruence; reflexivity. Qed.
Lemma from_two_same o n ds : from_two op DUnmodified o (i_mode o) n (i_mode n) ds = (if o_unmodified op then [both DUnmodified o n] else []) ++ ds.
Proof. unfold from_two, alloc_status, both, shown, is_conflict. rewrite Rv. destruct (o_unmodified op); reflexivity. Qed.
Lemma both_step o n : i_path o = i_path n -> exists L, appends (maybe_modified op o n) L /\ cell op (i_path o) (Some o) (Some n) L.
Proof.
  intros Ep. unfold maybe_modified, cell, appends. destruct (o_want op (i_path o)) eqn:W; cbn [negb]; [|exists []; auto].
  destruct (is_conflict o || is_conflict n) eqn:C.
  { exists [both DConflicted o n]. split; [intros ds; now rewrite from_two_spec|]. apply r_conflict. unfold unconflicted. apply orb_true_iff in C as [C|C]; apply conflict_spec in C; lia. }
  apply orb_false_iff in C as [C1 C2]. unfold is_conflict in C1, C2. apply Z.ltb_ge in C1, C2. assert (U : unconflicted o n) by (split; lia).
  assert (Same : forall ds, from_two op DUnmodified o (i_mode o) n (i_mode n) ds = rev (if o_unmodified op then [both DUnmodified o n] else []) ++ ds).
  { intros ds. rewrite from_two_same. destruct (o_unmodified op); reflexivity. }
  destruct (i_valid o) eqn:V. { eexists. split; [exact Same|]. apply r_same; auto. left. unfold kept. intros [X _]. congruence. }
  destruct (i_skip o) eqn:K. { eexists. split; [exact Same|]. apply r_same; auto. left. unfold kept. intros [_ X]. congruence. }
  assert (Kp : kept o) by (split; auto).
  destruct (Z.eqb_spec (mode_type (i_mode o)) (mode_type (i_mode n))) as [Et|Et]; cbn [negb].
  2:{ destruct (o_typechange op) eqn:T.
      - exists [both DTypechange o n]. split; [intros ds; now rewrite from_two_spec|]. now apply r_type.
      - exists (only_old DDeleted o :: unless_valid n (only_new DAdded n)). split; [|now apply r_split].
        intros ds. rewrite from_one_new, from_one_old, <- Ep, W. unfold unless_valid at 2. rewrite V. cbn [rev app]. rewrite <- app_assoc. reflexivity. }
  destruct (leqb (i_id o) (i_id n) && (i_mode o =? i_mode n) && negb (oid_is_zero (i_id o))) eqn:Q.
  { eexists. split; [exact Same|]. apply r_same; auto. right. left. apply andb_true_iff in Q as [Q Q3]. apply andb_true_iff in Q as [Q1 Q2].
    apply leqb_spec in Q1. apply Z.eqb_eq in Q2. apply nonzero_spec in Q3. split; auto. }
  assert (NS : ~ same_file o n).
  { intros (S1' & S2' & S3'). apply nonzero_spec in S3'. rewrite S3', <- S1', <- S2', lb_refl, Z.eqb_refl in Q. discriminate. }
  destruct ((mode_type (i_mode n) =? 57344) && o_ignore_sub op) eqn:G.
  { eexists. split; [exact Same|]. apply r_same; auto. right. right. apply andb_true_iff in G as [G1 G2]. apply Z.eqb_eq in G1. auto. }
  exists [both DModified o n]. split; [intros ds; now rewrite from_two_spec|]. apply r_modified; auto.
  intros [G1 G2]. unfold is_submodule, kind in G1. unfold mode_type in G. rewrite G1, G2 in G. discriminate.
Qed.

Definition within (p : list Z) (l : list item) : Prop := exists e, In e l /\ i_path e = p.
Lemma first_none p l : ~ within p l -> first p l = None.
Proof. intros N. symmetry. apply first_unique. intros e I E. apply N. exists e. auto. Qed.
Lemma within_step e r l' p : l' = filter (fun x => negb (leqb (i_path x) (i_path e))) r -> (within p (e :: r) <-> p = i_path e \/ within p l').
Proof.
  intros ->. unfold within. split.
  - intros (x & [<-|I] & P); auto. destruct (leqb (i_path x) (i_path e)) eqn:Q; [apply leqb_spec in Q; left; congruence|].
    right. exists x. split; auto. apply filter_In. rewrite Q. auto.
  - intros [->|(x & I & P)]; [exists e; split; auto; left; auto|]. apply filter_In in I as [I _]. exists x. split; auto. right; auto.
Qed.
Lemma first_head e r : first (i_path e) (e :: r) = Some e. Proof. unfold first. cbn [find]. now rewrite lb_refl. Qed.

Definition outcome (os ns : list item) (ps : list (list Z)) (Ls : list (list delta)) : Prop :=
  ascending ps /\ (forall p, In p ps <-> within p os \/ within p ns) /\ Forall2 (fun p L => cell op p (first p os) (first p ns) L) ps Ls.
Lemma outcome_cons p os ns os' ns' L ps Ls :
  (forall q, within q os' \/ within q ns' -> lex p q = Lt) ->
  (forall q, (within q os \/ within q ns) <-> q = p \/ within q os' \/ within q ns') ->
  (forall q, q <> p -> first q os' = first q os /\ first q ns' = first q ns) ->
  cell op p (first p os) (first p ns) L -> outcome os' ns' ps Ls -> outcome os ns (p :: ps) (L :: Ls).
Proof.
  intros H1 H2 H3 H4 (O1 & O2 & O3). split; [|split].
  - split; auto. intros q Hq. apply H1, O2, Hq.
  - intros q. rewrite H2, <- O2. cbn [In]. intuition.
  - constructor; auto. clear H4. assert (Lt' : forall q, In q ps -> q <> p) by (intros q Hq ->; apply (lx_irrefl p), H1, O2, Hq).
    clear O1 O2. induction O3; constructor; auto.
    + destruct (H3 x (Lt' x (or_introl eq_refl))) as [<- <-]. auto.
    + apply IHO3. intros q Hq. apply Lt'. right; auto.
Qed.
Lemma above_none p l : (forall x, In x l -> lex p (i_path x) = Lt) -> ~ within p l.
Proof. intros H (e & I & E). apply (lx_irrefl p). rewrite <- E at 2. auto. Qed.
Lemma above_all p e r inc : listing inc (e :: r) -> lex p (i_path e) = Lt -> forall x, In x (e :: r) -> lex p (i_path x) = Lt.
Proof. intros H L x [<-|I]; auto. apply listing_cons in H as [_ H]. destruct (H x I) as [L2|(E & _)]; [eapply lex_lt_trans; eauto|congruence]. Qed.

Lemma loop_spec io inn : forall fuel os ns ds, listing io os -> listing inn ns -> (length os + length ns <= fuel)%nat ->
  exists ps Ls, loop fuel op io inn os ns ds = Ok (rev (concat Ls) ++ ds) /\ outcome os ns ps Ls.
Proof.
  induction fuel as [|fuel IH]; intros os ns ds Ho Hn Hf.
  { assert (os = []) as -> by (destruct os; auto; cbn in Hf; lia). assert (ns = []) as -> by (destruct ns; auto; cbn in Hf; lia).
    exists [], []. split; [reflexivity|]. split; [exact I|]. split; [|constructor]. intros p. split; [intros []|intros [(e & [] & _)|(e & [] & _)]]. }
  assert (FOLD : forall (Ls : list (list delta)) (L d2 : list delta), rev (concat Ls) ++ (rev L ++ d2) = rev (concat (L :: Ls)) ++ d2) by (intros; cbn [concat]; rewrite rev_app_distr, app_assoc; reflexivity).
  destruct os as [|o os], ns as [|n ns].
  - exists [], []. split; [reflexivity|]. split; [exact I|]. split; [|constructor]. intros p. split; [intros []|intros [(e & [] & _)|(e & [] & _)]].
  - destruct (advance_filter inn n ns Hn) as [Ea Al]. cbn [loop]. destruct (new_step n None) as (L & Ap & Ce). rewrite Ap.
    assert (Hn' : listing inn (advance inn (n :: ns))) by (rewrite Ea; apply listing_filter; apply listing_cons in Hn; tauto).
    destruct (IH [] (advance inn (n :: ns)) (rev L ++ ds) Ho Hn') as (ps & Ls & E & Out).
    { rewrite Ea. pose proof (filter_len (fun x => negb (leqb (i_path x) (i_path n))) ns). cbn [length] in *. lia. }
    exists (i_path n :: ps), (L :: Ls). split; [rewrite E; f_equal; apply FOLD|].
    apply (outcome_cons _ _ _ [] (advance inn (n :: ns))); auto.
    + intros q [(e & [] & _)|(e & I & <-)]. auto.
    + intros q. rewrite (within_step n ns _ q Ea). split; [intros [(e & [] & _)|[]]|intros [|[(e & [] & _)|]]]; auto.
    + intros q Nq. split; auto. apply first_other; auto.
    + rewrite first_head. exact Ce.
  - destruct (advance_filter io o os Ho) as [Ea Al]. cbn [loop]. destruct (old_step o None) as (L & Ap & Ce). rewrite Ap.
    assert (Ho' : listing io (advance io (o :: os))) by (rewrite Ea; apply listing_filter; apply listing_cons in Ho; tauto).
    destruct (IH (advance io (o :: os)) [] (rev L ++ ds) Ho' Hn) as (ps & Ls & E & Out).
    { rewrite Ea. pose proof (filter_len (fun x => negb (leqb (i_path x) (i_path o))) os). cbn [length] in *. lia. }
    exists (i_path o :: ps), (L :: Ls). split; [rewrite E; f_equal; apply FOLD|].
    apply (outcome_cons _ _ _ (advance io (o :: os)) []); auto.
    + intros q [(e & I & <-)|(e & [] & _)]. auto.
    + intros q. rewrite (within_step o os _ q Ea). split; [intros [[]|(e & [] & _)]|intros [|[|(e & [] & _)]]]; auto.
    + intros q Nq. split; auto. apply first_other; auto.
    + rewrite first_head. exact Ce.
  - destruct (advance_filter io o os Ho) as [Eo Alo]. destruct (advance_filter inn n ns Hn) as [En Aln]. cbn [loop].
    assert (Ho' : listing io (advance io (o :: os))) by (rewrite Eo; apply listing_filter; apply listing_cons in Ho; tauto).
    assert (Hn' : listing inn (advance inn (n :: ns))) by (rewrite En; apply listing_filter; apply listing_cons in Hn; tauto).
    pose proof (filter_len (fun x => negb (leqb (i_path x) (i_path o))) os) as Fo. rewrite <- Eo in Fo.
    pose proof (filter_len (fun x => negb (leqb (i_path x) (i_path n))) ns) as Fn. rewrite <- En in Fn.
    cbn [length] in Hf. destruct (lex (i_path o) (i_path n)) eqn:C.
    + apply lex_eq in C. destruct (both_step o n C) as (L & Ap & Ce). rewrite Ap.
      destruct (IH _ _ (rev L ++ ds) Ho' Hn') as (ps & Ls & E & Out); [lia|].
      exists (i_path o :: ps), (L :: Ls). split; [rewrite E; f_equal; apply FOLD|].
      apply (outcome_cons _ _ _ (advance io (o :: os)) (advance inn (n :: ns))); auto.
      * intros q [(e & I & <-)|(e & I & <-)]; auto. rewrite C. auto.
      * intros q. rewrite (within_step o os _ q Eo), (within_step n ns _ q En), <- C. tauto.
      * intros q Nq. split; apply first_other; auto. congruence.
      * rewrite first_head, C, first_head, <- C. exact Ce.
    + destruct (old_step o (Some n)) as (L & Ap & Ce). rewrite Ap.
      destruct (IH _ _ (rev L ++ ds) Ho' Hn) as (ps & Ls & E & Out); [cbn [length]; lia|].
      exists (i_path o :: ps), (L :: Ls). split; [rewrite E; f_equal; apply FOLD|]. pose proof (above_all _ _ _ _ Hn C) as Ab.
      apply (outcome_cons _ _ _ (advance io (o :: os)) (n :: ns)); auto.
      * intros q [(e & I & <-)|(e & I & <-)]; auto.
      * intros q. rewrite (within_step o os _ q Eo). tauto.
      * intros q Nq. split; auto. apply first_other; auto.
      * rewrite first_head, (first_none _ (n :: ns)) by now apply above_none. exact Ce.
    + apply lx_gt in C. destruct (new_step n (Some o)) as (L & Ap & Ce). rewrite Ap.
      destruct (IH _ _ (rev L ++ ds) Ho Hn') as (ps & Ls & E & Out); [cbn [length]; lia|].
      exists (i_path n :: ps), (L :: Ls). split; [rewrite E; f_equal; apply FOLD|]. pose proof (above_all _ _ _ _ Ho C) as Ab.
      apply (outcome_cons _ _ _ (o :: os) (advance inn (n :: ns))); auto.
      * intros q [(e & I & <-)|(e & I & <-)]; auto.
      * intros q. rewrite (within_step n ns _ q En). tauto.
      * intros q Nq. split; auto. apply first_other; auto.
      * rewrite first_head, (first_none _ (o :: os)) by now apply above_none. exact Ce.
Qed.
End Steps.
