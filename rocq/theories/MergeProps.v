(** C27: merging trees without rename detection follows the three-way table path by path. *)
From Coq Require Decidable.
From Verif Require Import Base CStr Str MergeModel MergeSpec MergeProofs MergeMain.
Local Open Scope Z_scope.

Lemma psorted_nodup ps : psorted ps -> NoDup ps.
Proof. induction ps as [|p ps IH]; intros H; constructor; destruct H as [H1 H2]; auto. intros I. apply (lex_irrefl p). auto. Qed.
Lemma psorted_ext ps : forall qs, psorted ps -> psorted qs -> (forall p, In p ps <-> In p qs) -> ps = qs.
Proof.
  induction ps as [|p ps IH]; intros [|q qs] Hp Hq E; auto.
  - exfalso. apply (E q). left; auto.
  - exfalso. apply (E p). left; auto.
  - destruct Hp as [P1 P2], Hq as [Q1 Q2].
    assert (p = q) as ->.
    { destruct (proj1 (E p) (or_introl eq_refl)) as [->|I1]; auto. destruct (proj2 (E q) (or_introl eq_refl)) as [->|I2]; auto.
      exfalso. apply (lex_irrefl p). eapply lex_lt_trans; eauto. }
    f_equal. apply IH; auto. intros x. split; intros Hx.
    + destruct (proj1 (E x) (or_intror Hx)) as [<-|I1]; auto. exfalso. apply (lex_irrefl q). auto.
    + destruct (proj2 (E x) (or_intror Hx)) as [<-|I1]; auto. exfalso. apply (lex_irrefl q). auto.
Qed.
Lemma nodup_map_inj {A B} (f : A -> B) l x y : NoDup (map f l) -> In x l -> In y l -> f x = f y -> x = y.
Proof.
  induction l as [|a l IH]; intros N Hx Hy E; [destruct Hx|]; cbn in N; inversion N; subst; destruct Hx as [->|Hx], Hy as [->|Hy]; auto.
  - exfalso. apply H1. rewrite E. now apply in_map. - exfalso. apply H1. rewrite <- E. now apply in_map.
Qed.

(** A driver that keeps the path of the files it merges (merge.c:967-979 gives the result the path the sides share). *)
Definition keeps_path (drv : driver) : Prop := forall a o t r, drv a o t = Some r -> path o = path t -> path r = path o.

Section Main.
Variables (drv : driver) (anc our their : list ent).
Hypothesis (Ka : tree_ok anc) (Ko : tree_ok our) (Kt : tree_ok their) (Kd : keeps_path drv).
Notation tripp := (trip anc our their).
Notation anyw := (anywhere anc our their).
Notation modif := (modified anc our their).

Lemma walk3 : exists ps, walk (length anc + length our + length their) [anc; our; their] = Ok (map (call anc our their) ps) /\ psorted ps /\ forall p, In p ps <-> anyw p.
Proof.
  destruct (walk_spec (length anc + length our + length their) [anc; our; their]) as (ps & E & P & I).
  - constructor; [apply Ka|]. constructor; [apply Ko|]. constructor; [apply Kt|constructor].
  - unfold total. cbn [fold_right]. lia.
  - exists ps. split; [exact E|]. split; auto. intros p. rewrite I. unfold anywhere. split.
    + intros (it & e & Hi & He & Pe). exists e. split; auto. rewrite !in_app_iff. destruct Hi as [<-|[<-|[<-|[]]]]; auto.
    + intros (e & He & Pe). rewrite !in_app_iff in He. destruct He as [He|[He|He]]; [exists anc, e|exists our, e|exists their, e]; cbn; auto.
Qed.

Definition changes (ps : list (list Z)) : list diff := rev (dl_conflicts (fold_left queue_difference (map (call anc our their) ps) (mkdl [] [] None))).
Definition plain (ps : list (list Z)) : list ent := rev (dl_staged (fold_left queue_difference (map (call anc our their) ps) (mkdl [] [] None))).
Lemma changes_spec ps : (forall p, In p ps -> anyw p) ->
  Forall (good anc our their) (changes ps) /\ map sides (changes ps) = map tripp (filter modif ps) /\ map Some (plain ps) = map (fun p => lookup p anc) (filter (fun p => negb (modif p)) ps).
Proof.
  intros H. destruct (fold_good anc our their Ka Ko Kt ps H (mkdl [] [] None) (Forall_nil _)) as (G & S' & P).
  unfold changes, plain. split; [|split].
  - apply Forall_forall. intros d Hd. apply in_rev in Hd. rewrite Forall_forall in G. auto.
  - rewrite map_rev, S'. cbn [dl_conflicts map]. rewrite app_nil_r, rev_involutive. reflexivity.
  - rewrite map_rev, P. cbn [dl_staged map]. rewrite app_nil_r, rev_involutive. reflexivity.
Qed.

Lemma ok_a p : okside p (lookup p anc). Proof. now apply okside_lookup. Qed.
Lemma ok_o p : okside p (lookup p our). Proof. now apply okside_lookup. Qed.
Lemma ok_t p : okside p (lookup p their). Proof. now apply okside_lookup. Qed.

(** A conflict record belongs to one path. *)
Definition at_ (d : diff) (p : list Z) : Prop :=
  anyw p /\ modif p = true /\ d = with_type (diff_of (lookup p anc) (lookup p our) (lookup p their)) (d_type d) /\ (d_type d = TDirFile -> file_in_the_way our their p).
Lemma at_sides d p : at_ d p -> sides d = tripp p. Proof. intros (_ & _ & E & _). rewrite E. reflexivity. Qed.
Lemma at_about d p q : at_ d p -> (about d q <-> q = p).
Proof.
  intros Hd. pose proof (at_sides d p Hd) as E. unfold sides, trip in E. injection E as E1 E2 E3. unfold about. rewrite E1, E2, E3. destruct Hd as ((e & He & Pe) & _). split.
  - intros (x & Hx & Px). subst q. cbn [In] in Hx. destruct Hx as [Hx|[Hx|[Hx|[]]]].
    + apply (ok_a p x Hx). + apply (ok_o p x Hx). + apply (ok_t p x Hx).
  - intros ->. rewrite !in_app_iff in He. destruct He as [He|[He|He]].
    + exists e. split; auto. left. now rewrite (lookup_some p anc e) by (auto; apply Ka).
    + exists e. split; auto. right. left. now rewrite (lookup_some p our e) by (auto; apply Ko).
    + exists e. split; auto. right. right. left. now rewrite (lookup_some p their e) by (auto; apply Kt).
Qed.
Lemma at_fun d p q : at_ d p -> at_ d q -> p = q.
Proof. intros Hp Hq. apply (at_about d q p Hq). apply (at_about d p p Hp). reflexivity. Qed.

Lemma table_path p e : table drv (lookup p anc) (lookup p our) (lookup p their) (Take (Some e)) -> path e = p.
Proof.
  intros H. inversion H; subst.
  - apply (ok_o p). auto. - apply (ok_t p). auto. - apply (ok_o p). auto.
  - destruct (ok_o p x H1) as [Px _], (ok_t p y H2) as [Py _]. rewrite <- Px. eapply Kd; eauto. congruence.
Qed.
(** Resolving a record. *)
Lemma not_same p : modif p = true -> ~ (lookup p anc = lookup p our /\ lookup p anc = lookup p their).
Proof.
  unfold modified. intros M [E1 E2]. apply negb_true_iff in M. apply same_entry_spec in E1, E2. rewrite E1, E2 in M. discriminate.
Qed.
Lemma resolve_at d p : at_ d p ->
  (d_type d = TDirFile /\ unresolved drv d = true /\ stage_of drv d = [] /\ file_in_the_way our their p) \/
  (d_type d <> TDirFile /\ unresolved drv d = true /\ stage_of drv d = [] /\ table drv (lookup p anc) (lookup p our) (lookup p their) Clash) \/
  (d_type d <> TDirFile /\ unresolved drv d = false /\ exists r, table drv (lookup p anc) (lookup p our) (lookup p their) (Take r) /\ stage_of drv d = match r with Some e => [e] | None => [] end).
Proof.
  intros (_ & M & E & W). unfold unresolved, stage_of. destruct (d_type d) eqn:Ty; try (left; rewrite resolve_dirfile by auto; auto; fail);
    right; rewrite E; match goal with |- context [with_type _ ?ty] => pose proof (resolve_table drv p _ _ _ ty (ok_a p) (ok_o p) (ok_t p) ltac:(discriminate) (not_same p M)) as R end;
    destruct (resolve drv _) as [[st rs]|]; [right|left|right|left|right|left|right|left|right|left|right|left]; (split; [discriminate|]); auto.
Qed.
Lemma stage_path d p e : at_ d p -> In e (stage_of drv d) -> path e = p.
Proof.
  intros H I. destruct (resolve_at d p H) as [(_ & _ & E & _)|[(_ & _ & E & _)|(_ & _ & r & T & E)]]; rewrite E in I; try (destruct I; fail).
  destruct r as [x|]; [|destruct I]. destruct I as [<-|[]]. now apply table_path.
Qed.

(** The whole result. *)
Definition result (ps : list (list Z)) : merged :=
  mkmerged (plain ps ++ flat_map (stage_of drv) (changes ps)) (filter (unresolved drv) (changes ps)) (flat_map (res_of drv) (changes ps)).
Lemma merge_ok : exists ps, psorted ps /\ (forall p, In p ps <-> anyw p) /\ merge_trees drv false anc our their = Ok (result ps) /\
  merge_trees drv true anc our their = (if existsb (unresolved drv) (changes ps) then Err (-24) else Ok (result ps)).
Proof.
  destruct walk3 as (ps & E & P & I). exists ps. split; auto. split; auto. unfold merge_trees. rewrite E. cbn [bindr].
  fold (changes ps). fold (plain ps). rewrite resolve_all_fail, !resolve_all_ok. cbn [m_staged m_conflicts m_resolved app]. auto.
Qed.

Section Fixed.
Variable ps : list (list Z).
Hypothesis (Hs : psorted ps) (Hi : forall p, In p ps <-> anyw p).
Lemma changes_at d : In d (changes ps) -> exists p, at_ d p.
Proof. destruct (changes_spec ps (fun p => proj1 (Hi p))) as (G & _ & _). rewrite Forall_forall in G. intros H. destruct (G d H) as (p & Q). exists p. exact Q. Qed.
Lemma changes_of p : anyw p -> modif p = true -> exists d, In d (changes ps) /\ at_ d p.
Proof.
  intros A M. destruct (changes_spec ps (fun q => proj1 (Hi q))) as (G & S' & _).
  assert (I : In (tripp p) (map sides (changes ps))). { rewrite S'. apply in_map, filter_In. split; auto. now apply Hi. }
  apply in_map_iff in I as (d & E & I). exists d. split; auto. destruct (changes_at d I) as (q & Q).
  assert (q = p) as ->; auto. assert (about d p).
  { unfold about. unfold sides, trip in E. injection E as E1 E2 E3. rewrite E1, E2, E3. destruct A as (e & He & Pe).
    rewrite !in_app_iff in He. destruct He as [He|[He|He]].
    + exists e. split; auto. left. now rewrite (lookup_some p anc e) by (auto; apply Ka).
    + exists e. split; auto. right. left. now rewrite (lookup_some p our e) by (auto; apply Ko).
    + exists e. split; auto. right. right. left. now rewrite (lookup_some p their e) by (auto; apply Kt). }
  symmetry. now apply (at_about d q p Q).
Qed.
Lemma trip_inj p q : anyw p -> anyw q -> tripp p = tripp q -> p = q.
Proof.
  intros (e & He & Pe) _ E. unfold trip in E. injection E as E1 E2 E3. rewrite !in_app_iff in He. destruct He as [He|[He|He]].
  - rewrite (lookup_some p anc e) in E1 by (auto; apply Ka). symmetry in E1. rewrite <- Pe. apply (ok_a q e E1).
  - rewrite (lookup_some p our e) in E2 by (auto; apply Ko). symmetry in E2. rewrite <- Pe. apply (ok_o q e E2).
  - rewrite (lookup_some p their e) in E3 by (auto; apply Kt). symmetry in E3. rewrite <- Pe. apply (ok_t q e E3).
Qed.
Lemma nodup_trip : NoDup (map tripp (filter modif ps)).
Proof.
  assert (N : NoDup (filter modif ps)) by (apply NoDup_filter, psorted_nodup, Hs).
  assert (A : forall p, In p (filter modif ps) -> anyw p) by (intros p Hp; apply filter_In in Hp as [Hp _]; now apply Hi).
  revert N A. induction (filter modif ps) as [|p l IH]; intros N A; cbn; constructor; inversion N; subst.
  - intros I. apply in_map_iff in I as (q & E & I). apply H1. rewrite <- (trip_inj q p); auto; apply A; cbn; auto.
  - apply IH; auto. intros q Hq. apply A. right; auto.
Qed.
Lemma nodup_sides : NoDup (map sides (changes ps)).
Proof. destruct (changes_spec ps (fun q => proj1 (Hi q))) as (_ & S' & _). rewrite S'. apply nodup_trip. Qed.
Lemma changes_unique d d' p : In d (changes ps) -> In d' (changes ps) -> at_ d p -> at_ d' p -> d = d'.
Proof. intros I1 I2 A1 A2. apply (nodup_map_inj sides (changes ps)); auto. apply nodup_sides. rewrite (at_sides d p), (at_sides d' p); auto. Qed.

Lemma plain_in e : In e (plain ps) <-> anyw (path e) /\ modif (path e) = false /\ lookup (path e) anc = Some e.
Proof.
  destruct (changes_spec ps (fun q => proj1 (Hi q))) as (_ & _ & P).
  assert (Q : In e (plain ps) <-> In (Some e) (map Some (plain ps))). { rewrite in_map_iff. split; [eauto|intros (x & [= ->] & I); auto]. }
  rewrite Q, P, in_map_iff. split.
  - intros (p & E & I). apply filter_In in I as [I M]. apply negb_true_iff in M. destruct (ok_a p e E) as [<- _]. split; [now apply Hi|]. split; auto.
  - intros (A & M & E). exists (path e). split; auto. apply filter_In. split; [now apply Hi|now rewrite M].
Qed.
Lemma staged_in e p : In e (m_staged (result ps)) /\ path e = p <->
  (anyw p /\ modif p = false /\ lookup p anc = Some e) \/ (exists d, In d (changes ps) /\ at_ d p /\ In e (stage_of drv d)).
Proof.
  unfold result. cbn [m_staged]. rewrite in_app_iff, plain_in, in_flat_map. split.
  - intros [[H|(d & I & S')] E]; subst p; [auto|]. right. exists d. split; auto. split; auto. destruct (changes_at d I) as (q & Q). now rewrite (stage_path d q e Q S').
  - intros [(A & M & E)|(d & I & At & S')].
    + destruct (ok_a p e E) as [<- _]. split; auto.
    + split; [right; eauto|eapply stage_path; eauto].
Qed.

Lemma nodup_app {A} (l1 l2 : list A) : NoDup l1 -> NoDup l2 -> (forall x, In x l1 -> In x l2 -> False) -> NoDup (l1 ++ l2).
Proof.
  induction l1 as [|a l1 IH]; intros N1 N2 D; cbn; auto. inversion N1; subst. constructor.
  - rewrite in_app_iff. intros [I|I]; auto. apply (D a); cbn; auto.
  - apply IH; auto. intros x Hx. apply D. right; auto.
Qed.
Lemma plain_paths : map path (plain ps) = filter (fun p => negb (modif p)) ps.
Proof.
  destruct (changes_spec ps (fun q => proj1 (Hi q))) as (_ & _ & P). revert P. generalize (filter (fun p => negb (modif p)) ps). generalize (plain ps).
  intros l. induction l as [|e l IH]; intros [|p l'] E; try discriminate; auto. cbn in E. injection E as E1 E2. cbn. rewrite (IH l' E2). f_equal. symmetry in E1. apply (ok_a p e E1).
Qed.
Lemma nodup_path : NoDup (map path (m_staged (result ps))).
Proof.
  unfold result. cbn [m_staged]. rewrite map_app, plain_paths. apply nodup_app.
  - apply NoDup_filter, psorted_nodup, Hs.
  - pose proof nodup_sides as N. pose proof changes_at as C. revert N C. induction (changes ps) as [|d l IH]; intros N C; [constructor|]. cbn [flat_map]. rewrite map_app.
    cbn [map] in N. inversion N as [|? ? N1 N2]; subst. apply nodup_app.
    + destruct (C d (or_introl eq_refl)) as (p & A). destruct (resolve_at d p A) as [(_ & _ & E & _)|[(_ & _ & E & _)|(_ & _ & r & _ & E)]]; rewrite E; try constructor. destruct r; cbn; [constructor; [intros []|]|]; constructor.
    + apply IH; auto. intros x Hx. apply C. right; auto.
    + intros q Hq Hq'. apply in_map_iff in Hq as (e & <- & He). apply in_map_iff in Hq' as (e' & Ee & He'). apply in_flat_map in He' as (d' & Id & He').
      destruct (C d (or_introl eq_refl)) as (p & A). destruct (C d' (or_intror Id)) as (p' & A').
      pose proof (stage_path d p e A He). pose proof (stage_path d' p' e' A' He'). assert (Epp : p = p') by congruence.
      apply N1. apply in_map_iff. exists d'. split; [|auto]. rewrite (at_sides d p A), (at_sides d' p' A'), Epp. reflexivity.
  - intros q H1 H2. apply filter_In in H1 as [_ H1]. apply in_map_iff in H2 as (e & <- & He). apply in_flat_map in He as (d & Id & He).
    destruct (changes_at d Id) as (p & A). rewrite (stage_path d p e A He) in H1. destruct A as (_ & M & _). rewrite M in H1. discriminate.
Qed.
Lemma nodup_filter_sides f l : NoDup (map sides l) -> NoDup (map sides (filter f l)).
Proof.
  induction l as [|d l IH]; cbn; auto. intros N. inversion N; subst. destruct (f d); cbn; auto. constructor; auto.
  intros I. apply H1. apply in_map_iff in I as (x & E & I). apply filter_In in I as [I _]. apply in_map_iff. eauto.
Qed.

Lemma at_lookup t p o : tree_ok t -> at_path t p o -> o = lookup p t.
Proof. intros [S' _] H. eapply at_unique; eauto. apply lookup_at. Qed.
Lemma shows_at p w : table drv (lookup p anc) (lookup p our) (lookup p their) w ->
  let sh := shows (result ps) p (lookup p anc) (lookup p our) (lookup p their) in sh w \/ (sh Clash /\ file_in_the_way our their p).
Proof.
  intros T. cbv zeta.
  assert (Dec : anyw p \/ ~ anyw p).
  { destruct (lookup p anc) as [x|] eqn:E1; [left; exists x; destruct (ok_a p x E1); split; auto|].
    { pose proof (lookup_at p anc) as L. rewrite E1 in L. rewrite !in_app_iff. left. apply L. }
    destruct (lookup p our) as [x|] eqn:E2; [left; exists x; destruct (ok_o p x E2); split; auto|].
    { pose proof (lookup_at p our) as L. rewrite E2 in L. rewrite !in_app_iff. right; left. apply L. }
    destruct (lookup p their) as [x|] eqn:E3; [left; exists x; destruct (ok_t p x E3); split; auto|].
    { pose proof (lookup_at p their) as L. rewrite E3 in L. rewrite !in_app_iff. right; right. apply L. }
    right. intros (e & He & Pe). rewrite !in_app_iff in He. destruct He as [He|[He|He]].
    - rewrite (lookup_some p anc e) in E1; [discriminate|apply Ka|auto|auto].
    - rewrite (lookup_some p our e) in E2; [discriminate|apply Ko|auto|auto].
    - rewrite (lookup_some p their e) in E3; [discriminate|apply Kt|auto|auto]. }
  destruct Dec as [A|NA].
  2:{ left. assert (Nl : lookup p anc = None /\ lookup p our = None /\ lookup p their = None).
      { assert (Z : forall t, (forall e, In e t -> In e (anc ++ our ++ their)) -> lookup p t = None).
        { intros t Ht. pose proof (lookup_at p t) as L. destruct (lookup p t) as [e|]; auto. destruct L as [L1 L2]. exfalso. apply NA. exists e. auto. }
        split; [|split]; apply Z; intros e He; rewrite !in_app_iff; auto. }
      destruct Nl as (E1 & E2 & E3). rewrite E1, E2, E3 in T |- *. assert (w = Take None) as -> by (eapply table_fun; [exact T|now constructor]).
      cbn [shows]. split.
      - intros e. rewrite staged_in. split; [|discriminate]. intros [(A & _)|(d & _ & (A & _) & _)]; contradiction.
      - intros d Hd Ab. cbn [result m_conflicts] in Hd. apply filter_In in Hd as [Hd _]. destruct (changes_at d Hd) as (q & Q).
        apply (at_about d q p Q) in Ab. subst q. apply NA, Q. }
  destruct (modif p) eqn:M.
  - destruct (changes_of p A M) as (d & Hd & At).
    assert (St : forall e, (In e (m_staged (result ps)) /\ path e = p) <-> In e (stage_of drv d)).
    { intros e. rewrite staged_in. split; [|intros; right; eauto]. intros [(_ & M' & _)|(d' & I' & A' & S')]; [congruence|]. now rewrite (changes_unique d d' p). }
    assert (Clashes : unresolved drv d = true -> stage_of drv d = [] -> shows (result ps) p (lookup p anc) (lookup p our) (lookup p their) Clash).
    { intros U S'. cbn [shows]. split; [|split].
      - intros e He Pe. assert (X : In e (stage_of drv d)) by (apply St; auto). rewrite S' in X. destruct X.
      - cbn [result m_conflicts]. apply in_map_iff. exists d. split; [apply (at_sides d p At)|]. apply filter_In. auto.
      - intros d' Hd' Ab. cbn [result m_conflicts] in Hd'. apply filter_In in Hd' as [Hd' _]. destruct (changes_at d' Hd') as (q & Q).
        apply (at_about d' q p Q) in Ab. subst q. apply (at_sides d' p Q). }
    destruct (resolve_at d p At) as [(_ & U & S' & W)|[(_ & U & S' & W)|(_ & U & r & W & S')]].
    + right. auto.
    + left. assert (w = Clash) as -> by (eapply table_fun; eauto). auto.
    + left. assert (w = Take r) as -> by (eapply table_fun; eauto). cbn [shows]. split.
      * intros e. rewrite St, S'. destruct r as [x|]; cbn; [split; [intros [->|[]]; auto|intros [= ->]; auto]|split; [intros []|discriminate]].
      * intros d' Hd' Ab. cbn [result m_conflicts] in Hd'. apply filter_In in Hd' as [Hd' U']. destruct (changes_at d' Hd') as (q & Q).
        apply (at_about d' q p Q) in Ab. subst q. rewrite (changes_unique d' d p) in U' by auto. congruence.
  - left. assert (EE : lookup p anc = lookup p our /\ lookup p anc = lookup p their).
    { unfold modified in M. apply negb_false_iff, andb_true_iff in M as [M1 M2]. apply same_entry_spec in M1, M2. auto. }
    destruct EE as [E1 E2]. rewrite <- E1, <- E2 in T |- *. assert (w = Take (lookup p anc)) as -> by (eapply table_fun; [exact T|now constructor]).
    cbn [shows]. split.
    + intros e. rewrite staged_in. split; [|auto]. intros [(_ & _ & E)|(d & _ & (_ & M' & _) & _)]; [auto|congruence].
    + intros d Hd Ab. cbn [result m_conflicts] in Hd. apply filter_In in Hd as [Hd _]. destruct (changes_at d Hd) as (q & Q).
      apply (at_about d q p Q) in Ab. subst q. destruct Q as (_ & M' & _). congruence.
Qed.
End Fixed.
End Main.

(** ** C27 *)
(** Every path gets what the table says, except that a file one side has where a side
    has a directory may be reported as a conflict instead.  Nothing is staged twice and
    no conflict is reported twice. *)
Theorem C27_merge_follows_table_partial : forall drv anc our their, tree_ok anc -> tree_ok our -> tree_ok their -> keeps_path drv ->
  exists m, merge_trees drv false anc our their = Ok m /\ NoDup (map path (m_staged m)) /\ NoDup (map sides (m_conflicts m)) /\
    forall p a o t w, at_path anc p a -> at_path our p o -> at_path their p t -> table drv a o t w ->
      shows m p a o t w \/ (shows m p a o t Clash /\ file_in_the_way our their p).
Proof.
  intros drv anc our their Ka Ko Kt Kd. destruct (merge_ok drv anc our their Ka Ko Kt) as (ps & Hs & Hi & E & _).
  exists (result drv anc our their ps). split; auto. split; [now apply nodup_path|]. split; [apply nodup_filter_sides, nodup_sides; auto|].
  intros p a o t w Ha Ho Ht T. rewrite (at_lookup anc p a) in T |- * by auto. rewrite (at_lookup our p o) in T |- * by auto. rewrite (at_lookup their p t) in T |- * by auto.
  apply shows_at; auto.
Qed.
(** When no side's file is in the way of a directory, the result is exactly the table's. *)
Theorem C27_merge_exact_without_dir_file_clash_partial : forall drv anc our their, tree_ok anc -> tree_ok our -> tree_ok their -> keeps_path drv ->
  (forall p, ~ file_in_the_way our their p) ->
  exists m, merge_trees drv false anc our their = Ok m /\
    forall p a o t w, at_path anc p a -> at_path our p o -> at_path their p t -> table drv a o t w -> shows m p a o t w.
Proof.
  intros drv anc our their Ka Ko Kt Kd NW. destruct (C27_merge_follows_table_partial drv anc our their Ka Ko Kt Kd) as (m & E & _ & _ & H).
  exists m. split; auto. intros p a o t w Ha Ho Ht T. destruct (H p a o t w Ha Ho Ht T) as [S'|[_ W]]; auto. destruct (NW _ W).
Qed.
(** The table leaves no case out and is never ambiguous. *)
Theorem C27_table_decides : forall drv a o t, exists w, table drv a o t w /\ forall w', table drv a o t w' -> w' = w.
Proof.
  intros drv a o t. assert (dl : forall x y : list Z, {x = y} + {x <> y}) by (apply list_eq_dec, Z.eq_dec).
  assert (de : forall x y : option ent, {x = y} + {x <> y}) by (decide equality; decide equality; apply Z.eq_dec).
  assert (M : mergeable a o t \/ ~ mergeable a o t).
  { assert (F : forall z k, {exists e, z = Some e /\ filetype (mode e) = k} + {~ exists e, z = Some e /\ filetype (mode e) = k}).
    { intros [e|] k; [|right; intros (x & Q & _); discriminate]. destruct (Z.eq_dec (filetype (mode e)) k); [left; eauto|right; intros (x & [= <-] & Q); contradiction]. }
    unfold mergeable, submodule, symlink.
    assert (G : forall z k, Decidable.decidable (exists e, z = Some e /\ filetype (mode e) = k)) by (intros z k; destruct (F z k); [left|right]; auto).
    repeat first [apply G|apply Decidable.dec_and|apply Decidable.dec_not|apply Decidable.dec_imp]; match goal with |- Decidable.decidable (?z = None) => destruct (de z None); [left|right]; auto end. }
  destruct (table_total drv a o t de M) as (w & W). exists w. split; auto. intros w' W'. eapply table_fun; eauto.
Qed.
(** With GIT_MERGE_FAIL_ON_CONFLICT the merge fails exactly when there is a conflict, and changes nothing else. *)
Theorem C27_fail_on_conflict : forall drv anc our their m, tree_ok anc -> tree_ok our -> tree_ok their ->
  merge_trees drv false anc our their = Ok m ->
  merge_trees drv true anc our their = match m_conflicts m with [] => Ok m | _ => Err (-24) end.
Proof.
  intros drv anc our their m Ka Ko Kt E. destruct (merge_ok drv anc our their Ka Ko Kt) as (ps & Hs & Hi & E0 & E1). rewrite E0 in E. injection E as <-. rewrite E1. cbn [result m_conflicts].
  assert (X : existsb (unresolved drv) (changes anc our their ps) = match filter (unresolved drv) (changes anc our their ps) with [] => false | _ => true end).
  { clear. induction (changes anc our their ps) as [|d l IH]; [reflexivity|]. cbn [existsb filter]. destruct (unresolved drv d); cbn [orb]; [reflexivity|exact IH]. }
  rewrite X. destruct (filter _ _); auto.
Qed.

(** Swapping the sides swaps nothing but the sides. *)
Definition swapped (s : option ent * option ent * option ent) : option ent * option ent * option ent := let '(a, o, t) := s in (a, t, o).
Definition swap_driver (drv : driver) : driver := fun a o t => drv a t o.
Definition swap_diff (d : diff) : diff := mkdiff (d_anc d) (d_their d) (d_our d) (d_theirst d) (d_ourst d) (d_type d).
Lemma table_swap drv a o t w : table drv a o t w -> table (swap_driver drv) a t o w.
Proof.
  assert (Ms : forall a o t, mergeable a o t -> mergeable a t o) by (unfold mergeable; tauto).
  intros H. destruct H; subst.
  - now constructor. - now apply only_ours. - now apply only_theirs.
  - eapply merged_contents; eauto.
  - eapply driver_conflict; eauto.
  - apply not_mergeable; auto.
Qed.
Lemma swap_wt d ty : swap_diff (with_type d ty) = with_type (swap_diff d) ty. Proof. reflexivity. Qed.
Lemma swap_of a o t : swap_diff (diff_of a o t) = diff_of a t o.
Proof. unfold swap_diff, diff_of. cbn [d_anc d_our d_their d_ourst d_theirst d_type]. destruct (delta_type a o), (delta_type a t); reflexivity. Qed.
Lemma aom_swap d : added_or_modified (swap_diff d) = added_or_modified d.
Proof. unfold added_or_modified. destruct d as [a o t s1 s2 ty]; cbn. destruct s1, s2; reflexivity. Qed.

Definition swap_dl (l : dlist) : dlist := mkdl (dl_staged l) (map swap_diff (dl_conflicts l)) (dl_df l).
Section Swap.
Variables (anc our their : list ent).
Hypothesis (Ka : tree_ok anc) (Ko : tree_ok our) (Kt : tree_ok their).
Lemma anyw_swap p : anywhere anc our their p -> anywhere anc their our p.
Proof. intros (e & He & Pe). exists e. split; auto. rewrite !in_app_iff in *. tauto. Qed.
Lemma path_swap d p : at_ anc our their d p -> diff_path (swap_diff d) = Some p /\ diff_path d = Some p.
Proof.
  intros (A & _ & E & _). split; rewrite E; [|now apply diff_path_good]. rewrite swap_wt, swap_of. apply diff_path_good; auto. now apply anyw_swap.
Qed.
Lemma insert_swap l d p : at_ anc our their d p -> Forall (good anc our their) (dl_conflicts l) -> insert_conflict (swap_dl l) (swap_diff d) = swap_dl (insert_conflict l d).
Proof.
  intros A G. destruct (path_swap d p A) as [P1 P2]. unfold insert_conflict. rewrite P1, P2. cbn [swap_dl dl_df dl_conflicts].
  destruct (dl_df l) as [dfp|]; [destruct (path_is_prefixed dfp p); reflexivity|].
  destruct (dl_conflicts l) as [|pv older] eqn:Ec; [unfold swap_dl; cbn; rewrite ?Ec; reflexivity|]. cbn [map].
  inversion G as [|? ? (pp & Gp) _]; subst. destruct (path_swap pv pp Gp) as [R1 R2]. rewrite R1, R2, !aom_swap.
  destruct (added_or_modified pv && added_or_modified d && path_is_prefixed pp p); unfold swap_dl; cbn [dl_staged dl_conflicts dl_df map]; rewrite ?Ec; reflexivity.
Qed.
Lemma fold_swap ps : (forall p, In p ps -> anywhere anc our their p) -> forall l, Forall (good anc our their) (dl_conflicts l) ->
  fold_left queue_difference (map (call anc their our) ps) (swap_dl l) = swap_dl (fold_left queue_difference (map (call anc our their) ps) l).
Proof.
  induction ps as [|p ps IH]; intros Hin l G; cbn [map fold_left]; auto.
  assert (Ap : anywhere anc our their p) by (apply Hin; left; auto).
  assert (Fg : Forall (good anc our their) (dl_conflicts (queue_difference l (call anc our their p)))) by (apply (fold_good anc our their Ka Ko Kt [p]); [intros q [<-|[]]; auto|auto]).
  assert (Q : queue_difference (swap_dl l) (call anc their our p) = swap_dl (queue_difference l (call anc our their p))).
  { assert (Ins : modified anc our their p = true -> insert_conflict (swap_dl l) (diff_of (lookup p anc) (lookup p their) (lookup p our)) = swap_dl (insert_conflict l (diff_of (lookup p anc) (lookup p our) (lookup p their)))).
    { intros M. rewrite <- swap_of. apply (insert_swap l _ p); auto. split; auto. split; auto. split; [symmetry; apply wt_id|].
      unfold diff_of. cbn [d_type]. generalize (delta_type (lookup p anc) (lookup p our)) (delta_type (lookup p anc) (lookup p their)); intros [] []; discriminate. }
    unfold queue_difference, call. unfold modified in Ins.
    destruct (lookup p anc) as [a|] eqn:Ea; destruct (lookup p our) as [o|] eqn:Eo; destruct (lookup p their) as [t|] eqn:Et; try (apply Ins; cbn; rewrite ?andb_false_r; reflexivity).
    - destruct (same_entry (Some a) (Some o)), (same_entry (Some a) (Some t)); cbn [andb negb] in Ins |- *; try (apply Ins; reflexivity). reflexivity.
    - exfalso. pose proof (diff_path_good anc our their Ka Ko Kt p TNone Ap) as X. rewrite Ea, Eo, Et in X. discriminate. }
  rewrite Q. apply IH; auto. intros q Hq. apply Hin. right; auto.
Qed.
Lemma resolve_swap drv d p : keeps_path drv -> at_ anc our their d p ->
  stage_of (swap_driver drv) (swap_diff d) = stage_of drv d /\ unresolved (swap_driver drv) (swap_diff d) = unresolved drv d.
Proof.
  intros Kd A. assert (Kd' : keeps_path (swap_driver drv)) by (intros a o t r D E; rewrite E; eapply Kd; eauto).
  assert (A' : at_ anc their our (swap_diff d) p).
  { destruct A as (A1 & A2 & A3 & A4). split; [now apply anyw_swap|]. split; [unfold modified in *; now rewrite andb_comm|]. split.
    - rewrite A3 at 1. rewrite swap_wt, swap_of. reflexivity.
    - intros E. destruct (A4 E) as (e & q & I1 & I2 & I3 & I4). exists e, q. rewrite in_app_iff in I1, I3. rewrite !in_app_iff. tauto. }
  destruct (resolve_at drv anc our their Ka Ko Kt d p A) as [(T1 & U1 & S1' & _)|[(T1 & U1 & S1' & X1)|(T1 & U1 & r1 & X1 & S1')]];
  destruct (resolve_at (swap_driver drv) anc their our Ka Kt Ko (swap_diff d) p A') as [(T2 & U2 & S2' & _)|[(T2 & U2 & S2' & X2)|(T2 & U2 & r2 & X2 & S2')]];
    rewrite ?U1, ?U2, ?S1', ?S2'; auto; try (exfalso; cbn [swap_diff d_type] in T2; contradiction);
    apply table_swap in X1; pose proof (table_fun _ _ _ _ _ _ X1 X2) as E; try discriminate; injection E as <-; auto.
Qed.
End Swap.
(** Merging theirs with ours gives the same entries, and the same conflicts with the sides exchanged. *)
Theorem C27_swap_sides : forall drv fail anc our their, tree_ok anc -> tree_ok our -> tree_ok their -> keeps_path drv ->
  match merge_trees drv fail anc our their, merge_trees (swap_driver drv) fail anc their our with
  | Ok m, Ok m' => m_staged m' = m_staged m /\ map sides (m_conflicts m') = map swapped (map sides (m_conflicts m))
  | Err e, Err e' => fail = true /\ e = -24 /\ e' = -24
  | _, _ => False
  end.
Proof.
  intros drv fail anc our their Ka Ko Kt Kd.
  destruct (merge_ok drv anc our their Ka Ko Kt) as (ps & Hs & Hi & E0 & E1). destruct (merge_ok (swap_driver drv) anc their our Ka Kt Ko) as (qs & Hs' & Hi' & F0 & F1).
  assert (qs = ps) as ->. { apply psorted_ext; auto. intros p. rewrite Hi, Hi'. split; apply anyw_swap. }
  pose proof (fold_swap anc our their Ka Ko Kt ps (fun p => proj1 (Hi p)) (mkdl [] [] None) (Forall_nil _)) as FS. change (swap_dl (mkdl [] [] None)) with (mkdl [] [] None) in FS.
  assert (C : changes anc their our ps = map swap_diff (changes anc our their ps)) by (unfold changes; rewrite FS; cbn [swap_dl dl_conflicts]; now rewrite map_rev).
  assert (P : plain anc their our ps = plain anc our their ps) by (unfold plain; rewrite FS; reflexivity).
  assert (R : forall d, In d (changes anc our their ps) -> stage_of (swap_driver drv) (swap_diff d) = stage_of drv d /\ unresolved (swap_driver drv) (swap_diff d) = unresolved drv d).
  { intros d Hd. destruct (changes_at anc our their Ka Ko Kt ps Hi d Hd) as (p & A). exact (resolve_swap anc our their Ka Ko Kt drv d p Kd A). }
  assert (Ex : existsb (unresolved (swap_driver drv)) (changes anc their our ps) = existsb (unresolved drv) (changes anc our their ps)).
  { rewrite C. clear -R. induction (changes anc our their ps) as [|d l IH]; [reflexivity|]. cbn [map existsb]. rewrite (proj2 (R d (or_introl eq_refl))). f_equal. apply IH. intros x Hx. apply R. right; auto. }
  assert (St : m_staged (result (swap_driver drv) anc their our ps) = m_staged (result drv anc our their ps) /\
               map sides (m_conflicts (result (swap_driver drv) anc their our ps)) = map swapped (map sides (m_conflicts (result drv anc our their ps)))).
  { unfold result. cbn [m_staged m_conflicts]. rewrite P, C. clear -R. split.
    - f_equal. induction (changes anc our their ps) as [|d l IH]; [reflexivity|]. cbn [map flat_map]. rewrite (proj1 (R d (or_introl eq_refl))). f_equal. apply IH. intros x Hx. apply R. right; auto.
    - assert (IH : forall l, (forall d, In d l -> In d (changes anc our their ps)) -> map sides (filter (unresolved (swap_driver drv)) (map swap_diff l)) = map swapped (map sides (filter (unresolved drv) l))); [|apply IH; auto].
      induction l as [|d l IH]; intros Hl; [reflexivity|]. cbn [map filter]. rewrite (proj2 (R d (Hl d (or_introl eq_refl)))).
      specialize (IH (fun x Hx => Hl x (or_intror Hx))). destruct (unresolved drv d); cbn [map]; rewrite IH; reflexivity. }
  destruct fail; [rewrite E1, F1, Ex; destruct (existsb _ _); auto|rewrite E0, F0; auto].
Qed.

(** ** Cases *)
Definition file (p : string) (n : Z) : ent := mkent (bs p) 33188 [n].
Definition no_driver : driver := fun _ _ _ => None.
(** A conflict of a file with a directory goes unnoticed when a changed path sorts between. *)
Theorem C27_file_and_directory_clash_missed_refuted : exists anc our their m, tree_ok anc /\ tree_ok our /\ tree_ok their /\
  merge_trees no_driver false anc our their = Ok m /\ m_conflicts m = [] /\ exists e q, In e (m_staged m) /\ In q (m_staged m) /\ inside (path e) (path q).
Proof.
  exists [], [file "a" 1; file "a-b" 2], [file "a/b" 3]. eexists.
  assert (Z : tree_ok []) by (split; [intros [|i] j; discriminate|intros e []]).
  split; [exact Z|]. split.
  { split; [|intros e [<-|[<-|[]]]; discriminate]. intros [|[|i]] [|[|j]] a b; intros L E1 E2; try lia; try discriminate; try (destruct j; discriminate); try (destruct i; discriminate). cbn in E1, E2. injection E1 as <-. injection E2 as <-. reflexivity. }
  split. { split; [|intros e [<-|[]]; discriminate]. intros [|i] [|j] a b; intros L E1 E2; try lia; try (destruct j; discriminate); destruct i; discriminate. }
  split; [vm_compute; reflexivity|]. split; [reflexivity|].
  exists (file "a" 1), (file "a/b" 3). split; [left; reflexivity|]. split; [right; right; left; reflexivity|]. exists (bs "b"). reflexivity.
Qed.
(** Without the path between it is reported. *)
Example file_and_directory : match merge_trees no_driver false [] [file "a" 1] [file "a/b" 3] with Ok m => (map path (m_staged m), map d_our (m_conflicts m)) | _ => ([], []) end = ([bs "a/b"], [Some (file "a" 1)]).
Proof. vm_compute. reflexivity. Qed.
(** One of each row: unchanged, theirs, ours, both alike, deleted here, merged, conflict, modified and deleted. *)
Definition three_way : driver := fun a o t => match a with Some _ => Some (mkent (path o) (mode o) (id o ++ id t)) | None => None end.
Example rows :
  let anc := [file "a" 1; file "b" 1; file "c" 1; file "d" 1; file "e" 1; file "f" 1; file "h" 1] in
  let our := [file "a" 1; file "b" 1; file "c" 2; file "d" 3; file "f" 2; file "g" 1] in
  let their := [file "a" 1; file "b" 2; file "c" 1; file "d" 3; file "e" 1; file "f" 3; file "g" 2; file "h" 2] in
  match merge_trees three_way false anc our their with
  | Ok m => (map (fun e => (path e, id e)) (m_staged m), map sides (m_conflicts m))
  | _ => ([], []) end =
  ([(bs "a", [1]); (bs "b", [2]); (bs "c", [2]); (bs "d", [3]); (bs "f", [2; 3])],
   [(None, Some (file "g" 1), Some (file "g" 2)); (Some (file "h" 1), None, Some (file "h" 2))]).
Proof. vm_compute. reflexivity. Qed.
Example three_way_keeps_path : keeps_path three_way.
Proof. intros [a|] o t r E _; [|discriminate]. injection E as <-. reflexivity. Qed.
