From Verif Require Import Base CStr Str MergeModel MergeSpec MergeProofs.
Local Open Scope Z_scope.

Lemma ent_eq (x y : ent) : mode x = mode y -> id x = id y -> path x = path y -> x = y.
Proof. destruct x, y; cbn; congruence. Qed.
Lemma same_entry_spec a b : same_entry a b = true <-> a = b.
Proof.
  destruct a as [x|], b as [y|]; cbn; try (split; congruence).
  rewrite !andb_true_iff, Z.eqb_eq, !leqb_spec. split.
  - intros [[H1 H2] H3]. f_equal. now apply ent_eq.
  - intros [= ->]. auto.
Qed.

(** A triple of sides at one path. *)
Definition okside (p : list Z) (o : option ent) : Prop := forall e, o = Some e -> path e = p /\ mode e <> 0.
Lemma exists_spec p o : okside p o -> exists_ o = match o with Some _ => true | None => false end.
Proof. intros H. destruct o as [e|]; auto. destruct (H e eq_refl) as [_ M]. unfold exists_. cbn [emode]. destruct (Z.eqb_spec (mode e) 0); [contradiction|reflexivity]. Qed.
Lemma delta_unmodified p a o : okside p a -> okside p o -> (changed (delta_type a o) = false <-> a = o).
Proof.
  intros Ha Ho. destruct a as [x|], o as [y|]; cbn; try (split; congruence).
  destruct (Ha x eq_refl) as [Px _], (Ho y eq_refl) as [Py _].
  destruct (xorb (is_dir (mode x)) (is_dir (mode y))) eqn:D; [split; [discriminate|intros [= ->]; now rewrite xorb_nilpotent in D]|].
  destruct (xorb (is_lnk (mode x)) (is_lnk (mode y))) eqn:L; [split; [discriminate|intros [= ->]; now rewrite xorb_nilpotent in L]|].
  destruct (negb (leqb (id x) (id y)) || negb (mode x =? mode y)) eqn:E; cbn [changed]; split; try congruence.
  - intros [= ->]. rewrite leqb_refl, Z.eqb_refl in E. discriminate.
  - intros _. apply orb_false_iff in E as [E1 E2]. apply negb_false_iff in E1, E2. apply leqb_spec in E1. apply Z.eqb_eq in E2. f_equal. apply ent_eq; congruence.
Qed.
Lemma delta_present a o : match delta_type a o with Added | Modified => o <> None | _ => True end.
Proof. destruct a as [x|], o as [y|]; cbn; auto; try discriminate. destruct (xorb _ _); auto. destruct (xorb _ _); auto. destruct (_ || _); auto. discriminate. Qed.

Lemma can_contents_spec p a o t ty : okside p a -> okside p o -> okside p t -> ty <> TDirFile ->
  (can_contents (with_type (diff_of a o t) ty) = true <-> mergeable a o t).
Proof.
  intros Ha Ho Ht Nt. unfold can_contents. cbn [with_type d_our d_their d_anc d_type diff_of]. rewrite (exists_spec p o Ho), (exists_spec p t Ht).
  assert (L : forall z, (is_lnk (emode z) = true <-> symlink z)).
  { intros z. unfold is_lnk, symlink, ftype, filetype. rewrite Z.eqb_eq. destruct z as [e|]; cbn [emode].
    - split; [eauto|intros (? & [= <-] & ?); auto]. - split; [intros H; vm_compute in H; discriminate|intros (? & ? & _); discriminate]. }
  assert (G : forall z, (is_gitlink (emode z) = true <-> submodule z)).
  { intros z. unfold is_gitlink, submodule, ftype, filetype. rewrite Z.eqb_eq. destruct z as [e|]; cbn [emode].
    - split; [eauto|intros (? & [= <-] & ?); auto]. - split; [intros H; vm_compute in H; discriminate|intros (? & ? & _); discriminate]. }
  unfold mergeable. rewrite <- !L, <- !G. clear L G.
  destruct o as [x|]; cbn [negb orb]; [|split; [discriminate|intros (H & _); congruence]].
  destruct t as [y|]; cbn [negb orb]; [|split; [discriminate|intros (_ & H & _); congruence]].
  destruct ty; try congruence; destruct (is_gitlink (emode a)), (is_gitlink (emode (Some x))), (is_gitlink (emode (Some y))), (is_lnk (emode a)), (is_lnk (emode (Some x))), (is_lnk (emode (Some y))); cbn;
    split; intros H; try discriminate H; try (intuition (congruence || discriminate)); try reflexivity.
Qed.

(** One conflict's resolution is the table's. *)
Lemma resolve_dirfile drv d : d_type d = TDirFile -> resolve drv d = None.
Proof.
  intros E. unfold resolve, resolve_trivial, resolve_removed, resolve_contents, can_contents. rewrite E.
  destruct (negb _ || negb _); reflexivity.
Qed.
Lemma resolve_table drv p a o t ty : okside p a -> okside p o -> okside p t -> ty <> TDirFile ->
  ~ (a = o /\ a = t) ->
  match resolve drv (with_type (diff_of a o t) ty) with
  | Some (st, rs) => exists r, table drv a o t (Take r) /\ st = (match r with Some e => [e] | None => [] end)
  | None => table drv a o t Clash
  end.
Proof.
  intros Ha Ho Ht Nt NE. unfold resolve. set (d := with_type (diff_of a o t) ty).
  assert (T : resolve_trivial d = let oe := match o with Some _ => false | None => true end in let te := match t with Some _ => false | None => true end in
      let oc := changed (delta_type a o) in let tc := changed (delta_type a t) in let df := oc && tc && negb (same_entry o t) in
      if oc && negb oe && negb df then o else if oc && oe && te then None else if oe && negb tc then None else if negb oc && te then None
      else if oc && negb tc then o else if negb oc && tc then t else None).
  { unfold resolve_trivial. subst d. cbn [with_type d_our d_their d_anc d_type d_ourst d_theirst diff_of]. rewrite (exists_spec p o Ho), (exists_spec p t Ht).
    set (oc := changed _). set (tc := changed (delta_type a t)). set (se := same_entry o t). clearbody oc tc se.
    cbv zeta. destruct o as [x|], t as [y|]; cbn [negb];
      (destruct ty; try congruence; destruct oc, tc, se; cbn [andb negb orb]; try reflexivity; rewrite ?(exists_spec p _ Ho), ?(exists_spec p _ Ht); reflexivity). }
  assert (R : resolve_removed d = let oe := match o with Some _ => false | None => true end in let te := match t with Some _ => false | None => true end in
      let oc := changed (delta_type a o) in let tc := changed (delta_type a t) in (oc && oe && te) || (oe && negb tc) || (negb oc && te)).
  { unfold resolve_removed. subst d. cbn [with_type d_our d_their d_anc d_type d_ourst d_theirst diff_of]. rewrite (exists_spec p o Ho), (exists_spec p t Ht).
    destruct o, t, ty; try congruence; reflexivity. }
  rewrite T, R. clear T R. cbv zeta.
  destruct (changed (delta_type a o)) eqn:Co; destruct (changed (delta_type a t)) eqn:Ct.
  - assert (No : a <> o) by (intros E; apply (delta_unmodified p a o Ha Ho) in E; congruence).
    assert (Nta : a <> t) by (intros E; apply (delta_unmodified p a t Ha Ht) in E; congruence).
    destruct (same_entry o t) eqn:Se.
    + apply same_entry_spec in Se. subst t. destruct o as [x|]; cbn [andb negb orb].
      * exists (Some x). split; auto. now constructor.
      * exists None. split; auto. now constructor.
    + assert (Nt' : o <> t) by (intros E; apply same_entry_spec in E; congruence).
      cbn [andb negb]. rewrite !andb_false_r. cbn [andb orb].
      assert (RC : match resolve_contents drv d with Some e => table drv a o t (Take (Some e)) | None => table drv a o t Clash end).
      { unfold resolve_contents. destruct (can_contents d) eqn:C.
        - apply (can_contents_spec p a o t ty Ha Ho Ht Nt) in C. subst d. cbn [with_type d_our d_their d_anc diff_of].
          assert (EA : (if exists_ a then a else None) = a) by (rewrite (exists_spec p a Ha); destruct a; auto). rewrite EA.
          destruct o as [x|]; [|destruct C; congruence]. destruct t as [y|]; [|destruct C as (_ & C & _); congruence].
          destruct (drv a x y) as [r|] eqn:D; [eapply merged_contents; eauto|eapply driver_conflict; eauto].
        - apply not_mergeable; auto. intros M. apply (can_contents_spec p a o t ty Ha Ho Ht Nt) in M. subst d. congruence. }
      destruct o as [x|], t as [y|]; cbn [andb negb orb]; try congruence; destruct (resolve_contents drv d) as [e|]; auto; exists (Some e); split; auto.
  - apply (delta_unmodified p a t Ha Ht) in Ct. subst t. destruct o as [x|]; cbn [andb negb orb].
    + exists (Some x). split; auto. now apply only_ours.
    + destruct a as [z|]; cbn [andb negb orb]; exists None; (split; [now apply only_ours|auto]).
  - apply (delta_unmodified p a o Ha Ho) in Co. subst o. destruct t as [y|]; cbn [andb negb orb]; rewrite ?andb_false_r; cbn [andb negb orb].
    + destruct a; cbn [andb negb orb]; exists (Some y); (split; [now apply only_theirs|auto]).
    + destruct a; cbn [andb negb orb]; exists None; (split; [now apply only_theirs|auto]).
  - apply (delta_unmodified p a o Ha Ho) in Co. apply (delta_unmodified p a t Ha Ht) in Ct. tauto.
Qed.

Lemma table_total drv a o t : (forall x y : option ent, {x = y} + {x <> y}) -> (mergeable a o t \/ ~ mergeable a o t) -> exists w, table drv a o t w.
Proof.
  intros dec M. destruct (dec o t) as [E|N1]; [eexists; now constructor|]. destruct (dec o a) as [E|N2]; [eexists; now apply only_theirs|].
  destruct (dec t a) as [E|N3]; [eexists; now apply only_ours|]. destruct M as [M|M]; [|eexists; now apply not_mergeable].
  destruct o as [x|]; [|destruct M; congruence]. destruct t as [y|]; [|destruct M as (_ & ? & _); congruence].
  destruct (drv a x y) as [r|] eqn:D; eexists; [eapply merged_contents; eauto|eapply driver_conflict; eauto].
Qed.
Lemma table_fun drv a o t w1 w2 : table drv a o t w1 -> table drv a o t w2 -> w1 = w2.
Proof. intros H1 H2. destruct H1; destruct H2; subst; try congruence; try contradiction. Qed.

(** The list of calls. *)
Lemma wt_id d : with_type d (d_type d) = d. Proof. destruct d; reflexivity. Qed.
Section Run.
Variables (anc our their : list ent).
Hypothesis (Ka : tree_ok anc) (Ko : tree_ok our) (Kt : tree_ok their).
Definition trip (p : list Z) := (lookup p anc, lookup p our, lookup p their).
Definition call (p : list Z) := [lookup p anc; lookup p our; lookup p their].

Lemma okside_lookup t p : tree_ok t -> okside p (lookup p t).
Proof. intros [_ K] e E. pose proof (lookup_at p t) as H. rewrite E in H. destruct H as [I P]. split; auto. Qed.

Definition modified (p : list Z) : bool := negb (same_entry (lookup p anc) (lookup p our) && same_entry (lookup p anc) (lookup p their)).
Definition anywhere (p : list Z) : Prop := exists e, In e (anc ++ our ++ their) /\ path e = p.

Definition way (p : list Z) : Prop := file_in_the_way our their p.
Definition good (d : diff) : Prop := exists p, anywhere p /\ modified p = true /\ d = with_type (diff_of (lookup p anc) (lookup p our) (lookup p their)) (d_type d) /\ (d_type d = TDirFile -> way p).

Lemma prefix_inside p q : path_is_prefixed p q = true -> inside p q.
Proof. unfold path_is_prefixed. intros H. apply prefixb_spec in H as [r ->]. exists r. rewrite <- app_assoc. reflexivity. Qed.

Lemma diff_path_good p ty : anywhere p -> diff_path (with_type (diff_of (lookup p anc) (lookup p our) (lookup p their)) ty) = Some p.
Proof.
  intros (e & He & Pe). unfold diff_path. cbn [with_type d_anc d_our d_their diff_of].
  pose proof (okside_lookup anc p Ka) as H1. pose proof (okside_lookup our p Ko) as H2. pose proof (okside_lookup their p Kt) as H3.
  rewrite (exists_spec p _ H2), (exists_spec p _ H3).
  destruct (lookup p anc) as [a|] eqn:Ea.
  - rewrite (exists_spec p _ H1). f_equal. apply (H1 a eq_refl).
  - destruct (lookup p our) as [o|] eqn:Eo; [cbn; f_equal; apply (H2 o eq_refl)|].
    destruct (lookup p their) as [t|] eqn:Et; [cbn; f_equal; apply (H3 t eq_refl)|]. exfalso.
    apply in_app_iff in He as [He|He]; [|apply in_app_iff in He as [He|He]].
    + rewrite (lookup_some p anc e) in Ea; [discriminate|apply Ka|auto|auto].
    + rewrite (lookup_some p our e) in Eo; [discriminate|apply Ko|auto|auto].
    + rewrite (lookup_some p their e) in Et; [discriminate|apply Kt|auto|auto].
Qed.
Lemma aom_present p ty : added_or_modified (with_type (diff_of (lookup p anc) (lookup p our) (lookup p their)) ty) = true ->
  exists e, In e (our ++ their) /\ path e = p.
Proof.
  unfold added_or_modified. cbn [with_type d_ourst d_theirst diff_of].
  pose proof (delta_present (lookup p anc) (lookup p our)) as D1. pose proof (delta_present (lookup p anc) (lookup p their)) as D2.
  assert (Q : lookup p our <> None \/ lookup p their <> None -> exists e, In e (our ++ their) /\ path e = p).
  { intros [Q|Q].
    - pose proof (lookup_at p our) as H. destruct (lookup p our) as [e|]; [|congruence]. exists e. destruct H. split; auto. apply in_or_app; auto.
    - pose proof (lookup_at p their) as H. destruct (lookup p their) as [e|]; [|congruence]. exists e. destruct H. split; auto. apply in_or_app; auto. }
  destruct (delta_type (lookup p anc) (lookup p our)); auto; destruct (delta_type (lookup p anc) (lookup p their)); auto; discriminate.
Qed.

Lemma insert_good l p : anywhere p -> modified p = true -> Forall good (dl_conflicts l) ->
  let l' := insert_conflict l (diff_of (lookup p anc) (lookup p our) (lookup p their)) in
  dl_staged l' = dl_staged l /\ map sides (dl_conflicts l') = trip p :: map sides (dl_conflicts l) /\ Forall good (dl_conflicts l').
Proof.
  intros Hp Hm Hg. set (d := diff_of _ _ _). cbv zeta.
  assert (G : forall ty, ty <> TDirFile -> good (with_type d ty)). { intros ty N. exists p. split; auto. split; auto. split; [reflexivity|]. cbn. intros; contradiction. }
  assert (Dt : d_type d <> TDirFile). { subst d. unfold diff_of. cbn [d_type]. generalize (delta_type (lookup p anc) (lookup p our)) (delta_type (lookup p anc) (lookup p their)); intros [] []; discriminate. }
  assert (Gd : good d). { exists p. split; auto. split; auto. split; [symmetry; apply wt_id|]. intros; contradiction. }
  unfold insert_conflict. destruct (dl_df l) as [dfp|].
  - destruct (path_is_prefixed _ _); cbn [dl_staged dl_conflicts map]; (split; [auto|split; [reflexivity|constructor; auto; apply G; discriminate]]).
  - destruct (dl_conflicts l) as [|pv older] eqn:Ec.
    { cbn [dl_staged dl_conflicts map]. split; auto. }
    pose proof Hg as Hg'. inversion Hg' as [|? ? Gp Go]; subst. destruct Gp as (pp & Ap & Mp & Ed & Wp). assert (Dp : diff_path pv = Some pp) by (rewrite Ed; apply diff_path_good; auto). rewrite Dp.
    assert (Cur : match diff_path d with Some q => q | None => [] end = p). { subst d. pose proof (diff_path_good p (d_type (diff_of (lookup p anc) (lookup p our) (lookup p their))) Hp) as X. cbn [with_type] in X.
      change (with_type (diff_of (lookup p anc) (lookup p our) (lookup p their)) (d_type (diff_of (lookup p anc) (lookup p our) (lookup p their)))) with (diff_of (lookup p anc) (lookup p our) (lookup p their)) in X.
      rewrite X. reflexivity. }
    rewrite Cur.
    destruct (added_or_modified pv && added_or_modified d && path_is_prefixed pp p) eqn:Q; cbn [dl_staged dl_conflicts map].
    + split; auto. split; [reflexivity|]. constructor; [apply G; discriminate|]. constructor; auto.
      apply andb_true_iff in Q as [Q Q3]. apply andb_true_iff in Q as [Q1 Q2].
      exists pp. split; auto. split; auto. split; [pose proof (f_equal (fun z => with_type z TDirFile) Ed) as X; exact X|]. intros _.
      assert (Q1' : added_or_modified (with_type (diff_of (lookup pp anc) (lookup pp our) (lookup pp their)) (d_type pv)) = true) by (rewrite <- Ed; exact Q1).
      apply aom_present in Q1' as (e & Ie & Pe). apply (aom_present p (d_type d)) in Q2 as (q & Iq & Pq).
      exists e, q. split; auto. split; auto. split; auto. rewrite Pq. apply prefix_inside, Q3.
    + split; auto.
Qed.

Lemma fold_good ps : (forall p, In p ps -> anywhere p) -> forall l, Forall good (dl_conflicts l) ->
  let l' := fold_left queue_difference (map call ps) l in
  Forall good (dl_conflicts l') /\
  map sides (dl_conflicts l') = rev (map trip (filter modified ps)) ++ map sides (dl_conflicts l) /\
  map Some (dl_staged l') = rev (map (fun p => lookup p anc) (filter (fun p => negb (modified p)) ps)) ++ map Some (dl_staged l).
Proof.
  induction ps as [|p ps IH]; intros Hin l Hg; cbv zeta; cbn [map fold_left]; [cbn; auto|].
  assert (Ap : anywhere p) by (apply Hin; left; auto).
  assert (Q : (modified p = true /\ queue_difference l (call p) = insert_conflict l (diff_of (lookup p anc) (lookup p our) (lookup p their))) \/
              (modified p = false /\ exists e, lookup p anc = Some e /\ queue_difference l (call p) = mkdl (e :: dl_staged l) (dl_conflicts l) (dl_df l))).
  { unfold queue_difference, call. unfold modified.
    destruct (lookup p anc) as [a|] eqn:Ea.
    - destruct (lookup p our) as [o|] eqn:Eo; [|left; auto].
      destruct (lookup p their) as [t|] eqn:Et; [|left; split; auto; cbn; rewrite andb_false_r; reflexivity].
      destruct (same_entry (Some a) (Some o) && same_entry (Some a) (Some t)); cbn [negb]; [right; eauto|left; auto].
    - left. split; auto. destruct (lookup p our) as [o|] eqn:Eo; auto. destruct (lookup p their) as [t|] eqn:Et; auto.
      exfalso. pose proof (diff_path_good p TNone Ap) as X. rewrite Ea, Eo, Et in X. discriminate. }
  destruct Q as [[M E]|[M (e & Ee & E)]]; rewrite E; cbn [filter]; rewrite M; cbn [negb].
  - destruct (insert_good l p Ap M Hg) as (S1 & S2 & S3). destruct (IH (fun q Hq => Hin q (or_intror Hq)) _ S3) as (I1 & I2 & I3).
    split; auto. split.
    + rewrite I2, S2. cbn [map rev]. rewrite <- app_assoc. reflexivity.
    + rewrite I3, S1. reflexivity.
  - destruct (IH (fun q Hq => Hin q (or_intror Hq)) (mkdl (e :: dl_staged l) (dl_conflicts l) (dl_df l)) Hg) as (I1 & I2 & I3).
    split; auto. split; auto. rewrite I3. cbn [dl_staged map rev]. rewrite Ee, <- app_assoc. reflexivity.
Qed.
End Run.

Definition stage_of (drv : driver) (d : diff) : list ent := match resolve drv d with Some (st, _) => st | None => [] end.
Definition res_of (drv : driver) (d : diff) : list diff := match resolve drv d with Some (_, rs) => rs | None => [] end.
Definition unresolved (drv : driver) (d : diff) : bool := match resolve drv d with Some _ => false | None => true end.
Lemma resolve_all_ok drv ds : forall m, resolve_all drv false ds m =
  Ok (mkmerged (m_staged m ++ flat_map (stage_of drv) ds) (m_conflicts m ++ filter (unresolved drv) ds) (m_resolved m ++ flat_map (res_of drv) ds)).
Proof.
  induction ds as [|d ds IH]; intros m; cbn [resolve_all flat_map filter]; [rewrite !app_nil_r; destruct m; reflexivity|].
  unfold stage_of at 1, res_of at 1, unresolved at 1. destruct (resolve drv d) as [[st rs]|]; rewrite IH; cbn [m_staged m_conflicts m_resolved]; rewrite <- ?app_assoc; reflexivity.
Qed.
Lemma resolve_all_fail drv ds : forall m, resolve_all drv true ds m = if existsb (unresolved drv) ds then Err (-24) else resolve_all drv false ds m.
Proof.
  induction ds as [|d ds IH]; intros m; cbn [resolve_all existsb]; auto. unfold unresolved at 1.
  destruct (resolve drv d) as [[st rs]|]; cbn [orb]; [apply IH|reflexivity].
Qed.
