(** C64 and C65: packed references. *)
From Coq Require Import Permutation.
From Verif Require Import Base Str CStr CodecModel CodecProofs OidModel OidSpec OidProofs OidProps ReflogProofs PrefsModel PrefsSpec PrefsProofs PrefsFind PrefsMain PrefsPack.

Lemma prefixb_sym c : prefixb symref c = true <-> symbolic c.
Proof. rewrite prefixb_spec. reflexivity. Qed.
Lemma lock_spec n : lock_suffix n = true <-> lockfile n.
Proof.
  unfold lock_suffix, lockfile. rewrite prefixb_spec. unfold starts_with. split; intros (t & E).
  - exists (rev t). apply (f_equal (@rev Z)) in E. rewrite rev_involutive, rev_app_distr, rev_involutive in E. exact E.
  - exists (rev t). rewrite E, rev_app_distr. reflexivity.
Qed.
Lemma direct_spec f : direct f = true <-> ~ lockfile (fst f) /\ ~ symbolic (snd f).
Proof. unfold direct. rewrite andb_true_iff, !negb_true_iff, <- prefixb_sym, <- lock_spec, !not_true_iff_false. reflexivity. Qed.
Lemma file_of_in l n : NoDup (map fst l) -> forall c, file_of l n = Some c <-> In (n, c) l.
Proof.
  intros HN c. unfold file_of. induction l as [|[a b] l IH]; cbn [find option_map In fst snd]; [split; [discriminate|intros []]|]. cbn [map fst] in HN. inversion HN; subst. destruct (leqb a n) eqn:E.
  - apply leqb_spec in E. subst a. cbn. split; [intros H; injection H as ->; now left|]. intros [H|H]; [now injection H as ->|]. exfalso. match goal with H : ~ In _ _ |- _ => apply H end. exact (in_map fst _ _ H).
  - rewrite IH by assumption. split; [now right|]. intros [H|H]; [|exact H]. injection H as -> ->. rewrite leqb_refl in E. discriminate.
Qed.
Lemma file_of_none l n : file_of l n = None <-> ~ In n (map fst l).
Proof.
  unfold file_of. induction l as [|[a b] l IH]; cbn [find map In fst]; [split; [intros _ []|reflexivity]|]. destruct (leqb a n) eqn:E; cbn [option_map].
  - apply leqb_spec in E. subst. split; [discriminate|intros H; exfalso; apply H; now left].
  - rewrite IH. split; [|tauto]. intros H [->|H2]; [rewrite leqb_refl in E; discriminate|tauto].
Qed.
Lemma nodup_filter {A B} (g : A -> B) (p : A -> bool) l : NoDup (map g l) -> NoDup (map g (filter p l)).
Proof.
  induction l as [|x l IH]; intros H; [constructor|]. cbn [map] in H. inversion H; subst. cbn [filter]. destruct (p x); [|now apply IH]. cbn [map]. constructor; [|now apply IH]. intros Hi. match goal with H : ~ In _ _ |- _ => apply H end. apply in_map_iff in Hi. destruct Hi as (y & <- & Hy). apply filter_In in Hy. now apply in_map.
Qed.
Lemma loose_lookup_direct size c o : loose_lookup size c = Ok (TOid o) <-> ~ symbolic c /\ loose_oid size c = Ok o.
Proof.
  unfold loose_lookup. destruct (prefixb symref c) eqn:E.
  - apply prefixb_sym in E. split; [|tauto]. cbv zeta. destruct (length (rtrim c) <? length symref + 1)%nat; discriminate.
  - assert (~ symbolic c) by (rewrite <- prefixb_sym, E; discriminate). destruct (loose_oid size c) as [x| | |]; cbn [bindr]; split; try discriminate; try (intros [_ X]; discriminate); [intros X; apply Ok_inj in X; injection X as ->; auto|intros [_ X]; apply Ok_inj in X; now subst].
Qed.

Section C.
Variable size : nat.
Variable odb : list Z -> obj.
Variable busy : list Z -> bool.
Hypothesis Hsize : (0 < size)%nat.
Hypothesis Hodb : tags_ok size odb.
Lemma loose_good st : good_refs size st -> NoDup (map fst (loose st)) /\ Forall (fun f => good_name (fst f) /\ bytes (snd f)) (loose st).
Proof. intros (_ & H1 & H2). split; [exact H1|]. eapply Forall_impl; [|exact H2]. intros f [H3 H4]. split; [exact H3|]. exact H4. Qed.
Lemma packed_all_good l : good_list size l -> Forall (good_ref size) (packed_refs size l).
Proof. intros [H _]. unfold packed_refs. apply Forall_map. eapply Forall_impl; [|exact H]. apply pref_good. Qed.
(** Everything about packing in one statement. *)
Lemma compress_cases st : good_refs size st ->
  (packable size odb st /\ exists l cache, packs size st l /\ compress size odb busy st = Ok (mkrefs (filter (fun e => negb (removable size busy cache e)) (loose st)) (file_text (written odb cache))) /\
     NoDup (map r_name cache) /\ Forall (good_ref size) cache /\
     (forall q, (forall f, In f (loose st) -> direct f = true -> fst f <> q) -> find (rnamed q) cache = find (rnamed q) (packed_refs size l)) /\
     (forall f, In f (loose st) -> direct f = true -> exists o, loose_oid size (snd f) = Ok o /\ find (rnamed (fst f)) cache = Some (fresh_of size (fst f) o (find (rnamed (fst f)) (packed_refs size l))))) \/
  (~ packable size odb st /\ compress size odb busy st = Err (-1)).
Proof.
  intros HG. destruct (loose_good st HG) as [HN HF]. destruct HG as [(l & Hl) _]. unfold compress. destruct (reload_packs size Hsize st l false Hl) as (s & ->). cbn [bindr fst].
  assert (PN : NoDup (map r_name (packed_refs size l))) by (apply packed_nodup; apply Hl). assert (PG : Forall (good_ref size) (packed_refs size l)) by (apply packed_all_good; apply Hl).
  assert (DL : forall f o, In f (loose st) -> direct f = true -> (loose_oid size (snd f) = Ok o <-> lookup size st (fst f) = Ok (TOid o, None))).
  { intros [n c] o Hf Hd. cbn [fst snd]. unfold lookup. rewrite (proj2 (file_of_in (loose st) n HN c) Hf). apply direct_spec in Hd. cbn [fst snd] in Hd. destruct (loose_lookup size c) as [t| | |] eqn:E; cbn [bindr].
    - split; [intros X; assert (Y : loose_lookup size c = Ok (TOid o)) by (apply loose_lookup_direct; tauto); rewrite E in Y; apply Ok_inj in Y; now subst|]. intros X. apply Ok_inj in X. injection X as ->. apply loose_lookup_direct in E. tauto.
    - split; [|discriminate]. intros X. assert (Y : loose_lookup size c = Ok (TOid o)) by (apply loose_lookup_direct; tauto). congruence.
    - split; [|discriminate]. intros X. assert (Y : loose_lookup size c = Ok (TOid o)) by (apply loose_lookup_direct; tauto). congruence.
    - split; [|discriminate]. intros X. assert (Y : loose_lookup size c = Ok (TOid o)) by (apply loose_lookup_direct; tauto). congruence. }
  destruct (load_exact size Hsize (loose st) (packed_refs size l) HN HF PN PG) as [(cache & E & H1 & H2 & H3 & H4 & H5)|(E & f & Hf & Hd & He)]; rewrite E; cbn [bindr].
  - assert (H6 : forall f, In f (loose st) -> direct f = true -> exists o, loose_oid size (snd f) = Ok o /\ find (rnamed (fst f)) cache = Some (fresh_of size (fst f) o (find (rnamed (fst f)) (packed_refs size l)))).
    { intros f Hf Hd. rewrite Forall_forall in H3. destruct (H3 f Hf Hd) as (o & Ho). exists o. split; [exact Ho|]. now apply H5. }
    destruct (packed_write_exact size odb Hodb cache H2) as [[P W]|[P W]]; rewrite W; cbn [bindr].
    + left. split.
      * intros n c Hf Hlk Hsy. destruct (H6 (n, c) Hf) as (o & Ho & Hfd); [apply direct_spec; auto|]. exists o. split; [apply (DL (n, c)); auto; apply direct_spec; auto|]. cbn [fst] in Hfd. apply (find_in _ _ _ H1) in Hfd. destruct Hfd as [Hi _]. rewrite Forall_forall in P. destruct (P _ Hi) as [X|X]; [discriminate|exact X].
      * exists l, cache. split; [exact Hl|]. split; [reflexivity|]. auto.
    + right. split; [|reflexivity]. intros HP. apply P. apply Forall_forall. intros r Hr. assert (Hfr : find (rnamed (r_name r)) cache = Some r) by (apply find_in; auto).
      destruct (find (fun f => direct f && leqb (fst f) (r_name r)) (loose st)) as [f|] eqn:Ef.
      * apply find_some in Ef. destruct Ef as [Hf Ef]. apply andb_true_iff in Ef. destruct Ef as [Hd En]. apply leqb_spec in En. destruct (H6 f Hf Hd) as (o & Ho & Hfd). rewrite En, Hfr in Hfd. injection Hfd as ->. right. cbn [fresh_of r_oid].
        destruct f as [n c]. assert (Hd' := Hd). apply direct_spec in Hd'. destruct (HP n c Hf) as (o' & Ho' & Hob); [apply Hd'|apply Hd'|]. apply (DL (n, c)) in Ho'; auto. rewrite Ho in Ho'. apply Ok_inj in Ho'. now subst o'.
      * rewrite H4 in Hfr. 2: { intros f Hf Hd En. pose proof (find_none _ _ Ef f Hf) as X. cbn beta in X. rewrite Hd, En, leqb_refl in X. discriminate. }
        apply (find_in _ _ _ PN) in Hfr. destruct Hfr as [Hi _]. unfold packed_refs in Hi. apply in_map_iff in Hi. destruct Hi as (e & <- & _). apply pref_present.
  - right. split; [|reflexivity]. intros HP. destruct f as [n c]. assert (Hd' := Hd). apply direct_spec in Hd'. destruct (HP n c Hf) as (o' & Ho' & _); [apply Hd'|apply Hd'|]. apply (DL (n, c)) in Ho'; auto. congruence.
Qed.
Lemma removable_exact cache f : NoDup (map r_name cache) ->
  removable size busy cache f = match find (rnamed (fst f)) cache with
    | Some r => r_loose r && negb (busy (fst f)) && negb (prefixb symref (snd f)) && match loose_oid size (snd f) with Ok o => leqb o (r_oid r) | _ => false end
    | None => false end.
Proof.
  intros HN. unfold removable. induction cache as [|r cache IH]; [reflexivity|]. cbn [map] in HN. inversion HN as [|? ? H1 H2]; subst. cbn [existsb find]. change (rnamed (fst f) r) with (leqb (r_name r) (fst f)). rewrite IH by assumption. destruct (leqb (r_name r) (fst f)) eqn:E.
  - apply leqb_spec in E. assert (find (rnamed (fst f)) cache = None) as ->. { apply find_none_all. intros x Hx. unfold rnamed. apply leqb_sym_neq. intros Ex. apply H1. rewrite E, <- Ex. now apply in_map. } rewrite E, orb_false_r. reflexivity.
  - reflexivity.
Qed.
Theorem C64_compress_partial : forall st st', good_refs size st -> compress size odb busy st = Ok st' ->
  good_refs size st' /\
  (forall n, points_to (lookup size st' n) = points_to (lookup size st n)) /\
  (forall n, ~ In n (map fst (loose st)) -> lookup size st' n = lookup size st n) /\
  (forall f, In f (loose st') <-> In f (loose st) /\ (lockfile (fst f) \/ symbolic (snd f) \/ busy (fst f) = true)) /\
  (forall n c o, In (n, c) (loose st) -> ~ In (n, c) (loose st') -> lookup size st n = Ok (TOid o, None) -> lookup size st' n = Ok (TOid o, match odb o with OTag t => Some t | _ => None end)).
Proof.
  intros st st' HG HC. destruct (loose_good st HG) as [HN HF]. destruct (compress_cases st HG) as [(_ & l & cache & Hl & E & HNc & HGc & H4 & H5)|[_ E]]; rewrite E in HC; [|discriminate]. apply Ok_inj in HC. subst st'. clear E.
  set (p := fun e => negb (removable size busy cache e)). set (st' := mkrefs (filter p (loose st)) (file_text (written odb cache))).
  assert (HL' : packs size st' (written odb cache)) by (split; [now apply written_good|now left]).
  assert (RM : forall f, In f (loose st) -> (removable size busy cache f = true <-> direct f = true /\ busy (fst f) = false)).
  { intros f Hf. rewrite removable_exact by exact HNc. destruct (direct f) eqn:Hd.
    - destruct (H5 f Hf Hd) as (o & Ho & ->). unfold fresh_of at 1. cbn [r_loose r_oid fresh_of]. rewrite Ho, leqb_refl. assert (X := Hd). unfold direct in X. apply andb_true_iff in X. destruct X as [_ X]. rewrite X. destruct (busy (fst f)); cbn; split; auto; try tauto; intros; try discriminate. destruct H; discriminate.
    - split; [|intros [X _]; discriminate]. rewrite H4.
      + rewrite packed_find. destruct (find (named (fst f)) l); cbn [option_map]; [unfold pref_of; cbn [r_loose]; cbn; discriminate|discriminate].
      + intros g Hg Hdg Eg. assert (g = f). { destruct f as [n c], g as [n' c']. cbn in Eg. subst n'. f_equal. apply (file_of_in _ _ HN) in Hf, Hg. congruence. } subst g. congruence. }
  assert (IN' : forall f, In f (loose st') <-> In f (loose st) /\ (lockfile (fst f) \/ symbolic (snd f) \/ busy (fst f) = true)).
  { intros f. cbn [loose st']. unfold st'. cbn [loose]. rewrite filter_In. unfold p. rewrite negb_true_iff. split.
    - intros [Hf Hr]. split; [exact Hf|]. destruct (lock_suffix (fst f)) eqn:E1; [left; now apply lock_spec|]. destruct (prefixb symref (snd f)) eqn:E2; [right; left; now apply prefixb_sym|]. right; right. destruct (busy (fst f)) eqn:E3; [reflexivity|]. assert (removable size busy cache f = true) by (apply RM; [exact Hf|]; split; [unfold direct; now rewrite E1, E2|exact E3]). congruence.
    - intros [Hf Hk]. split; [exact Hf|]. destruct (removable size busy cache f) eqn:Er; [|reflexivity]. apply RM in Er; [|exact Hf]. destruct Er as [Hd Hb]. apply direct_spec in Hd. destruct Hk as [Hk|[Hk|Hk]]; [tauto|tauto|congruence]. }
  assert (HN' : NoDup (map fst (loose st'))) by (apply nodup_filter; exact HN).
  assert (PK : forall q, fst (packed_lookup size (packed st') false q) = found (option_map (ent_of odb) (find (rnamed q) cache))) by (intros q; rewrite (lookup_packs size Hsize st' _ q HL'), find_written by exact HNc; reflexivity).
  assert (NL : forall n, ~ In n (map fst (loose st)) -> lookup size st' n = lookup size st n).
  { intros n Hn. unfold lookup. rewrite (proj2 (file_of_none (loose st) n) Hn). rewrite (proj2 (file_of_none (loose st') n)). 2: { intros X. apply Hn. apply in_map_iff in X. destruct X as (f & <- & Hf). apply IN' in Hf. apply in_map. tauto. }
    rewrite PK, (lookup_packs size Hsize st l n Hl). rewrite H4 by (intros f Hf _ Ef; apply Hn; rewrite <- Ef; now apply in_map). rewrite packed_find. destruct (find (named n) l) as [e|]; cbn [option_map]; [now rewrite ent_pref|reflexivity]. }
  assert (RL : forall n c o, In (n, c) (loose st) -> ~ In (n, c) (loose st') -> lookup size st n = Ok (TOid o, None) -> lookup size st' n = Ok (TOid o, match odb o with OTag t => Some t | _ => None end)).
  { intros n c o Hf Hr Ho. unfold lookup in Ho. rewrite (proj2 (file_of_in _ n HN c) Hf) in Ho. assert (Hdir : direct (n, c) = true). { destruct (direct (n, c)) eqn:Hd; [reflexivity|]. exfalso. apply Hr. apply IN'. split; [exact Hf|]. cbn [fst snd]. unfold direct in Hd. cbn [fst snd] in Hd. rewrite <- negb_orb, negb_false_iff, orb_true_iff, lock_spec, prefixb_sym in Hd. tauto. }
    destruct (H5 _ Hf Hdir) as (o' & Ho' & Hfd). cbn [fst snd] in Ho', Hfd. assert (o' = o). { destruct (loose_lookup size c) as [t| | |] eqn:El; try discriminate. cbn [bindr] in Ho. apply Ok_inj in Ho. injection Ho as ->. apply loose_lookup_direct in El. destruct El as [_ El]. rewrite Ho' in El. now apply Ok_inj in El. } subst o'.
    unfold lookup. rewrite (proj2 (file_of_none (loose st') n)).
    - rewrite PK, Hfd. cbn [option_map found bindr]. unfold ent_of, fresh_of. cbn. destruct (odb o); reflexivity.
    - intros X. apply in_map_iff in X. destruct X as ([n' c'] & En & Hf'). cbn [fst] in En. subst n'. assert (X := proj1 (proj1 (IN' _) Hf')). apply Hr. assert (c' = c) by (apply (file_of_in _ _ HN) in X, Hf; congruence). now subst c'. }
  assert (KEEP : forall n c, In (n, c) (loose st') -> lookup size st' n = lookup size st n).
  { intros n c Hf. assert (Hf0 := proj1 (proj1 (IN' _) Hf)). unfold lookup. rewrite (proj2 (file_of_in _ n HN c) Hf0), (proj2 (file_of_in _ n HN' c) Hf). reflexivity. }
  split; [|split; [|split; [exact NL|split; [exact IN'|exact RL]]]].
  - split; [eauto|]. split; [exact HN'|]. destruct HG as (_ & _ & HG). apply Forall_forall. intros f Hf. apply IN' in Hf. rewrite Forall_forall in HG. apply HG. tauto.
  - intros n. destruct (file_of (loose st) n) as [c|] eqn:Ef.
    + apply (file_of_in _ _ HN) in Ef. destruct (file_of (loose st') n) as [c'|] eqn:Ef'.
      * apply (file_of_in _ _ HN') in Ef'. now rewrite (KEEP n c').
      * apply file_of_none in Ef'. assert (Hr : ~ In (n, c) (loose st')) by (intros X; apply Ef'; exact (in_map fst _ _ X)).
        assert (Hdir : direct (n, c) = true). { destruct (direct (n, c)) eqn:Hd; [reflexivity|]. exfalso. apply Hr. apply IN'. split; [exact Ef|]. cbn [fst snd]. unfold direct in Hd. cbn [fst snd] in Hd. rewrite <- negb_orb, negb_false_iff, orb_true_iff, lock_spec, prefixb_sym in Hd. tauto. }
        destruct (H5 _ Ef Hdir) as (o & Ho & _). cbn [snd] in Ho. assert (Hlk : lookup size st n = Ok (TOid o, None)). { unfold lookup. rewrite (proj2 (file_of_in _ n HN c) Ef). assert (loose_lookup size c = Ok (TOid o)) as -> by (apply loose_lookup_direct; apply direct_spec in Hdir; cbn [fst snd] in Hdir; tauto). reflexivity. }
        rewrite (RL n c o Ef Hr Hlk), Hlk. reflexivity.
    + apply file_of_none in Ef. now rewrite NL.
Qed.
Theorem C64_compress_succeeds : forall st, good_refs size st ->
  (packable size odb st -> exists st', compress size odb busy st = Ok st') /\ (~ packable size odb st -> compress size odb busy st = Err (-1)).
Proof. intros st HG. destruct (compress_cases st HG) as [(HP & l & cache & _ & E & _)|[HP E]]; split; intros; try tauto; eauto. Qed.
(** Deleting a packed reference. *)
Theorem C64_delete : forall st n, good_refs size st -> exists st', packed_delete size odb st n = Ok st' /\ good_refs size st' /\ loose st' = loose st /\
  (~ In n (map fst (loose st)) -> lookup size st' n = Err (-3)) /\ (forall m, m <> n -> lookup size st' m = lookup size st m).
Proof.
  intros st n HG. pose proof HG as ((l & Hl) & HG2 & HG3). unfold packed_delete. destruct (reload_packs size Hsize st l false Hl) as (s & ->). cbn [bindr fst].
  change (fun r => leqb (r_name r) n) with (rnamed n).
  assert (PN : NoDup (map r_name (packed_refs size l))) by (apply packed_nodup; apply Hl). assert (PG : Forall (good_ref size) (packed_refs size l)) by (apply packed_all_good; apply Hl).
  destruct (existsb (rnamed n) (packed_refs size l)) eqn:Ex.
  - set (cache := filter (fun r => negb (leqb (r_name r) n)) (packed_refs size l)).
    assert (PG' : Forall (good_ref size) cache) by (apply Forall_forall; intros r Hr; apply filter_In in Hr; rewrite Forall_forall in PG; now apply PG).
    assert (PN' : NoDup (map r_name cache)) by (now apply nodup_filter).
    destruct (packed_write_exact size odb Hodb cache PG') as [[P W]|[P W]]; rewrite W; cbn [bindr].
    2: { exfalso. apply P. apply Forall_forall. intros r Hr. apply filter_In in Hr. destruct Hr as [Hr _]. unfold packed_refs in Hr. apply in_map_iff in Hr. destruct Hr as (e & <- & _). apply pref_present. }
    eexists. split; [reflexivity|]. set (st' := mkrefs (loose st) (file_text (written odb cache))).
    assert (HL' : packs size st' (written odb cache)) by (split; [now apply written_good|now left]).
    assert (FD : forall m, find (rnamed m) cache = if leqb m n then None else find (rnamed m) (packed_refs size l)).
    { intros m. unfold cache. clear. induction (packed_refs size l) as [|r rs IH]; cbn [filter find]; [destruct (leqb m n); reflexivity|]. change (rnamed m r) with (leqb (r_name r) m). destruct (leqb (r_name r) n) eqn:E; cbn [negb find].
      - rewrite IH. apply leqb_spec in E. rewrite E. destruct (leqb m n) eqn:E2; [reflexivity|]. rewrite (leqb_sym_neq n m); [reflexivity|]. intros ->. rewrite leqb_refl in E2. discriminate.
      - change (rnamed m r) with (leqb (r_name r) m). destruct (leqb (r_name r) m) eqn:E2; [|exact IH]. apply leqb_spec in E2. rewrite E2 in E. now rewrite E. }
    split; [split; [eauto|split; assumption]|]. split; [reflexivity|]. split.
    + intros Hn. unfold lookup. rewrite (proj2 (file_of_none (loose st') n) Hn), (lookup_packs size Hsize st' _ n HL'), find_written by exact PN'. rewrite FD, leqb_refl. reflexivity.
    + intros m Hm. unfold lookup. cbn [loose st']. destruct (file_of (loose st) m) as [c|]; [reflexivity|]. change (file_text (written odb cache)) with (packed st'). rewrite (lookup_packs size Hsize st' _ m HL'), (lookup_packs size Hsize st l m Hl), find_written by exact PN'. rewrite FD, (leqb_sym_neq m n Hm), packed_find. destruct (find (named m) l) as [e|]; cbn [option_map]; [now rewrite ent_pref|reflexivity].
  - exists st. split; [reflexivity|]. split; [exact HG|]. split; [reflexivity|]. split; [|reflexivity]. intros Hn. unfold lookup. rewrite (proj2 (file_of_none (loose st) n) Hn), (lookup_packs size Hsize st l n Hl).
    assert (FN : find (rnamed n) (packed_refs size l) = None) by (apply find_none_all; intros x Hx; destruct (rnamed n x) eqn:E; [|reflexivity]; assert (existsb (rnamed n) (packed_refs size l) = true) by (apply existsb_exists; eauto); congruence).
    rewrite packed_find in FN. destruct (find (named n) l); [discriminate|reflexivity].
Qed.
End C.
Print Assumptions C64_compress_partial.
Print Assumptions C64_compress_succeeds.
Print Assumptions C64_delete.

(** C65: reading the file.  Every reference is found with its id and its peeled id, and no other name is;
    reading the whole file gives the same references. *)
Theorem C65_lookup_exact_partial : forall size l sorted, (0 < size)%nat -> good_list size l ->
  (forall e, In e l -> fst (packed_lookup size (file_text l) sorted (e_name e)) = Ok (e_oid e, e_peel e)) /\
  (forall q, ~ In q (map e_name l) -> fst (packed_lookup size (file_text l) sorted q) = Err (-3)).
Proof.
  intros size l b Hs HG. split.
  - intros e He. rewrite lookup_file by assumption. cbn [fst]. destruct HG as [_ HA]. enough (find (named (e_name e)) l = Some e) as -> by reflexivity. apply in_split in He. destruct He as (l1 & l2 & ->). apply ascending_app in HA. destruct HA as (_ & _ & HA).
    rewrite find_app_none; [cbn; unfold named; now rewrite leqb_refl|]. intros x Hx. apply (named_neq _ _ Lt); [|discriminate]. apply HA; [exact Hx|now left].
  - intros q Hq. rewrite lookup_file by assumption. cbn [fst]. rewrite find_none_all; [reflexivity|]. intros x Hx. unfold named. apply leqb_sym_neq. intros <-. apply Hq. now apply in_map.
Qed.
Print Assumptions C65_lookup_exact_partial.
(** Files that git wrote before it sorted them: without a header or with one that does not say so. *)
Theorem C65_unsorted_exact : forall size l (h : bool), (0 < size)%nat -> Forall (good_ent size) l -> NoDup (map e_name l) ->
  let file := if h then bs "# pack-refs with: peeled " ++ 10 :: body l else body l in
  (forall e, In e l -> fst (packed_lookup size file false (e_name e)) = Ok (e_oid e, e_peel e)) /\
  (forall q, ~ In q (map e_name l) -> fst (packed_lookup size file false q) = Err (-3)).
Proof.
  intros size l h Hs HG HA. cbv zeta. change (bs "# pack-refs with: peeled ") with old_hdr. destruct (reload_old size Hs h l HG HA) as (mode & R).
  assert (L : forall q, fst (packed_lookup size (if h then old_hdr ++ 10 :: body l else body l) false q) = unsorted_lookup size (if h then old_hdr ++ 10 :: body l else body l) q).
  { intros q. pose proof R as R'. unfold reload in R'. unfold packed_lookup. set (file := if h then old_hdr ++ 10 :: body l else body l) in *. destruct file as [|c f]; [reflexivity|]. destruct (peeling_mode (c :: f) false) as [[m s] o] eqn:P. destruct o as [o|]; [|discriminate]. assert (s = false) as ->; [|reflexivity].
    destruct (skip_comments _ _); try discriminate. cbn [bindr] in R'. destruct (read_refs _ _ _ _ _); try discriminate. cbn [bindr] in R'. now injection R' as _ ->. }
  assert (F : forall q, find (fun r => leqb (r_name r) q) (map (pref_as size mode) l) = option_map (pref_as size mode) (find (fun e => leqb (e_name e) q) l)).
  { intros q. clear. induction l as [|e l IH]; [reflexivity|]. cbn [map find]. change (r_name (pref_as size mode e)) with (e_name e). destruct (leqb (e_name e) q); [reflexivity|exact IH]. }
  split.
  - intros e He. rewrite L. unfold unsorted_lookup. rewrite R. cbn [bindr fst]. rewrite F. assert (FE : find (fun f => leqb (e_name f) (e_name e)) l = Some e).
    { clear - He HA. induction l as [|f l IH]; [destruct He|]. cbn [map] in HA. apply NoDup_cons_iff in HA. destruct HA as [H1 H2]. cbn [find]. destruct He as [-> |He]; [now rewrite leqb_refl|]. destruct (leqb (e_name f) (e_name e)) eqn:E; [|now apply IH]. apply leqb_spec in E. destruct H1. rewrite E. now apply in_map. }
    rewrite FE. cbn [option_map]. unfold pref_as. cbn [r_oid r_peel]. f_equal. f_equal. rewrite Forall_forall in HG. pose proof (HG e He) as Hg. destruct (e_peel e) as [p|] eqn:Ep; [now apply (peel_of_good size e)|]. unfold peel_of. enough (oid_is_zero (repeat 0 size) = true) as -> by reflexivity. clear. induction size as [|n IH]; [reflexivity|exact IH].
  - intros q Hq. rewrite L. unfold unsorted_lookup. rewrite R. cbn [bindr fst]. rewrite F. replace (find (fun e => leqb (e_name e) q) l) with (@None ent); [reflexivity|]. symmetry. clear - Hq. induction l as [|f l IH]; [reflexivity|]. cbn [find map In] in *. destruct (leqb (e_name f) q) eqn:E; [apply leqb_spec in E; tauto|apply IH; tauto].
Qed.
Print Assumptions C65_unsorted_exact.
Theorem C65_reload_exact : forall size l sorted, (0 < size)%nat -> good_list size l ->
  exists refs, reload size (file_text l) sorted = Ok (refs, true) /\ map (fun r => (r_name r, r_oid r, if r_has r then Some (r_peel r) else None)) refs = map (fun e => (e_name e, e_oid e, e_peel e)) l.
Proof.
  intros size l b Hs HG. exists (map (pref_of size) l). split; [now apply reload_file|]. rewrite map_map. apply map_ext. intros e. unfold pref_of. cbn. destruct (e_peel e); reflexivity.
Qed.
Print Assumptions C65_reload_exact.
(** Whatever the file holds, and whatever was seen before, reading it stays inside the buffers and ends. *)
Theorem C65_any_bytes_safe : forall size data sorted name, (0 < size)%nat -> bytes data ->
  ((exists x, fst (packed_lookup size data sorted name) = Ok x) \/ fst (packed_lookup size data sorted name) = Err (-1) \/ fst (packed_lookup size data sorted name) = Err (-3)) /\
  ((exists x, reload size data sorted = Ok x) \/ reload size data sorted = Err (-1) \/ reload size data sorted = Err (-3)).
Proof.
  intros size data b name Hs Hb. pose proof (packed_lookup_fine size data b name Hs Hb) as H1. pose proof (reload_fine size data b Hs Hb) as H2. split.
  - destruct (fst (packed_lookup size data b name)); cbn in H1; try contradiction; [left; eauto|right; destruct H1 as [-> | -> ]; auto].
  - destruct (reload size data b); cbn in H2; try contradiction; [left; eauto|right; destruct H2 as [-> | -> ]; auto].
Qed.
Print Assumptions C65_any_bytes_safe.

(** A loose reference that is written is read back. *)
Lemma rtrim_nl s : rtrim (s ++ [10]) = rtrim s.
Proof. induction s as [|c s IH]; [reflexivity|]. cbn [app rtrim]. now rewrite IH. Qed.
Lemma cstring_id s : Forall (fun c => c <> 0) s -> cstring s = s.
Proof. induction 1 as [|c s Hc Hs IH]; [reflexivity|]. cbn [cstring]. destruct (c =? 0) eqn:E; [apply Z.eqb_eq in E; contradiction|]. now rewrite IH. Qed.
Theorem C64_loose_roundtrip : forall size t, (0 < size)%nat -> match t with TOid o => oid_ok size o | TSym n => good_name n end ->
  exists text, loose_text size t = Ok text /\ loose_lookup size text = Ok t.
Proof.
  intros size [o|n] Hs H; cbn [loose_text].
  - rewrite (fmt_hex size) by exact H. cbn [bindr]. eexists. split; [reflexivity|]. pose proof (hex_len _ _ H) as HL. apply loose_lookup_direct. split.
    + intros (t & E). pose proof (hex_chars2 o (proj2 H)) as HC. pose proof (hex_chars o 114 (proj2 H)) as HX. destruct (hex_text o) as [|c r]; [cbn in HL; lia|]. cbn in E. injection E as -> _. specialize (HX (or_introl eq_refl)). lia.
    + unfold loose_oid. rewrite app_length, HL. cbn [length]. replace (2 * size + 1 <? 2 * size)%nat with false by (symmetry; apply Nat.ltb_ge; lia). rewrite <- app_assoc. rewrite parse_hex; auto.
      2: { unfold NL; cbn [app]. constructor; [unfold is_byte; lia|]. constructor; [unfold is_byte; lia|constructor]. }
      cbn [bindr]. rewrite (rd_at _ _ 10 [0]); [reflexivity|]. now apply skipn_pre.
  - eexists. split; [reflexivity|]. destruct H as [Hne H]. unfold loose_lookup, NL. assert (P : prefixb symref (symref ++ n ++ [10]) = true) by (apply prefixb_spec; eexists; reflexivity). rewrite P.
    assert (R : rtrim (symref ++ n ++ [10]) = symref ++ n).
    { rewrite app_assoc, rtrim_nl. destruct (exists_last Hne) as (u & c & ->). rewrite app_assoc. apply rtrim_id. apply Forall_app in H. destruct H as [_ H]. apply Forall_cons_iff in H. destruct H as [H _]. unfold isspace. repeat (apply orb_false_iff; split); apply Z.eqb_neq; lia. }
    cbv zeta. rewrite R. destruct (length (symref ++ n) <? length symref + 1)%nat eqn:E; [apply Nat.ltb_lt in E; rewrite app_length in E; destruct n; [congruence|cbn in E; lia]|]. rewrite skipn_pre by reflexivity. rewrite cstring_id; [reflexivity|]. eapply Forall_impl; [|exact H]. cbn. intros. lia.
Qed.
Print Assumptions C64_loose_roundtrip.

(** *** A repository that meets the hypotheses *)
Definition id_ (k : Z) : list Z := k :: repeat 7 19.
Definition x_odb (o : list Z) : obj := if leqb o (id_ 3) then OTag (id_ 2) else if leqb o (id_ 5) then OTag (id_ 3) else if leqb o (id_ 9) then OMissing else OOther.
Definition x_list : list ent := [mke (bs "refs/heads/a") (id_ 1) None; mke (bs "refs/heads/ab") (id_ 2) None; mke (bs "refs/tags/v1") (id_ 3) (Some (id_ 2))].
Definition x_st : refs := mkrefs [(bs "refs/heads/ab", hex_text (id_ 1) ++ [10]); (bs "refs/remotes/o/HEAD", bs "ref: refs/heads/a" ++ [10]); (bs "refs/tags/v2", hex_text (id_ 3) ++ [10]); (bs "refs/heads/z", hex_text (id_ 4))] (file_text x_list).
Definition x_busy (n : list Z) : bool := leqb n (bs "refs/heads/z").
Lemma x_tags : tags_ok 20 x_odb.
Proof.
  assert (K : forall k, 0 < k < 256 -> oid_ok 20 (id_ k) /\ Exists (fun c => c <> 0) (id_ k)).
  { intros k Hk. split; [split; [reflexivity|]; unfold id_; constructor; [unfold is_byte; lia|]; repeat constructor; unfold is_byte; lia|]. constructor. lia. }
  intros o t. unfold x_odb. destruct (leqb o (id_ 3)); [intros E; injection E as <-; apply K; lia|]. destruct (leqb o (id_ 5)); [intros E; injection E as <-; apply K; lia|]. destruct (leqb o (id_ 9)); discriminate.
Qed.
Ltac chars := repeat first [apply Forall_nil | apply Forall_cons; [unfold is_byte; lia|]].
Lemma x_good : good_refs 20 x_st.
Proof.
  split; [|split].
  - exists x_list. split; [|now left]. split.
    + repeat first [apply Forall_nil | apply Forall_cons]; (split; [split; [discriminate|cbn; chars]|]; split; [split; [reflexivity|cbn; chars]|]; try exact I). split; [split; [reflexivity|cbn; chars]|constructor; lia].
    + cbn. repeat split; repeat constructor.
  - repeat first [apply NoDup_nil | apply NoDup_cons]; cbn; intuition discriminate.
  - cbn [loose x_st]. repeat first [apply Forall_nil | apply Forall_cons]; (split; [split; [discriminate|cbn; chars]|let l := match goal with |- Forall _ ?l => eval vm_compute in l end in match goal with |- Forall ?P ?x => change (Forall P l) end; chars]).
Qed.
Example compress_case : exists st', compress 20 x_odb x_busy x_st = Ok st' /\ map fst (loose st') = [bs "refs/remotes/o/HEAD"; bs "refs/heads/z"] /\
  lookup 20 st' (bs "refs/tags/v2") = Ok (TOid (id_ 3), Some (id_ 2)) /\ lookup 20 st' (bs "refs/heads/ab") = Ok (TOid (id_ 1), None) /\ lookup 20 x_st (bs "refs/heads/ab") = Ok (TOid (id_ 1), None).
Proof. eexists. split; [vm_compute; reflexivity|]. split; [vm_compute; reflexivity|]. split; [vm_compute; reflexivity|]. split; vm_compute; reflexivity. Qed.

(** *** What does not hold *)
(** The flag that the file is sorted survives the file: after another program replaces the file by one
    without a header, a reference in it is not found by this backend, but is by a new one. *)
Definition line_of (k : Z) (name : string) : list Z := hex_text (id_ k) ++ 32 :: bs name ++ [10].
Theorem C65_replaced_file_refuted : exists old new name x,
  let sorted := snd (packed_lookup 20 old false name) in
  fst (packed_lookup 20 new sorted name) = Err (-3) /\ fst (packed_lookup 20 new false name) = Ok x.
Proof. exists (file_text x_list), (line_of 1 "refs/heads/b" ++ line_of 2 "refs/heads/c" ++ line_of 3 "refs/heads/a"), (bs "refs/heads/a"), (id_ 3, None). split; vm_compute; reflexivity. Qed.
Print Assumptions C65_replaced_file_refuted.
(** The header says that tags are fully peeled, but a tag of a tag is peeled once: the peeled id is a tag. *)
Theorem C64_fully_peeled_refuted : exists odb busy st st' name p t, tags_ok 20 odb /\ compress 20 odb busy st = Ok st' /\
  (exists rest, packed st' = bs "# pack-refs with: peeled fully-peeled sorted " ++ rest) /\
  lookup 20 st' name = Ok (TOid (id_ 5), Some p) /\ odb p = OTag t.
Proof.
  exists x_odb, (fun _ => false), (mkrefs [(bs "refs/tags/t", hex_text (id_ 5) ++ [10])] []). eexists. exists (bs "refs/tags/t"), (id_ 3), (id_ 2). split; [exact x_tags|]. split; [vm_compute; reflexivity|]. split; [eexists; vm_compute; reflexivity|]. split; vm_compute; reflexivity.
Qed.
Print Assumptions C64_fully_peeled_refuted.
(** With carriage returns at the ends of lines the two ways to read the file disagree. *)
Theorem C65_crlf_file_refuted : exists data name, fst (packed_lookup 20 data false name) = Err (-3) /\
  exists refs, reload 20 data false = Ok (refs, true) /\ In name (map r_name refs).
Proof.
  exists (bs "# pack-refs with: peeled fully-peeled sorted " ++ 13 :: 10 :: hex_text (id_ 1) ++ 32 :: bs "refs/heads/a" ++ [13; 10]), (bs "refs/heads/a"). split; [vm_compute; reflexivity|]. eexists. split; [vm_compute; reflexivity|]. now left.
Qed.
Print Assumptions C65_crlf_file_refuted.
(** Names of loose files are not checked: a file whose name has a newline makes the packed file unreadable,
    and with it every packed reference. *)
Theorem C64_newline_name_refuted : exists st st' name x, compress 20 x_odb (fun _ => false) st = Ok st' /\ lookup 20 st name = Ok x /\
  compress 20 x_odb (fun _ => false) st' = Err (-1) /\ packed_delete 20 x_odb st' name = Err (-1).
Proof.
  exists (mkrefs [(bs "refs/heads/a" ++ 10 :: bs "b", hex_text (id_ 1) ++ [10]); (bs "refs/heads/c", hex_text (id_ 2) ++ [10])] []). eexists. exists (bs "refs/heads/c"), (TOid (id_ 2), None). split; [vm_compute; reflexivity|]. split; [vm_compute; reflexivity|]. split; vm_compute; reflexivity.
Qed.
Print Assumptions C64_newline_name_refuted.
