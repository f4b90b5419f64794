From Coq Require Import Permutation.
From Verif Require Import Base Str CStr CodecModel CodecProofs OidModel OidSpec OidProofs OidProps ReflogProofs PrefsModel PrefsSpec PrefsProofs PrefsFind PrefsMain.

(** *** Finding entries in the cache *)
Definition rnamed (q : list Z) (r : pref) : bool := leqb (r_name r) q.
Definition keeps (g : pref -> pref) : Prop := forall r, r_name (g r) = r_name r.
Lemma leqb_sym_neq a b : a <> b -> leqb a b = false.
Proof. intros H. destruct (leqb a b) eqn:E; [apply leqb_spec in E; contradiction|reflexivity]. Qed.
Lemma upsert_find size l name g q : keeps g ->
  find (rnamed q) (upsert size l name g) = if leqb name q then Some (g (match find (rnamed name) l with Some r => r | None => mkpr name (repeat 0 size) (repeat 0 size) false false false end)) else find (rnamed q) l.
Proof.
  intros Hg. induction l as [|r l IH]; cbn [upsert find].
  - unfold rnamed at 1. rewrite Hg. cbn [r_name]. destruct (leqb name q) eqn:E; reflexivity.
  - change (rnamed name r) with (leqb (r_name r) name). change (rnamed q r) with (leqb (r_name r) q). destruct (leqb (r_name r) name) eqn:E; cbn [find].
    + change (rnamed q (g r)) with (leqb (r_name (g r)) q). rewrite Hg. apply leqb_spec in E. rewrite E. destruct (leqb name q) eqn:E2; reflexivity.
    + change (rnamed q r) with (leqb (r_name r) q). rewrite IH. destruct (leqb (r_name r) q) eqn:E2; [|reflexivity]. apply leqb_spec in E2. subst q. rewrite (leqb_sym_neq name); [reflexivity|]. intros ->. rewrite leqb_refl in E. discriminate.
Qed.
Lemma upsert_names size l name g : keeps g -> map r_name (upsert size l name g) = map r_name l ++ (if existsb (rnamed name) l then [] else [name]).
Proof.
  intros Hg. induction l as [|r l IH]; cbn [upsert map existsb app]; [now rewrite Hg|]. unfold rnamed at 1. destruct (leqb (r_name r) name) eqn:E; cbn [map orb]; [now rewrite Hg, app_nil_r|]. now rewrite IH.
Qed.
Lemma existsb_names q l : existsb (rnamed q) l = true <-> In q (map r_name l).
Proof.
  induction l as [|r l IH]; cbn [existsb map In]; [split; [discriminate|tauto]|]. rewrite orb_true_iff, IH. unfold rnamed. rewrite leqb_spec. tauto.
Qed.
Lemma upsert_nodup size l name g : keeps g -> NoDup (map r_name l) -> NoDup (map r_name (upsert size l name g)).
Proof.
  intros Hg H. rewrite upsert_names by exact Hg. destruct (existsb (rnamed name) l) eqn:E; [now rewrite app_nil_r|]. assert (~ In name (map r_name l)) as N by (rewrite <- existsb_names, E; discriminate). apply (Permutation_NoDup (Permutation_cons_append _ _)). now constructor.
Qed.
Lemma find_in q l r : NoDup (map r_name l) -> (find (rnamed q) l = Some r <-> In r l /\ r_name r = q).
Proof.
  intros HN. split.
  - intros H. apply find_some in H. unfold rnamed in H. rewrite leqb_spec in H. exact H.
  - intros [H1 H2]. induction l as [|x l IH]; [destruct H1|]. cbn [find]. cbn [map] in HN. inversion HN; subst. destruct H1 as [->|H1]; [unfold rnamed at 1; now rewrite leqb_refl|].
    unfold rnamed at 1. rewrite leqb_sym_neq; [now apply IH|]. intros E. match goal with H : ~ In _ _ |- _ => apply H end. rewrite E. now apply in_map.
Qed.
(** *** Sorting *)
Lemma insert_perm r l : Permutation (r :: l) (insert_ref r l).
Proof. induction l as [|x l IH]; cbn [insert_ref]; [reflexivity|]. destruct (before r x); [reflexivity|]. rewrite perm_swap. now constructor. Qed.
Lemma sort_perm l : Permutation l (sort_refs l).
Proof. induction l as [|r l IH]; cbn; [reflexivity|]. rewrite <- insert_perm. now constructor. Qed.
Fixpoint rasc (l : list pref) : Prop := match l with [] => True | r :: l => Forall (fun x => lex (r_name r) (r_name x) = Lt) l /\ rasc l end.
Lemma insert_asc r l : rasc l -> ~ In (r_name r) (map r_name l) -> rasc (insert_ref r l).
Proof.
  induction l as [|x l IH]; cbn [insert_ref rasc]; [intros; split; constructor|]. intros [H1 H2] HN. cbn [map In] in HN. unfold before. destruct (lex (r_name r) (r_name x)) eqn:E.
  - apply lex_eq in E. exfalso. apply HN. now left.
  - cbn [rasc]. split; [|auto]. constructor; [exact E|]. eapply Forall_impl; [|exact H1]. cbn. intros y Hy. eapply lex_lt_trans; eassumption.
  - cbn [rasc]. split; [|apply IH; tauto]. apply Forall_forall. intros y Hy. apply (Permutation_in _ (Permutation_sym (insert_perm r l))) in Hy. destruct Hy as [<-|Hy]; [now apply lex_gt_lt|]. rewrite Forall_forall in H1. now apply H1.
Qed.
Lemma sort_asc l : NoDup (map r_name l) -> rasc (sort_refs l).
Proof.
  induction l as [|r l IH]; cbn [sort_refs fold_right map]; intros H; [exact I|]. inversion H; subst. apply insert_asc; [now apply IH|]. intros Hi. match goal with H : ~ In _ _ |- _ => apply H end. apply (Permutation_in _ (Permutation_map r_name (Permutation_sym (sort_perm l)))). exact Hi.
Qed.

Section P.
Variable size : nat.
Hypothesis Hsize : (0 < size)%nat.
Variable odb : list Z -> obj.
Hypothesis Hodb : tags_ok size odb.
(** *** Writing *)
Definition good_ref (r : pref) : Prop := good_name (r_name r) /\ oid_ok size (r_oid r) /\ (r_has r = true -> oid_ok size (r_peel r) /\ Exists (fun c => c <> 0) (r_peel r)).
Definition ent_of (r : pref) : ent :=
  mke (r_name r) (r_oid r) (if r_has r then Some (r_peel r) else if r_cannot r then None else match odb (r_oid r) with OTag t => Some t | _ => None end).
Definition present (r : pref) : Prop := r_has r || r_cannot r = true \/ odb (r_oid r) <> OMissing.
Lemma ent_good r : good_ref r -> good_ent size (ent_of r).
Proof.
  intros (H1 & H2 & H3). unfold good_ent, ent_of. cbn. split; [exact H1|]. split; [exact H2|]. destruct (r_has r); [now apply H3|]. destruct (r_cannot r); [exact I|]. destruct (odb (r_oid r)) eqn:E; try exact I. apply (Hodb (r_oid r)). exact E.
Qed.
Lemma write_ent r r' : good_ref r -> find_peel odb r = Ok r' -> write_ref size r' = Ok (record (ent_of r)).
Proof.
  intros HG. pose proof HG as (Hn & Ho & Hp). unfold find_peel. destruct (r_has r) eqn:E1; cbn [orb].
  - intros H. apply Ok_inj in H. subst r'. unfold write_ref. rewrite (fmt_hex size) by exact Ho. cbn [bindr]. rewrite E1. rewrite (fmt_hex size) by now apply Hp. cbn [bindr]. unfold record, line, ent_of. cbn [e_name e_oid e_peel]. rewrite E1. repeat (rewrite <- ?app_assoc; cbn [app]). reflexivity.
  - destruct (r_cannot r) eqn:E2; cbn [orb].
    + intros H. apply Ok_inj in H. subst r'. unfold write_ref. rewrite (fmt_hex size) by exact Ho. cbn [bindr]. rewrite E1. unfold record, line, ent_of. cbn [e_name e_oid e_peel]. rewrite E1, E2. repeat (rewrite <- ?app_assoc; cbn [app]). reflexivity.
    + destruct (odb (r_oid r)) as [|t|] eqn:Eo; [discriminate| |]; intros H; apply Ok_inj in H; subst r'; unfold write_ref; cbn [r_oid r_has r_name r_peel]; rewrite (fmt_hex size) by exact Ho; cbn [bindr].
      * rewrite (fmt_hex size) by now apply (Hodb (r_oid r)). cbn [bindr]. unfold record, line, ent_of. cbn [e_name e_oid e_peel]. rewrite E1, E2, Eo. repeat (rewrite <- ?app_assoc; cbn [app]). reflexivity.
      * rewrite E1. unfold record, line, ent_of. cbn [e_name e_oid e_peel]. rewrite E1, E2, Eo. repeat (rewrite <- ?app_assoc; cbn [app]). reflexivity.
Qed.
Lemma find_peel_dec r : (present r /\ exists r', find_peel odb r = Ok r') \/ (~ present r /\ find_peel odb r = Err (-1)).
Proof.
  unfold present, find_peel. destruct (r_has r || r_cannot r); [left; split; [now left|eauto]|]. destruct (odb (r_oid r)) eqn:E; [right|left|left]; (split; [|eauto]); [intros [H|H]; [discriminate|now apply H]|right; discriminate|right; discriminate].
Qed.
Lemma write_all_exact l : Forall good_ref l -> (Forall present l /\ write_all size odb l = Ok (body (map ent_of l))) \/ (~ Forall present l /\ write_all size odb l = Err (-1)).
Proof.
  induction 1 as [|r l Hr Hl IH]; [left; split; [constructor|reflexivity]|]. cbn [write_all]. destruct (find_peel_dec r) as [[Hp (r' & E)]|[Hp E]].
  - rewrite E. cbn [bindr]. rewrite (write_ent r r' Hr E). cbn [bindr]. destruct IH as [[H1 H2]|[H1 H2]]; rewrite H2; cbn [bindr].
    + left. split; [now constructor|reflexivity].
    + right. split; [|reflexivity]. intros H. inversion H; auto.
  - rewrite E. right. split; [|reflexivity]. intros H. inversion H; auto.
Qed.
Definition written (cache : list pref) : list ent := map ent_of (sort_refs cache).
Lemma written_good cache : NoDup (map r_name cache) -> Forall good_ref cache -> good_list size (written cache).
Proof.
  intros HN HG. assert (HG2 : Forall good_ref (sort_refs cache)) by (eapply Permutation_Forall; [apply sort_perm|exact HG]). split.
  - unfold written. apply Forall_map. eapply Forall_impl; [|exact HG2]. apply ent_good.
  - unfold written. pose proof (sort_asc cache HN) as H. clear HG HG2. induction (sort_refs cache) as [|r l IH]; [exact I|]. destruct H as [H1 H2]. cbn [map ascending]. split; [|now apply IH]. apply Forall_map. exact H1.
Qed.
Lemma packed_write_exact cache : Forall good_ref cache -> (Forall present cache /\ packed_write size odb cache = Ok (file_text (written cache))) \/ (~ Forall present cache /\ packed_write size odb cache = Err (-1)).
Proof.
  intros HG. assert (HG2 : Forall good_ref (sort_refs cache)) by (eapply Permutation_Forall; [apply sort_perm|exact HG]). unfold packed_write. destruct (write_all_exact _ HG2) as [[H1 H2]|[H1 H2]]; rewrite H2; cbn [bindr].
  - left. split; [eapply Permutation_Forall; [apply Permutation_sym, sort_perm|exact H1]|reflexivity].
  - right. split; [|reflexivity]. intros H. apply H1. eapply Permutation_Forall; [apply sort_perm|exact H].
Qed.
Lemma find_map_ent l q : find (named q) (map ent_of l) = option_map ent_of (find (rnamed q) l).
Proof. induction l as [|r l IH]; [reflexivity|]. cbn [map find]. unfold named at 1, rnamed at 1. cbn [ent_of e_name]. destruct (leqb (r_name r) q); [reflexivity|exact IH]. Qed.
Lemma find_perm q l l' : NoDup (map r_name l) -> Permutation l l' -> find (rnamed q) l = find (rnamed q) l'.
Proof.
  intros HN HP. assert (HN2 : NoDup (map r_name l')) by (eapply Permutation_NoDup; [apply Permutation_map, HP|exact HN]). destruct (find (rnamed q) l) as [r|] eqn:E.
  - symmetry. apply (find_in q l' r HN2). apply (find_in q l r HN) in E. destruct E. split; [eapply Permutation_in; eassumption|assumption].
  - destruct (find (rnamed q) l') as [r|] eqn:E2; [|reflexivity]. apply (find_in q l' r HN2) in E2. destruct E2 as [H1 H2]. apply (Permutation_in _ (Permutation_sym HP)) in H1. assert (find (rnamed q) l = Some r) by (apply (find_in q l r HN); auto). congruence.
Qed.
Lemma find_written cache q : NoDup (map r_name cache) -> find (named q) (written cache) = option_map ent_of (find (rnamed q) cache).
Proof. intros HN. unfold written. rewrite find_map_ent. f_equal. symmetry. apply find_perm; [exact HN|apply sort_perm]. Qed.
(** *** What was packed before *)
Definition packed_refs (l : list ent) : list pref := map (pref_of size) l.
Lemma packed_find l q : find (rnamed q) (packed_refs l) = option_map (pref_of size) (find (named q) l).
Proof. induction l as [|e l IH]; [reflexivity|]. cbn [packed_refs map find]. unfold named at 1, rnamed at 1. cbn [pref_of r_name]. destruct (leqb (e_name e) q); [reflexivity|exact IH]. Qed.
Lemma packed_nodup l : ascending l -> NoDup (map r_name (packed_refs l)).
Proof.
  induction l as [|e l IH]; intros H; [constructor|]. destruct H as [H1 H2]. cbn. constructor; [|now apply IH]. intros Hi. unfold packed_refs in Hi. rewrite map_map in Hi. apply in_map_iff in Hi. destruct Hi as (x & Ex & Hx). cbn in Ex. rewrite Forall_forall in H1. specialize (H1 x Hx). rewrite Ex, lex_refl in H1. discriminate.
Qed.
Lemma pref_good e : good_ent size e -> good_ref (pref_of size e).
Proof. intros (H1 & H2 & H3). unfold good_ref, pref_of. cbn. split; [exact H1|]. split; [exact H2|]. destruct (e_peel e); [auto|discriminate]. Qed.
Lemma ent_pref e : ent_of (pref_of size e) = e.
Proof. unfold ent_of, pref_of. cbn. destruct e as [n o [p|]]; reflexivity. Qed.
Lemma pref_present e : present (pref_of size e).
Proof. left. unfold pref_of. cbn. destruct (e_peel e); reflexivity. Qed.
Lemma reload_packs st l b : packs size st l -> exists s, reload size (packed st) b = Ok (packed_refs l, s).
Proof.
  intros [HG [E|[E1 E2]]].
  - rewrite E. exists true. now apply reload_file.
  - rewrite E1, E2. exists b. reflexivity.
Qed.
Lemma lookup_packs st l q : packs size st l -> fst (packed_lookup size (packed st) false q) = found (find (named q) l).
Proof.
  intros [HG [E|[E1 E2]]].
  - rewrite E, lookup_file by auto. reflexivity.
  - rewrite E1, E2. reflexivity.
Qed.
(** *** The loose files *)
Definition direct (f : list Z * list Z) : bool := negb (lock_suffix (fst f)) && negb (prefixb symref (snd f)).
Lemma loose_oid_ok content o : bytes content -> loose_oid size content = Ok o -> oid_ok size o.
Proof.
  intros Hb. unfold loose_oid. destruct (length content <? 2 * size)%nat; [discriminate|]. destruct (oid_from_prefix size (content ++ [0]) (2 * size)) as [x| | |] eqn:E; cbn [bindr]; try discriminate.
  destruct (rd (content ++ [0]) (2 * size)) as [c| | |]; cbn [bindr]; try discriminate. destruct ((c =? 0) || isspace c); [|discriminate]. intros H. apply Ok_inj in H. subst x. apply oid_parse_exact in E; [tauto|]. apply bytes_app. split; [exact Hb|]. constructor; [unfold is_byte; lia|constructor].
Qed.
Lemma loose_oid_fine content : bytes content -> fine (loose_oid size content).
Proof.
  intros Hb. unfold loose_oid. destruct (length content <? 2 * size)%nat eqn:E; [cbn; auto|]. apply Nat.ltb_ge in E. apply fine_bind.
  - apply oid_fine; [apply bytes_app; split; [exact Hb|constructor; [unfold is_byte; lia|constructor]]|]. left. rewrite app_length. lia.
  - intros o _. destruct (rd_ok (content ++ [0]) (2 * size)) as (c & -> & _); [rewrite app_length; cbn; lia|]. cbn [bindr]. destruct ((c =? 0) || isspace c); cbn; auto.
Qed.
Definition fresh_of (name o : list Z) (old : option pref) : pref := mkpr name o (match old with Some r => r_peel r | None => repeat 0 size end) false false true.
Lemma keeps_load o : keeps (fun r => mkpr (r_name r) o (r_peel r) false false true).
Proof. intros r. reflexivity. Qed.
Lemma load_exact fs : forall cache, NoDup (map fst fs) -> Forall (fun f => good_name (fst f) /\ bytes (snd f)) fs -> NoDup (map r_name cache) -> Forall good_ref cache ->
  (exists cache', load_loose size fs cache = Ok cache' /\ NoDup (map r_name cache') /\ Forall good_ref cache' /\ Forall (fun f => direct f = true -> exists o, loose_oid size (snd f) = Ok o) fs /\
    (forall q, (forall f, In f fs -> direct f = true -> fst f <> q) -> find (rnamed q) cache' = find (rnamed q) cache) /\
    (forall f o, In f fs -> direct f = true -> loose_oid size (snd f) = Ok o -> find (rnamed (fst f)) cache' = Some (fresh_of (fst f) o (find (rnamed (fst f)) cache)))) \/
  (load_loose size fs cache = Err (-1) /\ exists f, In f fs /\ direct f = true /\ loose_oid size (snd f) = Err (-1)).
Proof.
  induction fs as [|[name content] fs IH]; intros cache HF HGf HN HG.
  - left. exists cache. repeat split; auto. intros f o [].
  - cbn [map fst] in HF. inversion HF as [|? ? HF1 HF2]; subst. apply Forall_cons_iff in HGf. destruct HGf as [[Hname Hcont] HGf]. cbn [fst snd] in Hname, Hcont. cbn [load_loose].
    destruct (lock_suffix name || prefixb symref content) eqn:Ed.
    + assert (Ed2 : direct (name, content) = false) by (unfold direct; cbn [fst snd]; rewrite <- negb_orb, Ed; reflexivity).
      destruct (IH cache HF2 HGf HN HG) as [(c' & E & H1 & H2 & H3 & H4 & H5)|(E & f & Hf & Hd & He)]; [left|right].
      * exists c'. split; [exact E|]. split; [exact H1|]. split; [exact H2|]. split; [constructor; [rewrite Ed2; discriminate|exact H3]|]. split.
        -- intros q Hq. apply H4. intros f Hf. apply Hq. now right.
        -- intros f o [<-|Hf] Hd Ho; [rewrite Ed2 in Hd; discriminate|]. now apply H5.
      * split; [exact E|]. exists f. split; [now right|auto].
    + assert (Ed2 : direct (name, content) = true) by (unfold direct; cbn [fst snd]; rewrite <- negb_orb, Ed; reflexivity).
      destruct (loose_oid size content) as [o|e| |] eqn:Eo; cbn [bindr]; pose proof (loose_oid_fine content Hcont) as HF0; rewrite Eo in HF0; cbn in HF0; try contradiction.
      2: { right. destruct HF0 as [-> | ->]; [split; [reflexivity|]; exists (name, content); split; [now left|auto]|]. exfalso. clear - Eo Hcont. unfold loose_oid in Eo. destruct (length content <? 2 * size)%nat eqn:E; [discriminate|]. apply Nat.ltb_ge in E.
           destruct (oid_parse_safe size (content ++ [0]) (2 * size)) as [(id & X) |X]; [apply bytes_app; split; [exact Hcont|constructor; [unfold is_byte; lia|constructor]]|left; rewrite app_length; lia| |]; rewrite X in Eo; cbn [bindr] in Eo; [|discriminate].
           destruct (rd_ok (content ++ [0]) (2 * size)) as (c & Y & _); [rewrite app_length; cbn; lia|]. rewrite Y in Eo. cbn [bindr] in Eo. destruct ((c =? 0) || isspace c); discriminate. }
      pose proof (loose_oid_ok content o Hcont Eo) as Hok.
      set (cache1 := upsert size cache name (fun r => mkpr (r_name r) o (r_peel r) false false true)).
      assert (HN1 : NoDup (map r_name cache1)) by (apply upsert_nodup; [apply keeps_load|exact HN]).
      assert (F1 : forall q, find (rnamed q) cache1 = if leqb name q then Some (fresh_of name o (find (rnamed name) cache)) else find (rnamed q) cache).
      { intros q. unfold cache1. rewrite upsert_find by apply keeps_load. destruct (leqb name q); [|reflexivity]. f_equal. destruct (find (rnamed name) cache) as [r|] eqn:E; cbn [fresh_of]; [|reflexivity]. apply find_some in E. destruct E as [_ E]. unfold rnamed in E. apply leqb_spec in E. unfold fresh_of. now rewrite E. }
      assert (HG1 : Forall good_ref cache1).
      { apply Forall_forall. intros r Hr. assert (X : find (rnamed (r_name r)) cache1 = Some r) by (apply find_in; auto). rewrite F1 in X. destruct (leqb name (r_name r)) eqn:E.
        - injection X as <-. unfold good_ref, fresh_of. cbn. split; [exact Hname|]. split; [exact Hok|discriminate].
        - apply find_some in X. rewrite Forall_forall in HG. now apply HG. }
      destruct (IH cache1 HF2 HGf HN1 HG1) as [(c' & E & H1 & H2 & H3 & H4 & H5)|(E & f & Hf & Hd & He)]; [left|right].
      * exists c'. split; [exact E|]. split; [exact H1|]. split; [exact H2|]. split; [constructor; [intros _; cbn [snd]; eauto|exact H3]|]. split.
        -- intros q Hq. rewrite H4 by (intros f Hf; apply Hq; now right). rewrite F1. rewrite leqb_sym_neq; [reflexivity|]. apply (Hq (name, content)); [now left|exact Ed2].
        -- intros f o' [<-|Hf] Hd Ho; cbn [fst snd] in *.
           ++ rewrite Eo in Ho. apply Ok_inj in Ho. subst o'. rewrite H4; [rewrite F1, leqb_refl; reflexivity|]. intros f Hf _ Ef. apply HF1. rewrite <- Ef. now apply in_map.
           ++ rewrite (H5 f o' Hf Hd Ho). f_equal. f_equal. rewrite F1. rewrite leqb_sym_neq; [reflexivity|]. intros Ef. apply HF1. rewrite Ef. now apply in_map.
      * split; [exact E|]. exists f. split; [now right|auto].
Qed.
End P.
