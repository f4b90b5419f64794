(** Matching, the walk over directories and the lookup loop. *)
From Verif Require Import Base Str WildModel WildSpec WildProofs WildProps IgnoreModel IgnoreSpec IgnoreProofs.

Definition path_text (q : list (list Z)) : list Z := join 47 q.
Definition base_at (q : list (list Z)) : nat := length (dirtext (removelast q)).
Definition item (q : list (list Z)) (isdir : bool) : apath := mkap (path_text q) (base_at q) isdir.

Lemma path_snoc q x : path_text (q ++ [x]) = dirtext q ++ x.
Proof.
  induction q as [|c q IH]; [reflexivity|]. change ((c :: q) ++ [x]) with (c :: (q ++ [x])). unfold path_text in *.
  rewrite join_cons by (destruct q; discriminate). rewrite IH. unfold dirtext. cbn [map concat]. rewrite <- !app_assoc. reflexivity.
Qed.
Lemma path_app d rel : rel <> [] -> path_text (d ++ rel) = dirtext d ++ path_text rel.
Proof.
  intros H. destruct (exists_last H) as (r & x & ->). rewrite app_assoc, !path_snoc, dirtext_app, app_assoc. reflexivity.
Qed.
Lemma base_text q isdir : q <> [] -> basename (item q isdir) = last q [].
Proof.
  intros H. destruct (exists_last H) as (r & x & ->). unfold basename, item, base_at. cbn [ab ap].
  rewrite removelast_app by discriminate. cbn [removelast]. rewrite app_nil_r, path_snoc, skipn_exact by reflexivity. rewrite last_last. reflexivity.
Qed.

Lemma app_cut (a b c d : list Z) : ~ In 47 a -> ~ In 47 c -> a ++ 47 :: b = c ++ 47 :: d -> a = c /\ b = d.
Proof.
  revert c. induction a as [|x a IH]; intros c Ha Hc H.
  - destruct c as [|y c]; cbn in H; [split; congruence|]. exfalso. apply Hc. left. congruence.
  - destruct c as [|y c]; cbn in H; [exfalso; apply Ha; left; congruence|].
    assert (x = y) by congruence. subst y. assert (E : a ++ 47 :: b = c ++ 47 :: d) by congruence.
    destruct (IH c) as [-> ->]; [intros X; apply Ha; right; exact X|intros X; apply Hc; right; exact X|exact E|auto].
Qed.

Definition clean (q : list (list Z)) : Prop := Forall (fun c => ~ In 47 c) q.
Lemma dir_prefix : forall d q, clean d -> clean q -> (starts_with (dirtext d) (path_text q) <-> d = [] \/ exists rel, q = d ++ rel /\ rel <> []).
Proof.
  induction d as [|c d IH]; intros q Hd Hq.
  { split; [left; reflexivity|]. intros _. exists (path_text q). reflexivity. }
  inversion Hd as [|? ? Hc Hd']; subst. split.
  - intros (v & Hv). right. destruct q as [|e q]; [cbn in Hv; destruct c; discriminate|]. inversion Hq as [|? ? He Hq']; subst.
    unfold dirtext in Hv. cbn [map concat] in Hv. fold (dirtext d) in Hv. rewrite <- !app_assoc in Hv. change (ch "/") with 47 in Hv. cbn [app] in Hv.
    destruct q as [|e' q].
    + cbn in Hv. exfalso. apply He. rewrite Hv. apply in_or_app. right. left. reflexivity.
    + unfold path_text in Hv. rewrite join_cons in Hv by discriminate.
      destruct (app_cut _ _ _ _ He Hc Hv) as [-> E].
      destruct (proj1 (IH (e' :: q) Hd' Hq')) as [->|(rel & Hrel & Hne)].
      * exists v. exact E.
      * exists (e' :: q). split; [reflexivity|discriminate].
      * exists rel. split; [cbn; congruence|exact Hne].
  - intros [H|(rel & -> & Hne)]; [discriminate|]. rewrite path_app by exact Hne. eexists; reflexivity.
Qed.

Definition lowc (q : list (list Z)) := map (map tolower) q.
Lemma tolower_slash c : tolower c = 47 <-> c = 47.
Proof. unfold tolower, isupper. destruct (Z.leb_spec 65 c), (Z.leb_spec c 90); cbn; lia. Qed.
Lemma lowc_clean q : clean q -> clean (lowc q).
Proof.
  intros H. unfold clean, lowc in *. apply Forall_map. eapply Forall_impl; [|exact H]. cbn. intros c Hc HI. apply in_map_iff in HI. destruct HI as (x & E & HX).
  apply (proj1 (tolower_slash x)) in E. rewrite E in HX. exact (Hc HX).
Qed.
Lemma lower_dirtext d : map tolower (dirtext d) = dirtext (lowc d).
Proof. induction d as [|c d IH]; [reflexivity|]. unfold dirtext, lowc in *. cbn [map concat]. rewrite !map_app, IH. reflexivity. Qed.
Lemma lower_path q : map tolower (path_text q) = path_text (lowc q).
Proof.
  destruct q as [|x q] using rev_ind; [reflexivity|]. clear IHq. unfold lowc. rewrite map_app, path_snoc. cbn [map]. rewrite path_snoc, map_app, lower_dirtext. reflexivity.
Qed.
Lemma same_dirs icase d p : Forall2 (same icase) d p <-> if icase then lowc d = lowc p else d = p.
Proof.
  unfold same, lowc. revert p. induction d as [|c d IH]; intros p.
  - split.
    + intros H. inversion H; subst. destruct icase; reflexivity.
    + intros H. assert (p = []) as ->. { destruct icase; [destruct p; [reflexivity|discriminate]|symmetry; exact H]. } constructor.
  - split.
    + intros H. inversion H as [|? y ? l' H1 H2]; subst. apply IH in H2. destruct icase; cbn [map]; congruence.
    + intros H. destruct p as [|y p]; [destruct icase; discriminate|].
      destruct icase; cbn [map] in H; constructor; try apply IH; congruence.
Qed.

Lemma map_split {A B} (f : A -> B) : forall l a b, map f l = a ++ b -> exists x y, l = x ++ y /\ map f x = a /\ map f y = b.
Proof.
  intros l a. revert l. induction a as [|c a IH]; intros l b H.
  - exists [], l. auto.
  - destruct l as [|z l]; [discriminate|]. cbn in H. assert (H2 : map f l = a ++ b) by congruence. destruct (IH l b H2) as (x & y & -> & <- & <-).
    exists (z :: x), y. split; [reflexivity|]. split; [cbn; congruence|reflexivity].
Qed.

(** the containing_dir test and the relative path *)
Lemma ctx_spec icase d q : clean d -> clean q -> q <> [] ->
  (match dctx d with Some t => negb (prefixcmp0 icase (path_text q) t) | None => false end = false <->
   exists pre rel, q = pre ++ rel /\ rel <> [] /\ Forall2 (same icase) d pre) /\
  (forall pre rel, q = pre ++ rel -> rel <> [] -> Forall2 (same icase) d pre ->
     skipn (match dctx d with Some t => length t | None => 0 end) (path_text q) = path_text rel).
Proof.
  intros Hd Hq Hne. split.
  - destruct d as [|c d]; cbn [dctx].
    { split; [intros _; exists [], q; split; [reflexivity|split; [exact Hne|constructor]]|reflexivity]. }
    set (D := c :: d) in *. rewrite negb_false_iff. unfold prefixcmp0. destruct icase.
    + rewrite lower_dirtext, lower_path, prefixb_spec, dir_prefix by (apply lowc_clean; assumption). split.
      * intros [H|(rel & H & Hr)]; [discriminate|]. unfold lowc at 1 in H. apply map_split in H. destruct H as (x & y & -> & Hx & Hy).
        exists x, y. split; [reflexivity|]. split; [intros ->; cbn in Hy; congruence|]. apply same_dirs. symmetry. exact Hx.
      * intros (pre & rel & -> & Hr & HS). right. apply same_dirs in HS. rewrite HS. exists (lowc rel). split; [apply map_app|]. destruct rel; [congruence|discriminate].
    + rewrite prefixb_spec, dir_prefix by assumption. split.
      * intros [H|(rel & H & Hr)]; [discriminate|]. exists D, rel. split; [exact H|]. split; [exact Hr|]. apply same_dirs. reflexivity.
      * intros (pre & rel & -> & Hr & HS). right. apply same_dirs in HS. subst pre. exists rel. auto.
  - intros pre rel -> Hr HS. rewrite path_app by exact Hr.
    apply skipn_exact. apply same_dirs in HS.
    replace (match dctx d with Some t => length t | None => 0%nat end) with (length (dirtext d)) by (destruct d; reflexivity).
    destruct icase; [|subst; reflexivity]. rewrite <- (map_length tolower (dirtext d)), <- (map_length tolower (dirtext pre)), !lower_dirtext, HS. reflexivity.
Qed.

Definition wfq (q : list (list Z)) : Prop := Forall wf_comp q.
Lemma wfq_clean q : wfq q -> clean q.
Proof. intros H. eapply Forall_impl; [|exact H]. intros c (_ & _ & Hc). exact Hc. Qed.
Lemma wfq_cstr q : wfq q -> cstr (path_text q).
Proof.
  destruct q as [|x q] using rev_ind; [constructor|]. clear IHq. intros H. apply Forall_app in H. destruct H as [H1 H2]. inversion H2 as [|? ? (_ & Hx & _) _]; subst. rewrite path_snoc. apply cstr_app. split; [apply cstr_dirtext; exact H1|exact Hx].
Qed.

Lemma fnmatch_spec icase r q isdir : wf_rule r -> wfq q -> q <> [] ->
  (negb (fdir (fn_of icase r) && negb isdir) && fnmatch (fn_of icase r) (item q isdir) = true <-> matches icase r q isdir).
Proof.
  intros [Hp Hf] Hq Hne.
  destruct (ctx_spec icase (r_from r) q (wfq_clean _ Hf) (wfq_clean _ Hq) Hne) as [HC HR].
  unfold matches. change (fdir (fn_of icase r)) with (r_dironly r).
  destruct (r_dironly r && negb isdir) eqn:ED; cbn [negb andb].
  { split; [discriminate|]. intros [H _]. apply andb_prop in ED. destruct ED as [E1 E2]. rewrite (H E1) in E2. discriminate. }
  assert (HDir : (r_dironly r = true -> isdir = true)).
  { intros E. rewrite E in ED. destruct isdir; [reflexivity|discriminate]. }
  unfold fnmatch. cbn [fn_of fctx ficase ffull fdir fpat]. cbn [item adir ap ab]. rewrite ED.
  change (mkap (path_text q) (base_at q) isdir) with (item q isdir).
  destruct (match dctx (r_from r) with Some d => negb (prefixcmp0 icase (path_text q) d) | None => false end) eqn:EC.
  { split; [discriminate|]. intros [_ (pre & rel & E1 & E2 & E3 & _)]. assert (true = false) by (apply HC; eauto). discriminate. }
  destruct (proj1 HC eq_refl) as (pre & rel & E1 & E2 & E3). rewrite (base_text q isdir Hne).
  destruct (r_anchored r).
  - rewrite (HR pre rel E1 E2 E3), match_spec; [|exact Hp|].
    2:{ apply wfq_cstr. unfold wfq in *. rewrite E1 in Hq. apply Forall_app in Hq. apply Hq. }
    split; [intros HL; split; [exact HDir|]; exists pre, rel; auto|].
    intros [_ (pre' & rel' & F1 & F2 & F3 & F4)].
    assert (path_text rel = path_text rel') as -> by (rewrite <- (HR pre rel E1 E2 E3), <- (HR pre' rel' F1 F2 F3); reflexivity). exact F4.
  - rewrite match_spec; [|exact Hp|].
    2:{ destruct (exists_last Hne) as (u & x & ->). rewrite last_last. unfold wfq in Hq. apply Forall_app in Hq. destruct Hq as [_ Hq]. inversion Hq as [|? ? (_ & Hx & _) _]; subst. exact Hx. }
    split; [intros HL; split; [exact HDir|]; exists pre, rel; auto|]. intros [_ (pre' & rel' & F1 & F2 & F3 & F4)]. exact F4.
Qed.

(** ** Lookup in rule lists *)
Lemma find_split {A} (f : A -> bool) l x : find f l = Some x -> exists a b, l = a ++ x :: b /\ f x = true /\ forall y, In y a -> f y = false.
Proof.
  induction l as [|y l IH]; [discriminate|]. cbn [find]. destruct (f y) eqn:E.
  - intros H. assert (y = x) by congruence. subst. exists [], l. split; [reflexivity|]. split; [exact E|intros ? []].
  - intros H. destruct (IH H) as (a & b & -> & H1 & H2). exists (y :: a), b. split; [reflexivity|]. split; [exact H1|]. intros z [<-|HI]; auto.
Qed.

Lemma lookup_spec icase rs q isdir : Forall wf_rule rs -> wfq q -> q <> [] ->
  match lookup_in_rules (map (fn_of icase) rs) (item q isdir) with
  | Some v => last_match icase rs q isdir v
  | None => forall x, In x rs -> ~ matches icase x q isdir
  end.
Proof.
  intros HR Hq Hne. unfold lookup_in_rules. rewrite Forall_forall in HR.
  destruct (find _ (rev (map (fn_of icase) rs))) as [m|] eqn:EF.
  - apply find_split in EF. destruct EF as (a & b & E & Hm & Ha). apply (f_equal (@rev fn)) in E. rewrite rev_involutive, rev_app_distr in E. cbn [rev] in E. rewrite <- app_assoc in E. cbn [app] in E.
    apply map_split in E. destruct E as (u & w & -> & Hu & Hw). destruct w as [|r w]; [discriminate|]. cbn [map] in Hw.
    assert (Er : fn_of icase r = m) by congruence. assert (Ew : map (fn_of icase) w = rev a) by congruence.
    exists u, r, w. split; [reflexivity|]. assert (Hr : wf_rule r) by (apply HR; apply in_or_app; right; left; reflexivity).
    split; [|split].
    + rewrite <- Er in Hm. apply (fnmatch_spec icase r q isdir Hr Hq Hne). exact Hm.
    + intros x Hx HM. assert (Hwx : wf_rule x) by (apply HR; apply in_or_app; right; right; exact Hx).
      apply (fnmatch_spec icase x q isdir Hwx Hq Hne) in HM. rewrite Ha in HM; [discriminate|]. apply in_rev. rewrite <- Ew. apply in_map. exact Hx.
    + rewrite <- Er. reflexivity.
  - intros x Hx HM. apply (fnmatch_spec icase x q isdir (HR x Hx) Hq Hne) in HM.
    assert (HF := find_none _ _ EF (fn_of icase x)). cbv beta in HF. change (adir (item q isdir)) with isdir in HF. rewrite HF in HM; [discriminate|]. apply in_rev. rewrite rev_involutive. apply in_map. exact Hx.
Qed.

Lemma first_found_spec icase : forall srcs q isdir, Forall (Forall wf_rule) srcs -> wfq q -> q <> [] ->
  match first_found (map (map (fn_of icase)) srcs) (item q isdir) with
  | Some v => decided icase srcs q isdir v
  | None => undecided icase srcs q isdir
  end.
Proof.
  induction srcs as [|s srcs IH]; intros q isdir HW Hq Hne; cbn [map first_found].
  - intros s x [].
  - inversion HW as [|? ? Hs HW']; subst. pose proof (lookup_spec icase s q isdir Hs Hq Hne) as HL.
    destruct (lookup_in_rules (map (fn_of icase) s) (item q isdir)) as [v|].
    + exists [], s, srcs. split; [reflexivity|]. split; [intros ? ? []|exact HL].
    + specialize (IH q isdir HW' Hq Hne). destruct (first_found _ _) as [v|].
      * destruct IH as (a & rs & b & -> & H1 & H2). exists (s :: a), rs, b. split; [reflexivity|]. split; [|exact H2]. intros t x [<-|HI] Hx; eauto.
      * intros t x [<-|HI] Hx; eauto.
Qed.

(** ** The directory walk *)
Lemma parent_snoc d x : ~ In 47 x -> clean d -> parent_dir (dirtext (d ++ [x])) = dirtext d.
Proof.
  intros Hx Hd. unfold parent_dir. rewrite dirtext_snoc, app_assoc, removelast_snoc.
  destruct d as [|y d] using rev_ind; [cbn; apply upto_none; exact Hx|]. clear IHd. rewrite dirtext_snoc.
  replace ((dirtext d ++ y ++ [47]) ++ x) with ((dirtext d ++ y) ++ 47 :: x) by (rewrite <- !app_assoc; reflexivity).
  rewrite upto_last_slash_app by exact Hx. rewrite <- app_assoc. reflexivity.
Qed.
Lemma upto_path q x : ~ In 47 x -> upto_last_slash (path_text (q ++ [x])) = dirtext q.
Proof.
  intros Hx. rewrite path_snoc. destruct q as [|y q] using rev_ind; [cbn; apply upto_none; exact Hx|]. clear IHq. rewrite dirtext_snoc.
  replace ((dirtext q ++ y ++ [47]) ++ x) with ((dirtext q ++ y) ++ 47 :: x) by (rewrite <- !app_assoc; reflexivity).
  rewrite upto_last_slash_app by exact Hx. rewrite <- app_assoc. reflexivity.
Qed.

(** rule lists found on the way up, nearest first: directory and effective rules *)
Fixpoint found (icase : bool) (files : list (list Z) -> option (list line)) (ds : list (list (list Z))) : list (list (list Z) * list rule) :=
  match ds with
  | [] => []
  | d :: r => match files d with Some ls => (d, eff icase [] (rules_of d ls)) :: found icase files r | None => found icase files r end
  end.
Definition as_files (icase : bool) (l : list (list (list Z) * list rule)) : list (list Z * list fn) :=
  map (fun x => (entry_of (fst x), map (fn_of icase) (snd x))) l.

Lemma upward_snoc k d x : (k <= length d)%nat -> upward k (d ++ [x]) = upward k d.
Proof.
  induction k as [|k IH]; intros H; [reflexivity|]. cbn [upward]. rewrite firstn_app. replace (S k - length d)%nat with 0%nat by lia. cbn [firstn]. rewrite app_nil_r, IH by lia. reflexivity.
Qed.

Section Files.
Variable icase : bool.
Variable store : list Z -> option (list Z).
Variable files : list (list Z) -> option (list line).
Variable fuel : nat.

Lemma walk_spec : forall d steps depth acc, wfq d -> (length (dirtext d) < steps)%nat ->
  (forall e, In e (upward (length d) d) -> store (entry_of e) = option_map text_of (files e)) ->
  (forall e ls, In e (upward (length d) d) -> files e = Some ls -> Forall wf_line ls /\ (length (text_of ls) < fuel)%nat) ->
  walk_up steps fuel icase store (dirtext d) depth acc = Ok (acc ++ as_files icase (found icase files (upward (length d) d)), depth + Z.of_nat (length d) + 1).
Proof.
  assert (PUSH : forall d acc, store (entry_of d) = option_map text_of (files d) -> (forall ls, files d = Some ls -> Forall wf_line ls /\ (length (text_of ls) < fuel)%nat) ->
    push_file fuel icase store (dirtext d) acc = Ok (acc ++ as_files icase (found icase files [d]))).
  { intros d acc HS HW. unfold push_file. fold (entry_of d). rewrite HS. cbn [found]. destruct (files d) as [ls|]; cbn [option_map]; [|rewrite app_nil_r; reflexivity].
    destruct (HW ls eq_refl) as [H1 H2]. unfold parse_ignore_file.
    pose proof (proj1 (parse_text icase d ls [] fuel None H1 H2 (or_introl eq_refl))) as HP. cbn [map] in HP. rewrite HP. reflexivity. }
  induction d as [|x d IH] using rev_ind; intros steps depth acc Hd HL HS HW.
  - destruct steps as [|k]; [cbn in HL; lia|]. cbn [walk_up]. change (dirtext []) with (@nil Z) in *.
    specialize (PUSH [] acc). change (dirtext []) with (@nil Z) in PUSH. rewrite PUSH.
    2:{ apply HS. left. reflexivity. } 2:{ intros ls. apply HW. left. reflexivity. }
    cbn [bindr length upward]. f_equal. f_equal. lia.
  - assert (EL : length (d ++ [x]) = S (length d)) by (rewrite app_length; cbn; lia). rewrite EL in HS, HW |- *. cbn [upward] in HS, HW |- *.
    assert (EF : firstn (S (length d)) (d ++ [x]) = d ++ [x]) by (apply firstn_all2; rewrite app_length; cbn; lia). rewrite EF, upward_snoc in HS, HW |- * by lia.
    destruct steps as [|k]; [rewrite dirtext_snoc, !app_length in HL; cbn in HL; lia|]. cbn [walk_up].
    rewrite PUSH. 2:{ apply HS. left. reflexivity. } 2:{ intros ls. apply HW. left. reflexivity. }
    cbn [bindr]. destruct (dirtext (d ++ [x])) as [|b bb] eqn:ED.
    { rewrite dirtext_snoc in ED. destruct (dirtext d), x; discriminate. }
    rewrite <- ED in *. unfold wfq in Hd. apply Forall_app in Hd. destruct Hd as [Hd Hx]. inversion Hx as [|? ? (_ & _ & Hx3) _]; subst.
    rewrite parent_snoc; [|exact Hx3|apply wfq_clean; exact Hd].
    rewrite IH; [|exact Hd|rewrite dirtext_snoc, !app_length in HL; cbn in HL; lia|intros e He; apply HS; right; exact He|intros e ls He; apply HW; right; exact He].
    f_equal. f_equal; [|lia]. cbn [found]. rewrite <- app_assoc. f_equal. destruct (files (d ++ [x])); reflexivity.
Qed.
End Files.

(** ** Uniqueness *)
Lemma last_unique {A} (P : A -> Prop) a r b a' r' b' : a ++ r :: b = a' ++ r' :: b' -> P r -> P r' ->
  (forall x, In x b -> ~ P x) -> (forall x, In x b' -> ~ P x) -> r = r'.
Proof.
  revert a'. induction a as [|y a IH]; intros a' E Hr Hr' Hb Hb'.
  - destruct a' as [|y' a']; cbn in E; [congruence|]. exfalso. apply (Hb r'); [|exact Hr']. assert (b = a' ++ r' :: b') as -> by congruence. apply in_or_app. right. left. reflexivity.
  - destruct a' as [|y' a']; cbn in E.
    + exfalso. apply (Hb' r); [|exact Hr]. assert (b' = a ++ r :: b) as -> by congruence. apply in_or_app. right. left. reflexivity.
    + apply (IH a'); auto. congruence.
Qed.
Lemma last_match_unique icase rs q isdir v v' : last_match icase rs q isdir v -> last_match icase rs q isdir v' -> v = v'.
Proof.
  intros (a & r & b & -> & H1 & H2 & ->) (a' & r' & b' & E & H1' & H2' & ->).
  rewrite (last_unique (fun r => matches icase r q isdir) a r b a' r' b' E H1 H1' H2 H2'). reflexivity.
Qed.
Lemma last_match_some icase rs q isdir v : last_match icase rs q isdir v -> exists r, In r rs /\ matches icase r q isdir.
Proof. intros (a & r & b & -> & H1 & _). exists r. split; [apply in_or_app; right; left; reflexivity|exact H1]. Qed.
Lemma decided_unique icase srcs q isdir v v' : decided icase srcs q isdir v -> decided icase srcs q isdir v' -> v = v'.
Proof.
  intros (a & rs & b & E & H1 & H2) (a' & rs' & b' & E' & H1' & H2'). rewrite E in E'. clear E. revert a' E' H1'.
  induction a as [|s a IH]; intros a' E' H1'.
  - destruct a' as [|s' a']; cbn in E'.
    + assert (rs = rs') by congruence. subst. eauto using last_match_unique.
    + exfalso. destruct (last_match_some _ _ _ _ _ H2) as (r & Hr & HM). apply (H1' s' r); [left; reflexivity| |exact HM]. congruence.
  - destruct a' as [|s' a']; cbn in E'.
    + exfalso. destruct (last_match_some _ _ _ _ _ H2') as (r & Hr & HM). apply (H1 s r); [left; reflexivity| |exact HM]. congruence.
    + apply (IH (fun t x HI => H1 t x (or_intror HI)) a'); [congruence|]. intros t x HI. apply H1'. right. exact HI.
Qed.
Lemma decided_undecided icase srcs q isdir v : decided icase srcs q isdir v -> undecided icase srcs q isdir -> False.
Proof.
  intros (a & rs & b & -> & _ & H2) HU. destruct (last_match_some _ _ _ _ _ H2) as (r & Hr & HM). apply (HU rs r); [apply in_or_app; right; left; reflexivity|exact Hr|exact HM].
Qed.
Lemma effective_fun icase : forall rs es, effective icase rs es -> forall es', effective icase rs es' -> es = es'.
Proof.
  induction 1 as [|rs es r HE IH HK|rs es r HE IH HD HC]; intros es' H'.
  - inversion H' as [|? ? ? ? ? E|? ? ? ? ? ? E]; [reflexivity| |]; destruct rs; discriminate.
  - inversion H' as [E|rs2 es2 r2 HE2 HK2 E|rs2 es2 r2 HE2 HD2 HC2 E]; [destruct rs; discriminate| |]; apply app_inj_tail in E; destruct E as [-> ->]; specialize (IH _ HE2); subst.
    + reflexivity.
    + destruct (HK HD2) as (e & He & Hc). exfalso. exact (HC2 e He Hc).
  - inversion H' as [E|rs2 es2 r2 HE2 HK2 E|rs2 es2 r2 HE2 HD2 HC2 E]; [destruct rs; discriminate| |]; apply app_inj_tail in E; destruct E as [-> ->]; specialize (IH _ HE2); subst.
    + destruct (HK2 HD) as (e & He & Hc). exfalso. exact (HC e He Hc).
    + reflexivity.
Qed.

(** ** Moving up *)
Lemma back_spec u y : ~ In 47 y -> forall k, (u = [] \/ ((exists u', u = u' ++ [47]) /\ (2 <= length u)%nat /\ (length u <= S k)%nat)) -> back_to_slash k (u ++ y) = length u.
Proof.
  intros Hy. induction k as [|k IH]; intros H.
  - destruct H as [->|(_ & H1 & H2)]; [reflexivity|lia].
  - cbn [back_to_slash]. destruct H as [->|((u' & Eu) & H1 & H2)].
    + cbn [app]. destruct (Z.eqb_spec (nth (S k) y 0) 47) as [E|_]; [|apply IH; left; reflexivity].
      exfalso. destruct (Nat.lt_ge_cases (S k) (length y)) as [L|L]; [apply Hy; rewrite <- E; apply nth_In; exact L|rewrite nth_overflow in E by lia; discriminate].
    + destruct (Nat.eq_dec (length u) (S (S k))) as [EL|NE].
      * subst u. rewrite app_length in EL. cbn [length] in EL. rewrite app_nth1 by (rewrite app_length; cbn; lia). rewrite app_nth2 by lia.
        replace (S k - length u')%nat with 0%nat by lia. cbn [nth]. change (47 =? 47) with true. cbv iota. rewrite app_length. cbn. lia.
      * destruct (Z.eqb_spec (nth (S k) (u ++ y) 0) 47) as [E|_]; [|apply IH; right; repeat split; [eexists; exact Eu|lia|lia]].
        exfalso. rewrite app_nth2 in E by lia.
        destruct (Nat.lt_ge_cases (S k - length u) (length y)) as [L|L]; [apply Hy; rewrite <- E; apply nth_In; exact L|rewrite nth_overflow in E by lia; discriminate].
Qed.

Lemma move_up_spec q x isdir : wfq q -> q <> [] -> move_up (item (q ++ [x]) isdir) = item q true.
Proof.
  intros Hq Hne. unfold move_up, item, base_at. cbn [ab ap]. rewrite removelast_app by discriminate. cbn [removelast]. rewrite app_nil_r, path_snoc.
  destruct (exists_last Hne) as (d & y & ->). unfold wfq in Hq. apply Forall_app in Hq. destruct Hq as [Hd Hy]. inversion Hy as [|? ? (Hy1 & _ & Hy3) _]; subst.
  rewrite dirtext_snoc. rewrite removelast_app by discriminate. cbn [removelast]. rewrite app_nil_r.
  assert (EP : firstn (length (dirtext d ++ y ++ [47]) - 1) ((dirtext d ++ y ++ [47]) ++ x) = dirtext d ++ y).
  { replace ((dirtext d ++ y ++ [47]) ++ x) with ((dirtext d ++ y) ++ 47 :: x) by (rewrite <- !app_assoc; reflexivity). apply firstn_exact. rewrite !app_length. cbn. lia. }
  rewrite EP, path_snoc. f_equal. apply back_spec; [exact Hy3|].
  destruct d as [|z d] using rev_ind; [left; reflexivity|right]. clear IHd. apply Forall_app in Hd. destruct Hd as [_ Hz]. inversion Hz as [|? ? (Hz1 & _ & _) _]; subst.
  rewrite dirtext_snoc. split; [exists (dirtext d ++ z); rewrite app_assoc; reflexivity|]. rewrite !app_length. destruct z; [congruence|]. cbn. lia.
Qed.

Lemma dirtext_inj d e : clean d -> clean e -> dirtext d = dirtext e -> d = e.
Proof.
  intros Hd He H. assert (E : path_text (d ++ [[]]) = path_text (e ++ [[]])) by (rewrite !path_snoc, !app_nil_r; exact H).
  unfold path_text in E. apply join_inj in E; try (destruct d; discriminate); try (destruct e; discriminate).
  - apply app_inj_tail in E. tauto.
  - apply Forall_app. split; [exact Hd|repeat constructor]. intros [].
  - apply Forall_app. split; [exact He|repeat constructor]. intros [].
Qed.
Lemma entry_dir d : upto_last_slash (entry_of d) = dirtext d.
Proof.
  unfold entry_of. destruct d as [|y q] using rev_ind; [reflexivity|]. clear IHq. rewrite dirtext_snoc.
  replace ((dirtext q ++ y ++ [47]) ++ gitignore) with ((dirtext q ++ y) ++ 47 :: gitignore) by (rewrite <- !app_assoc; reflexivity).
  rewrite upto_last_slash_app by apply nslash_gi. rewrite <- app_assoc. reflexivity.
Qed.

Lemma first_found_skip p A M B : (forall m, In m M -> lookup_in_rules m p = None) -> first_found (A ++ M ++ B) p = first_found (A ++ B) p.
Proof.
  intros H. induction A as [|a A IH]; cbn [app first_found]; [|rewrite IH; reflexivity].
  induction M as [|m M IH]; [reflexivity|]. cbn [app first_found]. rewrite (H m (or_introl eq_refl)). apply IH. intros m' Hm. apply H. right. exact Hm.
Qed.
Lemma matches_len icase r q isdir : matches icase r q isdir -> (length (r_from r) < length q)%nat.
Proof.
  intros (_ & pre & rel & -> & Hr & HF & _). rewrite app_length. assert (HLL : length (r_from r) = length pre) by (clear -HF; induction HF; cbn; congruence). destruct rel; [congruence|cbn; lia].
Qed.

(** ** The loop *)
Definition from_dir (x : list (list Z) * list rule) : Prop := wfq (fst x) /\ Forall wf_rule (snd x) /\ Forall (fun r => r_from r = fst x) (snd x).
Lemma loop_spec icase I G : Forall wf_rule I -> Forall (Forall wf_rule) G ->
  forall q isdir steps L D, wfq q -> q <> [] -> (length q <= steps)%nat -> Forall from_dir (L ++ D) -> Forall (fun x => (length q <= length (fst x))%nat) D ->
  exists v, ignored_loop steps (mkig (map (fn_of icase) I) (as_files icase L) (dirtext (removelast q)) (Z.of_nat (length q)) (map (map (fn_of icase)) G)) (item q isdir) = Ok v /\
    (v = true <-> verdict icase ([I] ++ map snd (L ++ D) ++ G) q isdir true).
Proof.
  intros HI HG q. induction q as [|x q IH] using rev_ind; intros isdir steps L D Hq Hne Hsteps HF HD; [congruence|]. clear Hne.
  assert (Hne : q ++ [x] <> []) by (destruct q; discriminate).
  destruct steps as [|k]; [rewrite app_length in Hsteps; cbn in Hsteps; lia|]. cbn [ignored_loop ig_internal ig_path ig_global].
  set (srcs := [I] ++ map snd (L ++ D) ++ G).
  assert (HW : Forall (Forall wf_rule) srcs).
  { unfold srcs. constructor; [exact HI|]. apply Forall_app. split; [|exact HG]. apply Forall_map. eapply Forall_impl; [|exact HF]. intros y (_ & H & _). exact H. }
  assert (EFF : first_found ([map (fn_of icase) I] ++ map snd (as_files icase L) ++ map (map (fn_of icase)) G) (item (q ++ [x]) isdir)
    = first_found (map (map (fn_of icase)) srcs) (item (q ++ [x]) isdir)).
  { unfold srcs. rewrite !map_app. cbn [map]. rewrite <- !app_assoc.
    replace (map snd (as_files icase L)) with (map (map (fn_of icase)) (map snd L)) by (unfold as_files; rewrite !map_map; reflexivity).
    rewrite (app_assoc [_] (map (map (fn_of icase)) (map snd L)) (map (map (fn_of icase)) G)).
    rewrite (app_assoc [_] (map (map (fn_of icase)) (map snd L))).
    symmetry. apply first_found_skip. intros m Hm. rewrite map_map in Hm. apply in_map_iff in Hm. destruct Hm as (y & <- & Hy).
    rewrite Forall_forall in HF, HD. destruct (HF y ltac:(apply in_or_app; right; exact Hy)) as (_ & Hy2 & Hy3). specialize (HD y Hy). cbv beta in HD.
    pose proof (lookup_spec icase (snd y) (q ++ [x]) isdir Hy2 Hq Hne) as HL.
    destruct (lookup_in_rules (map (fn_of icase) (snd y)) (item (q ++ [x]) isdir)) as [v|]; [|reflexivity].
    exfalso. apply last_match_some in HL. destruct HL as (r & Hr & HM). apply matches_len in HM. rewrite Forall_forall in Hy3. rewrite (Hy3 r Hr) in HM. lia. }
  rewrite EFF. clear EFF. pose proof (first_found_spec icase srcs (q ++ [x]) isdir HW Hq Hne) as HFF.
  destruct (first_found (map (map (fn_of icase)) srcs) (item (q ++ [x]) isdir)) as [b|].
  - exists b. split; [reflexivity|]. split.
    + intros ->. exists (q ++ [x]), []. split; [rewrite app_nil_r; reflexivity|]. split; [exact Hne|]. split; [exact HFF|].
      intros pre' post' E HL. apply (f_equal (@length _)) in E. rewrite (app_length pre') in E. lia.
    + intros (pre & post & E & Hpre & Hdec & Hnone). destruct post as [|z post].
      * rewrite app_nil_r in E. subst pre. symmetry. apply (decided_unique icase srcs (q ++ [x]) isdir); assumption.
      * exfalso. apply (decided_undecided icase srcs (q ++ [x]) isdir b HFF).
        apply (Hnone (q ++ [x]) []); [rewrite app_nil_r; reflexivity|]. rewrite E, app_length. cbn. lia.
  - unfold item at 1. cbn [ab]. unfold base_at at 1. rewrite removelast_app by discriminate. cbn [removelast]. rewrite app_nil_r.
    destruct q as [|q0 q'] eqn:EQ.
    + exists false. cbn [dirtext map concat length]. cbn [Nat.eqb]. split; [reflexivity|]. split; [discriminate|].
      intros (pre & post & E & Hpre & Hdec & Hnone). cbn in E. destruct pre as [|p0 pre]; [congruence|]. assert (pre = [] /\ post = []) as [-> ->].
      { cbn in E. assert (E2 : [] = pre ++ post) by congruence. destruct pre; [split; [reflexivity|destruct post; [reflexivity|discriminate]]|discriminate]. }
      exfalso. assert (p0 = x) by (cbn in E; congruence). subst p0. exact (decided_undecided _ _ _ _ _ Hdec HFF).
    + rewrite <- EQ in *. assert (Hqne : q <> []) by (rewrite EQ; discriminate). clear EQ q0 q'.
      assert (Hq' : wfq q) by (unfold wfq in *; apply Forall_app in Hq; apply Hq).
      assert (Hx : ~ In 47 x) by (unfold wfq in Hq; apply Forall_app in Hq; destruct Hq as [_ Hq]; inversion Hq as [|? ? (_ & _ & H) _]; subst; exact H).
      destruct (Nat.eqb_spec (length (dirtext q)) 0) as [E0|_].
      { exfalso. destruct (exists_last Hqne) as (u & z & ->). rewrite dirtext_snoc, !app_length in E0. cbn in E0. lia. }
      rewrite (move_up_spec q x isdir Hq' Hqne).
      unfold pop_dir. cbn [ig_path ig_dir ig_depth ig_internal ig_global].
      assert (EDEP : Z.of_nat (length (q ++ [x])) - 1 = Z.of_nat (length q)) by (rewrite app_length; cbn; lia). rewrite EDEP.
      assert (0 <? Z.of_nat (length q) = true) as -> by (apply Z.ltb_lt; destruct q; [congruence|cbn; lia]).
      assert (EPAR : parent_dir (dirtext q) = dirtext (removelast q)).
      { destruct (exists_last Hqne) as (u & z & ->). rewrite removelast_app by discriminate. cbn [removelast]. rewrite app_nil_r.
        unfold wfq in Hq'. apply Forall_app in Hq'. destruct Hq' as [Hu Hz]. inversion Hz as [|? ? (_ & _ & Hz3) _]; subst. apply parent_snoc; [exact Hz3|apply wfq_clean; exact Hu]. }
      rewrite EPAR.
      (* which files remain *)
      assert (HPOP : exists L' D', L ++ D = L' ++ D' /\ Forall (fun y => (length q <= length (fst y))%nat) D' /\
        match rev (as_files icase L) with
        | [] => as_files icase L
        | (entry, _) :: r => if (0 <? length (upto_last_slash entry))%nat && leqb (dirtext q) (upto_last_slash entry) then rev r else as_files icase L
        end = as_files icase L').
      { assert (HD2 : Forall (fun y => (length q <= length (fst y))%nat) D).
        { eapply Forall_impl; [|exact HD]. cbn. intros y. rewrite app_length. cbn. lia. }
        destruct L as [|[d rs] L _] using rev_ind; [exists [], D; auto|].
        unfold as_files. rewrite map_app. cbn [map fst snd]. rewrite rev_app_distr. cbn [rev app]. rewrite entry_dir.
        destruct ((0 <? length (dirtext d))%nat && leqb (dirtext q) (dirtext d)) eqn:EB.
        - apply andb_prop in EB. destruct EB as [_ EB]. apply leqb_spec in EB.
          assert (Hdd : wfq d). { rewrite Forall_forall in HF. destruct (HF (d, rs)) as [H _]; [apply in_or_app; left; apply in_or_app; right; left; reflexivity|exact H]. }
          apply dirtext_inj in EB; [|apply wfq_clean; assumption|apply wfq_clean; assumption].
          exists L, ((d, rs) :: D). split; [rewrite <- app_assoc; reflexivity|]. split; [constructor; [cbn; subst; lia|exact HD2]|]. rewrite rev_involutive. reflexivity.
        - exists (L ++ [(d, rs)]), D. split; [reflexivity|]. split; [exact HD2|]. rewrite map_app. reflexivity. }
      destruct HPOP as (L' & D' & ELD & HD' & EFiles). rewrite EFiles.
      destruct (IH true k L' D') as (v & Hv1 & Hv2); [exact Hq'|exact Hqne|rewrite app_length in Hsteps; cbn in Hsteps; lia|rewrite <- ELD; exact HF|exact HD'|].
      exists v. split; [exact Hv1|]. rewrite Hv2, <- ELD. fold srcs. split.
      * intros (pre & post & E & Hpre & Hdec & Hnone). exists pre, (post ++ [x]). split; [rewrite E, app_assoc; reflexivity|]. split; [exact Hpre|]. split.
        -- destruct post; [exact Hdec|exact Hdec].
        -- intros pre' post' E' HL. destruct post' as [|z post'].
           ++ rewrite app_nil_r in E'. subst pre'. exact HFF.
           ++ destruct (@exists_last _ (z :: post') ltac:(discriminate)) as (w & y & Ew). rewrite Ew, app_assoc in E'. apply app_inj_tail in E'. destruct E' as [E' ->].
              specialize (Hnone pre' w E' HL). destruct w; exact Hnone.
      * intros (pre & post & E & Hpre & Hdec & Hnone). destruct post as [|z post].
        { rewrite app_nil_r in E. subst pre. exfalso. exact (decided_undecided _ _ _ _ _ Hdec HFF). }
        destruct (@exists_last _ (z :: post) ltac:(discriminate)) as (w & y & Ew). rewrite Ew, app_assoc in E. apply app_inj_tail in E. destruct E as [E ->].
        exists pre, w. split; [exact E|]. split; [exact Hpre|]. split; [destruct w; exact Hdec|].
        intros pre' post' E' HL. specialize (Hnone pre' (post' ++ [y])). destruct post'; cbn [app] in Hnone; apply Hnone; try assumption; rewrite E', <- app_assoc; reflexivity.
Qed.
