(** C37 and C47: which paths are ignored; reading rule files terminates (or not). *)
From Verif Require Import Base Str WildModel WildSpec WildProofs WildProps IgnoreModel IgnoreSpec IgnoreProofs IgnoreMain.

Lemma wf_rules_of d ls : wfq d -> Forall wf_line ls -> Forall wf_rule (rules_of d ls).
Proof.
  intros Hd. induction 1 as [|l ls Hl _ IH]; [constructor|]. rewrite rules_of_cons. apply Forall_app. split; [|exact IH].
  destruct l as [|t|neg lead pat dironly]; [constructor|constructor|]. constructor; [|constructor]. destruct Hl as [(H & _) _]. split; [exact H|exact Hd].
Qed.
Lemma eff_ok icase d ls : wfq d -> Forall wf_line ls -> effective icase (rules_of d ls) (eff icase [] (rules_of d ls)) /\ Forall wf_rule (eff icase [] (rules_of d ls)).
Proof.
  intros Hd Hl. apply (eff_effective icase (rules_of d ls) [] []); [constructor|constructor|apply wf_rules_of; assumption].
Qed.
Lemma eff_incl icase : forall rs es r, In r (eff icase es rs) -> In r es \/ In r rs.
Proof.
  induction rs as [|x rs IH]; intros es r H; [left; exact H|]. unfold eff in H. cbn [fold_left] in H. destruct (IH _ _ H) as [H1|H1]; [|right; right; exact H1].
  unfold eff_step in H1. destruct (_ && _) in H1; [left; exact H1|]. apply in_app_iff in H1. destruct H1 as [H1|[<-|[]]]; [left; exact H1|right; left; reflexivity].
Qed.
Lemma rules_of_from d ls r : In r (rules_of d ls) -> r_from r = d.
Proof.
  unfold rules_of. intros H. apply in_concat in H. destruct H as (l & Hl & Hr). apply in_map_iff in Hl. destruct Hl as (x & <- & _).
  destruct x; cbn in Hr; try contradiction. destruct Hr as [<-|[]]. reflexivity.
Qed.

Lemma add_rules_spec icase fuel : forall added es, (forall ls, In ls added -> Forall wf_line ls /\ (length (text_of ls) < fuel)%nat) ->
  add_rules fuel icase (map text_of added) (map (fn_of icase) es) = Ok (map (fn_of icase) (eff icase es (rules_of [] (concat added)))).
Proof.
  induction added as [|ls added IH]; intros es H; [reflexivity|]. cbn [map add_rules concat].
  destruct (H ls (or_introl eq_refl)) as [H1 H2]. unfold parse_ignore_file.
  pose proof (proj1 (parse_text icase [] ls es fuel None H1 H2 (or_introl eq_refl))) as HP. change (context_of (entry_of [])) with (@None (list Z)) in HP. rewrite HP. cbn [bindr].
  rewrite IH by (intros l Hl; apply H; right; exact Hl). do 2 f_equal. unfold rules_of. rewrite map_app, concat_app. unfold eff. rewrite fold_left_app. reflexivity.
Qed.

Lemma path_init_spec q slash isdir : wfq q -> q <> [] -> path_init (path_text q ++ opt slash 47) isdir = item q isdir /\ (last (path_text q ++ opt slash 47) 0 =? 47) = slash.
Proof.
  intros Hq Hne. destruct (exists_last Hne) as (d & x & ->). unfold wfq in Hq. pose proof Hq as Hall. apply Forall_app in Hq. destruct Hq as [Hd Hx]. inversion Hx as [|? ? (Hx1 & _ & Hx3) _]; subst.
  change (ch "/") with 47 in Hx3.
  destruct (exists_last Hx1) as (y & c & ->). assert (Hc : c <> 47) by (intros ->; apply Hx3; apply in_or_app; right; left; reflexivity).
  assert (EP : path_text (d ++ [y ++ [c]]) = (dirtext d ++ y) ++ [c]) by (rewrite path_snoc, app_assoc; reflexivity).
  assert (Hhd : forall r, skip_slashes (path_text (d ++ [y ++ [c]]) ++ r) = path_text (d ++ [y ++ [c]]) ++ r).
  { intros r. destruct d as [|z d].
    - cbn [app]. change (path_text [y ++ [c]]) with (y ++ [c]). destruct y as [|y0 y]; cbn [app skip_slashes]; [destruct (Z.eqb_spec c 47); [contradiction|reflexivity]|].
      destruct (Z.eqb_spec y0 47) as [->|]; [exfalso; apply Hx3; left; reflexivity|reflexivity].
    - inversion Hd as [|? ? (Hz1 & _ & Hz3) _]; subst. destruct z as [|z0 z]; [congruence|]. rewrite path_snoc. unfold dirtext. cbn [map concat app skip_slashes].
      destruct (Z.eqb_spec z0 47) as [->|]; [exfalso; apply Hz3; left; reflexivity|reflexivity]. }
  split.
  - unfold path_init.
    assert (ER : rev (skip_slashes (rev (path_text (d ++ [y ++ [c]]) ++ opt slash 47))) = path_text (d ++ [y ++ [c]])).
    { assert (E1 : skip_slashes (rev (path_text (d ++ [y ++ [c]]) ++ opt slash 47)) = rev (path_text (d ++ [y ++ [c]]))).
      { rewrite rev_app_distr. destruct slash; cbn [opt rev app skip_slashes]; rewrite EP, rev_app_distr; cbn [rev app skip_slashes];
        destruct (Z.eqb_spec c 47); try contradiction; reflexivity. }
      rewrite E1. apply rev_involutive. }
    rewrite ER. specialize (Hhd []). rewrite app_nil_r in Hhd. rewrite Hhd. rewrite upto_path by exact Hx3. unfold item, base_at.
    rewrite removelast_app by discriminate. cbn [removelast]. rewrite app_nil_r. reflexivity.
  - destruct slash; cbn [opt]; [rewrite last_last; reflexivity|]. rewrite app_nil_r, EP, last_last. apply Z.eqb_neq. exact Hc.
Qed.

Lemma found_spec icase files : forall ds, (forall d, In d ds -> wfq d) -> (forall d ls, In d ds -> files d = Some ls -> Forall wf_line ls) ->
  Forall from_dir (found icase files ds) /\
  Forall2 (effective icase) (flat_map (fun d => match files d with Some ls => [rules_of d ls] | None => [] end) ds) (map snd (found icase files ds)).
Proof.
  induction ds as [|d ds IH]; intros Hd HW; [split; constructor|]. cbn [found flat_map].
  destruct IH as [H1 H2]; [intros e He; apply Hd; right; exact He|intros e ls He; apply HW; right; exact He|].
  destruct (files d) as [ls|] eqn:E; [|split; assumption]. cbn [app map snd].
  destruct (eff_ok icase d ls) as [E1 E2]; [apply Hd; left; reflexivity|apply (HW d ls); [left; reflexivity|exact E]|].
  split; constructor; auto. split; [apply Hd; left; reflexivity|]. split; [exact E2|]. cbn [fst snd]. apply Forall_forall. intros r Hr.
  apply eff_incl in Hr. destruct Hr as [[]|Hr]. eapply rules_of_from; exact Hr.
Qed.

Lemma in_upward : forall k d e, In e (upward k d) -> exists j, e = firstn j d.
Proof.
  induction k as [|k IH]; intros d e H.
  - destruct H as [<-|[]]. exists 0%nat. reflexivity.
  - destruct H as [<-|H]; [eexists; reflexivity|]. apply IH; exact H.
Qed.
Lemma Forall2_eff_fun icase A B C : Forall2 (effective icase) A B -> Forall2 (effective icase) A C -> B = C.
Proof.
  intros H. revert C. induction H as [|a b A B Hab _ IH]; intros C HC; inversion HC as [|? c ? C' Hac HC']; subst; [reflexivity|].
  rewrite (IH C' HC'), (effective_fun icase a b Hab c Hac). reflexivity.
Qed.

(** C37.  git_ignore_path_is_ignored answers "ignored" exactly when, going from the item
    upward, the first item or directory that any rule matches is decided by a rule that is
    not negated: the last matching rule of the most specific rule list with a match.  The
    rule lists are those written in the files, less the negated rules without wildcards that
    no earlier rule of the same file covers. *)
Theorem C37_path_is_ignored_exact : forall fuel icase store added files globals q slash isdir srcs,
  wf_setup fuel store added files globals q ->
  Forall2 (effective icase) (written added files globals q) srcs ->
  exists v, path_is_ignored fuel icase (map text_of added) store (map text_of globals) (join (ch "/") q ++ opt slash (ch "/")) isdir = Ok v /\
    (v = true <-> verdict icase srcs q (slash || isdir) true).
Proof.
  intros fuel icase store added files globals q slash isdir srcs (Hne & Hq & HS & HW) HE. change (ch "/") with 47. change (join 47 q) with (path_text q).
  set (d := removelast q). assert (Hd : wfq d).
  { unfold d. destruct (exists_last Hne) as (u & x & E). rewrite E, removelast_app by discriminate. cbn [removelast]. rewrite app_nil_r. rewrite E in Hq. apply Forall_app in Hq. apply Hq. }
  assert (EL : (length q - 1)%nat = length d). { unfold d. destruct (exists_last Hne) as (u & x & E). rewrite E, removelast_app, app_length by discriminate. cbn [removelast length]. rewrite app_nil_r. lia. }
  assert (EU : upward (length q - 1) q = upward (length d) d).
  { rewrite EL. unfold d. destruct (exists_last Hne) as (u & x & E). rewrite E, removelast_app by discriminate. cbn [removelast]. rewrite app_nil_r. apply upward_snoc. lia. }
  unfold path_is_ignored. destruct (path_init_spec q slash (if last (path_text q ++ opt slash 47) 0 =? 47 then true else isdir) Hq Hne) as [EI ELS].
  rewrite EI, ELS. change (ap (item q (if slash then true else isdir))) with (path_text q).
  assert (EPD : upto_last_slash (path_text q) = dirtext d).
  { unfold d. destruct (exists_last Hne) as (u & x & E). rewrite E, removelast_app by discriminate. cbn [removelast]. rewrite app_nil_r. apply upto_path.
    rewrite E in Hq. apply Forall_app in Hq. destruct Hq as [_ Hq]. inversion Hq as [|? ? (_ & _ & H) _]; subst. exact H. }
  unfold for_path. change (default_rules :: map text_of added) with (map text_of (default_lines :: added)).
  pose proof (add_rules_spec icase fuel (default_lines :: added) []) as HA. cbn [map] in HA. cbn [map]. rewrite HA.
  2:{ intros ls Hls. apply HW. left. destruct Hls as [<-|Hls]; [left; reflexivity|right; apply in_or_app; left; exact Hls]. }
  clear HA. cbn [bindr]. rewrite EPD.
  rewrite (walk_spec icase store files fuel d) with (depth := 0) (acc := []); [|exact Hd|lia| |].
  2:{ intros e He. rewrite EU in HS. apply HS. exact He. }
  2:{ intros e ls He Hls. apply HW. right. exists e. rewrite EU. auto. }
  cbn [bindr app].
  assert (HG : (fix go (l : list (list Z)) : res (list (list fn)) :=
     match l with [] => Ok [] | t :: r => do x <- parse_ignore_file fuel icase None t [] ;; do y <- go r ;; Ok (x :: y) end) (map text_of globals)
     = Ok (map (map (fn_of icase)) (map (fun ls => eff icase [] (rules_of [] ls)) globals))).
  { assert (HWG : forall ls, In ls globals -> Forall wf_line ls /\ (length (text_of ls) < fuel)%nat).
    { intros ls Hls. apply HW. left. right. apply in_or_app. right. exact Hls. }
    clear - HWG. induction globals as [|ls gl IH]; [reflexivity|]. cbn [map].
    destruct (HWG ls (or_introl eq_refl)) as [H1 H2]. unfold parse_ignore_file at 1.
    pose proof (proj1 (parse_text icase [] ls [] fuel None H1 H2 (or_introl eq_refl))) as HP. change (context_of (entry_of [])) with (@None (list Z)) in HP. cbn [map] in HP. rewrite HP. cbn [bindr].
    rewrite IH by (intros l Hl; apply HWG; right; exact Hl). reflexivity. }
  rewrite HG. cbn [bindr].
  set (I0 := eff icase [] (rules_of [] (concat (default_lines :: added)))).
  set (G0 := map (fun ls => eff icase [] (rules_of [] ls)) globals).
  set (F0 := found icase files (upward (length d) d)).
  assert (HWall : Forall wf_line (concat (default_lines :: added))).
  { apply Forall_concat. apply Forall_forall. intros ls Hls. apply HW. left. destruct Hls as [<-|Hls]; [left; reflexivity|right; apply in_or_app; left; exact Hls]. }
  destruct (eff_ok icase [] (concat (default_lines :: added)) ltac:(constructor) HWall) as [EI1 EI2].
  destruct (found_spec icase files (upward (length d) d)) as [F1 F2].
  { intros e He. apply in_upward in He. destruct He as (j & ->). unfold wfq in *. rewrite <- (firstn_skipn j d) in Hd. apply Forall_app in Hd. apply Hd. }
  { intros e ls He Hls. apply HW. right. exists e. rewrite EU. auto. }
  assert (HGG : Forall2 (effective icase) (map (rules_of []) globals) G0 /\ Forall (Forall wf_rule) G0).
  { assert (HWG : forall ls, In ls globals -> Forall wf_line ls) by (intros ls Hls; apply HW; left; right; apply in_or_app; right; exact Hls).
    unfold G0. clear - HWG. induction globals as [|ls gl IH]; [split; constructor|]. cbn [map].
    destruct (eff_ok icase [] ls ltac:(constructor) (HWG ls (or_introl eq_refl))) as [H1 H2]. destruct IH as [H3 H4]; [intros l Hl; apply HWG; right; exact Hl|]. split; constructor; assumption. }
  destruct HGG as [G1 G2].
  assert (ESRC : srcs = [I0] ++ map snd (F0 ++ []) ++ G0).
  { apply (Forall2_eff_fun icase (written added files globals q)); [exact HE|]. unfold written. rewrite app_nil_r. constructor.
    - change (default_lines ++ concat added) with (concat (default_lines :: added)). exact EI1.
    - apply Forall2_app; [|exact G1]. unfold dir_rules. rewrite EU. exact F2. }
  destruct (loop_spec icase I0 G0 EI2 G2 q (if slash then true else isdir) (S (length (path_text q))) F0 []) as (v & Hv1 & Hv2).
  { exact Hq. } { exact Hne. }
  { destruct (exists_last Hne) as (u & x & E). rewrite E, path_snoc, !app_length. cbn [length]. rewrite Nat.add_1_r. apply le_n_S.
    assert (HU : wfq u) by (rewrite E in Hq; apply Forall_app in Hq; apply Hq). clear - HU.
    induction HU as [|c u (Hc & _) _ IH]; [cbn [length]; lia|]. unfold dirtext in *. cbn [map concat length]. rewrite !app_length. destruct c; [congruence|]. cbn [length]. lia. }
  { rewrite app_nil_r. exact F1. } { constructor. }
  exists v. split.
  - rewrite <- Hv1. f_equal. f_equal. destruct q; [congruence|]. cbn [length] in *. lia.
  - rewrite Hv2, ESRC. destruct slash; reflexivity.
Qed.

(** The rule lists are determined by what is written. *)
Theorem C37_effective_rules_exist : forall icase rs, Forall wf_rule rs -> exists es, effective icase rs es /\ forall es', effective icase rs es' -> es' = es.
Proof.
  intros icase rs H. destruct (eff_effective icase rs [] [] (eff_nil icase) ltac:(constructor) H) as [H1 _]. cbn [app] in H1. exists (eff icase [] rs). split; [exact H1|].
  intros es' H'. symmetry. exact (effective_fun icase rs _ H1 es' H').
Qed.

(** Nothing is dropped from a file whose negated rules all contain a wildcard. *)
Theorem C37_nothing_dropped : forall icase rs, (forall r, In r rs -> ~ droppable r) -> effective icase rs rs.
Proof.
  intros icase rs. induction rs as [|r rs IH] using rev_ind; intros H; [constructor|]. apply eff_keep.
  - apply IH. intros x Hx. apply H. apply in_or_app. left. exact Hx.
  - intros HD. exfalso. apply (H r); [apply in_or_app; right; left; reflexivity|exact HD].
Qed.

(** The lookup used while walking a directory tree (git_ignore__lookup): the item itself
    only; rule files pushed later (deeper directories) come first. *)
Theorem C37_lookup_exact : forall icase I L G dir depth q isdir, Forall wf_rule I -> Forall from_dir L -> Forall (Forall wf_rule) G ->
  Forall wf_comp q -> q <> [] ->
  match ignore_lookup (mkig (map (fn_of icase) I) (as_files icase L) dir depth (map (map (fn_of icase)) G)) (item q isdir) with
  | Some v => decided icase ([I] ++ rev (map snd L) ++ G) q isdir v
  | None => undecided icase ([I] ++ rev (map snd L) ++ G) q isdir
  end.
Proof.
  intros icase I L G dir depth q isdir HI HL HG Hq Hne. unfold ignore_lookup. cbn [ig_internal ig_path ig_global].
  replace ([map (fn_of icase) I] ++ rev (map snd (as_files icase L)) ++ map (map (fn_of icase)) G)
    with (map (map (fn_of icase)) ([I] ++ rev (map snd L) ++ G)).
  2:{ unfold as_files. rewrite !map_app, map_rev, !map_map. reflexivity. }
  apply first_found_spec; [|exact Hq|exact Hne]. constructor; [exact HI|]. apply Forall_app. split; [|exact HG].
  apply Forall_rev, Forall_map. eapply Forall_impl; [|exact HL]. intros y (_ & H & _). exact H.
Qed.

(** ** What goes wrong *)
Definition one_file (t : list Z) (e : list Z) : option (list Z) := if leqb e (bs ".gitignore") then Some t else None.

(** The last matching line of the only rule file is the negated "!bar", yet foo/bar is ignored. *)
Theorem C37_negated_rule_dropped_refuted :
  path_is_ignored 100 false [] (one_file (bs "foo/*" ++ [10] ++ bs "!bar" ++ [10])) [] (bs "foo/bar") false = Ok true
  /\ last_match false (rules_of [] [Rule false false (bs "foo/*") false; Rule true false (bs "bar") false]) [bs "foo"; bs "bar"] false false.
Proof.
  split; [vm_compute; reflexivity|]. exists [mkrule false false true (bs "foo/*") []], (mkrule true false false (bs "bar") []), [].
  split; [reflexivity|]. split; [|split; [intros x []|reflexivity]].
  split; [discriminate|]. exists [], [bs "foo"; bs "bar"]. split; [reflexivity|]. split; [discriminate|]. split; [constructor|].
  cbn [r_anchored r_pat last]. apply (wildmatch_exact false false (bs "bar") (bs "bar")); [repeat constructor; vm_compute; congruence|repeat constructor; vm_compute; congruence|vm_compute; reflexivity].
Qed.

(** A negated rule in a deeper directory cannot override a rule of a directory above. *)
Theorem C37_deeper_negation_dropped_refuted : 
  path_is_ignored 100 false [] (fun e => if leqb e (bs ".gitignore") then Some (bs "*.c" ++ [10]) else if leqb e (bs "sub/.gitignore") then Some (bs "!keep.c" ++ [10]) else None)
    [] (bs "sub/keep.c") false = Ok true.
Proof. vm_compute. reflexivity. Qed.

(** A file below an ignored directory can be un-ignored by a negated wildcard rule, which
    gitignore(5) rules out. *)
Theorem C37_reinclude_below_ignored_directory_refuted :
  let store := one_file (bs "foo/" ++ [10] ++ bs "!foo/*.c" ++ [10]) in
  path_is_ignored 100 false [] store [] (bs "foo/") true = Ok true /\ path_is_ignored 100 false [] store [] (bs "foo/x.c") false = Ok false.
Proof. split; vm_compute; reflexivity. Qed.

(** ** C47: reading a rule file *)
Lemma scan_progress s : hd 0 s <> 10 -> hd 0 s <> 11 -> hd 0 s <> 12 -> s <> [] -> (0 < fst (fst (fst (scan_pat false s))))%nat.
Proof.
  destruct s as [|c s]; [congruence|]. cbn [hd scan_pat]. intros H1 H2 H3 _.
  destruct ((c =? 92) && negb false); [destruct (scan_pat true s) as [[[n k] f] w]; cbn; lia|].
  destruct (isspace c && negb false) eqn:ES.
  - assert (negb (c =? 32) && negb (c =? 9) && negb (c =? 13) = false) as ->.
    { rewrite andb_true_r in ES. unfold isspace in ES. destruct (Z.eqb_spec c 32), (Z.eqb_spec c 9), (Z.eqb_spec c 13), (Z.leb_spec 9 c), (Z.leb_spec c 13); cbn in *; try reflexivity; try discriminate; lia. }
    destruct (scan_pat false s) as [[[n k] f] w]; cbn; lia.
  - destruct (c =? 47); [destruct (scan_pat false s) as [[[n k] f] w]; cbn; lia|].
    destruct (iswild c && negb false); destruct (scan_pat false s) as [[[n k] f] w]; cbn; lia.
Qed.
Lemma scan_bound : forall s e, (fst (fst (fst (scan_pat e s))) <= length s)%nat.
Proof.
  induction s as [|c s IH]; intros e; [cbn; lia|]. cbn [scan_pat length]. pose proof (IH true) as Ht. pose proof (IH false) as Hf.
  repeat match goal with |- context [if ?b then _ else _] => destruct b end;
  repeat match goal with |- context [scan_pat ?b s] => destruct (scan_pat b s) as [[[? ?] ?] ?]; cbn in * end; try lia; cbn; lia.
Qed.

Definition rest_of (p : pres) : list Z := match p with PFound _ r => next_line r | PNone r => r end.
Lemma skip_to_nl_len s : (length (skip_to_nl s) <= length s)%nat.
Proof. induction s as [|c s IH]; [cbn; lia|]. cbn [skip_to_nl]. destruct (c =? 10); cbn [length]; lia. Qed.
Lemma next_line_len s : (length (next_line s) <= length s)%nat.
Proof. unfold next_line. etransitivity; [apply skip_nls_len|apply skip_to_nl_len]. Qed.
Lemma suffix_skip_to_nl s : exists u, s = u ++ skip_to_nl s.
Proof. induction s as [|c s [u IH]]; [exists []; reflexivity|]. cbn [skip_to_nl]. destruct (c =? 10); [exists []; reflexivity|]. exists (c :: u). cbn. congruence. Qed.
Lemma suffix_skip_nls s : exists u, s = u ++ skip_nls s.
Proof. induction s as [|c s [u IH]]; [exists []; reflexivity|]. cbn [skip_nls]. destruct ((c =? 10) || (c =? 13)); [exists (c :: u); cbn; congruence|exists []; reflexivity]. Qed.
Lemma suffix_next_line s : exists u, s = u ++ next_line s.
Proof. unfold next_line. destruct (suffix_skip_to_nl s) as [u Hu]. destruct (suffix_skip_nls (skip_to_nl s)) as [w Hw]. exists (u ++ w). rewrite <- app_assoc, <- Hw. exact Hu. Qed.
Lemma next_line_strict c s : next_line (c :: s) = s \/ (length (next_line (c :: s)) < length (c :: s))%nat.
Proof.
  right. unfold next_line. cbn [skip_to_nl]. destruct (Z.eqb_spec c 10) as [->|].
  - cbn [skip_nls]. change ((10 =? 10) || (10 =? 13)) with true. cbv iota. pose proof (skip_nls_len s). cbn [length]. lia.
  - pose proof (skip_nls_len (skip_to_nl s)). pose proof (skip_to_nl_len s). cbn [length]. lia.
Qed.

Lemma fnparse_rest icase ctx stale base : cstr base -> base <> [] -> (forall c, In c base -> c <> 11 /\ c <> 12) ->
  (length (rest_of (fnparse icase ctx stale base)) < length base)%nat /\ exists u, base = u ++ rest_of (fnparse icase ctx stale base).
Proof.
  intros HC Hne HV. destruct base as [|c base]; [congruence|].
  assert (NL : (length (next_line (c :: base)) < length (c :: base))%nat).
  { unfold next_line. cbn [skip_to_nl]. destruct (Z.eqb_spec c 10) as [->|].
    - cbn [skip_nls]. change ((10 =? 10) || (10 =? 13)) with true. cbv iota. pose proof (skip_nls_len base). cbn [length]. lia.
    - pose proof (skip_nls_len (skip_to_nl base)). pose proof (skip_to_nl_len base). cbn [length]. lia. }
  unfold fnparse. destruct (optimized (c :: base)); cbn [rest_of].
  { split; [exact NL|apply suffix_next_line]. }
  cbv zeta. cbn [hd tl]. destruct ((c =? 0) || (c =? 35) || (c =? 10) || ((c =? 13) && (hd 0 base =? 10))) eqn:EB; cbn [rest_of].
  { split; [exact NL|apply suffix_next_line]. }
  set (pattern := if c =? 33 then base else c :: base).
  destruct (scan_pat false pattern) as [[[n k] full] wild] eqn:ESC.
  assert (HN : (length (skipn n pattern) < length (c :: base))%nat /\ exists u, c :: base = u ++ skipn n pattern).
  { pose proof (scan_bound pattern false) as HB. rewrite ESC in HB. cbn [fst] in HB. split.
    - rewrite skipn_length. unfold pattern in *. destruct (Z.eqb_spec c 33) as [->|]; cbn [length] in *; [lia|].
      pose proof (scan_progress (c :: base)) as HP. rewrite ESC in HP. cbn [fst hd] in HP.
      assert (0 < n)%nat; [|lia]. apply HP; try discriminate; try apply HV; try (left; reflexivity).
      intros ->. cbn in EB. discriminate.
    - unfold pattern. destruct (Z.eqb_spec c 33) as [->|].
      + exists (33 :: firstn n base). cbn [app]. rewrite firstn_skipn. reflexivity.
      + exists (firstn n (c :: base)). rewrite firstn_skipn. reflexivity. }
  assert (HF : forall p, (length (rest_of (finish icase (c =? 33)%Z ctx stale k full wild p (skipn n pattern))) < length (c :: base))%nat /\
     exists u, c :: base = u ++ rest_of (finish icase (c =? 33)%Z ctx stale k full wild p (skipn n pattern))).
  { intros p. assert (HX : rest_of (finish icase (c =? 33)%Z ctx stale k full wild p (skipn n pattern)) = skipn n pattern \/ rest_of (finish icase (c =? 33)%Z ctx stale k full wild p (skipn n pattern)) = next_line (skipn n pattern)).
    { unfold finish. destruct p as [|p0 p']; [left; reflexivity|]. cbv zeta. destruct (trim_spaces _); [left; reflexivity|right; reflexivity]. }
    destruct HX as [-> | ->]; [exact HN|]. destruct HN as [HN1 (u & HN2)]. pose proof (next_line_len (skipn n pattern)). split; [lia|].
    destruct (suffix_next_line (skipn n pattern)) as [w Hw]. exists (u ++ w). rewrite <- app_assoc, <- Hw. exact HN2. }
  apply HF.
Qed.

(** C47, safe part: a text without form feeds and vertical tabs is read in at most as many
    rounds as it has bytes. *)
Theorem C47_parse_terminates_partial : forall icase ctx text rules fuel, cstr text -> (forall c, In c text -> c <> 11 /\ c <> 12) -> (length text < fuel)%nat ->
  exists out, parse_ignore_file fuel icase ctx text rules = Ok out.
Proof.
  intros icase ctx text rules fuel. unfold parse_ignore_file. generalize (@None (list Z)) as stale. revert text rules.
  induction fuel as [|f IH]; intros text rules stale HC HV HL; [lia|]. cbn [parse_loop].
  destruct text as [|c text]; [eexists; reflexivity|].
  destruct (fnparse_rest icase ctx stale (c :: text) HC ltac:(discriminate) HV) as [H1 (u & H2)].
  assert (HC' : cstr (rest_of (fnparse icase ctx stale (c :: text)))) by (rewrite H2 in HC; apply cstr_app in HC; apply HC).
  assert (HV' : forall x, In x (rest_of (fnparse icase ctx stale (c :: text))) -> x <> 11 /\ x <> 12) by (intros x Hx; apply HV; rewrite H2; apply in_or_app; right; exact Hx).
  destruct (fnparse icase ctx stale (c :: text)) as [m rest|rest]; cbn [rest_of] in *.
  - destruct (fneg m && negb (fwild m) && negb (does_negate_rule rules m)); apply IH; try assumption; lia.
  - apply IH; try assumption; lia.
Qed.

(** C47 fails: a line that begins with a form feed (or a vertical tab) is never got past,
    however long the loop runs. *)
Theorem C47_form_feed_hangs_refuted : forall c icase ctx more rules fuel, c = 11 \/ c = 12 -> parse_ignore_file fuel icase ctx (c :: more) rules = NoFuel.
Proof.
  intros c icase ctx more rules fuel Hc. unfold parse_ignore_file. generalize (@None (list Z)) as stale.
  induction fuel as [|f IH]; intros stale; [reflexivity|]. cbn [parse_loop].
  assert (E : fnparse icase ctx stale (c :: more) = PNone (c :: more)).
  { unfold fnparse, optimized. cbn [hd tl]. destruct Hc as [-> | ->]; cbn [Z.eqb Pos.eqb andb orb]; rewrite ?andb_false_r; cbn; reflexivity. }
  rewrite E. apply IH.
Qed.

(** and so is every query about a path below the directory holding such a file *)
Theorem C47_query_hangs_refuted : forall fuel icase added globals isdir v,
  path_is_ignored fuel icase added (one_file [12; 10]) globals (bs "a") isdir <> Ok v.
Proof.
  intros fuel icase added globals isdir v. unfold path_is_ignored, for_path.
  destruct (add_rules fuel icase (default_rules :: added) []) as [i|e| |]; cbn [bindr]; try discriminate.
  change (upto_last_slash (ap (path_init (bs "a") (if last (bs "a") 0 =? 47 then true else isdir)))) with (@nil Z). cbn [length walk_up].
  unfold push_file. change (one_file [12; 10] ([] ++ gitignore)) with (Some [12; 10]). cbv iota beta zeta.
  rewrite C47_form_feed_hangs_refuted by (right; reflexivity). discriminate.
Qed.

(** ** A concrete case meeting the hypotheses *)
Definition demo_files (d : list (list Z)) : option (list line) :=
  if list_eq_dec (list_eq_dec Z.eq_dec) d [] then Some [Comment (bs " top"); Blank; Rule false false (bs "*.o") false; Rule false true (bs "build") true; Rule true false (bs "keep.o") false]
  else if list_eq_dec (list_eq_dec Z.eq_dec) d [bs "src"] then Some [Rule false false (bs "gen/*.c") false; Rule true false (bs "gen/main.c") false] else None.
Definition demo_store (e : list Z) : option (list Z) :=
  if leqb e (bs ".gitignore") then option_map text_of (demo_files []) else if leqb e (bs "src/.gitignore") then option_map text_of (demo_files [bs "src"]) else None.
Definition demo_path := [bs "src"; bs "gen"; bs "x.c"].

Ltac cs := repeat (apply Forall_cons; [vm_compute; split; congruence|]); apply Forall_nil.
Ltac wfl := match goal with
  | |- wf_line Blank => exact I
  | |- wf_line (Comment _) => split; [cs|vm_compute; intuition congruence]
  | |- wf_line (Rule _ _ _ _) => split; [split; [cs|]; split; [vm_compute; intuition congruence|]; split; [discriminate|]; split; [vm_compute; intuition congruence|vm_compute; congruence]|vm_compute; intuition congruence]
  end.
Lemma demo_wf : wf_setup 200 demo_store [[Rule false false (bs "tmp") true]] demo_files [[Rule false false (bs "*~") false]] demo_path.
Proof.
  split; [discriminate|]. split.
  { repeat constructor; try discriminate; try (vm_compute; intuition congruence). }
  split.
  { intros d [<-|[<-|[<-|[]]]]; vm_compute; reflexivity. }
  intros ls H.
  assert (HL : In ls [default_lines; [Rule false false (bs "tmp") true]; [Rule false false (bs "*~") false];
    [Comment (bs " top"); Blank; Rule false false (bs "*.o") false; Rule false true (bs "build") true; Rule true false (bs "keep.o") false];
    [Rule false false (bs "gen/*.c") false; Rule true false (bs "gen/main.c") false]]).
  { destruct H as [[<-|[<-|[<-|[]]]]|(d & Hd & Hf)]; [left; reflexivity|right; left; reflexivity|right; right; left; reflexivity|].
    destruct Hd as [<-|[<-|[<-|[]]]]; vm_compute in Hf; try discriminate; assert (ls = _) by (symmetry; apply (f_equal (fun o => match o with Some x => x | None => [] end)) in Hf; exact Hf); subst ls; vm_compute; tauto. }
  clear H. cbn [In] in HL. destruct HL as [<-|[<-|[<-|[<-|[<-|[]]]]]]; (split; [|vm_compute; lia]);
  unfold default_lines; repeat apply Forall_cons; try apply Forall_nil; wfl.
Qed.
Example demo_ignored : path_is_ignored 200 false (map text_of [[Rule false false (bs "tmp") true]]) demo_store (map text_of [[Rule false false (bs "*~") false]]) (join (ch "/") demo_path) false = Ok true.
Proof. vm_compute. reflexivity. Qed.
Example demo_kept : path_is_ignored 200 false [] demo_store [] (bs "src/gen/main.c") false = Ok false /\ path_is_ignored 200 false [] demo_store [] (bs "lib/keep.o") false = Ok false
  /\ path_is_ignored 200 false [] demo_store [] (bs "build/x") false = Ok true /\ path_is_ignored 200 false [] demo_store [] (bs "a/.git/x") false = Ok true.
Proof. repeat split; vm_compute; reflexivity. Qed.

Example demo_lookup : ignore_lookup (mkig [] (as_files false [([], rules_of [] [Rule false false (bs "*.c") false]); ([bs "a"], rules_of [bs "a"] [Rule true false (bs "m*.c") false])]) [] 0 []) (item [bs "a"; bs "main.c"] false) = Some false.
Proof. vm_compute. reflexivity. Qed.

Print Assumptions C37_lookup_exact.
Print Assumptions C37_path_is_ignored_exact.
Print Assumptions C47_form_feed_hangs_refuted.
