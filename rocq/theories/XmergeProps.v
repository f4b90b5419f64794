(** C58, C59: the merge of three texts: nothing is lost or made up, and what does not conflict is merged. *)
From Verif Require Import Base CStr Str ApplyModel ApplySpec ApplyProofs ReflogProofs XdiffModel XdiffProofs XdiffCompact XdiffSpec XdiffMain XdiffEmit XdiffUse XdiffMyers XdiffSplit XmergeModel XmergeSpec XmergeProofs XmergeLoop XmergeMain XmergeFill XmergeUse XmergeClean.
Local Open Scope Z_scope.

(** Texts that fit in memory (merge_file__is_binary takes a text of 1 GB or more to be binary). *)
Definition in_memory (s : list Z) : Prop := Z.of_nat (length s) < 2 ^ 61.
Lemma mem_small a b : in_memory a -> in_memory b -> small a b.
Proof. unfold in_memory, small. change (2 ^ 63 - 1) with (4 * 2 ^ 61 - 1). generalize (2 ^ 61). intros z. lia. Qed.

Lemma guarded_one p : guarded [p].
Proof. intros pre q post Ep _. destruct pre as [|? [|? ?]]; try discriminate. injection Ep as _ <-. split; right; unfold no_lines; cbn; auto. Qed.
Lemma merge_exact o orig ours theirs : in_memory orig -> in_memory ours -> in_memory theirs -> 0 <= m_favor o <= 3 ->
  exists ps out, lines_of orig (flat_map base_part ps) /\ lines_of ours (flat_map ours_part ps) /\ lines_of theirs (flat_map theirs_part ps) /\ guarded ps /\ written o (starts_crlf orig) ps out /\
    (xdl_merge o orig ours theirs = Ok (out, if m_favor o =? 0 then Z.of_nat (length (filter is_clash ps)) else 0) \/ (INT_MAX < zlen out /\ xdl_merge o orig ours theirs = UB)).
Proof.
  intros M0 M1 M2 Fa. destruct (script_spec (m_minimal o) orig ours (mem_small _ _ M0 M1)) as (B & A & s1 & E1 & LB & LA & Sc1). destruct (script_spec (m_minimal o) orig theirs (mem_small _ _ M0 M2)) as (B' & T & s2 & E2 & LB' & LT & Sc2).
  rewrite (lines_fun _ _ _ LB' LB) in *. clear B' LB'. unfold xdl_merge. rewrite E1. cbn [bindr]. rewrite E2. cbn [bindr].
  pose proof guarded_one as One.
  destruct s1 as [|x r1].
  { inversion Sc1; subst. exists [Theirs A T], (concat T ++ []). cbn [flat_map base_part ours_part theirs_part filter is_clash length]. rewrite !app_nil_r. do 4 (split; auto). split; [rewrite <- (app_nil_r (concat T)); apply w_cons with (cr := false); [discriminate|constructor|constructor]|]. left. rewrite (lines_concat _ _ LT). destruct (_ =? 0); reflexivity. }
  destruct s2 as [|y r2].
  { inversion Sc2; subst. exists [Ours T A], (concat A ++ []). cbn [flat_map base_part ours_part theirs_part filter is_clash length]. rewrite !app_nil_r. do 4 (split; auto). split; [rewrite <- (app_nil_r (concat A)); apply w_cons with (cr := false); [discriminate|constructor|constructor]|]. left. rewrite (lines_concat _ _ LA). destruct (_ =? 0); reflexivity. }
  destruct (do_merge_ok orig ours theirs B A T LB LA LT (mem_small _ _ M1 M2) (m_minimal o) o Fa eq_refl _ _ Sc1 Sc2) as (ps & out & P0 & P1 & P2 & Gd & W & Ex).
  exists ps, out. rewrite P0, P1, P2. do 5 (split; auto). rewrite Ex. destruct (Z.ltb_spec INT_MAX (zlen out)); auto.
Qed.
(** ** C58 *)

(** The three texts are the lines of a list of pieces: lines both sides have, lines only one side
    changed, and lines both changed.  The result has these pieces in order: the common lines, the changed ones
    and for each conflict what the caller asked for -- both versions (and the base's) between markers,
    the version of one side, or both.  The number of conflicts is that of the pieces both sides
    changed (or 0 if they are resolved).  Lines are taken to be changed by one side only if there is a line that all
    three have between them and the next change.  Nothing is read or written outside the buffers.
    This is for results below 2 GB: the size is an int. *)
Theorem C58_merge_is_truthful_partial o orig ours theirs : in_memory orig -> in_memory ours -> in_memory theirs -> 0 <= m_favor o <= 3 ->
  exists ps out, lines_of orig (flat_map base_part ps) /\ lines_of ours (flat_map ours_part ps) /\ lines_of theirs (flat_map theirs_part ps) /\ guarded ps /\ written o (starts_crlf orig) ps out /\
    (Z.of_nat (length out) <= 2 ^ 31 - 1 -> xdl_merge o orig ours theirs = Ok (out, if m_favor o =? 0 then Z.of_nat (length (filter is_clash ps)) else 0)).
Proof.
  intros M0 M1 M2 Fa. destruct (merge_exact o orig ours theirs M0 M1 M2 Fa) as (ps & out & L0 & L1 & L2 & Gd & W & [E|[Hi _]]); exists ps, out; do 5 (split; auto). intros Sz. unfold INT_MAX, zlen in Hi. lia.
Qed.
(** git_merge_file on text: it can be merged automatically if there is no conflict, or all are resolved; the
    mode is the changed one (ours, if both are), or without a common ancestor executable if one is. *)
Definition blob_mode (m : Z) : Z := if m =? 0 then 33188 else m.
Definition merged_mode (anc : option Z) (ours theirs m : Z) : Prop :=
  match anc with
  | None => (m = 33261 /\ (ours = 33261 \/ theirs = 33261)) \/ (m = 33188 /\ ours <> 33261 /\ theirs <> 33261)
  | Some b => (b = ours -> m = theirs) /\ (b <> ours -> m = ours)
  end.
Definition text (s : list Z) : Prop := Z.of_nat (length s) <= 1023 * 2 ^ 20 /\ ~ In 0 (firstn (Z.to_nat 8000) s).
Lemma text_spec s : is_binary s = false <-> text s.
Proof.
  unfold is_binary, text. rewrite orb_false_iff, Z.ltb_ge. change XDIFF_MAX with (1023 * 2 ^ 20). split; intros [H1 H2]; split; auto.
  - intros Hi. assert (existsb (Z.eqb 0) (firstn (Z.to_nat 8000) s) = true) by (apply existsb_exists; exists 0; auto). congruence.
  - destruct (existsb (Z.eqb 0) (firstn (Z.to_nat 8000) s)) eqn:E; auto. apply existsb_exists in E. destruct E as (x & Hi & Ex). apply Z.eqb_eq in Ex. subst x. contradiction.
Qed.
Lemma text_mem s : text s -> in_memory s.
Proof. intros [H _]. unfold in_memory. change (2 ^ 61) with (2 ^ 41 * 2 ^ 20). lia. Qed.
Definition data_of (i : option minput) : list Z := match i with Some i => in_data i | None => [] end.
Lemma normal_data i : in_data (normalize i) = in_data i. Proof. unfold normalize. destruct (_ =? 0); reflexivity. Qed.
Lemma normal_mode i : in_mode (normalize i) = blob_mode (in_mode i). Proof. unfold normalize, blob_mode. destruct (_ =? 0); reflexivity. Qed.
Lemma blob_mode_nz m : blob_mode m <> 0. Proof. unfold blob_mode. destruct (Z.eqb_spec m 0); lia. Qed.
Lemma best_mode_spec (anc : option minput) a t : a <> 0 -> t <> 0 -> merged_mode (option_map (fun i => blob_mode (in_mode i)) anc) a t (best_mode (match option_map normalize anc with Some i => in_mode i | None => 0 end) a t).
Proof.
  intros Na Nt. unfold merged_mode, best_mode, MODE_EXE, MODE_BLOB. destruct anc as [i|]; cbn [option_map].
  - rewrite normal_mode. rewrite (proj2 (Z.eqb_neq _ _) (blob_mode_nz (in_mode i))), (proj2 (Z.eqb_neq _ _) Na), (proj2 (Z.eqb_neq _ _) Nt). cbn [negb andb]. destruct (Z.eqb_spec (blob_mode (in_mode i)) a); split; auto; congruence.
  - change (0 =? 0) with true. cbn iota. destruct (Z.eqb_spec a 33261), (Z.eqb_spec t 33261); cbn [orb]; auto.
Qed.
Theorem C58_merge_file_partial o anc ours theirs : text (data_of anc) -> text (in_data ours) -> text (in_data theirs) -> 0 <= m_favor o <= 3 ->
  exists ps out, lines_of (data_of anc) (flat_map base_part ps) /\ lines_of (in_data ours) (flat_map ours_part ps) /\ lines_of (in_data theirs) (flat_map theirs_part ps) /\ guarded ps /\ written o (starts_crlf (data_of anc)) ps out /\
    (Z.of_nat (length out) <= 2 ^ 31 - 1 -> exists r, merge_file o anc ours theirs = Ok r /\ r_data r = Some out /\
       (automergeable r = true <-> m_favor o <> 0 \/ Forall (fun p => is_clash p = false) ps) /\
       merged_mode (option_map (fun i => blob_mode (in_mode i)) anc) (blob_mode (in_mode ours)) (blob_mode (in_mode theirs)) (r_mode r)).
Proof.
  intros T0 T1 T2 Fa. destruct (C58_merge_is_truthful_partial o (data_of anc) (in_data ours) (in_data theirs)) as (ps & out & L0 & L1 & L2 & Gd & W & E); auto using text_mem. exists ps, out. do 5 (split; auto). intros Sz. specialize (E Sz).
  unfold merge_file. rewrite !normal_data, !normal_mode.
  assert (Ed : match option_map normalize anc with Some i => in_data i | None => [] end = data_of anc) by (destruct anc; cbn; auto using normal_data). rewrite Ed.
  apply text_spec in T0. apply text_spec in T1. apply text_spec in T2. rewrite T0, T1, T2. cbn [orb]. rewrite E. cbn [bindr fst snd]. eexists. split; [reflexivity|]. cbn [r_data automergeable r_mode]. split; auto. split.
  - destruct (Z.eqb_spec (m_favor o) 0) as [F|F].
    + rewrite Z.eqb_eq. split.
      * intros C. right. clear - C. induction ps as [|p ps IH]; constructor; cbn [filter] in C; destruct (is_clash p); cbn [length] in C; try lia; auto.
      * intros [C|C]; [contradiction|]. clear - C. induction C as [|p ps Hp _ IH]; [reflexivity|]. cbn [filter]. now rewrite Hp.
    + change (0 =? 0) with true. tauto.
  - apply best_mode_spec; apply blob_mode_nz.
Qed.
(** If one of them is not text, the caller's choice decides, and otherwise nothing is returned. *)
Theorem C58_binary o anc ours theirs : ~ (text (data_of anc) /\ text (in_data ours) /\ text (in_data theirs)) ->
  exists r, merge_file o anc ours theirs = Ok r /\
    (m_favor o = 1 -> automergeable r = true /\ r_data r = Some (in_data ours) /\ r_mode r = blob_mode (in_mode ours)) /\
    (m_favor o = 2 -> automergeable r = true /\ r_data r = Some (in_data theirs) /\ r_mode r = blob_mode (in_mode theirs)) /\
    (m_favor o <> 1 -> m_favor o <> 2 -> automergeable r = false /\ r_data r = None).
Proof.
  intros N. unfold merge_file. rewrite !normal_data, !normal_mode.
  assert (Ed : match option_map normalize anc with Some i => in_data i | None => [] end = data_of anc) by (destruct anc; cbn; auto using normal_data). rewrite Ed.
  destruct (is_binary (data_of anc) || is_binary (in_data ours) || is_binary (in_data theirs)) eqn:Bi.
  - eexists. split; [reflexivity|]. unfold merge_binary. destruct (Z.eqb_spec (m_favor o) 1) as [F1|F1]; [|destruct (Z.eqb_spec (m_favor o) 2) as [F2|F2]]; cbn [automergeable r_data r_mode]; rewrite ?normal_data, ?normal_mode; do 2 (split; [auto; try lia|]); auto; try lia.
  - exfalso. apply N. rewrite <- !text_spec. apply orb_false_iff in Bi. destruct Bi as [Bi ?]. apply orb_false_iff in Bi. tauto.
Qed.

(** ** C59 *)

(** If one side did not change anything, the result is the other. *)
Theorem C59_unchanged o orig side : in_memory orig -> in_memory side -> xdl_merge o orig orig side = Ok (side, 0) /\ xdl_merge o orig side orig = Ok (side, 0).
Proof.
  intros M0 M1. unfold xdl_merge. destruct (script_same (m_minimal o) orig) as (l & ->). cbn [bindr]. destruct (script_spec (m_minimal o) orig side (mem_small _ _ M0 M1)) as (B & A & s & -> & LB & LA & Sc). cbn [bindr]. split; [reflexivity|].
  destruct s as [|x r]; [|reflexivity]. inversion Sc; subst. f_equal. f_equal. rewrite <- (lines_concat _ _ LB), <- (lines_concat _ _ LA). reflexivity.
Qed.
(** If both sides did the same, it is the result. *)
Lemma fol_ends (B A : list (list Z)) p q s : fol B A p q s -> Forall (fun x => zi2 x + zc2 x <= zlen A) s.
Proof. induction 1; constructor; auto. Qed.
Theorem C59_same_change o orig side : in_memory orig -> in_memory side -> Z.of_nat (length side) <= 2 ^ 31 - 1 -> xdl_merge o orig side side = Ok (side, 0).
Proof.
  intros M0 M1 Sz. unfold xdl_merge. destruct (script_spec (m_minimal o) orig side (mem_small _ _ M0 M1)) as (B & A & s & -> & LB & LA & Sc). cbn [bindr]. destruct s as [|x r]; [reflexivity|].
  pose proof (scripted_fol _ _ _ _ _ Sc [] [] eq_refl eq_refl) as F. cbn [app] in F. apply fol_ends in F. unfold do_merge. rewrite (loop_same A (length B) (x :: r) F) by (cbn [length]; lia). cbn [bindr rev].
  replace (match m_style o with StyleMerge => _ | StyleDiff3 => _ | StyleZdiff3 => _ end) with (Ok (@nil xdmerge)) by (destruct (m_style o); reflexivity). cbn [bindr map]. unfold fill_size, fill_bytes. cbn [fill].
  destruct (copy_plain A 0 (zlen A - 0) false) as [Eb Es]; try lia. unfold zlen in Eb, Es at 1. unfold zlen in Es at 1. rewrite Es, Eb. cbn [bindr].
  replace (0 + (Z.of_nat (length A) - 0)) with (zlen A) by (unfold zlen; lia). replace (0 + (zlen A - 0)) with (zlen A) by lia. rewrite seg_all, (lines_concat _ _ LA). replace (INT_MAX <? Z.of_nat (length side)) with false by (symmetry; apply Z.ltb_ge; unfold INT_MAX; lia). rewrite Z.eqb_refl. reflexivity.
Qed.
(** A diff without context has a hunk for each change. *)
Lemma compact_plain f1 f2 hs mo fuel : forall st, compact_loop fuel false f1 hs mo st = compact_loop fuel false f2 hs mo st.
Proof.
  induction fuel as [|f IH]; intros st; [reflexivity|]. cbn [compact_loop]. match goal with |- bindr ?e _ = bindr ?e _ => destruct e as [[[m g] go]| | |] end; cbn [bindr]; auto.
  destruct (group_next m g) as [p| | |]; cbn [bindr]; auto. destruct (group_next mo go) as [q| | |]; cbn [bindr]; auto. destruct p, q; auto.
Qed.
Lemma change_plain f1 f2 hs m mo : change_compact false f1 hs m mo = change_compact false f2 hs m mo.
Proof. unfold change_compact. destruct (group_init m) as [g| | |]; cbn [bindr]; auto. destruct (group_init mo) as [go| | |]; cbn [bindr]; auto. apply compact_plain. Qed.
Lemma diff_script better mn old new : diff better (mkopts 0 0 mn false) old new = (do p <- script_of mn old new ;; let '(l1, l2, scr) := p in emit_diff (length scr) 0 0 l1 l2 scr).
Proof.
  unfold diff, diff_with, script_of, script_with. destruct (prepare_ctx (length old) 1 old []) as [[[l1 h1] cf]| | |]; cbn [bindr]; auto. destruct (prepare_ctx (length new) 2 new cf) as [[[l2 h2] cf2]| | |]; cbn [bindr]; auto.
  change (do_diff split_of (heur_of better) (mkopts 0 0 mn false) cf2 h1 h2) with (do_diff split_of (heur_of (fun _ _ _ _ => true)) (mkopts 0 0 mn false) cf2 h1 h2).
  destruct (do_diff split_of (heur_of (fun _ _ _ _ => true)) (mkopts 0 0 mn false) cf2 h1 h2) as [[r1 r2]| | |]; cbn [bindr indent context_lines interhunk_lines]; auto.
  rewrite (change_plain _ (better1 (heur_of (fun _ _ _ _ => true)) l1)). destruct (change_compact false _ h1 r1 r2) as [r1'| | |]; cbn [bindr]; auto.
  rewrite (change_plain _ (better2 (heur_of (fun _ _ _ _ => true)) l2)). destruct (change_compact false _ h2 r2 r1') as [r2'| | |]; cbn [bindr]; auto.
  destruct (build_script r1' r2') as [scr| | |]; cbn [bindr]; auto.
Qed.
Lemma emit_plain l1 l2 fuel : forall (B A : list (list Z)) p q scr hs, fol B A p q scr -> emit_diff fuel 0 0 l1 l2 scr = Ok hs -> forall x, In x scr -> exists h, In h hs /\ from h = zi1 x /\ old_lines h = zc1 x.
Proof.
  induction fuel as [|f IH]; intros B A p q [|x r] hs F E y Hy; try contradiction; cbn [emit_diff] in E; try discriminate. destruct (fol_cons_inv _ _ _ _ _ _ F) as (_ & _ & _ & _ & _ & Af & F').
  change (2 * 0 + 0)%nat with O in E. assert (G : get_hunk 0 x r = ([], r)).
  { destruct r as [|z r]; auto. cbn [get_hunk]. cbn [after_] in Af. unfold zi1, zc1 in Af. replace (0 <? i1 z - (i1 x + chg1 x))%nat with true; auto. symmetry. apply Nat.ltb_lt. lia. }
  rewrite G in E. destruct (emit_hunk 0 l1 l2 x []) as [h| | |] eqn:Eh; try discriminate. cbn [bindr] in E. destruct (emit_diff f 0 0 l1 l2 r) as [hs'| | |] eqn:Er; try discriminate. cbn [bindr] in E. apply Ok_inj in E. subst hs.
  destruct Hy as [->|Hy].
  - exists h. split; [now left|]. unfold emit_hunk in Eh. cbn [last] in Eh. destruct (emit_range (i2 y - (i2 y - 0)) l2 (i2 y - 0) Context) as [pre| | |]; try discriminate. cbn [bindr] in Eh. destruct (emit_changes l1 l2 (i1 y) (i2 y) [y]) as [mid| | |]; try discriminate. cbn [bindr] in Eh.
    match type of Eh with bindr ?e _ = _ => destruct e as [post| | |] end; try discriminate. cbn [bindr] in Eh. apply Ok_inj in Eh. subst h. unfold from, hunk_start. cbn [old_start old_lines].
    change (Nat.min (Nat.min 0 (length l1 - (i1 y + chg1 y))) (length l2 - (i2 y + chg2 y))) with O. unfold zi1, zc1. replace (i1 y + chg1 y + 0 - (i1 y - 0))%nat with (chg1 y) by lia. replace (i1 y - 0)%nat with (i1 y) by lia.
    destruct (Nat.eqb_spec (chg1 y) 0) as [E0|E0]; destruct (Z.eqb_spec (Z.of_nat (chg1 y)) 0); split; lia.
  - destruct (IH _ _ _ _ _ _ F' Er y Hy) as (k & Hk & ?). exists k. split; auto. now right.
Qed.
Lemma written_short o c ps out : written o c ps out -> filter is_clash ps = [] -> (length out <= length (concat (flat_map ours_part ps)) + length (concat (flat_map theirs_part ps)))%nat.
Proof.
  induction 1 as [|cr p ps x y Hc R W IH]; intros F; [cbn; lia|]. cbn [filter] in F. cbn [flat_map]. rewrite !concat_app, !app_length. inversion R; subst; cbn [is_clash] in F; try discriminate; specialize (IH F); cbn [ours_part theirs_part]; lia.
Qed.
(** Changes that have an unchanged line between them are all made, without a conflict.  What is a
    change: a hunk of the diff without context. *)
Theorem C59_apart_merges better o orig ours theirs hs1 hs2 : in_memory orig -> in_memory ours -> in_memory theirs -> 0 <= m_favor o <= 3 -> Z.of_nat (length ours + length theirs) <= 2 ^ 31 - 1 ->
  diff better (mkopts 0 0 (m_minimal o) false) orig ours = Ok hs1 -> diff better (mkopts 0 0 (m_minimal o) false) orig theirs = Ok hs2 -> (forall h k, In h hs1 -> In k hs2 -> apart h k) ->
  exists ps, lines_of orig (flat_map base_part ps) /\ lines_of ours (flat_map ours_part ps) /\ lines_of theirs (flat_map theirs_part ps) /\ guarded ps /\ Forall (fun p => is_clash p = false) ps /\
    xdl_merge o orig ours theirs = Ok (concat (flat_map outcome ps), 0).
Proof.
  intros M0 M1 M2 Fa Sz D1 D2 Ap. rewrite diff_script in D1, D2. destruct (script_spec (m_minimal o) orig ours (mem_small _ _ M0 M1)) as (B & A & s1 & E1 & LB & LA & Sc1). destruct (script_spec (m_minimal o) orig theirs (mem_small _ _ M0 M2)) as (B' & T & s2 & E2 & LB' & LT & Sc2).
  rewrite (lines_fun _ _ _ LB' LB) in *. clear B' LB'. rewrite E1 in D1. rewrite E2 in D2. cbn [bindr] in D1, D2.
  pose proof (scripted_fol _ _ _ _ _ Sc1 [] [] eq_refl eq_refl) as F1. pose proof (scripted_fol _ _ _ _ _ Sc2 [] [] eq_refl eq_refl) as F2. cbn [app] in F1, F2. change (Z.of_nat 0) with 0 in *.
  unfold xdl_merge. rewrite E1. cbn [bindr]. rewrite E2. cbn [bindr].
  destruct s1 as [|x r1].
  { inversion Sc1; subst. exists [Theirs A T]. cbn [flat_map base_part ours_part theirs_part outcome]. rewrite !app_nil_r. do 3 (split; auto). split; [apply guarded_one|]. split; [repeat constructor|]. now rewrite (lines_concat _ _ LT). }
  destruct s2 as [|y r2].
  { inversion Sc2; subst. exists [Ours T A]. cbn [flat_map base_part ours_part theirs_part outcome]. rewrite !app_nil_r. do 3 (split; auto). split; [apply guarded_one|]. split; [repeat constructor|]. now rewrite (lines_concat _ _ LA). }
  set (s1 := x :: r1) in *. set (s2 := y :: r2) in *.
  assert (Aps : aparts s1 s2).
  { intros u v Hx Hy. destruct (emit_plain _ _ _ _ _ _ _ _ _ F1 D1 u Hx) as (h & Hh & <- & <-). destruct (emit_plain _ _ _ _ _ _ _ _ _ F2 D2 v Hy) as (k & Hk & <- & <-). apply Ap; auto. }
  destruct (loop_ok B (length s1 + length s2) A T s1 s2 []) as (acc & El & Ov); [|lia|].
  { left. exists 0, 0, 0, 0, 0, 0. split; [constructor|]. do 3 (split; [lia|]). split; [reflexivity|]. split; auto. split; auto. split; [left; auto|discriminate]. }
  destruct (loop_apart B (length s1 + length s2) A T s1 s2 []) as (acc' & El' & Nz); auto; [split; [constructor|]; exists 0, 0, 0; auto|]. rewrite El in El'. apply Ok_inj in El'. subst acc'.
  assert (Nr : Forall nz (rev acc)) by (apply Forall_rev; exact Nz).
  destruct (over_laid B A T acc Ov) as (ps & L & Eb). destruct (fill_ok orig B A T LB o Fa true Edge 0 0 (rev acc) ps L (fun _ => eq_refl) 0 ltac:(lia)) as (out & Fb & Fs & W). rewrite (seg_nil A 0 0) in Fb, Fs by lia. cbn [concat app] in Fb, Fs.
  destruct (laid_parts _ _ _ _ _ _ _ _ _ L) as [P1 P2]. rewrite seg_all in P1, P2. pose proof (laid_clean _ _ _ _ _ _ _ _ _ L Nr) as Cl.
  exists ps. unfold bases in Eb. rewrite Eb, P1, P2. do 3 (split; auto). split.
  { intros pre p post Ep Op. destruct (laid_bounded _ _ _ _ _ _ _ _ _ L) as [Bd _]. destruct (Bd pre p post Ep Op) as [[B1|(_ & B1)] B2]; split; auto. }
  split. { clear - Cl. induction ps as [|p ps IH]; constructor; cbn [filter] in Cl; destruct (is_clash p); try discriminate; auto. }
  pose proof (written_clean _ _ _ _ W Cl) as Eo. pose proof (written_short _ _ _ _ W Cl) as Sh. rewrite P1, P2, (lines_concat _ _ LA), (lines_concat _ _ LT) in Sh.
  assert (Dm : do_merge o B A T s1 s2 = Ok (out, 0)).
  { unfold do_merge. rewrite El. cbn [bindr]. change (match m_style o with StyleMerge => _ | StyleDiff3 => _ | StyleZdiff3 => _ end) with (styled o A T (rev acc)). rewrite styled_nz by auto. cbn [bindr]. rewrite (favour_nz _ _ Nr) in *. unfold fill_size, fill_bytes. rewrite Fs. cbn [bindr]. replace (INT_MAX <? zlen out) with false by (symmetry; apply Z.ltb_ge; unfold zlen, INT_MAX; lia). rewrite Fb. cbn [bindr]. unfold zlen at 1. rewrite Z.eqb_refl. do 2 f_equal.
    clear - Nr. induction Nr as [|m ms N _ IH]; [reflexivity|]. cbn [filter]. rewrite (nzb m N). exact IH. }
  rewrite <- Eo. exact Dm.
Qed.
(** A merge without conflicts does not depend on which side is which. *)
Lemma script_empty mn x y p q r : script_of mn x y = Ok (p, q, r) -> in_memory x -> in_memory y -> r = [] -> x = y.
Proof.
  intros E Mx My ->. destruct (script_spec mn x y (mem_small _ _ Mx My)) as (l1 & l2 & scr & E' & L1 & L2 & Sc). rewrite E in E'. apply Ok_inj in E'. injection E' as <- <- <-. inversion Sc; subst. rewrite <- (lines_concat _ _ L1), <- (lines_concat _ _ L2). reflexivity.
Qed.
Lemma lines_at_part (l : list (list Z)) i n x s : lines_of s l -> lines_at l i n = Ok x -> in_memory s -> in_memory (concat x).
Proof.
  intros L E M. unfold lines_at in E. destruct (_ && _) eqn:C; try discriminate. apply Ok_inj in E. apply andb_true_iff in C. destruct C as [C C3]. apply andb_true_iff in C. destruct C as [C1 C2]. apply Z.leb_le in C1, C2, C3.
  pose proof (lines_at_seg l i n C1 C2) as Es. unfold zlen in Es. specialize (Es C3). unfold lines_at in Es. rewrite (proj2 (Z.leb_le _ _) C1), (proj2 (Z.leb_le _ _) C2), (proj2 (Z.leb_le _ _) C3) in Es. cbn [andb] in Es. apply Ok_inj in Es. rewrite Es in E. subst x.
  pose proof (seg_bytes l i (i + n)) as Sb. rewrite (lines_concat _ _ L) in Sb. unfold in_memory in *. lia.
Qed.
Theorem C59_symmetric o orig ours theirs out : in_memory orig -> in_memory ours -> in_memory theirs -> m_favor o = 0 -> xdl_merge o orig ours theirs = Ok (out, 0) -> xdl_merge o orig theirs ours = Ok (out, 0).
Proof.
  intros M0 M1 M2 Fa E. unfold xdl_merge in *. destruct (script_spec (m_minimal o) orig ours (mem_small _ _ M0 M1)) as (B & A & s1 & E1 & LB & LA & Sc1). destruct (script_spec (m_minimal o) orig theirs (mem_small _ _ M0 M2)) as (B' & T & s2 & E2 & LB' & LT & Sc2).
  rewrite (lines_fun _ _ _ LB' LB) in *. clear B' LB'. rewrite E1 in *. cbn [bindr] in *. rewrite E2 in *. cbn [bindr] in *.
  destruct s1 as [|x r1].
  { destruct s2 as [|y r2]; [|exact E]. inversion Sc1; subst. inversion Sc2; subst. rewrite <- (lines_concat _ _ LA), (lines_concat _ _ LT). exact E. }
  destruct s2 as [|y r2]; [exact E|]. set (s1 := x :: r1) in *. set (s2 := y :: r2) in *.
  pose proof (scripted_fol _ _ _ _ _ Sc1 [] [] eq_refl eq_refl) as F1. pose proof (scripted_fol _ _ _ _ _ Sc2 [] [] eq_refl eq_refl) as F2. cbn [app] in F1, F2. change (Z.of_nat 0) with 0 in *.
  destruct (loop_ok B (length s1 + length s2) A T s1 s2 []) as (acc & El & Ov); [|lia|].
  { left. exists 0, 0, 0, 0, 0, 0. split; [constructor|]. do 3 (split; [lia|]). split; [reflexivity|]. split; auto. split; auto. split; [left; auto|discriminate]. }
  unfold do_merge in E. rewrite El in E. cbn [bindr] in E. change (match m_style o with StyleMerge => _ | StyleDiff3 => _ | StyleZdiff3 => _ end) with (styled o A T (rev acc)) in E.
  destruct (styled o A T (rev acc)) as [ms| | |] eqn:Es; try discriminate. cbn [bindr] in E. rewrite Fa, favour_0 in E. destruct (fill_size o B A T ms) as [sz| | |] eqn:Ez; try discriminate. cbn [bindr] in E. destruct (Z.ltb_spec INT_MAX sz) as [|Le]; try discriminate. destruct (fill_bytes o B A T ms) as [w| | |] eqn:Ew; try discriminate. cbn [bindr] in E. destruct (Z.eqb_spec (Z.of_nat (length w)) sz) as [El'|]; try discriminate. apply Ok_inj in E. injection E as -> Ct. apply count_nz in Ct.
  assert (R : exists D ps', laid B A T D Edge 0 0 ms ps' /\ (shows_base o = true -> D = true)).
  { destruct (over_laid B A T acc Ov) as (ps & L & Eb). unfold styled in Es. unfold shows_base. destruct (m_style o).
    - apply laid_weak in L. destruct (refine_ok ours theirs B A T LA LT (mem_small _ _ M1 M2) (m_minimal o) _ _ _ _ _ L) as (ms1 & ps1 & Er & L1 & B1). rewrite Er in Es. cbn [bindr] in Es. destruct (simplify_ok B A T (m_alnum o) _ _ _ _ _ L1) as (ms2 & ps2 & Er2 & L2 & B2). rewrite Er2 in Es. apply Ok_inj in Es. subst ms2. exists false, ps2. split; [auto|discriminate].
    - apply Ok_inj in Es. subst ms. eauto.
    - destruct (refine_zdiff3_ok B A T _ _ _ _ _ L) as (ms1 & ps1 & Er & L1 & B1). rewrite Er in Es. apply Ok_inj in Es. subst ms1. eauto. }
  destruct R as (D & ps & L & HD). assert (Fr : 0 <= m_favor o <= 3) by lia.
  assert (Es' : styled o T A (map sw (rev acc)) = Ok (map sw ms)).
  { apply styled_swap with (A := A); auto. intros i n j k u v p q r Hu Hv Hs Hr. apply (script_empty (m_minimal o) _ _ p q r Hs); auto; [exact (lines_at_part A i n u ours LA Hu M1)|exact (lines_at_part T j k v theirs LT Hv M2)]. }
  assert (El2 : merge_loop T A (length B) (length s2 + length s1) s2 s1 [] = Ok (map sw acc)).
  { pose proof (loop_swap A T (length B) (length s1 + length s2) s1 s2 []) as Q. cbn [map] in Q. rewrite El in Q. rewrite Nat.add_comm. exact Q. }
  pose proof (laid_clean _ _ _ _ _ _ _ _ _ L Ct) as Cl. destruct (swap_clean _ Cl) as [Cl2 Eo2].
  destruct (fill_ok orig B A T LB o Fr D Edge 0 0 ms ps L HD 0 ltac:(lia)) as (out1 & Fb1 & Fs1 & W1). destruct (fill_ok orig B T A LB o Fr D Edge 0 0 (map sw ms) (map swp ps) (laid_swap _ _ _ _ _ _ _ _ _ L) HD 0 ltac:(lia)) as (out2 & Fb2 & Fs2 & W2).
  rewrite (seg_nil A 0 0) in Fb1, Fs1 by lia. rewrite (seg_nil T 0 0) in Fb2, Fs2 by lia. cbn [concat app] in Fb1, Fs1, Fb2, Fs2. rewrite Fa, favour_0 in Fb1, Fs1, Fb2, Fs2.
  pose proof (written_clean _ _ _ _ W1 Cl) as O1. pose proof (written_clean _ _ _ _ W2 Cl2) as O2. rewrite Eo2, <- O1 in O2. subst out2. unfold fill_bytes in Ew. rewrite Fb1 in Ew. apply Ok_inj in Ew. subst out1. unfold fill_size in Ez. rewrite Fs1 in Ez. apply Ok_inj in Ez. subst sz.
  unfold s2 at 1, s1 at 1. fold s1 s2. unfold do_merge. rewrite El2. cbn [bindr]. change (match m_style o with StyleMerge => _ | StyleDiff3 => _ | StyleZdiff3 => _ end) with (styled o T A (rev (map sw acc))). rewrite <- map_rev, Es'. cbn [bindr]. rewrite Fa, favour_0. unfold fill_size, fill_bytes. rewrite Fs2. cbn [bindr]. replace (INT_MAX <? zlen out) with false by (symmetry; apply Z.ltb_ge; exact Le). rewrite Fb2. cbn [bindr]. unfold zlen at 1. rewrite Z.eqb_refl. do 2 f_equal.
  apply sws_nz in Ct. clear - Ct. induction Ct as [|m l N _ IH]; [reflexivity|]. cbn [filter]. rewrite (nzb m N). exact IH.
Qed.
(** ** Results of 2 GB and more *)
Lemma one_change (a b : list Z) s : a <> b -> scripted 0 0 s [a] [b] -> s = [mkxch 0 0 1 1].
Proof.
  intros N Sc. destruct s as [|x r]; [inversion Sc; congruence|]. destruct (scripted_inv _ _ _ _ _ _ Sc) as (K & De & Ad & xs & ys & E1 & E2 & I1 & I2 & C1 & C2 & P & Af & Sc').
  destruct K as [|k K]; [|cbn in E1, E2; congruence]. cbn [app length] in *.
  assert (Nx : xs = [] \/ ys = []). { destruct xs, ys; auto. exfalso. assert (length De = 0 /\ length Ad = 0)%nat by (apply (f_equal (@length _)) in E1; apply (f_equal (@length _)) in E2; rewrite app_length in *; cbn [length] in *; lia). lia. }
  assert (R : r = []).
  { destruct r as [|z r]; auto. exfalso. destruct (scripted_inv _ _ _ _ _ _ Sc') as (K & D3 & A3 & xs3 & ys3 & E3 & E4 & I3 & _). cbn in I1. destruct K as [|k K]; [cbn in I3; lia|]. destruct Nx; subst; discriminate. }
  subst r. assert (Exy : xs = ys) by (inversion Sc'; auto). assert (xs = [] /\ ys = []) as [-> ->] by (destruct Nx; subst; auto).
  rewrite app_nil_r in *. subst De Ad. destruct x; cbn in *. now subst.
Qed.
Definition diff3_opts : mopts := mkmopts StyleDiff3 0 false false None None None 0.
Lemma big_merge a b c : a <> [] -> b <> [] -> c <> [] -> ~ In 10 a -> ~ In 10 b -> ~ In 10 c -> a <> b -> a <> c -> b <> c -> in_memory a -> in_memory b -> in_memory c -> INT_MAX < zlen a + zlen b + zlen c -> xdl_merge diff3_opts a b c = UB.
Proof.
  intros Na Nb Nc La Lb Lc Nab Nac Nbc Ma Mb Mc Big. unfold xdl_merge.
  destruct (script_spec false a b (mem_small _ _ Ma Mb)) as (B & A & s1 & E1 & LB & LA & Sc1). destruct (script_spec false a c (mem_small _ _ Ma Mc)) as (B' & T & s2 & E2 & LB' & LT & Sc2). rewrite (lines_fun _ _ _ LB' LB) in *. clear B' LB'.
  rewrite (lines_fun _ _ _ LB (lines_last a Na La)), (lines_fun _ _ _ LA (lines_last b Nb Lb)), (lines_fun _ _ _ LT (lines_last c Nc Lc)) in *. clear B A T LB LA LT. cbn [m_minimal diff3_opts]. rewrite E1. cbn [bindr]. rewrite E2. cbn [bindr].
  apply one_change in Sc1; auto. apply one_change in Sc2; auto. subst s1 s2. unfold do_merge.
  assert (El : merge_loop [b] [c] 1 2 [mkxch 0 0 1 1] [mkxch 0 0 1 1] [] = Ok [mkm 0 (Some (0, 1)) 0 1 0 1]).
  { replace (merge_loop [b] [c] 1 2 [mkxch 0 0 1 1] [mkxch 0 0 1 1] []) with (if leqb b c then Ok [] else Ok [mkm 0 (Some (0, 1)) 0 1 0 1]) by (cbv -[leqb]; destruct (leqb b c); reflexivity). destruct (leqb b c) eqn:Q; auto. apply leqb_spec in Q. contradiction. }
  cbn [length Nat.add]. rewrite El. cbn [bindr rev app m_style diff3_opts m_favor]. rewrite favour_0. set (m := mkm 0 (Some (0, 1)) 0 1 0 1).
  destruct (conflict_ok a [a] [b] [c] (lines_last a Na La) diff3_opts ltac:(cbn; lia) true 0 0 0 m [a]) as (cr & x & _ & R & _ & Ez); cbn [m m1 m2 n1 n2 mode]; auto; try (unfold zlen; cbn [length]; lia).
  { intros _. exists 0, 1. unfold zlen. cbn [length base]. repeat (split; [reflexivity || lia|]). reflexivity. }
  unfold fill_size. cbn [fill]. unfold chunk. cbn [m mode]. change (0 =? 0) with true. cbn iota. fold m. rewrite Ez. cbn [bindr]. cbn [m m1 n1]. fold m.
  match goal with |- context [copy_size [b] ?i ?n false false] => replace (copy_size [b] i n false false) with (Ok 0) by reflexivity end. cbn [bindr].
  assert (INT_MAX < zlen x); [|match goal with |- context [INT_MAX <? ?s] => replace (INT_MAX <? s) with true; auto; symmetry; apply Z.ltb_lt end; change (concat (seg [b] 0 0)) with (@nil Z); cbn [app]; lia].
  change (seg [b] (m1 m) (m1 m + n1 m)) with [b] in R. change (seg [c] (m2 m) (m2 m + n2 m)) with [c] in R.
  assert (Bl : forall l y, block cr [l] y -> zlen l <= zlen y). { intros l y Hb. unfold zlen. inversion Hb; subst; cbn [concat]; rewrite ?app_nil_r, ?app_length; lia. }
  inversion R as [| | | | | | |? ? ? xo yb zt Fv St B1 B2 B3]; subst; try discriminate. apply Bl in B1, B2, B3. rewrite !zlen_app. unfold zlen at 1 3 5 7. lia.
Qed.
Theorem C58_large_result_refuted : exists orig ours theirs, text orig /\ text ours /\ text theirs /\ xdl_merge diff3_opts orig ours theirs = UB.
Proof.
  assert (HN : exists n, Z.of_nat n = 800 * 2 ^ 20) by (exists (Z.to_nat (800 * 2 ^ 20)); apply Z2Nat.id; lia). destruct HN as (n & HN).
  assert (Tx : forall c, c <> 0 -> text (repeat c n)).
  { intros c Nc. split; [rewrite repeat_length; lia|]. intros Hi. apply Nc. symmetry. apply (repeat_spec n). rewrite <- (firstn_skipn (Z.to_nat 8000) (repeat c n)). apply in_or_app. left. exact Hi. }
  assert (Ne : forall c : Z, repeat c n <> []). { intros c E. apply (f_equal (fun l => Z.of_nat (length l))) in E. rewrite repeat_length in E. cbn [length] in E. lia. }
  assert (Nl : forall c, c <> 10 -> ~ In 10 (repeat c n)). { intros c Nc Hi. apply repeat_spec in Hi. congruence. }
  assert (Nq : forall c d : Z, c <> d -> repeat c n <> repeat d n).
  { intros c d Ncd E. specialize (Ne c). destruct n as [|k]; [now destruct Ne|]. cbn in E. injection E as E _. contradiction. }
  exists (repeat 97 n), (repeat 98 n), (repeat 99 n). do 3 (split; [apply Tx; lia|]).
  apply big_merge; try (apply Ne); try (apply Nl; lia); try (apply Nq; lia); try (apply text_mem, Tx; lia). unfold zlen. rewrite !repeat_length, HN. unfold INT_MAX. lia.
Qed.

(** ** Examples *)
Definition ln (c : Z) : list Z := [c; 10].
Definition merge_opts : mopts := mkmopts StyleMerge 0 false false (Some [111]) (Some [116]) (Some [98]) 0.
(** Base a b c; ours a B c; theirs a X c: a conflict in the middle, in three styles; and a clean merge with a changed mode. *)
Example C58_example :
  xdl_merge merge_opts (ln 97 ++ ln 98 ++ ln 99) (ln 97 ++ ln 66 ++ ln 99) (ln 97 ++ ln 88 ++ ln 99) =
    Ok (ln 97 ++ repeat 60 7 ++ [32; 111; 10] ++ ln 66 ++ repeat 61 7 ++ [10] ++ ln 88 ++ repeat 62 7 ++ [32; 116; 10] ++ ln 99, 1) /\
  xdl_merge (mkmopts StyleDiff3 0 false false (Some [111]) (Some [116]) (Some [98]) 3) (ln 97 ++ ln 98 ++ ln 99) (ln 97 ++ ln 66 ++ ln 99) (ln 97 ++ ln 88 ++ ln 99) =
    Ok (ln 97 ++ repeat 60 3 ++ [32; 111; 10] ++ ln 66 ++ repeat 124 3 ++ [32; 98; 10] ++ ln 98 ++ repeat 61 3 ++ [10] ++ ln 88 ++ repeat 62 3 ++ [32; 116; 10] ++ ln 99, 1) /\
  xdl_merge (mkmopts StyleMerge 3 false false None None None 0) (ln 97 ++ ln 98 ++ ln 99) (ln 97 ++ ln 66 ++ ln 99) (ln 97 ++ ln 88 ++ ln 99) = Ok (ln 97 ++ ln 66 ++ ln 88 ++ ln 99, 0) /\
  merge_file merge_opts (Some (mkin 33188 (ln 97 ++ ln 98 ++ ln 99 ++ ln 100))) (mkin 33261 (ln 97 ++ ln 66 ++ ln 99 ++ ln 100)) (mkin 33188 (ln 97 ++ ln 98 ++ ln 99 ++ ln 68)) = Ok (mkres true 33261 (Some (ln 97 ++ ln 66 ++ ln 99 ++ ln 68))).
Proof. vm_compute. auto. Qed.
Example C59_example : exists hs1 hs2, let orig := ln 97 ++ ln 98 ++ ln 99 ++ ln 100 in let ours := ln 97 ++ ln 66 ++ ln 99 ++ ln 100 in let theirs := ln 97 ++ ln 98 ++ ln 99 ++ ln 68 in
  diff (fun _ _ _ _ => true) (mkopts 0 0 false false) orig ours = Ok hs1 /\ diff (fun _ _ _ _ => true) (mkopts 0 0 false false) orig theirs = Ok hs2 /\ map (fun h => (from h, old_lines h)) hs1 = [(1, 1)] /\ map (fun h => (from h, old_lines h)) hs2 = [(3, 1)] /\
  xdl_merge merge_opts orig ours theirs = Ok (ln 97 ++ ln 66 ++ ln 99 ++ ln 68, 0).
Proof. do 2 eexists. cbv zeta. split; [vm_compute; reflexivity|]. split; [vm_compute; reflexivity|]. vm_compute. auto. Qed.
(** Adjacent changes conflict. *)
Example C58_adjacent : exists out, xdl_merge merge_opts (ln 97 ++ ln 98) (ln 65 ++ ln 98) (ln 97 ++ ln 66) = Ok (out, 1).
Proof. eexists. vm_compute. reflexivity. Qed.

Print Assumptions C58_merge_is_truthful_partial.
Print Assumptions C58_merge_file_partial.
Print Assumptions C58_binary.
Print Assumptions C58_large_result_refuted.
Print Assumptions C59_unchanged.
Print Assumptions C59_same_change.
Print Assumptions C59_apart_merges.
Print Assumptions C59_symmetric.
