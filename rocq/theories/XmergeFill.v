(** Merging: from the regions to the text. *)
From Verif Require Import Base CStr Str ApplyModel ApplySpec ApplyProofs ReflogProofs XdiffModel XdiffProofs XdiffSpec XdiffMain XdiffEmit XdiffUse XmergeModel XmergeSpec XmergeProofs XmergeLoop XmergeMain.
Local Open Scope Z_scope.

Section Laid.
Variables (B A T : list (list Z)).
Definition bases (ps : list piece) := flat_map base_part ps.
Inductive piece_of (D : bool) (m : xdmerge) : piece -> Prop :=
| po_clash b : mode m = 0 -> (D = true -> exists i0 c0, base m = Some (i0, c0) /\ 0 <= i0 /\ 0 <= c0 /\ i0 + c0 <= zlen B /\ b = seg B i0 (i0 + c0)) ->
    piece_of D m (Clash b (seg A (m1 m) (m1 m + n1 m)) (seg T (m2 m) (m2 m + n2 m)))
| po_ours : mode m = 1 -> piece_of D m (Ours (seg T (m2 m) (m2 m + n2 m)) (seg A (m1 m) (m1 m + n1 m)))
| po_theirs : mode m = 2 -> piece_of D m (Theirs (seg A (m1 m) (m1 m + n1 m)) (seg T (m2 m) (m2 m + n2 m)))
| po_agreed b : mode m = 4 -> seg A (m1 m) (m1 m + n1 m) = seg T (m2 m) (m2 m + n2 m) -> piece_of D m (Agreed b (seg A (m1 m) (m1 m + n1 m))).
Inductive laid (D : bool) : side -> Z -> Z -> list xdmerge -> list piece -> Prop :=
| la_nil lf e1 e2 b : 0 <= e1 <= zlen A -> 0 <= e2 <= zlen T -> seg A e1 (zlen A) = seg T e2 (zlen T) -> gap_ok lf Edge b (seg A e1 (zlen A)) -> laid D lf e1 e2 [] [Agreed b (seg A e1 (zlen A))]
| la_cons lf e1 e2 m ms b P ps : 0 <= e1 <= m1 m -> 0 <= e2 <= m2 m -> 0 <= n1 m -> 0 <= n2 m -> seg A e1 (m1 m) = seg T e2 (m2 m) -> gap_ok lf (side_of m) b (seg A e1 (m1 m)) -> piece_of D m P ->
    laid D (side_of m) (m1 m + n1 m) (m2 m + n2 m) ms ps -> laid D lf e1 e2 (m :: ms) (Agreed b (seg A e1 (m1 m)) :: P :: ps).
Lemma laid_le D lf e1 e2 ms ps : laid D lf e1 e2 ms ps -> 0 <= e1 <= zlen A /\ 0 <= e2 <= zlen T.
Proof. induction 1; [auto|lia]. Qed.
Lemma laid_weak D lf e1 e2 ms ps : laid D lf e1 e2 ms ps -> laid false lf e1 e2 ms ps.
Proof. induction 1 as [|lf e1 e2 m ms b P ps H1 H2 H3 H4 E G Po _ IH]; constructor; auto. inversion Po; subst; econstructor; auto; discriminate. Qed.
Lemma laid_parts D lf e1 e2 ms ps : laid D lf e1 e2 ms ps -> flat_map ours_part ps = seg A e1 (zlen A) /\ flat_map theirs_part ps = seg T e2 (zlen T).
Proof.
  induction 1 as [lf e1 e2 b H1 H2 E G|lf e1 e2 m ms b P ps H1 H2 H3 H4 E G Po L [IH1 IH2]]; cbn [flat_map ours_part theirs_part].
  - rewrite !app_nil_r. auto.
  - pose proof (laid_le _ _ _ _ _ _ L). assert (O' : ours_part P = seg A (m1 m) (m1 m + n1 m) /\ theirs_part P = seg T (m2 m) (m2 m + n2 m)) by (inversion Po; subst; cbn; auto).
    destruct O' as [-> ->]. rewrite IH1, IH2. split; [|rewrite E]; rewrite !seg_app by lia; auto.
Qed.
Lemma gap_pre lf rt b0 b l0 l : gap_ok Soft rt b l -> (lf = Hard -> opens b0 l0) -> gap_ok lf rt (b0 ++ b) (l0 ++ l).
Proof. intros [_ G] Op. split; intros E; [left; apply opens_app; auto|]. destruct (G E) as [C|(C & _)]; [left; now apply closes_app|discriminate]. Qed.
(** More lines before the first gap. *)
Lemma laid_pre D e1 e2 ms ps lf e1' e2' b0 : laid D Soft e1 e2 ms ps -> 0 <= e1' <= e1 -> 0 <= e2' <= e2 -> seg A e1' e1 = seg T e2' e2 -> (lf = Hard -> opens b0 (seg A e1' e1)) -> exists ps', laid D lf e1' e2' ms ps' /\ bases ps' = b0 ++ bases ps.
Proof.
  intros H H1 H2 E Op. pose proof (laid_le _ _ _ _ _ _ H) as [L1 L2]. inversion H as [? ? ? b ? ? E0 G|? ? ? m ms' b P ps' G1 G2 G3 G4 E0 G Po L]; subst.
  - eexists. split; [apply la_nil with (b := b0 ++ b); try lia; [rewrite <- (seg_app A e1' e1), <- (seg_app T e2' e2), E, E0 by lia; auto|rewrite <- (seg_app A e1' e1) by lia; now apply gap_pre]|unfold bases; cbn [flat_map base_part]; now rewrite <- !app_assoc].
  - eexists. split; [apply la_cons with (b := b0 ++ b); eauto; try lia; [rewrite <- (seg_app A e1' e1), <- (seg_app T e2' e2), E, E0 by lia; auto|rewrite <- (seg_app A e1' e1) by lia; now apply gap_pre]|unfold bases; cbn [flat_map base_part]; now rewrite <- !app_assoc].
Qed.
(** A change of one side has a line that all three have before and after it, or is where the texts start or end. *)
Definition bounded (lf : side) (ps : list piece) : Prop := forall pre p post, ps = pre ++ p :: post -> one_sided p ->
  ((exists pre' k b l, pre = pre' ++ [Agreed (b ++ [k]) (l ++ [k])]) \/ (lf = Edge /\ no_lines pre)) /\ ((exists k b l post', post = Agreed (k :: b) (k :: l) :: post') \/ no_lines post).
Lemma laid_bounded D lf e1 e2 ms ps : laid D lf e1 e2 ms ps -> bounded lf ps /\ (lf = Hard -> (exists k b l post', ps = Agreed (k :: b) (k :: l) :: post') \/ no_lines ps).
Proof.
  induction 1 as [lf e1 e2 b H1 H2 E G|lf e1 e2 m ms b P ps H1 H2 H3 H4 E [G1 G2] Po L [IH1 IH2]].
  - split.
    + intros pre p post Ep Op. destruct pre as [|q [|? ?]]; try discriminate. injection Ep as <- <-. destruct Op.
    + intros Hd. destruct G as [G _]. destruct (G Hd) as [(k & b' & l' & -> & ->)|(_ & -> & ->)]; [left; eauto|right]. unfold no_lines. cbn. auto.
  - split.
    + intros pre p post Ep Op. destruct pre as [|q pre]; [injection Ep as <- <-; destruct Op|]. injection Ep as <- Ep. destruct pre as [|q pre].
      * injection Ep as <- <-. assert (Hd : side_of m = Hard) by (unfold side_of; inversion Po as [? M ?|M|M|? M ?]; subst; cbn [one_sided] in Op; try contradiction; rewrite M; reflexivity). split.
        -- destruct (G2 Hd) as [(k & b' & l' & -> & ->)|(Ed & -> & ->)]; [left; exists [], k, b', l'; reflexivity|right]. split; auto. unfold no_lines. cbn. auto.
        -- auto.
      * injection Ep as <- Ep. destruct (IH1 pre p post Ep Op) as [[(pre' & k & b' & l' & ->)|(Ed & _)] I2]; [|now destruct (side_not_edge m)]. split; auto. left. exists (Agreed b (seg A e1 (m1 m)) :: P :: pre'), k, b', l'. reflexivity.
    + intros Hd. destruct (G1 Hd) as [(k & b' & l' & -> & ->)|(Ed & _)]; [left; eauto|now destruct (side_not_edge m)].
Qed.
(** ** The regions of the loop *)
Lemma built_laid acc e0 e1 e2 : built B A T acc e0 e1 e2 -> forall ms ps, laid true (side_acc acc) e1 e2 ms ps -> e0 <= zlen B -> bases ps = seg B e0 (zlen B) -> exists ps', laid true Edge 0 0 (rev acc ++ ms) ps' /\ bases ps' = B.
Proof.
  induction 1 as [|m r i0 c0 e0 e1 e2 f0 f1 f2 H IH Eb H0 H1 H2 Hs Hc Hn1 Hn2 Tk Gp F0 F1 F2]; intros ms ps L Hl E.
  - exists ps. split; auto. rewrite E. apply seg_all.
  - pose proof (built_pos _ _ _ _ _ _ _ H) as (P0 & P1 & P2). subst f0 f1 f2. cbn [rev]. rewrite <- app_assoc. cbn [app].
    assert (Po : exists P, piece_of true m P /\ base_part P = seg B i0 (i0 + c0)).
    { destruct Tk as [M|[[M Tk]|[M Tk]]].
      - eexists. split; [apply po_clash with (b := seg B i0 (i0 + c0)); auto|reflexivity]. intros _. exists i0, c0. repeat (split; auto); lia.
      - eexists. split; [now apply po_ours|exact Tk].
      - eexists. split; [now apply po_theirs|exact Tk]. }
    destruct Po as (P & Po & Eb'). apply (IH (m :: ms) (Agreed (seg B e0 i0) (seg A e1 (m1 m)) :: P :: ps)); [|lia|].
    + apply la_cons; auto; lia.
    + unfold bases in *. cbn [flat_map base_part]. rewrite Eb', E, !seg_app by lia. reflexivity.
Qed.
Lemma over_laid acc : over B A T acc -> exists ps, laid true Edge 0 0 (rev acc) ps /\ bases ps = B.
Proof.
  intros (e0 & e1 & e2 & H & H0 & H1 & H2 & E & G). pose proof (built_pos _ _ _ _ _ _ _ H) as (P0 & P1 & P2).
  destruct (built_laid acc e0 e1 e2 H [] [Agreed (seg B e0 (zlen B)) (seg A e1 (zlen A))]) as (ps & L & Eb); auto.
  - apply la_nil; auto; lia.
  - unfold bases. cbn. apply app_nil_r.
  - rewrite app_nil_r in L. eauto.
Qed.
(** ** Simplifying conflicts *)
Lemma simplify_from_ok al rest : forall m lf e1 e2 ps, laid false lf e1 e2 (m :: rest) ps -> exists ms' ps', simplify_from al A m rest = Ok ms' /\ laid false lf e1 e2 ms' ps' /\ bases ps' = bases ps.
Proof.
  induction rest as [|n r IH]; intros m lf e1 e2 ps L; cbn [simplify_from]; [eauto|].
  inversion L as [|? ? ? ? ? b P ps1 G1 G2 G3 G4 Eg Gp Po L']; subst. inversion L' as [|? ? ? ? ? b' P' ps2 K1 K2 K3 K4 Kg Kp Po' L'']; subst. pose proof (laid_le _ _ _ _ _ _ L'') as [W1 W2].
  assert (Ap : exists x, (if negb (mode m =? 0) || negb (mode n =? 0) then Ok true else if 3 <? m1 n - (m1 m + n1 m) then (if al then lines_contain_alnum A (m1 m + n1 m) (m1 n - (m1 m + n1 m)) else Ok true) else Ok false) = Ok x /\ (x = false -> mode m = 0 /\ mode n = 0)).
  { destruct (Z.eqb_spec (mode m) 0), (Z.eqb_spec (mode n) 0); cbn [negb orb]; try (eexists; split; [reflexivity|discriminate]). destruct (3 <? _); [|eauto]. destruct al; [|eauto]. unfold lines_contain_alnum. rewrite lines_at_seg by lia. cbn [bindr]. eauto. }
  destruct Ap as ([] & -> & Hx); cbn [bindr].
  - destruct (IH n _ _ _ _ L') as (ms' & ps' & -> & L2 & E2). cbn [bindr]. eexists _, (Agreed b _ :: P :: ps'). split; [reflexivity|]. split; [constructor; eauto|]. unfold bases in *. cbn [flat_map]. now rewrite E2.
  - destruct (Hx eq_refl) as [Mm Mn]. inversion Po as [bm ? ?| | |]; subst; try congruence. inversion Po' as [bn ? ?| | |]; subst; try congruence.
    assert (Sd : side_of (merge_two m n) = side_of m) by reflexivity. assert (Sn : side_of n = side_of m) by (unfold side_of; now rewrite Mm, Mn).
    destruct (IH (merge_two m n) lf e1 e2 (Agreed b (seg A e1 (m1 m)) :: Clash (bm ++ b' ++ bn) (seg A (m1 m) (m1 n + n1 n)) (seg T (m2 m) (m2 n + n2 n)) :: ps2)) as (ms' & ps' & E & L2 & E2).
    + apply (la_cons false lf e1 e2 (merge_two m n)); rewrite ?Sd; unfold merge_two; cbn [m1 m2 n1 n2]; auto; try lia.
      * replace (seg A (m1 m) (m1 n + n1 n)) with (seg A (m1 m) (m1 m + (m1 n + n1 n - m1 m))) by (f_equal; lia). replace (seg T (m2 m) (m2 n + n2 n)) with (seg T (m2 m) (m2 m + (m2 n + n2 n - m2 m))) by (f_equal; lia).
        apply (po_clash false (mkm (mode m) (base m) (m1 m) (m1 n + n1 n - m1 m) (m2 m) (m2 n + n2 n - m2 m)) (bm ++ b' ++ bn)); cbn [mode]; auto; discriminate.
      * replace (m1 m + (m1 n + n1 n - m1 m)) with (m1 n + n1 n) by lia. replace (m2 m + (m2 n + n2 n - m2 m)) with (m2 n + n2 n) by lia. rewrite <- Sn. exact L''.
    + exists ms', ps'. split; auto. split; auto. rewrite E2. unfold bases. cbn [flat_map base_part]. now rewrite !app_assoc.
Qed.
Lemma simplify_ok al ms lf e1 e2 ps : laid false lf e1 e2 ms ps -> exists ms' ps', simplify al A ms = Ok ms' /\ laid false lf e1 e2 ms' ps' /\ bases ps' = bases ps.
Proof. destruct ms as [|m r]; intros L; [cbn; eauto|]. now apply simplify_from_ok. Qed.
(** ** zdiff3 *)
Lemma one_line (l : list (list Z)) i : 0 <= i -> i + 1 <= zlen l -> exists x, seg l i (i + 1) = [x].
Proof. intros H K. pose proof (seg_len l i (i + 1)) as L. destruct (seg l i (i + 1)) as [|x [|y r]]; unfold zlen in *; cbn [length] in *; try lia. eauto. Qed.
Lemma cmp_one x y : forallb (fun p => recmatch (fst p) (snd p)) (combine [x] [y]) = true -> x = y.
Proof. cbn. rewrite andb_true_r. unfold recmatch. apply leqb_spec. Qed.
Lemma drop_front_ok fuel : forall m, 0 <= m1 m -> 0 <= m2 m -> 0 <= n1 m -> 0 <= n2 m -> m1 m + n1 m <= zlen A -> m2 m + n2 m <= zlen T -> n1 m <= Z.of_nat fuel ->
  exists k, drop_front fuel A T m = Ok (mkm (mode m) (base m) (m1 m + k) (n1 m - k) (m2 m + k) (n2 m - k)) /\ 0 <= k <= n1 m /\ k <= n2 m /\ seg A (m1 m) (m1 m + k) = seg T (m2 m) (m2 m + k).
Proof.
  induction fuel as [|f IH]; intros m H1 H2 H3 H4 H5 H6 Hf; cbn [drop_front].
  - replace (n1 m =? 0) with true by (symmetry; apply Z.eqb_eq; lia). cbn [orb]. exists 0. split; [destruct m; cbn; f_equal; f_equal; lia|]. do 2 (split; [lia|]). now rewrite !seg_nil by lia.
  - assert (Stop : exists k, Ok m = Ok (mkm (mode m) (base m) (m1 m + k) (n1 m - k) (m2 m + k) (n2 m - k)) /\ 0 <= k <= n1 m /\ k <= n2 m /\ seg A (m1 m) (m1 m + k) = seg T (m2 m) (m2 m + k)).
    { exists 0. split; [destruct m; cbn; f_equal; f_equal; lia|]. do 2 (split; [lia|]). now rewrite !seg_nil by lia. }
    destruct (Z.eqb_spec (n1 m) 0), (Z.eqb_spec (n2 m) 0); cbn [orb]; auto. rewrite !lines_at_seg by lia. cbn [bindr].
    destruct (one_line A (m1 m)) as (x & Ex); [lia|lia|]. destruct (one_line T (m2 m)) as (y & Ey); [lia|lia|]. rewrite Ex, Ey. destruct (forallb _ _) eqn:C; auto. apply cmp_one in C. subst y.
    destruct (IH (mkm (mode m) (base m) (m1 m + 1) (n1 m - 1) (m2 m + 1) (n2 m - 1))) as (k & E & K1 & K2 & K3); cbn [m1 m2 n1 n2 mode base] in *; try lia.
    exists (k + 1). split; [rewrite E; do 2 f_equal; lia|]. do 2 (split; [lia|]). rewrite <- (seg_app A (m1 m) (m1 m + 1)), <- (seg_app T (m2 m) (m2 m + 1)), Ex, Ey by lia. f_equal. replace (m1 m + (k + 1)) with (m1 m + 1 + k) by lia. replace (m2 m + (k + 1)) with (m2 m + 1 + k) by lia. exact K3.
Qed.
Lemma drop_back_ok fuel : forall m, 0 <= m1 m -> 0 <= m2 m -> 0 <= n1 m -> 0 <= n2 m -> m1 m + n1 m <= zlen A -> m2 m + n2 m <= zlen T -> n1 m <= Z.of_nat fuel ->
  exists k, drop_back fuel A T m = Ok (mkm (mode m) (base m) (m1 m) (n1 m - k) (m2 m) (n2 m - k)) /\ 0 <= k <= n1 m /\ k <= n2 m /\ seg A (m1 m + n1 m - k) (m1 m + n1 m) = seg T (m2 m + n2 m - k) (m2 m + n2 m).
Proof.
  induction fuel as [|f IH]; intros m H1 H2 H3 H4 H5 H6 Hf; cbn [drop_back].
  - replace (n1 m =? 0) with true by (symmetry; apply Z.eqb_eq; lia). cbn [orb]. exists 0. split; [destruct m; cbn; f_equal; f_equal; lia|]. do 2 (split; [lia|]). now rewrite !seg_nil by lia.
  - assert (Stop : exists k, Ok m = Ok (mkm (mode m) (base m) (m1 m) (n1 m - k) (m2 m) (n2 m - k)) /\ 0 <= k <= n1 m /\ k <= n2 m /\ seg A (m1 m + n1 m - k) (m1 m + n1 m) = seg T (m2 m + n2 m - k) (m2 m + n2 m)).
    { exists 0. split; [destruct m; cbn; f_equal; f_equal; lia|]. do 2 (split; [lia|]). now rewrite !seg_nil by lia. }
    destruct (Z.eqb_spec (n1 m) 0), (Z.eqb_spec (n2 m) 0); cbn [orb]; auto. rewrite !lines_at_seg by lia. cbn [bindr].
    destruct (one_line A (m1 m + n1 m - 1)) as (x & Ex); [lia|lia|]. destruct (one_line T (m2 m + n2 m - 1)) as (y & Ey); [lia|lia|]. rewrite Ex, Ey. destruct (forallb _ _) eqn:C; auto. apply cmp_one in C. subst y.
    destruct (IH (mkm (mode m) (base m) (m1 m) (n1 m - 1) (m2 m) (n2 m - 1))) as (k & E & K1 & K2 & K3); cbn [m1 m2 n1 n2 mode base] in *; try lia.
    exists (k + 1). split; [rewrite E; do 2 f_equal; lia|]. do 2 (split; [lia|]). rewrite <- (seg_app A _ (m1 m + n1 m - 1)), <- (seg_app T _ (m2 m + n2 m - 1)) by lia.
    assert (Ex' : seg A (m1 m + n1 m - 1) (m1 m + n1 m) = [x]) by (rewrite <- Ex; f_equal; lia). assert (Ey' : seg T (m2 m + n2 m - 1) (m2 m + n2 m) = [x]) by (rewrite <- Ey; f_equal; lia). rewrite Ex', Ey'. f_equal.
    replace (m1 m + n1 m - (k + 1)) with (m1 m + (n1 m - 1) - k) by lia. replace (m2 m + n2 m - (k + 1)) with (m2 m + (n2 m - 1) - k) by lia. replace (m1 m + n1 m - 1) with (m1 m + (n1 m - 1)) by lia. replace (m2 m + n2 m - 1) with (m2 m + (n2 m - 1)) by lia. exact K3.
Qed.
Lemma refine_zdiff3_ok ms : forall lf e1 e2 ps, laid true lf e1 e2 ms ps -> exists ms' ps', refine_zdiff3 A T ms = Ok ms' /\ laid true lf e1 e2 ms' ps' /\ bases ps' = bases ps.
Proof.
  induction ms as [|m ms IH]; intros lf e1 e2 ps L; [cbn; eauto|]. cbn [refine_zdiff3]. inversion L as [|? ? ? ? ? b P ps1 G1 G2 G3 G4 Eg Gp Po L']; subst. pose proof (laid_le _ _ _ _ _ _ L') as [W1 W2].
  destruct (IH _ _ _ _ L') as (ms' & ps' & E & L2 & E2). rewrite E. clear E.
  destruct (Z.eqb_spec (mode m) 0) as [M|M].
  - destruct (drop_front_ok (length A) m) as (k & -> & K1 & K2 & K3); try lia; [unfold zlen in *; lia|]. cbn [bindr].
    destruct (drop_back_ok (length A) (mkm (mode m) (base m) (m1 m + k) (n1 m - k) (m2 m + k) (n2 m - k))) as (j & -> & J1 & J2 & J3); cbn [m1 m2 n1 n2] in *; try lia; [unfold zlen in *; lia|]. cbn [bindr mode base].
    inversion Po as [bm _ Hb| | |]; subst; try congruence.
    replace (m1 m + k + (n1 m - k) - j) with (m1 m + n1 m - j) in J3 by lia. replace (m1 m + k + (n1 m - k)) with (m1 m + n1 m) in J3 by lia. replace (m2 m + k + (n2 m - k) - j) with (m2 m + n2 m - j) in J3 by lia. replace (m2 m + k + (n2 m - k)) with (m2 m + n2 m) in J3 by lia.
    assert (Sd : side_of m = Soft) by (unfold side_of; rewrite M; reflexivity). rewrite Sd in L2, Gp. destruct (laid_pre true _ _ _ _ Soft (m1 m + n1 m - j) (m2 m + n2 m - j) [] L2) as (ps3 & L3 & E3); try lia; auto; [discriminate|].
    eexists _, _. split; [reflexivity|]. split.
    + apply la_cons with (b := b); cbn [m1 m2 n1 n2 mode base]; try lia.
      * rewrite <- (seg_app A e1 (m1 m)), <- (seg_app T e2 (m2 m)), Eg, K3 by lia. reflexivity.
      * change (side_of _) with (side_of m). rewrite Sd. rewrite <- (seg_app A e1 (m1 m)) by lia. split; [|discriminate]. intros Hd. left. destruct Gp as [Gp _]. destruct (Gp Hd) as [O'|(O' & _)]; [|discriminate]. rewrite <- (app_nil_r b). now apply opens_app.
      * apply po_clash with (b := bm); auto.
      * cbn [m1 m2 n1 n2]. replace (m1 m + k + (n1 m - k - j)) with (m1 m + n1 m - j) by lia. replace (m2 m + k + (n2 m - k - j)) with (m2 m + n2 m - j) by lia. change (side_of _) with (side_of m). rewrite Sd. exact L3.
    + unfold bases in *. cbn [flat_map base_part]. now rewrite E3, E2.
  - cbn [bindr]. eexists _, (Agreed b _ :: P :: ps'). split; [reflexivity|]. split; [constructor; auto|]. unfold bases in *. cbn [flat_map]. now rewrite E2.
Qed.
End Laid.
