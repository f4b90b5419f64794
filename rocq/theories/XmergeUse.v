(** Merging: refining conflicts, writing the result, and all of it. *)
From Verif Require Import Base CStr Str ApplyModel ApplySpec ApplyProofs ReflogProofs XdiffModel XdiffProofs XdiffCompact XdiffSpec XdiffMain XdiffEmit XdiffUse XdiffMyers XdiffSplit XmergeModel XmergeSpec XmergeProofs XmergeLoop XmergeMain XmergeFill.
Local Open Scope Z_scope.

(** ** The scripts *)
Definition small (old new : list Z) : Prop := Z.of_nat (length old + length new) < 2 ^ 63 - 1.
Theorem script_spec mn old new : small old new -> exists l1 l2 scr, script_of mn old new = Ok (l1, l2, scr) /\ lines_of old l1 /\ lines_of new l2 /\ scripted 0 0 scr l1 l2.
Proof.
  intros F. unfold script_of, script_with. destruct (prepared old new) as (l1 & h1 & cf1 & l2 & h2 & cf2 & -> & E2 & L1 & L2 & Lh1 & Lh2 & HK & _). cbn [bindr]. rewrite E2. cbn [bindr].
  set (hr := heur_of (fun _ _ _ _ => true)).
  assert (SP' : forall ha1 ha2 mx, (length ha1 <= length h1)%nat -> (length ha2 <= length h2)%nat -> split_ok (split_of ha1 ha2 (mkenv mx 20 256)) ha1 ha2).
  { intros ha1 ha2 mx Q1 Q2. apply split_of_right. pose proof (lines_count _ _ L1). pose proof (lines_count _ _ L2). unfold small in F. change LINE_MAX with (2 ^ 63 - 1). lia. }
  destruct (do_diff_spec split_of hr (mkopts 0 0 mn false) cf2 h1 h2 SP') as (r1 & r2 & -> & Lr1 & Lr2 & K). cbn [bindr].
  destruct (change_compact_spec false (better1 hr l1) h1 h2 r1 r2) as (r1' & -> & Lr1' & K1); auto. cbn [bindr].
  destruct (change_compact_spec false (better2 hr l2) h2 h1 r2 r1') as (r2' & -> & Lr2' & K2); auto; [congruence|]. cbn [bindr].
  destruct (build_script_spec r1' r2' l1 l2) as (scr & -> & Sc); [congruence|congruence|apply HK; congruence|]. cbn [bindr]. eauto 10.
Qed.
Lemma script_same mn a : exists l, script_of mn a a = Ok (l, l, []) .
Proof.
  unfold script_of, script_with. destruct (prepared a a) as (l1 & h1 & cf1 & l2 & h2 & cf2 & -> & E2 & _ & _ & Lh1 & _ & _ & Same). destruct (Same eq_refl) as [<- <-]. cbn [bindr]. rewrite E2. cbn [bindr].
  rewrite do_diff_same. cbn [bindr]. set (r := repeat false (length h1)). assert (Lr : length r = length h1) by apply repeat_length.
  assert (Kr : kept r h1 = h1) by now apply kept_false.
  assert (C : forall better, change_compact false better h1 r r = Ok r).
  { intros better. destruct (change_compact_spec false better h1 h1 r r Lr Lr eq_refl) as (r' & -> & L' & K'). f_equal. rewrite (kept_all r' h1 L'); [|now rewrite K', Kr]. now rewrite L'. }
  rewrite !C. cbn [bindr]. rewrite C. cbn [bindr]. unfold build_script. rewrite Lr. unfold r. rewrite build_none by lia. cbn [bindr]. eauto.
Qed.
Lemma lines_fun s l k : lines_of s l -> lines_of s k -> l = k.
Proof. intros H K. apply image_of_spec in H. apply image_of_spec in K. congruence. Qed.
Lemma lines_split p : forall s q, lines_of s (p ++ q) -> lines_of (concat p) p /\ lines_of (concat q) q.
Proof.
  induction p as [|x p IH]; intros s q H; cbn [app concat] in *.
  - split; [constructor|]. now rewrite (lines_concat _ _ H).
  - inversion H as [|a N Hn|a s' ls N H']; subst.
    + destruct p; [|discriminate]. destruct q; [|discriminate]. cbn. rewrite app_nil_r. split; [now constructor|constructor].
    + destruct (IH _ _ H') as [H1 H2]. split; auto. rewrite <- app_assoc. now constructor.
Qed.
Lemma lines_seg s l i j : lines_of s l -> 0 <= i <= j -> j <= zlen l -> lines_of (concat (seg l i j)) (seg l i j).
Proof.
  intros H Hi Hj. rewrite <- (seg_all l), <- (seg_app l 0 i), <- (seg_app l i j) in H by lia. apply lines_split in H. destruct H as [_ H]. rewrite <- app_nil_r in H. rewrite app_nil_r in H. destruct (lines_split _ _ _ H) as [H1 _]. exact H1.
Qed.
Lemma seg_bytes (l : list (list Z)) i j : (length (concat (seg l i j)) <= length (concat l))%nat.
Proof.
  unfold seg. rewrite <- (firstn_skipn (Z.to_nat i) l) at 2. rewrite <- (firstn_skipn (Z.to_nat (j - i)) (skipn (Z.to_nat i) l)) at 2. rewrite !concat_app, !app_length. lia.
Qed.

Section Use.
Variables (orig ours theirs : list Z) (B A T : list (list Z)).
Hypothesis (LB : lines_of orig B) (LA : lines_of ours A) (LT : lines_of theirs T) (Sm : small ours theirs).
Variable mn : bool.
Lemma sub_script i j k l : 0 <= i <= j -> j <= zlen A -> 0 <= k <= l -> l <= zlen T -> exists scr, script_of mn (concat (seg A i j)) (concat (seg T k l)) = Ok (seg A i j, seg T k l, scr) /\ scripted 0 0 scr (seg A i j) (seg T k l).
Proof.
  intros H1 H2 H3 H4. destruct (script_spec mn (concat (seg A i j)) (concat (seg T k l))) as (x & y & scr & E & Lx & Ly & Sc).
  - unfold small in *. pose proof (seg_bytes A i j) as Q1. pose proof (seg_bytes T k l) as Q2. rewrite (lines_concat _ _ LA) in Q1. rewrite (lines_concat _ _ LT) in Q2. lia.
  - rewrite (lines_fun _ _ _ Lx (lines_seg _ _ i j LA H1 H2)), (lines_fun _ _ _ Ly (lines_seg _ _ k l LT H3 H4)) in *. eauto.
Qed.
Definition piece_at (a c : Z) (x : xdchange) : xdmerge := mkm 0 None (zi1 x + a) (zc1 x) (zi2 x + c) (zc2 x).
Lemma refine_scr scr : forall a a' c c' p q ms ps, 0 <= a <= a' -> 0 <= c <= c' -> fol (seg A a a') (seg T c c') p q scr -> laid B A T false Soft a' c' ms ps ->
  exists ps', laid B A T false Soft (a + p) (c + q) (map (piece_at a c) scr ++ ms) ps' /\ bases ps' = bases ps.
Proof.
  induction scr as [|x r IH]; intros a a' c c' p q ms ps Ha Hc F L; pose proof (laid_le _ _ _ _ _ _ _ _ _ L) as [W1 W2].
  - inversion F as [? ? P1 P2 D E|]; subst. rewrite !seg_len in * by lia. cbn [map app]. apply (laid_pre B A T false a' c' ms ps Soft (a + p) (c + q) []); auto; try lia; [|discriminate]. rewrite !seg_seg in E by lia. replace (a + (a' - a)) with a' in E by lia. replace (c + (c' - c)) with c' in E by lia. exact E.
  - inversion F as [|? ? ? ? P1 P2 D E G1 G2 _ F']; subst. rewrite !seg_len in * by lia. destruct (nonneg x) as (? & ? & ? & ?). destruct (IH a a' c c' _ _ ms ps Ha Hc F' L) as (ps' & L' & E').
    eexists. split; [cbn [map app]; apply la_cons with (b := []); cbn [piece_at m1 m2 n1 n2]; try lia|].
    + rewrite !seg_seg in E by lia. rewrite !(Z.add_comm _ a), !(Z.add_comm _ c). exact E.
    + split; discriminate.
    + apply po_clash with (b := []); [reflexivity|discriminate].
    + cbn [piece_at m1 m2 n1 n2]. replace (zi1 x + a + zc1 x) with (a + (zi1 x + zc1 x)) by lia. replace (zi2 x + c + zc2 x) with (c + (zi2 x + zc2 x)) by lia. exact L'.
    + unfold bases in *. cbn [flat_map base_part app]. exact E'.
Qed.
Lemma relabel m m' ms lf e1 e2 ps : mode m' = mode m -> m1 m' = m1 m -> n1 m' = n1 m -> m2 m' = m2 m -> n2 m' = n2 m -> laid B A T false lf e1 e2 (m :: ms) ps -> laid B A T false lf e1 e2 (m' :: ms) ps.
Proof.
  intros Em E1 E2 E3 E4 L. assert (Sd : side_of m' = side_of m) by (unfold side_of; now rewrite Em). inversion L as [|? ? ? ? ? b P ps1 G1 G2 G3 G4 Eg Gp Po L']; subst. rewrite <- E1, <- E3 in *. rewrite <- E2, <- E4 in *. rewrite <- Sd in *. apply la_cons; auto.
  inversion Po; subst; rewrite <- ?E1, <- ?E2, <- ?E3, <- ?E4 in *; constructor; try congruence; try discriminate.
Qed.
Lemma refine_one_ok m ms ms' lf e1 e2 b P ps ps' : laid B A T false lf e1 e2 (m :: ms) (Agreed b (seg A e1 (m1 m)) :: P :: ps) -> laid B A T false (side_of m) (m1 m + n1 m) (m2 m + n2 m) ms' ps' -> bases ps' = bases ps ->
  exists l ps2, refine_one (script_of mn) A T m = Ok l /\ laid B A T false lf e1 e2 (l ++ ms') ps2 /\ bases ps2 = bases (Agreed b (seg A e1 (m1 m)) :: P :: ps).
Proof.
  intros L L' E'. inversion L as [|? ? ? ? ? ? ? ? G1 G2 G3 G4 Eg Gp Po L0]; subst. pose proof (laid_le _ _ _ _ _ _ _ _ _ L') as [W1 W2].
  assert (Keep : exists l ps2, Ok [m] = Ok l /\ laid B A T false lf e1 e2 (l ++ ms') ps2 /\ bases ps2 = bases (Agreed b (seg A e1 (m1 m)) :: P :: ps)).
  { exists [m]. eexists. split; [reflexivity|]. split; [cbn [app]; apply la_cons with (b := b); eauto|]. unfold bases in *. cbn [flat_map]. now rewrite E'. }
  unfold refine_one. destruct (Z.eqb_spec (mode m) 0) as [M|M]; cbn [negb]; auto. destruct ((n1 m =? 0) || (n2 m =? 0)); auto. clear Keep.
  rewrite !lines_at_seg by lia. cbn [bindr]. destruct (sub_script (m1 m) (m1 m + n1 m) (m2 m) (m2 m + n2 m)) as (scr & -> & Sc); try lia. cbn [bindr].
  inversion Po as [bm _ _| | |]; subst; try congruence.
  assert (Sd : side_of m = Soft) by (unfold side_of; rewrite M; reflexivity). rewrite Sd in L', Gp.
  pose proof (scripted_fol _ _ _ _ _ Sc [] [] eq_refl eq_refl) as F. cbn [app] in F. change (Z.of_nat 0) with 0 in F.
  destruct scr as [|x r].
  - inversion Sc; subst. eexists. exists (Agreed b (seg A e1 (m1 m)) :: Agreed bm (seg A (m1 m) (m1 m + n1 m)) :: ps'). split; [reflexivity|]. split.
    + cbn [app]. refine (la_cons B A T false lf e1 e2 (mkm 4 (base m) (m1 m) (n1 m) (m2 m) (n2 m)) ms' b _ ps' _ _ _ _ _ _ _ _); cbn [m1 n1 m2 n2]; auto. refine (po_agreed B A T false (mkm 4 (base m) (m1 m) (n1 m) (m2 m) (n2 m)) bm _ _); auto.
    + unfold bases in *. cbn [flat_map base_part]. now rewrite E'.
  - destruct (refine_scr (x :: r) (m1 m) (m1 m + n1 m) (m2 m) (m2 m + n2 m) 0 0 ms' ps') as (ps2 & L2 & E2); auto; try lia. rewrite !Z.add_0_r in L2.
    destruct (laid_pre B A T false _ _ _ _ lf e1 e2 (b ++ bm) L2) as (ps4 & L4 & E4); auto.
    { intros Hd. destruct Gp as [Gp _]. destruct (Gp Hd) as [O'|(O' & _)]; [|discriminate]. rewrite <- (app_nil_r (seg A e1 (m1 m))). now apply opens_app. }
    eexists. exists ps4. split; [reflexivity|]. split.
    + cbn [map app] in *. eapply relabel; [| | | | |exact L4]; reflexivity.
    + unfold bases in *. rewrite E4, E2, E'. cbn [flat_map base_part]. now rewrite <- app_assoc.
Qed.
Lemma refine_ok ms : forall lf e1 e2 ps, laid B A T false lf e1 e2 ms ps -> exists ms' ps', refine_conflicts (script_of mn) A T ms = Ok ms' /\ laid B A T false lf e1 e2 ms' ps' /\ bases ps' = bases ps.
Proof.
  induction ms as [|m ms IH]; intros lf e1 e2 ps L; [cbn; eauto|]. cbn [refine_conflicts]. inversion L as [|? ? ? ? ? b P ps1 G1 G2 G3 G4 Eg Gp Po L']; subst.
  destruct (IH _ _ _ _ L') as (ms' & ps' & E & L2 & E2). destruct (refine_one_ok m ms ms' lf e1 e2 b P ps1 ps' L L2 E2) as (l & ps2 & -> & L3 & E3). cbn [bindr]. rewrite E. cbn [bindr]. eauto.
Qed.

(** ** Writing *)
Variable o : mopts.
Hypothesis (Fav : 0 <= m_favor o <= 3).
Lemma ends_nl_complete l : ends_nl l = true <-> complete l.
Proof.
  destruct l as [|x l]; [split; [discriminate|intros ([|? ?] & E); discriminate]|]. unfold ends_nl. apply render_complete. discriminate.
Qed.
Lemma sizes ls : fold_right (fun (l : list Z) s => Z.of_nat (length l) + s) 0 ls = zlen (concat ls).
Proof. unfold zlen. induction ls as [|l ls IH]; [reflexivity|]. cbn [fold_right concat]. rewrite IH, app_length. lia. Qed.
Lemma copy_plain l i n cr : 0 <= i -> i + n <= zlen l -> copy l i n cr false = Ok (concat (seg l i (i + n))) /\ copy_size l i n cr false = Ok (zlen (concat (seg l i (i + n)))).
Proof.
  intros H K. unfold copy, copy_size. destruct (Z.ltb_spec n 1); [rewrite seg_nil by lia; auto|]. rewrite lines_at_seg by lia. cbn [bindr andb]. rewrite app_nil_r, sizes, Z.add_0_r. auto.
Qed.
Lemma copy_block l i n cr : 0 <= i -> 0 <= n -> i + n <= zlen l -> exists x, copy l i n cr true = Ok x /\ copy_size l i n cr true = Ok (zlen x) /\ block cr (seg l i (i + n)) x.
Proof.
  intros H Hn K. unfold copy, copy_size. destruct (Z.ltb_spec n 1).
  - exists []. rewrite seg_nil by lia. split; auto. split; auto. apply (bl_full cr []). now left.
  - rewrite lines_at_seg by lia. cbn [bindr andb]. set (ls := seg l i (i + n)). assert (N : ls <> []). { intros E. pose proof (seg_len l i (i + n)) as Q. fold ls in Q. rewrite E in Q. unfold zlen in *. cbn in Q. lia. }
    rewrite sizes. assert (Fi : finished ls <-> ends_nl (last ls []) = true).
    { rewrite ends_nl_complete. destruct ls as [|z ls _] using rev_ind; [congruence|]. rewrite last_last. split.
      - intros [E|(r & k & E & C)]; [destruct ls; discriminate|]. apply app_inj_tail in E. destruct E as [_ ->]. exact C.
      - intros C. right. eauto. }
    eexists. split; [reflexivity|]. split.
    + destruct (negb _); [|rewrite app_nil_r; f_equal; lia]. unfold zlen. rewrite app_length, Nat2Z.inj_add. f_equal. f_equal. destruct cr; reflexivity.
    + destruct (ends_nl (last ls [])); cbn [negb]; [rewrite app_nil_r; apply bl_full; tauto|apply bl_cut; rewrite Fi; discriminate].
Qed.
(** The line ends. *)
Lemma crlf_range l : crlf_at l = 0 \/ crlf_at l = 1. Proof. unfold crlf_at, b2z. destruct (_ && _); auto. Qed.
Lemma eol_range l i : 0 <= i -> (i < zlen l \/ zlen l = 0) -> exists c, eol_crlf l i = Ok c /\ -1 <= c <= 1.
Proof.
  intros H K. unfold eol_crlf. fold (zlen l). pose proof (zlen_pos l). destruct (Z.ltb_spec i (zlen l - 1)).
  { rewrite lines_at_seg by lia. cbn [bindr]. destruct (crlf_range (concat (seg l i (i + 1)))) as [-> | ->]; eauto with zarith; eexists; split; eauto; lia. }
  destruct (Z.eqb_spec (zlen l) 0); [eexists; split; eauto; lia|]. rewrite lines_at_seg by lia. cbn [bindr]. destruct (ends_nl _).
  { destruct (crlf_range (concat (seg l i (i + 1)))) as [-> | ->]; eexists; split; eauto; lia. }
  destruct (Z.eqb_spec i 0); [eexists; split; eauto; lia|]. rewrite lines_at_seg by lia. cbn [bindr]. destruct (crlf_range (concat (seg l (i - 1) (i - 1 + 1)))) as [-> | ->]; eexists; split; eauto; lia.
Qed.
Lemma crlf_first l r k : lines_of orig (l :: r) -> complete l -> crlf_at l = k -> 0 < k -> starts_crlf orig.
Proof.
  clear LB LA LT Sm Fav. intros H (a & ->) E P. subst k. unfold crlf_at in P. destruct (1 <? length (a ++ [10%Z]))%nat eqn:L; cbn [andb b2z] in P; [|lia]. destruct (Z.eqb_spec (nth (length (a ++ [10]) - 2) (a ++ [10]) 0) 13) as [E13|]; cbn [b2z] in P; [|lia].
  rewrite app_length in E13, L. cbn [length] in *. apply Nat.ltb_lt in L. destruct a as [|z a _] using rev_ind; [cbn in L; lia|]. rewrite app_length in E13. cbn [length] in E13. rewrite <- app_assoc, app_nth2 in E13 by lia. replace (length a + 1 + 1 - 2 - length a)%nat with O in E13 by lia. cbn in E13. subst z.
  assert (N : ~ In 10 (a ++ [13])). { inversion H as [|b Nb Hn|b s' ls Nb H']; subst; [intros Hi; apply Hn; apply in_or_app; auto|]. apply app_inj_tail in H1. destruct H1 as [-> _]. exact Nb. }
  exists a, (concat r). split; [intros Hi; apply N; apply in_or_app; auto|]. rewrite <- (lines_concat _ _ H). cbn [concat]. rewrite <- !app_assoc. reflexivity.
Qed.
Lemma cr_ok m : 0 <= m1 m <= zlen A -> 0 <= m2 m <= zlen T -> exists cr, cr_needed B A T m = Ok cr /\ (cr = true -> starts_crlf orig).
Proof.
  intros H1 H2. unfold cr_needed. destruct (eol_range A (if m1 m =? 0 then 0 else m1 m - 1)) as (c1 & -> & R1); [destruct (Z.eqb_spec (m1 m) 0); lia|destruct (Z.eqb_spec (m1 m) 0); lia|]. cbn [bindr].
  assert (exists c2, (if c1 =? 0 then Ok c1 else eol_crlf T (if m2 m =? 0 then 0 else m2 m - 1)) = Ok c2 /\ -1 <= c2 <= 1 /\ (c1 = 0 -> c2 = 0)) as (c2 & -> & R2 & Z2).
  { destruct (Z.eqb_spec c1 0); [eauto|]. destruct (eol_range T (if m2 m =? 0 then 0 else m2 m - 1)) as (c2 & -> & R2); [destruct (Z.eqb_spec (m2 m) 0); lia|destruct (Z.eqb_spec (m2 m) 0); lia|]. exists c2. split; auto. split; auto. lia. }
  cbn [bindr]. destruct (Z.eqb_spec c2 0) as [->|N2]; cbn [bindr]; [eexists; split; [reflexivity|discriminate]|].
  destruct (eol_range B 0) as (c3 & E3 & R3); [lia|pose proof (zlen_pos B); lia|]. rewrite E3. cbn [bindr]. eexists. split; [reflexivity|]. destruct (Z.ltb_spec c3 0); [discriminate|]. destruct (Z.eqb_spec c3 0); [discriminate|]. intros _. assert (c3 = 1) by lia. subst c3.
  clear - E3 LB. unfold eol_crlf in E3. fold (zlen B) in E3. destruct B as [|l r]; [discriminate|]. cbn [zlen] in E3. assert (Lz : zlen (l :: r) = 1 + zlen r) by (unfold zlen; cbn [length]; lia). rewrite Lz in E3. pose proof (zlen_pos r).
  rewrite lines_at_seg in E3 by (rewrite ?Lz; lia). assert (S0 : concat (seg (l :: r) 0 (0 + 1)) = l) by (change (concat (seg (l :: r) 0 (0 + 1))) with (l ++ []); apply app_nil_r). cbn [bindr] in E3. rewrite S0 in E3.
  destruct (Z.ltb_spec 0 (1 + zlen r - 1)).
  - apply Ok_inj in E3. apply (crlf_first l r 1); auto; [|lia]. inversion LB as [|? ? ?|a s ls Na Hr]; subst; [unfold zlen in *; cbn [length] in *; lia|]. eexists; reflexivity.
  - replace (1 + zlen r =? 0) with false in E3 by (symmetry; apply Z.eqb_neq; lia). destruct (ends_nl l) eqn:En; [|discriminate]. apply Ok_inj in E3. apply (crlf_first l r 1); auto; [now apply ends_nl_complete|lia].
Qed.
Lemma marker_marks c name cr : marker c (msize o) name cr = marks c o name cr.
Proof. unfold marker, marks, msize, eol. destruct (marker_size o <=? 0); destruct name; reflexivity. Qed.
Lemma marker_len c name cr : 0 <= msize o -> zlen (marker c (msize o) name cr) = msize o + 1 + b2z cr + msz name.
Proof. intros H. unfold zlen, marker, msz. rewrite !app_length, repeat_length. destruct name as [n|], cr; cbn [length b2z]; lia. Qed.
Lemma msize_pos : 0 <= msize o. Proof. unfold msize. destruct (Z.leb_spec (marker_size o) 0); lia. Qed.
Notation bytes_from := (fill (@app Z) [] (conflict_bytes o B A T) copy B A T).
Notation size_from := (fill Z.add 0 (conflict_size o B A T) copy_size B A T).
Lemma zlen_app {X} (a b : list X) : zlen (a ++ b) = zlen a + zlen b. Proof. unfold zlen. rewrite app_length. lia. Qed.
Lemma conflict_ok D e1 e2 i m b : m_favor o = 0 -> (shows_base o = true -> D = true) -> 0 <= i <= e1 -> e1 <= m1 m -> 0 <= e2 <= m2 m -> 0 <= n1 m -> 0 <= n2 m -> m1 m + n1 m <= zlen A -> m2 m + n2 m <= zlen T ->
  mode m = 0 -> (D = true -> exists i0 c0, base m = Some (i0, c0) /\ 0 <= i0 /\ 0 <= c0 /\ i0 + c0 <= zlen B /\ b = seg B i0 (i0 + c0)) ->
  exists cr x, (cr = true -> starts_crlf orig) /\ resolved o cr (Clash b (seg A (m1 m) (m1 m + n1 m)) (seg T (m2 m) (m2 m + n2 m))) x /\
    conflict_bytes o B A T i m = Ok (concat (seg A i (m1 m)) ++ x) /\ conflict_size o B A T i m = Ok (zlen (concat (seg A i (m1 m)) ++ x)).
Proof.
  intros F HD Hi H1 H2 H3 H4 H5 H6 M Hb. unfold conflict_bytes, conflict_size. destruct (cr_ok m) as (cr & -> & Hc); try lia. cbn [bindr].
  destruct (copy_plain A i (m1 m - i) false) as [-> ->]; try lia. replace (i + (m1 m - i)) with (m1 m) by lia. cbn [bindr].
  destruct (copy_block A (m1 m) (n1 m) cr) as (x & -> & -> & Bx); try lia. cbn [bindr].
  destruct (copy_block T (m2 m) (n2 m) cr) as (z & -> & -> & Bz); try lia.
  pose proof msize_pos as Mp. exists cr. destruct (shows_base o) eqn:Sb.
  - destruct (Hb (HD eq_refl)) as (i0 & c0 & -> & I1 & I2 & I3 & ->). destruct (copy_block B i0 c0 cr) as (y & -> & -> & By); try lia. cbn [bindr].
    exists (marks 60 o (name1 o) cr ++ x ++ marks 124 o (name3 o) cr ++ y ++ marks 61 o None cr ++ z ++ marks 62 o (name2 o) cr). split; auto. split.
    + apply rs_diff3; auto. unfold shows_base in Sb. destruct (m_style o); discriminate.
    + rewrite !marker_marks. split; [now rewrite <- !app_assoc|]. rewrite <- !marker_marks, !zlen_app, !marker_len by auto. cbn [msz]. f_equal. lia.
  - cbn [bindr]. exists (marks 60 o (name1 o) cr ++ x ++ marks 61 o None cr ++ z ++ marks 62 o (name2 o) cr). split; auto. split.
    + apply rs_merge; auto. unfold shows_base in Sb. destruct (m_style o); auto; discriminate.
    + rewrite !marker_marks. split; [reflexivity|]. rewrite <- !marker_marks, !zlen_app, !marker_len by auto. cbn [msz]. f_equal. lia.
Qed.
Lemma fill_ok D lf e1 e2 ms ps : laid B A T D lf e1 e2 ms ps -> (shows_base o = true -> D = true) -> forall i, 0 <= i <= e1 ->
  exists out, bytes_from i (map (favour (m_favor o)) ms) = Ok (concat (seg A i e1) ++ out) /\ size_from i (map (favour (m_favor o)) ms) = Ok (zlen (concat (seg A i e1) ++ out)) /\ written o (starts_crlf orig) ps out.
Proof.
  intros L HD. induction L as [lf e1 e2 b H1 H2 E _|lf e1 e2 m ms b P ps H1 H2 H3 H4 E _ Po L IH]; intros i Hi.
  - cbn [map fill]. fold (zlen A). destruct (copy_plain A i (zlen A - i) false) as [-> ->]; try lia. replace (i + (zlen A - i)) with (zlen A) by lia. exists (concat (seg A e1 (zlen A))). rewrite <- concat_app, seg_app by lia. do 2 (split; auto).
    rewrite <- (app_nil_r (concat _)). apply w_cons with (cr := false); [discriminate|apply rs_agreed|constructor].
  - pose proof (laid_le _ _ _ _ _ _ _ _ _ L) as [W1 W2].
    assert (Step : exists cr x i' w, chunk (@app Z) [] (conflict_bytes o B A T) copy B A T i (favour (m_favor o) m) = Ok (w, i') /\ chunk Z.add 0 (conflict_size o B A T) copy_size B A T i (favour (m_favor o) m) = Ok (zlen w, i') /\ 0 <= i' <= m1 m + n1 m /\ (cr = true -> starts_crlf orig) /\ resolved o cr P x /\
      w ++ concat (seg A i' (m1 m + n1 m)) = concat (seg A i (m1 m)) ++ x).
    { inversion Po as [b0 M Hb|M|M|b0 M Eo]; subst.
      - unfold favour. rewrite M. cbn [Z.eqb andb]. change (0 =? 0) with true. rewrite andb_true_r.
        destruct (Z.eqb_spec (m_favor o) 0) as [F0|F0]; cbn [negb].
        + unfold chunk. rewrite M. change (0 =? 0) with true. cbn iota. destruct (conflict_ok D e1 e2 i m b0) as (cr & x & Hc & R & -> & ->); auto; try lia. cbn [bindr]. exists cr, x. do 2 eexists. do 2 (split; [reflexivity|]). split; [lia|]. do 2 (split; [auto|]). rewrite (seg_nil A (m1 m + n1 m)) by lia. cbn [concat]. now rewrite app_nil_r.
        + assert (Fc : m_favor o = 1 \/ m_favor o = 2 \/ m_favor o = 3) by lia. unfold chunk. cbn [mode m1 m2 n1 n2 base]. replace (m_favor o =? 0) with false by (symmetry; apply Z.eqb_neq; lia).
          destruct (copy_plain A i (m1 m - i) false) as [-> ->]; try lia. replace (i + (m1 m - i)) with (m1 m) by lia. cbn [bindr].
          destruct (cr_ok m) as (cr & Ecr & Hc); try lia. assert (Ecr' : cr_needed B A T (mkm (m_favor o) (base m) (m1 m) (n1 m) (m2 m) (n2 m)) = Ok cr) by exact Ecr. rewrite Ecr'. clear Ecr'.
          destruct (copy_plain A (m1 m) (n1 m) cr) as [Ca Sa]; try lia. destruct (copy_block A (m1 m) (n1 m) cr) as (xb & Cb & Sb & Bb); try lia. destruct (copy_plain T (m2 m) (n2 m) false) as [Ct St]; try lia.
          destruct Fc as [F1|[F1|F1]]; rewrite F1.
          * change (Z.land 1 3 =? 0) with false. change (Z.land 1 1 =? 0) with false. change (Z.land 1 2 =? 0) with true. cbn [negb bindr]. rewrite Ca, Sa. cbn [bindr]. exists cr. do 3 eexists. split; [reflexivity|]. split; [rewrite !zlen_app; unfold zlen at 4; cbn [length]; reflexivity|]. split; [lia|]. split; auto. split; [now apply rs_favour_ours|]. rewrite (seg_nil A (m1 m + n1 m)) by lia. cbn [concat]. now rewrite !app_nil_r.
          * change (Z.land 2 3 =? 0) with false. change (Z.land 2 1 =? 0) with true. change (Z.land 2 2 =? 0) with false. cbn [negb bindr]. rewrite Ct, St. cbn [bindr]. exists cr. do 3 eexists. split; [reflexivity|]. split; [rewrite !zlen_app; unfold zlen at 3; cbn [length]; reflexivity|]. split; [lia|]. split; auto. split; [now apply rs_favour_theirs|]. rewrite (seg_nil A (m1 m + n1 m)) by lia. cbn [concat app]. now rewrite !app_nil_r.
          * change (Z.land 3 3 =? 0) with false. change (Z.land 3 1 =? 0) with false. change (Z.land 3 2 =? 0) with false. cbn [negb bindr]. rewrite Cb, Sb. cbn [bindr]. rewrite Ct, St. cbn [bindr]. exists cr. do 3 eexists. split; [reflexivity|]. split; [rewrite !zlen_app; reflexivity|]. split; [lia|]. split; auto. split; [apply rs_union; eauto|]. rewrite (seg_nil A (m1 m + n1 m)) by lia. cbn [concat app]. now rewrite !app_nil_r.
      - unfold favour. rewrite M. change (1 =? 0) with false. rewrite andb_false_r. unfold chunk. rewrite M. change (1 =? 0) with false. change (Z.land 1 3 =? 0) with false. change (Z.land 1 1 =? 0) with false. change (Z.land 1 2 =? 0) with true. cbn [negb].
        destruct (copy_plain A i (m1 m - i) false) as [-> ->]; try lia. replace (i + (m1 m - i)) with (m1 m) by lia. cbn [bindr]. destruct (cr_ok m) as (cr & -> & Hc); try lia. cbn [bindr]. destruct (copy_plain A (m1 m) (n1 m) cr) as [-> ->]; try lia. cbn [bindr].
        exists cr. do 3 eexists. split; [reflexivity|]. split; [rewrite !zlen_app; unfold zlen at 4; cbn [length]; reflexivity|]. split; [lia|]. split; auto. split; [apply rs_ours|]. rewrite (seg_nil A (m1 m + n1 m)) by lia. cbn [concat]. now rewrite !app_nil_r.
      - unfold favour. rewrite M. change (2 =? 0) with false. rewrite andb_false_r. unfold chunk. rewrite M. change (2 =? 0) with false. change (Z.land 2 3 =? 0) with false. change (Z.land 2 1 =? 0) with true. change (Z.land 2 2 =? 0) with false. cbn [negb].
        destruct (copy_plain A i (m1 m - i) false) as [-> ->]; try lia. replace (i + (m1 m - i)) with (m1 m) by lia. cbn [bindr]. destruct (copy_plain T (m2 m) (n2 m) false) as [-> ->]; try lia. cbn [bindr].
        exists false. do 3 eexists. split; [reflexivity|]. split; [rewrite !zlen_app; unfold zlen at 3; cbn [length]; reflexivity|]. split; [lia|]. split; [discriminate|]. split; [apply rs_theirs|]. rewrite (seg_nil A (m1 m + n1 m)) by lia. cbn [concat app]. now rewrite !app_nil_r.
      - unfold favour. rewrite M. change (4 =? 0) with false. rewrite andb_false_r. unfold chunk. rewrite M. change (4 =? 0) with false. change (Z.land 4 3 =? 0) with true. cbn iota. exists false. do 3 eexists. split; [reflexivity|]. split; [reflexivity|]. split; [lia|]. split; [discriminate|]. split; [apply rs_agreed|]. cbn [app]. rewrite <- concat_app, seg_app by lia. reflexivity. }
    destruct Step as (cr & x & i' & w & Cb & Cs & Hi' & Hc & R & Ew). cbn [map fill]. rewrite Cb, Cs. cbn [bindr]. destruct (IH i' Hi') as (out & -> & -> & W). cbn [bindr].
    exists (concat (seg A e1 (m1 m)) ++ x ++ out). assert (Eo : w ++ concat (seg A i' (m1 m + n1 m)) ++ out = concat (seg A i e1) ++ concat (seg A e1 (m1 m)) ++ x ++ out).
    { rewrite app_assoc, Ew, <- (seg_app A i e1 (m1 m)), concat_app by lia. now rewrite <- !app_assoc. }
    split; [f_equal; exact Eo|]. split; [f_equal; rewrite <- Eo, !zlen_app; lia|]. apply w_cons with (cr := false); [discriminate|apply rs_agreed|]. apply w_cons with (cr := cr); auto.
Qed.
Lemma count_ok D lf e1 e2 ms ps : laid B A T D lf e1 e2 ms ps -> Z.of_nat (length (filter (fun m => mode m =? 0) (map (favour (m_favor o)) ms))) = if m_favor o =? 0 then Z.of_nat (length (filter is_clash ps)) else 0.
Proof.
  induction 1 as [lf e1 e2 b H1 H2 E _|lf e1 e2 m ms b P ps H1 H2 H3 H4 E _ Po L IH]; [destruct (_ =? 0); reflexivity|]. cbn [map filter]. cbn [is_clash].
  unfold favour at 1. inversion Po as [b0 M Hb|M|M|b0 M Eo]; subst; rewrite M; cbn [is_clash].
  - change (0 =? 0) with true. rewrite andb_true_r. destruct (Z.eqb_spec (m_favor o) 0) as [F|F]; cbn [negb].
    + rewrite M. change (0 =? 0) with true. cbn [length]. rewrite F in *. change (0 =? 0) with true in IH. cbn iota in IH. lia.
    + cbn [mode]. replace (m_favor o =? 0) with false by (symmetry; apply Z.eqb_neq; auto). cbn iota. rewrite IH. reflexivity.
  - change (1 =? 0) with false. rewrite andb_false_r, M. change (1 =? 0) with false. cbn iota. exact IH.
  - change (2 =? 0) with false. rewrite andb_false_r, M. change (2 =? 0) with false. cbn iota. exact IH.
  - change (4 =? 0) with false. rewrite andb_false_r, M. change (4 =? 0) with false. cbn iota. exact IH.
Qed.
Hypothesis (Mn : m_minimal o = mn).
Theorem do_merge_ok s1 s2 : scripted 0 0 s1 B A -> scripted 0 0 s2 B T -> exists ps out, flat_map base_part ps = B /\ flat_map ours_part ps = A /\ flat_map theirs_part ps = T /\ guarded ps /\ written o (starts_crlf orig) ps out /\
  do_merge o B A T s1 s2 = if INT_MAX <? zlen out then UB else Ok (out, if m_favor o =? 0 then Z.of_nat (length (filter is_clash ps)) else 0).
Proof.
  intros Sc1 Sc2. pose proof (scripted_fol _ _ _ _ _ Sc1 [] [] eq_refl eq_refl) as F1. pose proof (scripted_fol _ _ _ _ _ Sc2 [] [] eq_refl eq_refl) as F2. cbn [app] in F1, F2. change (Z.of_nat 0) with 0 in *.
  destruct (loop_ok B (length s1 + length s2) A T s1 s2 []) as (acc & El & Ov); [|lia|].
  { left. exists 0, 0, 0, 0, 0, 0. split; [constructor|]. do 3 (split; [lia|]). split; [reflexivity|]. split; auto. split; auto. split; [left; auto|discriminate]. }
  destruct (over_laid B A T acc Ov) as (ps & L & Eb).
  assert (R : exists D ms ps', (match m_style o with StyleZdiff3 => refine_zdiff3 A T (rev acc) | StyleDiff3 => Ok (rev acc) | StyleMerge => do ms <- refine_conflicts (script_of (m_minimal o)) A T (rev acc) ;; simplify (m_alnum o) A ms end) = Ok ms /\
    laid B A T D Edge 0 0 ms ps' /\ bases ps' = B /\ (shows_base o = true -> D = true)).
  { unfold shows_base. destruct (m_style o).
    - apply laid_weak in L. destruct (refine_ok _ _ _ _ _ L) as (ms1 & ps1 & E1 & L1 & B1). rewrite Mn, E1. cbn [bindr]. destruct (simplify_ok B A T (m_alnum o) _ _ _ _ _ L1) as (ms2 & ps2 & E2 & L2 & B2). exists false, ms2, ps2. split; auto. split; auto. split; [congruence|discriminate].
    - exists true, (rev acc), ps. auto.
    - destruct (refine_zdiff3_ok B A T _ _ _ _ _ L) as (ms1 & ps1 & E1 & L1 & B1). exists true, ms1, ps1. split; auto. split; auto. split; [congruence|auto]. }
  destruct R as (D & ms & ps' & Er & L' & Eb' & HD). destruct (fill_ok D Edge 0 0 ms ps' L' HD 0 ltac:(lia)) as (out & Fb & Fs & W). rewrite (seg_nil A 0 0) in Fb, Fs by lia. cbn [concat app] in Fb, Fs.
  destruct (laid_parts _ _ _ _ _ _ _ _ _ L') as [P1 P2]. rewrite seg_all in P1, P2. exists ps', out. split; [exact Eb'|]. do 2 (split; [auto|]). split.
  { intros pre p post Ep Op. destruct (laid_bounded _ _ _ _ _ _ _ _ _ L') as [Bd _]. destruct (Bd pre p post Ep Op) as [[B1|(_ & B1)] B2]; split; auto. }
  split; auto.
  unfold do_merge. rewrite El. cbn [bindr]. rewrite Er. cbn [bindr]. unfold fill_size, fill_bytes. rewrite Fs. cbn [bindr]. destruct (INT_MAX <? zlen out); auto. rewrite Fb. cbn [bindr].
  unfold zlen at 1. rewrite Z.eqb_refl. rewrite (count_ok D _ _ _ _ _ L'). reflexivity.
Qed.
End Use.
