(** Merges without conflicts. *)
From Verif Require Import Base CStr Str ApplyModel ApplySpec ApplyProofs ReflogProofs XdiffModel XdiffProofs XdiffCompact XdiffSpec XdiffMain XdiffEmit XdiffUse XdiffMyers XdiffSplit XmergeModel XmergeSpec XmergeProofs XmergeLoop XmergeMain XmergeFill XmergeUse.
Local Open Scope Z_scope.

Definition nz (m : xdmerge) : Prop := mode m <> 0.
Definition styled (o : mopts) (A T : list (list Z)) (ms : list xdmerge) : res (list xdmerge) :=
  match m_style o with
  | StyleZdiff3 => refine_zdiff3 A T ms
  | StyleDiff3 => Ok ms
  | StyleMerge => do ms <- refine_conflicts (script_of (m_minimal o)) A T ms ;; simplify (m_alnum o) A ms
  end.
Lemma nzb m : nz m -> (mode m =? 0) = false. Proof. intros H. now apply Z.eqb_neq. Qed.
Lemma refine_nz sc A T ms : Forall nz ms -> refine_conflicts sc A T ms = Ok ms.
Proof. induction 1 as [|m ms N _ IH]; [reflexivity|]. cbn [refine_conflicts]. unfold refine_one. rewrite (nzb m N). cbn [negb bindr]. rewrite IH. reflexivity. Qed.
Lemma simplify_nz al A ms : Forall nz ms -> simplify al A ms = Ok ms.
Proof.
  destruct 1 as [|m ms N F]; [reflexivity|]. cbn [simplify]. revert m N. induction F as [|n ms N' F IH]; intros m N; [reflexivity|]. cbn [simplify_from]. rewrite (nzb m N). cbn [negb orb bindr]. rewrite IH by auto. reflexivity.
Qed.
Lemma zdiff3_nz A T ms : Forall nz ms -> refine_zdiff3 A T ms = Ok ms.
Proof. induction 1 as [|m ms N _ IH]; [reflexivity|]. cbn [refine_zdiff3]. rewrite (nzb m N). cbn [bindr]. rewrite IH. reflexivity. Qed.
Lemma styled_nz o A T ms : Forall nz ms -> styled o A T ms = Ok ms.
Proof. intros F. unfold styled. destruct (m_style o); auto using zdiff3_nz. rewrite refine_nz by auto. cbn [bindr]. now apply simplify_nz. Qed.
Lemma favour_nz f ms : Forall nz ms -> map (favour f) ms = ms.
Proof. induction 1 as [|m ms N _ IH]; [reflexivity|]. cbn [map]. rewrite IH. f_equal. unfold favour. rewrite (nzb m N), andb_false_r. reflexivity. Qed.
Lemma favour_0 ms : map (favour 0) ms = ms. Proof. induction ms as [|m ms IH]; [reflexivity|]. cbn [map]. rewrite IH. reflexivity. Qed.
Lemma count_nz ms : Z.of_nat (length (filter (fun m => mode m =? 0) ms)) = 0 -> Forall nz ms.
Proof.
  induction ms as [|m ms IH]; constructor; cbn [filter] in H.
  - unfold nz. destruct (Z.eqb_spec (mode m) 0); auto. cbn [length] in H. lia.
  - apply IH. destruct (mode m =? 0); auto. cbn [length] in H. lia.
Qed.
Lemma simplify_from_nz al A rest : forall m r, simplify_from al A m rest = Ok r -> Forall nz r -> nz m /\ Forall nz rest.
Proof.
  induction rest as [|n rest IH]; intros m r E F; cbn [simplify_from] in E.
  - apply Ok_inj in E. subst. inversion F; auto.
  - set (c := if negb (mode m =? 0) || negb (mode n =? 0) then Ok true else _) in E. destruct c as [b| | |] eqn:Ec; try discriminate. cbn [bindr] in E. destruct b.
    + destruct (simplify_from al A n rest) as [q| | |] eqn:Eq; try discriminate. cbn [bindr] in E. apply Ok_inj in E. subst r. inversion F; subst. destruct (IH _ _ Eq H2). auto.
    + destruct (IH _ _ E F) as [N R]. exfalso. apply N. unfold merge_two. cbn [mode]. unfold c in Ec. destruct (Z.eqb_spec (mode m) 0); auto. discriminate.
Qed.
Lemma simplify_back al A ms r : simplify al A ms = Ok r -> Forall nz r -> Forall nz ms.
Proof. destruct ms as [|m ms]; [auto|]. cbn [simplify]. intros E F. destruct (simplify_from_nz _ _ _ _ _ E F); auto. Qed.
Lemma zdiff3_back A T ms : forall r, refine_zdiff3 A T ms = Ok r -> Forall nz r -> Forall nz ms.
Proof.
  assert (Df : forall f m m', drop_front f A T m = Ok m' -> mode m' = mode m).
  { induction f as [|f IH]; intros m m' E; cbn [drop_front] in E; destruct (_ || _); try (apply Ok_inj in E; now subst); destruct (lines_at A _ 1) as [x| | |]; try discriminate; destruct (lines_at T _ 1) as [y| | |]; try discriminate; cbn [bindr] in E; destruct (forallb _ _); try discriminate; try (apply Ok_inj in E; now subst). now apply IH in E. }
  assert (Db : forall f m m', drop_back f A T m = Ok m' -> mode m' = mode m).
  { induction f as [|f IH]; intros m m' E; cbn [drop_back] in E; destruct (_ || _); try (apply Ok_inj in E; now subst); destruct (lines_at A _ 1) as [x| | |]; try discriminate; destruct (lines_at T _ 1) as [y| | |]; try discriminate; cbn [bindr] in E; destruct (forallb _ _); try discriminate; try (apply Ok_inj in E; now subst). now apply IH in E. }
  induction ms as [|m ms IH]; intros r E F; [auto|]. cbn [refine_zdiff3] in E. destruct (if mode m =? 0 then _ else _) as [m'| | |] eqn:Em; try discriminate. cbn [bindr] in E. destruct (refine_zdiff3 A T ms) as [q| | |]; try discriminate. cbn [bindr] in E. apply Ok_inj in E. subst r. inversion F; subst.
  constructor; eauto. unfold nz in *. destruct (Z.eqb_spec (mode m) 0); auto. destruct (drop_front (length A) A T m) as [m2| | |] eqn:E2; try discriminate. cbn [bindr] in Em. apply Db in Em. apply Df in E2. congruence.
Qed.
Lemma sw_nz m : nz m -> nz (sw m).
Proof. unfold nz, sw, swm. cbn [mode]. destruct (Z.eqb_spec (mode m) 1); [lia|]. destruct (Z.eqb_spec (mode m) 2); lia. Qed.
Lemma sws_nz ms : Forall nz ms -> Forall nz (map sw ms).
Proof. induction 1; cbn [map]; constructor; auto using sw_nz. Qed.
(** ** Exchanging the sides *)
Definition settle (m : xdmerge) : xdmerge := if mode m =? 0 then mkm 4 (base m) (m1 m) (n1 m) (m2 m) (n2 m) else m.
Lemma settle_sw m : settle (sw m) = sw (settle m).
Proof.
  destruct m as [md bb a b c d]. unfold settle, sw. cbn [mode base m1 m2 n1 n2]. assert (Em : (swm md =? 0) = (md =? 0)) by (unfold swm; destruct (Z.eqb_spec md 1); [subst; reflexivity|]; destruct (Z.eqb_spec md 2); [subst; reflexivity|reflexivity]).
  rewrite Em. destruct (md =? 0); cbn [mode base m1 m2 n1 n2]; reflexivity.
Qed.
Definition even (A T : list (list Z)) (m : xdmerge) : Prop := mode m = 0 -> n1 m <> 0 /\ n2 m <> 0 /\ exists x y, lines_at A (m1 m) (n1 m) = Ok x /\ lines_at T (m2 m) (n2 m) = Ok y /\ concat x = concat y.
Lemma even_sw A T m : even A T m -> even T A (sw m).
Proof. unfold even, sw. cbn [mode n1 n2 m1 m2]. unfold swm. destruct (Z.eqb_spec (mode m) 1); [lia|]. destruct (Z.eqb_spec (mode m) 2); [lia|]. intros H M. destruct (H M) as (? & ? & x & y & ? & ? & ?). do 2 (split; auto). eauto. Qed.
Lemma refine_even mn A T ms : Forall (even A T) ms -> refine_conflicts (script_of mn) A T ms = Ok (map settle ms).
Proof.
  induction 1 as [|m ms E _ IH]; [reflexivity|]. cbn [refine_conflicts map]. unfold refine_one, settle at 1. destruct (Z.eqb_spec (mode m) 0) as [M|M]; cbn [negb bindr]; [|rewrite IH; reflexivity].
  destruct (E M) as (N1 & N2 & x & y & -> & -> & Exy). rewrite (proj2 (Z.eqb_neq _ _) N1), (proj2 (Z.eqb_neq _ _) N2). cbn [orb bindr]. rewrite Exy. destruct (script_same mn (concat y)) as (l & ->). cbn [bindr]. rewrite IH. reflexivity.
Qed.
Lemma refine_back mn A T ms : (forall i n j k x y p q r, lines_at A i n = Ok x -> lines_at T j k = Ok y -> script_of mn (concat x) (concat y) = Ok (p, q, r) -> r = [] -> concat x = concat y) -> forall r, refine_conflicts (script_of mn) A T ms = Ok r -> Forall nz r -> Forall (even A T) ms.
Proof.
  intros Hs. induction ms as [|m ms IH]; intros r E F; [constructor|]. cbn [refine_conflicts] in E. destruct (refine_one (script_of mn) A T m) as [p| | |] eqn:Ep; try discriminate. cbn [bindr] in E. destruct (refine_conflicts (script_of mn) A T ms) as [q| | |] eqn:Eq; try discriminate. cbn [bindr] in E. apply Ok_inj in E. subst r.
  apply Forall_app in F. destruct F as [Fp Fq]. constructor; [|eapply IH; eauto]. intros M. unfold refine_one in Ep. rewrite M in Ep. change (0 =? 0) with true in Ep. cbn [negb] in Ep.
  destruct (Z.eqb_spec (n1 m) 0) as [N1|N1]; cbn [orb] in Ep; [apply Ok_inj in Ep; subst p; inversion Fp; subst; contradiction|].
  destruct (Z.eqb_spec (n2 m) 0) as [N2|N2]; cbn [orb] in Ep; [apply Ok_inj in Ep; subst p; inversion Fp; subst; contradiction|]. do 2 (split; auto).
  destruct (lines_at A (m1 m) (n1 m)) as [x| | |] eqn:Ex; try discriminate. destruct (lines_at T (m2 m) (n2 m)) as [y| | |] eqn:Ey; try discriminate. cbn [bindr] in Ep. destruct (script_of mn (concat x) (concat y)) as [[[u v] w]| | |] eqn:Es; try discriminate. cbn [bindr] in Ep.
  exists x, y. do 2 (split; auto). apply (Hs _ _ _ _ _ _ _ _ _ Ex Ey Es). destruct w as [|z w]; auto. exfalso. apply Ok_inj in Ep. subst p. inversion Fp; subst. now apply H1.
Qed.
Lemma styled_swap o A T ms r : (forall i n j k x y p q r, lines_at A i n = Ok x -> lines_at T j k = Ok y -> script_of (m_minimal o) (concat x) (concat y) = Ok (p, q, r) -> r = [] -> concat x = concat y) -> styled o A T ms = Ok r -> Forall nz r -> styled o T A (map sw ms) = Ok (map sw r).
Proof.
  intros Hs E F. unfold styled in *. destruct (m_style o).
  - destruct (refine_conflicts _ A T ms) as [q| | |] eqn:Eq; try discriminate. cbn [bindr] in E. pose proof (simplify_back _ _ _ _ E F) as Fq. rewrite simplify_nz in E by auto. apply Ok_inj in E. subst r.
    pose proof (refine_back _ _ _ _ Hs _ Eq Fq) as Ev. pose proof (refine_even (m_minimal o) _ _ _ Ev) as Eq'. rewrite Eq in Eq'. apply Ok_inj in Eq'. subst q.
    rewrite refine_even. 2:{ clear - Ev. induction Ev; cbn [map]; constructor; auto using even_sw. }
    cbn [bindr]. rewrite !map_map. replace (map (fun x => settle (sw x)) ms) with (map sw (map settle ms)) by (rewrite map_map; apply map_ext; intros; now rewrite settle_sw). rewrite simplify_nz; [now rewrite map_map|now apply sws_nz].
  - apply Ok_inj in E. now subst.
  - pose proof (zdiff3_back _ _ _ _ E F) as N. rewrite zdiff3_nz in E by auto. apply Ok_inj in E. subst r. apply zdiff3_nz. now apply sws_nz.
Qed.
Definition swp (p : piece) : piece := match p with Agreed b l => Agreed b l | Ours b l => Theirs b l | Theirs b l => Ours b l | Clash b l r => Clash b r l end.
Lemma laid_swap B A T D lf e1 e2 ms ps : laid B A T D lf e1 e2 ms ps -> laid B T A D lf e2 e1 (map sw ms) (map swp ps).
Proof.
  induction 1 as [lf e1 e2 b H1 H2 E G|lf e1 e2 m ms b P ps H1 H2 H3 H4 E G Po L IH]; cbn [map swp]; rewrite E in *.
  - now apply la_nil.
  - apply (la_cons B T A D lf e2 e1 (sw m)); rewrite ?side_sw; auto. clear - Po. inversion Po as [b0 M Hb|M|M|b0 M Eo]; subst; cbn [swp].
    + apply (po_clash B T A D (sw m)); auto. unfold sw, swm. cbn [mode]. now rewrite M.
    + apply (po_theirs B T A D (sw m)); auto. unfold sw, swm. cbn [mode]. now rewrite M.
    + apply (po_ours B T A D (sw m)); auto. unfold sw, swm. cbn [mode]. now rewrite M.
    + rewrite Eo. apply (po_agreed B T A D (sw m)); auto. unfold sw, swm. cbn [mode]. now rewrite M.
Qed.
(** What is written if nothing clashes. *)
Lemma written_clean o c ps out : written o c ps out -> filter is_clash ps = [] -> out = concat (flat_map outcome ps).
Proof.
  induction 1 as [|cr p ps x y Hc R W IH]; intros F; [reflexivity|]. cbn [filter] in F. cbn [flat_map]. rewrite concat_app. inversion R; subst; cbn [is_clash] in F; try discriminate; rewrite IH by auto; reflexivity.
Qed.
Lemma laid_clean B A T D lf e1 e2 ms ps : laid B A T D lf e1 e2 ms ps -> Forall nz ms -> filter is_clash ps = [].
Proof. induction 1 as [lf e1 e2 b H1 H2 E G|lf e1 e2 m ms b P ps H1 H2 H3 H4 E G Po L IH]; intros F; [reflexivity|]. inversion F; subst. cbn [filter is_clash]. inversion Po; subst; cbn [is_clash]; auto. contradiction. Qed.
Lemma swap_clean ps : filter is_clash ps = [] -> filter is_clash (map swp ps) = [] /\ flat_map outcome (map swp ps) = flat_map outcome ps.
Proof. induction ps as [|p ps IH]; intros F; [auto|]. cbn [filter map flat_map] in *. destruct p; cbn [is_clash swp outcome] in *; try discriminate; destruct (IH F) as [-> ->]; auto. Qed.
(** ** Changes that are apart *)
Definition aparts (s1 s2 : list xdchange) : Prop := forall x y, In x s1 -> In y s2 -> zi1 x + zc1 x < zi1 y \/ zi1 y + zc1 y < zi1 x.
Lemma aparts_sym s1 s2 : aparts s1 s2 -> aparts s2 s1. Proof. intros H x y Hx Hy. destruct (H y x Hy Hx); auto. Qed.
Definition spread (A T B : list (list Z)) (acc : list xdmerge) (s1 s2 : list xdchange) : Prop := Forall nz acc /\ exists p q1 q2, fol B A p q1 s1 /\ fol B T p q2 s2 /\
  match acc with [] => True | m :: _ => m1 m + n1 m <= q1 /\ m2 m + n2 m <= q2 /\ after_ p s1 /\ after_ p s2 end.
Lemma spread_swap A T B acc s1 s2 : spread A T B acc s1 s2 -> spread T A B (map sw acc) s2 s1.
Proof. intros [F (p & q1 & q2 & F1 & F2 & H)]. split; [now apply sws_nz|]. exists p, q2, q1. do 2 (split; auto). destruct acc as [|m r]; auto. cbn [map sw m1 m2 n1 n2]. tauto. Qed.
Lemma spread_append A T B acc x r1 s2 j : spread A T B acc (x :: r1) s2 -> after_ (zi1 x + zc1 x) s2 -> zi1 x + zc1 x <= lim B s2 -> (forall p q, fol B T p q s2 -> j - zi1 x = q - p) ->
  exists acc', append_merge acc 1 (zi1 x) (zc1 x) (zi2 x) (zc2 x) j (zc1 x) = Ok acc' /\ spread A T B acc' r1 s2.
Proof.
  intros [F (p & q1 & q2 & F1 & F2 & H)] Af Li Hj. destruct (nonneg x) as (? & ? & ? & ?). destruct (fol_cons_inv _ _ _ _ _ _ F1) as (P1 & P2 & D & E1 & E2 & A1 & F1').
  pose proof (Hj _ _ F2) as Ej. pose proof (fol_adv _ _ _ _ _ (zi1 x + zc1 x) F2) as F2'.
  exists (mkm 1 (Some (zi1 x, zc1 x)) (zi2 x) (zc2 x) j (zc1 x) :: acc). split.
  - unfold append_merge. destruct acc as [|m r]; auto. destruct H as (G1 & G2 & G3 & G4). cbn [after_] in G3. replace (zi2 x <=? m1 m + n1 m) with false by (symmetry; apply Z.leb_gt; lia). replace (j <=? m2 m + n2 m) with false by (symmetry; apply Z.leb_gt; lia). reflexivity.
  - split; [constructor; auto; unfold nz; cbn [mode]; lia|]. exists (zi1 x + zc1 x), (zi2 x + zc2 x), (q2 + (zi1 x + zc1 x - p)). split; auto. split; [apply F2'; lia|]. cbn [m1 m2 n1 n2]. split; [lia|]. split; [lia|]. auto.
Qed.
Lemma fol_lim (B A : list (list Z)) p q s : fol B A p q s -> lim B s <= zlen B. Proof. intros F. apply fol_facts in F. tauto. Qed.
Lemma only1_apart A T B s : forall acc, spread A T B acc s [] -> exists acc', only1 T (length B) s acc = Ok acc' /\ Forall nz acc'.
Proof.
  induction s as [|x r IH]; intros acc Sp; cbn [only1]; [exists acc; split; auto; apply Sp|].
  destruct (spread_append A T B acc x r [] (zi1 x + Z.of_nat (length T) - Z.of_nat (length B)) Sp) as (acc' & -> & Sp').
  - exact I.
  - destruct Sp as [_ (p & q1 & q2 & F1 & _)]. destruct (fol_cons_inv _ _ _ _ _ _ F1) as (_ & _ & _ & E1 & _). exact E1.
  - intros p q F. inversion F as [? ? ? ? D E|]; subst. unfold zlen in *. lia.
  - cbn [bindr]. auto.
Qed.
Lemma only2_apart A T B s acc : spread A T B acc [] s -> exists acc', only2 A (length B) s acc = Ok acc' /\ Forall nz acc'.
Proof.
  intros Sp. apply spread_swap in Sp. apply only1_apart in Sp. destruct Sp as (acc' & E & F). pose proof (only_swap (length B) A s (map sw acc)) as Q. rewrite map_sw_inv in Q. rewrite Q, E. cbn [mapr]. eexists. split; [reflexivity|]. now apply sws_nz.
Qed.
Theorem loop_apart B fuel : forall A T s1 s2 acc, spread A T B acc s1 s2 -> aparts s1 s2 -> (length s1 + length s2 <= fuel)%nat -> exists acc', merge_loop A T (length B) fuel s1 s2 acc = Ok acc' /\ Forall nz acc'.
Proof.
  assert (One : forall A T acc x r1 y r2, spread A T B acc (x :: r1) (y :: r2) -> zi1 x + zc1 x < zi1 y -> exists acc', append_merge acc 1 (zi1 x) (zc1 x) (zi2 x) (zc2 x) (zi2 y - zi1 y + zi1 x) (zc1 x) = Ok acc' /\ spread A T B acc' r1 (y :: r2)).
  { intros A T acc x r1 y r2 Sp Lt. apply spread_append; auto; [cbn [lim]; lia|]. intros p q F. destruct (fol_cons_inv _ _ _ _ _ _ F) as (_ & _ & D & _). lia. }
  induction fuel as [|f IH]; intros A T s1 s2 acc Sp Ap Lf.
  - destruct s1, s2; cbn [length] in Lf; try lia. cbn [merge_loop only1]. exists acc. split; auto. apply Sp.
  - destruct s1 as [|x r1]; [cbn [merge_loop]; destruct s2 as [|y r2]; [exists acc; split; [reflexivity|apply Sp]|now apply (only2_apart A T)]|]. destruct s2 as [|y r2]; [cbn [merge_loop]; now apply (only1_apart A T)|]. cbn [merge_loop].
    assert (C := Ap x y (or_introl eq_refl) (or_introl eq_refl)). destruct (Z.ltb_spec (zi1 x + zc1 x) (zi1 y)) as [Lt|Lt].
    + destruct (One A T acc x r1 y r2 Sp Lt) as (acc' & -> & Sp'). cbn [bindr]. apply IH; auto; [|cbn [length] in *; lia]. intros u v Hu Hv. apply Ap; auto. now right.
    + destruct C as [C|C]; [lia|]. replace (zi1 y + zc1 y <? zi1 x) with true by (symmetry; apply Z.ltb_lt; auto).
      pose proof (spread_swap _ _ _ _ _ _ Sp) as Sp'. destruct (One T A (map sw acc) y r2 x r1 Sp' C) as (acc' & E & Sp2). pose proof (append_swap (map sw acc) 1 (zi1 y) (zc1 y) (zi2 y) (zc2 y) (zi2 x - zi1 x + zi1 y) (zc1 y)) as Q. rewrite map_sw_inv in Q. change (swm 1) with 2 in Q. rewrite Q, E. cbn [mapr bindr].
      apply IH; [now apply spread_swap in Sp2| |cbn [length] in *; lia]. intros u v Hu Hv. apply Ap; auto. now right.
Qed.
(** Both sides did the same. *)
Lemma loop_same A nb s : Forall (fun x => zi2 x + zc2 x <= zlen A) s -> forall fuel acc, (length s <= fuel)%nat -> merge_loop A A nb fuel s s acc = Ok acc.
Proof.
  induction 1 as [|x r Hx _ IH]; intros fuel acc Lf; [destruct fuel; reflexivity|]. destruct fuel as [|f]; [cbn in Lf; lia|]. destruct (nonneg x) as (? & ? & ? & ?). cbn [merge_loop]. replace (zi1 x + zc1 x <? zi1 x) with false by (symmetry; apply Z.ltb_ge; lia). rewrite !Z.eqb_refl. cbn [andb].
  destruct (same_lines_spec A A (zi2 x) (zi2 x) (zc2 x)) as (b & -> & Hb); try lia. replace b with true by (symmetry; tauto). cbn [bindr]. rewrite !Z.leb_refl. apply IH. cbn [length] in Lf. lia.
Qed.
