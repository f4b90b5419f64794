(** Merging: what the loop over both scripts builds. *)
From Verif Require Import Base CStr Str ApplyModel ApplySpec ApplyProofs ReflogProofs XdiffModel XdiffProofs XdiffSpec XdiffMain XdiffEmit XdiffUse XmergeModel XmergeSpec XmergeProofs.
Local Open Scope Z_scope.

(** ** The other way round *)
Definition swm (md : Z) : Z := if md =? 1 then 2 else if md =? 2 then 1 else md.
Definition sw (m : xdmerge) : xdmerge := mkm (swm (mode m)) (base m) (m2 m) (n2 m) (m1 m) (n1 m).
Definition mapr {X Y} (f : X -> Y) (r : res X) : res Y := match r with Ok x => Ok (f x) | Err e => Err e | UB => UB | NoFuel => NoFuel end.
Lemma swm_inv md : swm (swm md) = md. Proof. unfold swm. destruct (Z.eqb_spec md 1); [now subst|]. destruct (Z.eqb_spec md 2); [now subst|]. destruct (Z.eqb_spec md 1), (Z.eqb_spec md 2); congruence. Qed.
Lemma sw_inv m : sw (sw m) = m. Proof. destruct m. unfold sw. cbn. now rewrite swm_inv. Qed.
Lemma map_sw_inv ms : map sw (map sw ms) = ms. Proof. rewrite map_map. rewrite <- (map_id ms) at 2. apply map_ext. apply sw_inv. Qed.
Lemma swm_eqb a b : (swm a =? swm b) = (a =? b).
Proof. destruct (Z.eqb_spec (swm a) (swm b)) as [E|E]; symmetry; [apply Z.eqb_eq; rewrite <- (swm_inv a), E, swm_inv; auto|apply Z.eqb_neq; congruence]. Qed.
Lemma append_swap acc md i0 c0 i1 c1 i2 c2 : append_merge (map sw acc) (swm md) i0 c0 i2 c2 i1 c1 = mapr (map sw) (append_merge acc md i0 c0 i1 c1 i2 c2).
Proof.
  destruct acc as [|m r]; [reflexivity|]. cbn [map append_merge]. cbn [sw m1 m2 n1 n2 base mode]. rewrite orb_comm. destruct (_ || _); [|reflexivity]. destruct (base m) as [[b ?]|]; [|reflexivity]. cbn [mapr map sw mode base m1 m2 n1 n2]. rewrite swm_eqb. destruct (md =? mode m); reflexivity.
Qed.
Lemma recmatch_sym a b : recmatch a b = recmatch b a.
Proof. unfold recmatch. apply eq_true_iff_eq. rewrite !leqb_spec. split; congruence. Qed.
Lemma cmp_sym x : forall y, forallb (fun p => recmatch (fst p) (snd p)) (combine y x) = forallb (fun p => recmatch (fst p) (snd p)) (combine x y).
Proof. induction x as [|a x IH]; intros [|b y]; auto. cbn. now rewrite IH, recmatch_sym. Qed.
Lemma same_lines_swap a t i1 i2 n : same_lines t a i2 i1 n = same_lines a t i1 i2 n.
Proof.
  unfold same_lines, lines_at. destruct (_ && _ && (i2 + n <=? _)), (_ && _ && (i1 + n <=? _)); cbn [bindr]; auto. now rewrite cmp_sym, Nat.eqb_sym.
Qed.
Lemma only_swap nb (t : list (list Z)) s : forall acc, only2 t nb s (map sw acc) = mapr (map sw) (only1 t nb s acc).
Proof.
  induction s as [|x r IH]; intros acc; [reflexivity|]. cbn [only1 only2]. change 2 with (swm 1). rewrite append_swap. destruct (append_merge _ _ _ _ _ _ _) as [acc'| | |]; cbn [mapr bindr]; auto.
Qed.
Lemma only_swap' nb (t : list (list Z)) s acc : only1 t nb s (map sw acc) = mapr (map sw) (only2 t nb s acc).
Proof. rewrite <- (map_sw_inv acc) at 2. rewrite only_swap. destruct (only1 _ _ _ _); cbn; auto. now rewrite map_sw_inv. Qed.
Lemma nonneg x : 0 <= zi1 x /\ 0 <= zi2 x /\ 0 <= zc1 x /\ 0 <= zc2 x.
Proof. unfold zi1, zi2, zc1, zc2. lia. Qed.
Ltac cmpz := repeat match goal with |- context [?x <? ?y] => destruct (Z.ltb_spec x y) | |- context [?x <=? ?y] => destruct (Z.leb_spec x y) end; try lia.
Lemma append_eq acc md i0 c0 i1 c1 i2 c2 i0' c0' i1' c1' i2' c2' : i0 = i0' -> c0 = c0' -> i1 = i1' -> c1 = c1' -> i2 = i2' -> c2 = c2' ->
  append_merge acc md i0 c0 i1 c1 i2 c2 = append_merge acc md i0' c0' i1' c1' i2' c2'.
Proof. congruence. Qed.
Lemma loop_swap a t nb fuel : forall s1 s2 acc, merge_loop t a nb fuel s2 s1 (map sw acc) = mapr (map sw) (merge_loop a t nb fuel s1 s2 acc).
Proof.
  induction fuel as [|f IH]; intros [|x r1] [|y r2] acc; cbn [merge_loop]; auto; try (apply only_swap || apply only_swap').
  destruct (nonneg x) as (? & ? & ? & ?). destruct (nonneg y) as (? & ? & ? & ?).
  destruct (Z.ltb_spec (zi1 y + zc1 y) (zi1 x)) as [L|L], (Z.ltb_spec (zi1 x + zc1 x) (zi1 y)) as [K|K]; try lia.
  - change 1 with (swm 2) at 1. rewrite append_swap. destruct (append_merge acc 2 _ _ _ _ _ _) as [acc'| | |]; cbn [mapr bindr]; auto.
  - change 2 with (swm 1) at 1. rewrite append_swap. destruct (append_merge acc 1 _ _ _ _ _ _) as [acc'| | |]; cbn [mapr bindr]; auto.
  - rewrite (Z.eqb_sym (zi1 y)), (Z.eqb_sym (zc1 y)), (Z.eqb_sym (zc2 y)).
    assert (S' : (if (zi1 x =? zi1 y) && (zc1 x =? zc1 y) && (zc2 x =? zc2 y) then same_lines t a (zi2 y) (zi2 x) (zc2 y) else Ok false)
      = (if (zi1 x =? zi1 y) && (zc1 x =? zc1 y) && (zc2 x =? zc2 y) then same_lines a t (zi2 x) (zi2 y) (zc2 x) else Ok false)).
    { destruct (Z.eqb_spec (zc2 x) (zc2 y)) as [->|]; [rewrite same_lines_swap; auto|now rewrite !andb_false_r]. }
    rewrite S'. clear S'. match goal with |- context [do same <- ?e ;; _] => destruct e as [[]| | |] end; cbn [bindr mapr]; auto.
    cbv zeta.
      destruct (Z.ltb_spec (zi1 y - zi1 x + zc1 y - zc1 x) 0), (Z.ltb_spec (zi1 x - zi1 y + zc1 x - zc1 y) 0); try lia; cbv iota beta.
      all: match goal with |- bindr (append_merge _ ?md ?p1 ?p2 ?p3 ?p4 ?p5 ?p6) _ = mapr _ (bindr (append_merge _ _ ?q1 ?q2 ?q3 ?q4 ?q5 ?q6) _) =>
        assert (R : append_merge (map sw acc) md p1 p2 p3 p4 p5 p6 = mapr (map sw) (append_merge acc 0 q1 q2 q3 q4 q5 q6))
          by (rewrite <- append_swap; change (swm 0) with 0; apply append_eq; cmpz) end; rewrite R; clear R.
      all: match goal with |- context [append_merge ?q0 ?p0 ?p1 ?p2 ?p3 ?p4 ?p5 ?p6] => destruct (append_merge q0 p0 p1 p2 p3 p4 p5 p6) as [acc'| | |] end; cbn [mapr bindr]; auto; rewrite IH; cmpz; auto.
Qed.

(** ** What is built *)
Section Built.
Variable B : list (list Z).
Definition takes (A T : list (list Z)) (m : xdmerge) (i0 c0 : Z) : Prop :=
  (mode m = 0 \/ (mode m = 1 /\ seg T (m2 m) (m2 m + n2 m) = seg B i0 (i0 + c0)) \/ (mode m = 2 /\ seg A (m1 m) (m1 m + n1 m) = seg B i0 (i0 + c0))).
(** What is next to a gap: the end of the texts, a conflict, or a change of one side. *)
Inductive side := Edge | Soft | Hard.
Definition side_of (m : xdmerge) : side := if (mode m =? 1) || (mode m =? 2) then Hard else Soft.
Definition side_acc (acc : list xdmerge) : side := match acc with [] => Edge | m :: _ => side_of m end.
Definition opens (b l : list (list Z)) : Prop := exists k b' l', b = k :: b' /\ l = k :: l'.
Definition closes (b l : list (list Z)) : Prop := exists k b' l', b = b' ++ [k] /\ l = l' ++ [k].
(** A change of one side is next to a line that all three have. *)
Definition gap_ok (lf rt : side) (b l : list (list Z)) : Prop :=
  (lf = Hard -> opens b l \/ (rt = Edge /\ b = [] /\ l = [])) /\ (rt = Hard -> closes b l \/ (lf = Edge /\ b = [] /\ l = [])).
Lemma opens_app b l b' l' : opens b l -> opens (b ++ b') (l ++ l').
Proof. intros (k & x & y & -> & ->). exists k, (x ++ b'), (y ++ l'). auto. Qed.
Lemma closes_app b l b' l' : closes b l -> closes (b' ++ b) (l' ++ l).
Proof. intros (k & x & y & -> & ->). exists k, (b' ++ x), (l' ++ y). now rewrite !app_assoc. Qed.
Lemma opens_same b : b <> [] -> opens b b. Proof. destruct b as [|k b]; [congruence|]. intros _. exists k, b, b. auto. Qed.
Lemma closes_same b : b <> [] -> closes b b. Proof. intros N. destruct b as [|k b _] using rev_ind; [congruence|]. exists k, b, b. auto. Qed.
Lemma side_sw m : side_of (sw m) = side_of m.
Proof. unfold side_of, sw, swm. cbn [mode]. destruct m as [md ? ? ? ? ?]. cbn [mode]. destruct (Z.eqb_spec md 1) as [->|N]; [reflexivity|]. destruct (Z.eqb_spec md 2) as [->|N2]; [reflexivity|]. rewrite (proj2 (Z.eqb_neq _ _) N), (proj2 (Z.eqb_neq _ _) N2). reflexivity. Qed.
Lemma side_acc_sw acc : side_acc (map sw acc) = side_acc acc. Proof. destruct acc; [reflexivity|]. apply side_sw. Qed.
Lemma side_edge acc : side_acc acc = Edge -> acc = []. Proof. destruct acc as [|m r]; auto. cbn. unfold side_of. destruct (_ || _); discriminate. Qed.
Lemma side_not_edge m : side_of m <> Edge. Proof. unfold side_of. destruct (_ || _); discriminate. Qed.
Inductive built (A T : list (list Z)) : list xdmerge -> Z -> Z -> Z -> Prop :=
| bu_nil : built A T [] 0 0 0
| bu_cons m r i0 c0 e0 e1 e2 f0 f1 f2 : built A T r e0 e1 e2 -> base m = Some (i0, c0) -> e0 <= i0 -> e1 <= m1 m -> e2 <= m2 m -> seg A e1 (m1 m) = seg T e2 (m2 m) ->
    0 <= c0 -> 0 <= n1 m -> 0 <= n2 m -> takes A T m i0 c0 -> gap_ok (side_acc r) (side_of m) (seg B e0 i0) (seg A e1 (m1 m)) -> f0 = i0 + c0 -> f1 = m1 m + n1 m -> f2 = m2 m + n2 m -> built A T (m :: r) f0 f1 f2.
Lemma built_pos A T ms e0 e1 e2 : built A T ms e0 e1 e2 -> 0 <= e0 /\ 0 <= e1 /\ 0 <= e2.
Proof. induction 1; lia. Qed.
Lemma built_swap A T ms e0 e1 e2 : built A T ms e0 e1 e2 -> built T A (map sw ms) e0 e2 e1.
Proof.
  induction 1 as [|m r i0 c0 e0 e1 e2 f0 f1 f2 H IH E H0 H1 H2 Hs Hc Hn1 Hn2 Tk Gp F0 F1 F2]; cbn [map]; [constructor|].
  apply (bu_cons T A (sw m) _ i0 c0 e0 e2 e1); auto. 2:{ rewrite side_acc_sw, side_sw. cbn [sw m1]. now rewrite <- Hs. } destruct Tk as [M|[[M Tk]|[M Tk]]]; [left|right; right|right; left]; unfold sw; cbn [mode m1 m2 n1 n2]; rewrite M; auto.
Qed.
(** Nothing is open: the next changes come after [p]. *)
Definition after_ (p : Z) (s : list xdchange) : Prop := match s with [] => True | x :: _ => p < zi1 x end.
Definition clear_at (A T : list (list Z)) (acc : list xdmerge) (s1 s2 : list xdchange) : Prop :=
  exists e0 e1 e2 p p1 p2, built A T acc e0 e1 e2 /\ e0 <= p /\ e1 <= p1 /\ e2 <= p2 /\ seg A e1 p1 = seg T e2 p2 /\ fol B A p p1 s1 /\ fol B T p p2 s2 /\
    ((acc = [] /\ p = 0 /\ p1 = 0 /\ p2 = 0) \/ (after_ p s1 /\ after_ p s2)) /\ (side_acc acc = Hard -> (p = e0 /\ p1 = e1 /\ p2 = e2) \/ opens (seg B e0 p) (seg A e1 p1)).
(** The first change of our side is part of the last conflict, which ends with it. *)
Definition open_at (A T : list (list Z)) (acc : list xdmerge) (s1 s2 : list xdchange) : Prop :=
  exists x r1 m r p p1 p2 u v, s1 = x :: r1 /\ acc = m :: r /\ mode m = 0 /\ built A T acc p p1 p2 /\ zi1 x + zc1 x = p /\ zi2 x + zc2 x = p1 /\ fol B A p p1 r1 /\ after_ p r1 /\
    fol B T u v s2 /\ u <= p /\ p2 = v + (p - u) /\ m2 m <= v /\ after_ (zi1 x) s2.
Definition state_ok (A T : list (list Z)) (acc : list xdmerge) (s1 s2 : list xdchange) : Prop :=
  clear_at A T acc s1 s2 \/ open_at A T acc s1 s2 \/ open_at T A (map sw acc) s2 s1.
Lemma clear_swap A T acc s1 s2 : clear_at A T acc s1 s2 -> clear_at T A (map sw acc) s2 s1.
Proof.
  intros (e0 & e1 & e2 & p & p1 & p2 & H & H0 & H1 & H2 & Hs & F1 & F2 & Af & Op). exists e0, e2, e1, p, p2, p1. apply built_swap in H. do 7 (split; auto). split; [destruct Af as [(-> & ? & ? & ?)|[? ?]]; [left; auto|right; auto]|]. rewrite side_acc_sw, <- Hs. intros N. destruct (Op N) as [(? & ? & ?)|?]; auto.
Qed.
Lemma state_swap A T acc s1 s2 : state_ok A T acc s1 s2 -> state_ok T A (map sw acc) s2 s1.
Proof. intros [H|[H|H]]; [left; now apply clear_swap|right; right; now rewrite map_sw_inv|right; left; auto]. Qed.
Lemma seg_some {X} (l : list X) i j : 0 <= i < j -> j <= zlen l -> seg l i j <> [].
Proof. intros H K E. pose proof (seg_len l i j) as L. rewrite E in L. unfold zlen in *. cbn [length] in L. lia. Qed.
Lemma gap_made A T acc e0 e1 e2 p p1 p2 i0 j1 rt : built A T acc e0 e1 e2 -> 0 <= e0 <= p -> 0 <= e1 <= p1 -> p <= i0 -> i0 <= zlen B -> j1 - p1 = i0 - p -> seg B p i0 = seg A p1 j1 ->
  ((acc = [] /\ p = 0 /\ p1 = 0 /\ p2 = 0) \/ p < i0) -> (side_acc acc = Hard -> (p = e0 /\ p1 = e1 /\ p2 = e2) \/ opens (seg B e0 p) (seg A e1 p1)) -> gap_ok (side_acc acc) rt (seg B e0 i0) (seg A e1 j1).
Proof.
  intros H H0 H1 L Lb D E C Op. rewrite <- (seg_app B e0 p i0), <- (seg_app A e1 p1 j1) by lia. rewrite <- E. split.
  - intros Hd. left. destruct (Op Hd) as [(-> & -> & _)|O']; [|now apply opens_app]. destruct C as [(-> & _)|C]; [discriminate|]. rewrite !(seg_nil _ e0 e0), (seg_nil _ e1 e1) by lia. cbn [app]. apply opens_same. apply seg_some; lia.
  - intros Hd. destruct (Z.eq_dec p i0) as [->|N].
    + destruct C as [(-> & -> & -> & _)|C]; [|lia]. right. inversion H; subst. rewrite !seg_nil by lia. auto.
    + left. apply closes_app. apply closes_same. apply seg_some; lia.
Qed.
(** A part of its own is appended. *)
Lemma append_new A T acc md i0 c0 j1 d1 j2 d2 e0 e1 e2 p p1 p2 : built A T acc e0 e1 e2 -> e0 <= p -> e1 <= p1 -> e2 <= p2 -> seg A e1 p1 = seg T e2 p2 ->
  p <= i0 -> j1 - p1 = i0 - p -> j2 - p2 = i0 - p -> seg A p1 j1 = seg T p2 j2 -> (acc <> [] -> p < i0) -> 0 <= c0 -> 0 <= d1 -> 0 <= d2 -> takes A T (mkm md (Some (i0, c0)) j1 d1 j2 d2) i0 c0 ->
  gap_ok (side_acc acc) (side_of (mkm md (Some (i0, c0)) j1 d1 j2 d2)) (seg B e0 i0) (seg A e1 j1) ->
  append_merge acc md i0 c0 j1 d1 j2 d2 = Ok (mkm md (Some (i0, c0)) j1 d1 j2 d2 :: acc) /\ built A T (mkm md (Some (i0, c0)) j1 d1 j2 d2 :: acc) (i0 + c0) (j1 + d1) (j2 + d2).
Proof.
  intros H H0 H1 H2 Hs Hp D1 D2 Hk Hn Hc Hd1 Hd2 Tk Gp. split.
  - destruct acc as [|m r]; [reflexivity|]. unfold append_merge. assert (p < i0) by (apply Hn; discriminate). assert (m1 m + n1 m = e1 /\ m2 m + n2 m = e2) as [-> ->] by (inversion H; subst; auto).
    replace (j1 <=? e1) with false by (symmetry; apply Z.leb_gt; lia). replace (j2 <=? e2) with false by (symmetry; apply Z.leb_gt; lia). reflexivity.
  - pose proof (built_pos _ _ _ _ _ _ H) as (P0 & P1 & P2). apply (bu_cons A T _ acc i0 c0 e0 e1 e2); auto; cbn [m1 m2]; try lia. rewrite <- (seg_app A e1 p1 j1), <- (seg_app T e2 p2 j2), Hs, Hk by lia. reflexivity.
Qed.
(** The last conflict is extended. *)
Lemma append_more A T m r md i0 c0 j1 d1 j2 d2 p p1 p2 p' p1' p2' : built A T (m :: r) p p1 p2 -> mode m = 0 -> j1 <= p1 -> p' = i0 + c0 -> p1' = j1 + d1 -> p2' = j2 + d2 -> p <= p' -> p1 <= p1' -> m2 m <= p2' ->
  exists m', append_merge (m :: r) md i0 c0 j1 d1 j2 d2 = Ok (m' :: r) /\ mode m' = 0 /\ m2 m' = m2 m /\ m1 m' = m1 m /\ built A T (m' :: r) p' p1' p2' /\ (p' = p -> p1' = p1 -> p2' = p2 -> m' = m).
Proof.
  intros H M J E0 E1 E2 L0 L1 L2. inversion H as [|? ? b c e0 e1 e2 ? ? ? H' Eb G0 G1 G2 Gs Gc Gn1 Gn2 Tk Gp F0 F1 F2]; subst. unfold append_merge.
  replace (j1 <=? m1 m + n1 m) with true by (symmetry; apply Z.leb_le; lia). cbn [orb]. rewrite Eb. eexists. split; [reflexivity|].
  assert (Mz : (if md =? mode m then mode m else 0) = 0) by (rewrite M; destruct (md =? 0); auto). rewrite Mz. cbn [mode m1 m2]. do 3 (split; [auto|]). split.
  - apply (bu_cons A T _ r b (i0 + c0 - b) e0 e1 e2); auto; cbn [base m1 m2 n1 n2 mode]; try lia; [left; reflexivity|]. unfold side_of in *. rewrite M in Gp. exact Gp.
  - intros Q0 Q1 Q2. destruct m as [md' bs' x1 y1 x2 y2]. cbn [mode base m1 m2 n1 n2] in *. subst. f_equal; [f_equal; f_equal; lia|lia|lia].
Qed.
End Built.
