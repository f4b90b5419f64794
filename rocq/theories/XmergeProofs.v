(** Merging: the loop over both scripts. *)
From Verif Require Import Base CStr Str ApplyModel ApplySpec ApplyProofs ReflogProofs XdiffModel XdiffProofs XdiffCompact XdiffSpec XdiffMain XdiffEmit XdiffUse XdiffMyers XdiffSplit XmergeModel XmergeSpec.
Local Open Scope Z_scope.

(** ** Parts of a list *)
Definition seg {X} (l : list X) (i j : Z) : list X := firstn (Z.to_nat (j - i)) (skipn (Z.to_nat i) l).
Definition zlen {X} (l : list X) : Z := Z.of_nat (length l).
Lemma zlen_pos {X} (l : list X) : 0 <= zlen l. Proof. unfold zlen. lia. Qed.
Lemma firstn_skipn_split {X} (l : list X) n m : firstn n l ++ firstn m (skipn n l) = firstn (n + m) l.
Proof. revert l. induction n as [|n IH]; intros [|x l]; cbn; auto; [now destruct m|now rewrite IH]. Qed.
Lemma skipn_skipn' {X} (l : list X) n m : skipn n (skipn m l) = skipn (m + n) l.
Proof. revert l. induction m as [|m IH]; intros [|x l]; cbn; auto. now rewrite skipn_nil. Qed.
Lemma seg_app {X} (l : list X) i j k : 0 <= i <= j -> j <= k -> seg l i j ++ seg l j k = seg l i k.
Proof.
  intros H K. unfold seg. replace (Z.to_nat j) with (Z.to_nat i + Z.to_nat (j - i))%nat by lia. rewrite <- skipn_skipn', firstn_skipn_split. f_equal. lia.
Qed.
Lemma seg_nil {X} (l : list X) i j : j <= i -> seg l i j = [].
Proof. intros H. unfold seg. replace (Z.to_nat (j - i)) with O by lia. reflexivity. Qed.
Lemma seg_len {X} (l : list X) i j : 0 <= i <= j -> j <= zlen l -> zlen (seg l i j) = j - i.
Proof. intros H K. unfold zlen, seg in *. rewrite firstn_length, skipn_length. lia. Qed.
Lemma seg_all {X} (l : list X) : seg l 0 (zlen l) = l.
Proof. unfold seg, zlen. cbn [Z.to_nat skipn]. apply firstn_all2. lia. Qed.
Lemma seg_seg {X} (l : list X) i j u v : 0 <= i -> 0 <= u -> v <= j - i -> seg (seg l i j) u v = seg l (i + u) (i + v).
Proof.
  intros H K V. unfold seg.
  rewrite skipn_firstn_comm, skipn_skipn', firstn_firstn. f_equal; [lia|]. f_equal. lia.
Qed.
(** Equal parts have equal parts. *)
Lemma seg_shift {X} (l k : list X) p e q f u v : seg l p e = seg k q f -> e - p = f - q -> 0 <= p -> 0 <= q -> p <= u -> v <= e -> seg l u v = seg k (u - p + q) (v - p + q).
Proof.
  intros E D Hp Hq Hu Hv. replace u with (p + (u - p)) at 1 by lia. replace v with (p + (v - p)) at 1 by lia. rewrite <- (seg_seg l p e), E, seg_seg by lia. f_equal; lia.
Qed.
Lemma lines_at_seg (l : list (list Z)) i n : 0 <= i -> 0 <= n -> i + n <= zlen l -> lines_at l i n = Ok (seg l i (i + n)).
Proof.
  intros H K L. unfold lines_at, seg, zlen in *. replace (0 <=? i) with true by (symmetry; apply Z.leb_le; lia). replace (0 <=? n) with true by (symmetry; apply Z.leb_le; lia).
  replace (i + n <=? Z.of_nat (length l)) with true by (symmetry; apply Z.leb_le; lia). cbn [andb]. do 3 f_equal. lia.
Qed.

(** ** Scripts by positions *)
Section Fol.
Context {X : Type} (B A : list X).
Inductive fol : Z -> Z -> list xdchange -> Prop :=
| fo_nil p q : 0 <= p <= zlen B -> 0 <= q -> zlen B - p = zlen A - q -> seg B p (zlen B) = seg A q (zlen A) -> fol p q []
| fo_cons p q x r : 0 <= p <= zi1 x -> 0 <= q -> zi1 x - p = zi2 x - q -> seg B p (zi1 x) = seg A q (zi2 x) -> zi1 x + zc1 x <= zlen B -> zi2 x + zc2 x <= zlen A ->
    match r with [] => True | y :: _ => zi1 x + zc1 x < zi1 y end -> fol (zi1 x + zc1 x) (zi2 x + zc2 x) r -> fol p q (x :: r).
Definition lim (s : list xdchange) : Z := match s with [] => zlen B | x :: _ => zi1 x end.
Lemma fol_facts p q s : fol p q s -> 0 <= p <= lim s /\ lim s <= zlen B /\ 0 <= q /\ seg B p (lim s) = seg A q (q + (lim s - p)) /\ q + (lim s - p) <= zlen A.
Proof.
  intros H. destruct H as [p q Hp Hq D E|p q x r Hp Hq D E L1 L2 _ _]; cbn [lim].
  - replace (q + (zlen B - p)) with (zlen A) by lia. do 4 (split; [auto; lia|]). lia.
  - replace (q + (zi1 x - p)) with (zi2 x) by lia. unfold zc1, zc2 in *. do 4 (split; [auto; lia|]). lia.
Qed.
Lemma fol_adv p q s p' : fol p q s -> p <= p' <= lim s -> fol p' (q + (p' - p)) s.
Proof.
  intros H Hp. pose proof H as F. apply fol_facts in F. destruct F as (H1 & H2 & H3 & E & H4). destruct H as [p q _ _ D E0|p q x r _ _ D E0 L1 L2 G F]; cbn [lim] in *.
  - apply fo_nil; try lia. rewrite (seg_shift B A p (zlen B) q (zlen A)) by (auto; lia). f_equal; lia.
  - apply fo_cons; auto; try lia. rewrite (seg_shift B A p (zi1 x) q (zi2 x)) by (auto; lia). f_equal; lia.
Qed.
Lemma fol_kept p q s u v : fol p q s -> p <= u -> v <= lim s -> seg B u v = seg A (u - p + q) (v - p + q).
Proof. intros H Hu Hv. apply fol_facts in H. destruct H as (H1 & H2 & H3 & E & H4). apply (seg_shift B A p (lim s) q (q + (lim s - p))); auto; lia. Qed.
End Fol.
Lemma scripted_fol {X} a b s (xs ys : list X) : scripted a b s xs ys -> forall P Q, length P = a -> length Q = b -> fol (P ++ xs) (Q ++ ys) (Z.of_nat a) (Z.of_nat b) s.
Proof.
  induction s as [|x r IH] in a, b, xs, ys |- *; intros H P Q LP LQ.
  - inversion H; subst. apply fo_nil; unfold zlen; rewrite ?app_length; try lia. unfold seg. rewrite !Nat2Z.id, !skipn_app, !skipn_all, !Nat.sub_diag. cbn [app skipn]. rewrite !firstn_all2; auto; lia.
  - apply scripted_inv in H. destruct H as (K & De & Ad & xs' & ys' & -> & -> & E1 & E2 & C1 & C2 & Po & G & Sc).
    apply fo_cons; unfold zi1, zi2, zc1, zc2, zlen; rewrite ?E1, ?E2, ?C1, ?C2, ?app_length; try lia.
    + unfold seg. rewrite !Nat2Z.id. rewrite !fs_mid by lia. reflexivity.
    + destruct r; auto. lia.
    + specialize (IH _ _ _ _ Sc (P ++ K ++ De) (Q ++ K ++ Ad)). rewrite <- !app_assoc in IH. rewrite <- !Nat2Z.inj_add. apply IH; rewrite !app_length; lia.
Qed.
