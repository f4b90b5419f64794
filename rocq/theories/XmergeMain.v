(** Merging: the loop keeps its promises. *)
From Verif Require Import Base CStr Str ApplyModel ApplySpec ApplyProofs ReflogProofs XdiffModel XdiffProofs XdiffSpec XdiffMain XdiffEmit XdiffUse XmergeModel XmergeSpec XmergeProofs XmergeLoop.
Local Open Scope Z_scope.

Section Loop.
Variable B : list (list Z).
Definition over (A T : list (list Z)) (acc : list xdmerge) : Prop :=
  exists e0 e1 e2, built B A T acc e0 e1 e2 /\ e0 <= zlen B /\ e1 <= zlen A /\ e2 <= zlen T /\ seg A e1 (zlen A) = seg T e2 (zlen T) /\ gap_ok (side_acc acc) Edge (seg B e0 (zlen B)) (seg A e1 (zlen A)).
Lemma over_swap A T acc : over A T acc -> over T A (map sw acc).
Proof. intros (e0 & e1 & e2 & H & H0 & H1 & H2 & E & G). exists e0, e2, e1. apply built_swap in H. rewrite side_acc_sw, <- E. auto 10. Qed.
Lemma fol_cons_inv {X} (K L : list X) p q x r : fol K L p q (x :: r) -> 0 <= p <= zi1 x /\ 0 <= q /\ zi1 x - p = zi2 x - q /\ zi1 x + zc1 x <= zlen K /\ zi2 x + zc2 x <= zlen L /\ after_ (zi1 x + zc1 x) r /\ fol K L (zi1 x + zc1 x) (zi2 x + zc2 x) r.
Proof. intros H. inversion H; subst. do 6 (split; [auto|]). auto. Qed.
Lemma built_eq A T ms a b c a' b' c' : built B A T ms a b c -> a = a' -> b = b' -> c = c' -> built B A T ms a' b' c'.
Proof. congruence. Qed.
(** One change of our side only, [lim] of the other script away. *)
Lemma alone A T acc x r1 s2 j2 : clear_at B A T acc (x :: r1) s2 -> zi1 x + zc1 x <= lim B s2 -> after_ (zi1 x + zc1 x) s2 -> (forall p p2, fol B T p p2 s2 -> j2 - zi1 x = p2 - p) ->
  exists acc', append_merge acc 1 (zi1 x) (zc1 x) (zi2 x) (zc2 x) j2 (zc1 x) = Ok acc' /\ clear_at B A T acc' r1 s2.
Proof.
  intros (e0 & e1 & e2 & p & p1 & p2 & H & H0 & H1 & H2 & Hs & F1 & F2 & Af & Op) L As J. specialize (J _ _ F2). destruct (nonneg x) as (? & ? & ? & ?).
  pose proof F1 as F1'. apply fol_cons_inv in F1'. destruct F1' as (Q1 & Q2 & Q3 & Q4 & Q5 & Q6 & F1').
  pose proof (fol_facts _ _ _ _ _ F2) as (Z1 & Z2 & Z3 & _ & Z4).
  destruct (append_new B A T acc 1 (zi1 x) (zc1 x) (zi2 x) (zc2 x) j2 (zc1 x) e0 e1 e2 p p1 p2) as [-> Bu]; auto; try lia.
  -
    pose proof (fol_kept B T p p2 s2 p (zi1 x) F2 ltac:(lia) ltac:(lia)) as K2. pose proof (fol_kept B A p p1 (x :: r1) p (zi1 x) F1 ltac:(lia) ltac:(cbn [lim]; lia)) as K1.
    rewrite K1 in K2. replace (p - p + p1) with p1 in K2 by lia. replace (zi1 x - p + p1) with (zi2 x) in K2 by lia. replace (p - p + p2) with p2 in K2 by lia. replace (zi1 x - p + p2) with j2 in K2 by lia. exact K2.
  - intros N. destruct Af as [(-> & _)|[Af1 _]]; [congruence|]. exact Af1.
  - right. left. split; [reflexivity|]. cbn [m2 n2]. rewrite (fol_kept B T p p2 s2 (zi1 x) (zi1 x + zc1 x) F2) by lia. f_equal; lia.
  - pose proof (built_pos _ _ _ _ _ _ _ H). apply (gap_made B A T acc e0 e1 e2 p p1 p2); auto; try lia; [|destruct Af as [Af|[Af1 _]]; [now left|right; exact Af1]]. rewrite (fol_kept B A p p1 (x :: r1) p (zi1 x) F1) by (cbn [lim]; lia). f_equal; lia.
  - eexists. split; [reflexivity|]. exists (zi1 x + zc1 x), (zi2 x + zc2 x), (j2 + zc1 x), (zi1 x + zc1 x), (zi2 x + zc2 x), (j2 + zc1 x). split; auto. do 3 (split; [lia|]). split; [now rewrite !seg_nil by lia|]. split; auto.
    split; [replace (j2 + zc1 x) with (p2 + (zi1 x + zc1 x - p)) by lia; apply fol_adv; auto; lia|]. split; [now right|]. intros _. now left.
Qed.
Lemma alone_open A T acc x r1 s2 j2 : open_at B A T acc (x :: r1) s2 -> after_ (zi1 x + zc1 x) s2 -> (forall p p2, fol B T p p2 s2 -> j2 - zi1 x = p2 - p) ->
  exists acc', append_merge acc 1 (zi1 x) (zc1 x) (zi2 x) (zc2 x) j2 (zc1 x) = Ok acc' /\ clear_at B A T acc' r1 s2.
Proof.
  intros (x' & r1' & m & r & p & p1 & p2 & u & v & E & -> & M & H & E1 & E2 & F1 & Af & F2 & Hu & Hp2 & Hv & _) As J. injection E as <- <-. specialize (J _ _ F2). destruct (nonneg x) as (? & ? & ? & ?).
  pose proof (fol_facts _ _ _ _ _ F2) as (Z1 & Z2 & Z3 & _ & Z4). pose proof (fol_facts _ _ _ _ _ F1) as (Y1 & Y2 & Y3 & _ & Y4).
  destruct (append_more B A T m r 1 (zi1 x) (zc1 x) (zi2 x) (zc2 x) j2 (zc1 x) p p1 p2 p p1 p2) as (m' & -> & _ & _ & _ & Bu & Same); auto; try lia.
  rewrite Same in * by auto. eexists. split; [reflexivity|]. exists p, p1, p2, p, p1, p2. split; auto. do 3 (split; [lia|]). split; [now rewrite !seg_nil by lia|]. split; auto. split.
  - subst p2. apply fol_adv; auto. destruct s2; cbn [lim after_] in *; lia.
  - split; [|intros _; now left]. right. split; auto. now rewrite <- E1.
Qed.
(** Only changes of our side are left. *)
Lemma only1_ok A T s : forall acc, clear_at B A T acc s [] \/ open_at B A T acc s [] -> exists acc', only1 T (length B) s acc = Ok acc' /\ over A T acc'.
Proof.
  induction s as [|x r IH]; intros acc St.
  - cbn [only1]. eexists. split; [reflexivity|]. destruct St as [(e0 & e1 & e2 & p & p1 & p2 & H & H0 & H1 & H2 & Hs & F1 & F2 & Af & Op)|(x' & r1' & _ & _ & _ & _ & _ & _ & _ & E & _)]; [|discriminate].
    pose proof (built_pos _ _ _ _ _ _ _ H) as (P0 & P1 & P2). inversion F1 as [? ? L1 L2 D1 S1'|]; subst. inversion F2 as [? ? L3 L4 D2 S2'|]; subst. exists e0, e1, e2. split; auto. do 3 (split; [lia|]). split; [rewrite <- (seg_app A e1 p1), <- (seg_app T e2 p2), Hs, <- S1', <- S2' by lia; reflexivity|]. rewrite <- (seg_app A e1 p1), <- (seg_app B e0 p), <- S1' by lia. split; [|discriminate].
    intros Hd. destruct (Op Hd) as [(-> & -> & _)|O']; [|left; now apply opens_app]. rewrite (seg_nil B e0 e0), (seg_nil A e1 e1) by lia. cbn [app]. destruct (seg B e0 (zlen B)) as [|k t] eqn:Eb; [right; auto|left; apply opens_same; discriminate].
  - cbn [only1]. set (j2 := zi1 x + Z.of_nat (length T) - Z.of_nat (length B)). assert (J : forall p p2, fol B T p p2 [] -> j2 - zi1 x = p2 - p). { intros p p2 F. inversion F; subst. unfold j2, zlen in *. lia. }
    assert (exists acc', append_merge acc 1 (zi1 x) (zc1 x) (zi2 x) (zc2 x) j2 (zc1 x) = Ok acc' /\ clear_at B A T acc' r []) as (acc' & -> & C).
    { destruct St as [C|C].
      - apply (alone A T acc x r [] j2); auto; [|exact I]. destruct C as (e0 & e1 & e2 & p & p1 & p2 & _ & _ & _ & _ & _ & F1 & _). apply fol_cons_inv in F1. cbn [lim]. lia.
      - apply (alone_open A T acc x r [] j2); auto; exact I. }
    cbn [bindr]. apply IH. auto.
Qed.
Definition lo x y := Z.min (zi1 x) (zi1 y).
Definition hi x y := Z.max (zi1 x + zc1 x) (zi1 y + zc1 y).
Definition conf_append (acc : list xdmerge) (x y : xdchange) : res (list xdmerge) :=
  append_merge acc 0 (lo x y) (hi x y - lo x y) (zi2 x - (zi1 x - lo x y)) (zi2 x + zc2 x + (hi x y - (zi1 x + zc1 x)) - (zi2 x - (zi1 x - lo x y)))
    (zi2 y - (zi1 y - lo x y)) (zi2 y + zc2 y + (hi x y - (zi1 y + zc1 y)) - (zi2 y - (zi1 y - lo x y))).
Definition next1 x y (r1 s1 : list xdchange) := if zi1 x + zc1 x <=? zi1 y + zc1 y then r1 else s1.
(** Both sides changed something there, and not in the same way. *)
Lemma clash_new A T acc x y r1 r2 : clear_at B A T acc (x :: r1) (y :: r2) -> zi1 y <= zi1 x + zc1 x -> zi1 x <= zi1 y + zc1 y -> zi1 y + zc1 y <= zi1 x + zc1 x ->
  exists acc', conf_append acc x y = Ok acc' /\ state_ok B A T acc' (next1 x y r1 (x :: r1)) r2.
Proof.
  intros (e0 & e1 & e2 & p & p1 & p2 & H & H0 & H1 & H2 & Hs & F1 & F2 & Af & Op) O1 O2 Len. destruct (nonneg x) as (? & ? & ? & ?). destruct (nonneg y) as (? & ? & ? & ?).
  pose proof F1 as F1'. apply fol_cons_inv in F1'. destruct F1' as (Q1 & Q2 & Q3 & Q4 & Q5 & Q6 & F1').
  pose proof F2 as F2'. apply fol_cons_inv in F2'. destruct F2' as (W1 & W2 & W3 & W4 & W5 & W6 & F2').
  assert (Hi : hi x y = zi1 x + zc1 x) by (unfold hi; lia). assert (Lo : p <= lo x y /\ lo x y <= zi1 x /\ lo x y <= zi1 y) by (unfold lo; lia).
  unfold conf_append. rewrite Hi.
  assert (K : seg A p1 (zi2 x - (zi1 x - lo x y)) = seg T p2 (zi2 y - (zi1 y - lo x y))).
  { pose proof (fol_kept B T p p2 (y :: r2) p (lo x y) F2 ltac:(lia) ltac:(cbn [lim]; lia)) as K2. pose proof (fol_kept B A p p1 (x :: r1) p (lo x y) F1 ltac:(lia) ltac:(cbn [lim]; lia)) as K1.
    rewrite K1 in K2. replace (p - p + p1) with p1 in K2 by lia. replace (lo x y - p + p1) with (zi2 x - (zi1 x - lo x y)) in K2 by lia. replace (p - p + p2) with p2 in K2 by lia. replace (lo x y - p + p2) with (zi2 y - (zi1 y - lo x y)) in K2 by lia. exact K2. }
  match goal with |- context [append_merge acc 0 ?i0 ?c0 ?j1 ?d1 ?j2 ?d2] => destruct (append_new B A T acc 0 i0 c0 j1 d1 j2 d2 e0 e1 e2 p p1 p2) as [-> Bu]; auto; try lia end.
  - intros N. destruct Af as [(-> & _)|[Af1 Af2]]; [congruence|]. cbn [after_] in *. unfold lo. lia.
  - left. reflexivity.
  - pose proof (built_pos _ _ _ _ _ _ _ H). apply (gap_made B A T acc e0 e1 e2 p p1 p2); auto; try lia; [|destruct Af as [Af|[Af1 Af2]]; [now left|right; cbn [after_] in *; unfold lo; lia]]. rewrite (fol_kept B A p p1 (x :: r1) p (lo x y) F1) by (cbn [lim]; lia). f_equal; lia.
  - eexists. split; [reflexivity|]. unfold next1. destruct (Z.leb_spec (zi1 x + zc1 x) (zi1 y + zc1 y)).
    + left. eexists _, _, _, (zi1 x + zc1 x), (zi2 x + zc2 x), (zi2 y + zc2 y). split; [exact Bu|]. do 3 (split; [lia|]). split; [now rewrite !seg_nil by lia|]. split; auto. replace (zi1 x + zc1 x) with (zi1 y + zc1 y) at 1 by lia. split; auto. split; [|discriminate]. right. split; auto. destruct r2; cbn [after_] in *; auto; lia.
    + right. left. eexists x, r1, _, acc, (zi1 x + zc1 x), (zi2 x + zc2 x), _, (zi1 y + zc1 y), (zi2 y + zc2 y). split; [reflexivity|]. split; [reflexivity|]. split; [reflexivity|]. split.
      { eapply built_eq; [exact Bu|lia|lia|reflexivity]. }
      do 4 (split; [auto|]). split; [exact F2'|]. split; [lia|]. split; [cbn [m2]; lia|]. split; [cbn [m2]; lia|]. destruct r2; cbn [after_] in *; auto; lia.
Qed.
Lemma clash_open A T acc x y r1 r2 : open_at B A T acc (x :: r1) (y :: r2) -> zi1 y <= zi1 x + zc1 x -> zi1 x <= zi1 y + zc1 y ->
  exists acc', conf_append acc x y = Ok acc' /\ state_ok B A T acc' (next1 x y r1 (x :: r1)) (if zi1 y + zc1 y <=? zi1 x + zc1 x then r2 else y :: r2).
Proof.
  intros (x' & r1' & m & r & p & p1 & p2 & u & v & E & -> & M & H & E1 & E2 & F1 & Af & F2 & Hu & Hp2 & Hv & Ay) O1 O2. injection E as <- <-. destruct (nonneg x) as (? & ? & ? & ?). destruct (nonneg y) as (? & ? & ? & ?). cbn [after_] in Ay.
  pose proof F2 as F2'. apply fol_cons_inv in F2'. destruct F2' as (W1 & W2 & W3 & W4 & W5 & W6 & F2'). pose proof (fol_facts _ _ _ _ _ F1) as (Y1 & Y2 & Y3 & _ & Y4).
  assert (Lo : lo x y = zi1 x) by (unfold lo; lia). assert (Hh : zi1 x + zc1 x <= hi x y /\ zi1 y + zc1 y <= hi x y) by (unfold hi; lia).
  unfold conf_append. rewrite Lo.
  match goal with |- context [append_merge _ 0 ?i0 ?c0 ?j1 ?d1 ?j2 ?d2] => destruct (append_more B A T m r 0 i0 c0 j1 d1 j2 d2 p p1 p2 (hi x y) (zi2 x + zc2 x + (hi x y - (zi1 x + zc1 x))) (zi2 y + zc2 y + (hi x y - (zi1 y + zc1 y)))) as (m' & -> & M' & Mm2 & Mm1 & Bu & _); auto; try lia end.
  eexists. split; [reflexivity|]. unfold next1. destruct (Z.leb_spec (zi1 x + zc1 x) (zi1 y + zc1 y)), (Z.leb_spec (zi1 y + zc1 y) (zi1 x + zc1 x)); try lia.
  - assert (Hi : hi x y = p) by (unfold hi; lia). rewrite Hi in *. left. eexists _, _, _, p, p1, (zi2 y + zc2 y). split; [exact Bu|]. do 3 (split; [lia|]). split; [now rewrite !seg_nil by lia|]. split; auto. split; [replace p with (zi1 y + zc1 y) by lia; auto|]. split; [|cbn [side_acc]; unfold side_of; rewrite M'; discriminate]. right. split; auto. destruct r2; cbn [after_] in *; auto; lia.
  - assert (Hi : hi x y = zi1 y + zc1 y) by (unfold hi; lia). rewrite Hi in *. right. right. eexists y, r2, (sw m'), (map sw r), _, _, _, p, p1. split; [reflexivity|]. split; [reflexivity|]. split; [unfold sw; cbn [mode]; rewrite M'; reflexivity|]. split.
    { apply built_swap in Bu. exact Bu. }
    split; [lia|]. split; [lia|]. split; [replace (zi2 y + zc2 y + (zi1 y + zc1 y - (zi1 y + zc1 y))) with (zi2 y + zc2 y) by lia; exact F2'|]. split; [auto|]. split; [exact F1|]. split; [lia|]. split; [lia|]. split; [unfold sw; cbn [m2]; rewrite Mm1; inversion H; subst; lia|]. destruct r1; cbn [after_] in *; auto; lia.
  - assert (Hi : hi x y = p) by (unfold hi; lia). rewrite Hi in *. right. left. eexists x, r1, m', r, p, p1, _, (zi1 y + zc1 y), (zi2 y + zc2 y). do 3 (split; [auto|]). split.
    { eapply built_eq; [exact Bu|lia|lia|reflexivity]. }
    do 4 (split; [auto|]). split; [exact F2'|]. split; [lia|]. split; [lia|]. split; [rewrite Mm2; lia|]. destruct r2; cbn [after_] in *; auto; lia.
Qed.
(** Both made the same change. *)
Lemma agreed A T acc x y r1 r2 : clear_at B A T acc (x :: r1) (y :: r2) -> zi1 x = zi1 y -> zc1 x = zc1 y -> zc2 x = zc2 y -> seg A (zi2 x) (zi2 x + zc2 x) = seg T (zi2 y) (zi2 y + zc2 y) -> clear_at B A T acc r1 r2.
Proof.
  intros (e0 & e1 & e2 & p & p1 & p2 & H & H0 & H1 & H2 & Hs & F1 & F2 & Af & Op) E1 E2 E3 Es. destruct (nonneg x) as (? & ? & ? & ?). destruct (nonneg y) as (? & ? & ? & ?).
  pose proof F1 as F1'. apply fol_cons_inv in F1'. destruct F1' as (Q1 & Q2 & Q3 & Q4 & Q5 & Q6 & F1').
  pose proof F2 as F2'. apply fol_cons_inv in F2'. destruct F2' as (W1 & W2 & W3 & W4 & W5 & W6 & F2'). pose proof (built_pos _ _ _ _ _ _ _ H) as (P0 & P1 & P2).
  exists e0, e1, e2, (zi1 x + zc1 x), (zi2 x + zc2 x), (zi2 y + zc2 y). split; auto. do 3 (split; [lia|]). split.
  - rewrite <- (seg_app A e1 p1), <- (seg_app T e2 p2), Hs by lia. f_equal. rewrite <- (seg_app A p1 (zi2 x)), <- (seg_app T p2 (zi2 y)), Es by lia. f_equal.
    pose proof (fol_kept B T p p2 (y :: r2) p (zi1 x) F2 ltac:(lia) ltac:(cbn [lim]; lia)) as K2. pose proof (fol_kept B A p p1 (x :: r1) p (zi1 x) F1 ltac:(lia) ltac:(cbn [lim]; lia)) as K1.
    rewrite K1 in K2. replace (p - p + p1) with p1 in K2 by lia. replace (zi1 x - p + p1) with (zi2 x) in K2 by lia. replace (p - p + p2) with p2 in K2 by lia. replace (zi1 x - p + p2) with (zi2 y) in K2 by lia. exact K2.
  - split; auto. split; [rewrite E1, E2; exact F2'|]. split; [right; split; auto; now rewrite E1, E2|]. intros Hd. right. rewrite <- (seg_app B e0 p), <- (seg_app A e1 p1) by lia. destruct (Op Hd) as [(-> & -> & ->)|O']; [|now apply opens_app].
    destruct Af as [(-> & _)|[Af1 _]]; [discriminate|]. cbn [after_] in Af1. rewrite (seg_nil B e0 e0), (seg_nil A e1 e1) by lia. cbn [app]. rewrite <- (seg_app B e0 (zi1 x)), <- (seg_app A e1 (zi2 x)) by lia. apply opens_app.
    rewrite (fol_kept B A e0 e1 (x :: r1) e0 (zi1 x) F1) by (cbn [lim]; lia). replace (e0 - e0 + e1) with e1 by lia. replace (zi1 x - e0 + e1) with (zi2 x) by lia. apply opens_same. apply seg_some; lia.
Qed.
Lemma same_lines_spec A T i j n : 0 <= i -> 0 <= j -> 0 <= n -> i + n <= zlen A -> j + n <= zlen T -> exists b, same_lines A T i j n = Ok b /\ (b = true <-> seg A i (i + n) = seg T j (j + n)).
Proof.
  intros Hi Hj Hn La Lt. unfold same_lines. rewrite !lines_at_seg by lia. cbn [bindr]. eexists. split; [reflexivity|].
  generalize (seg A i (i + n)), (seg T j (j + n)). clear. induction l as [|a l IH]; intros [|b k]; cbn [length combine forallb fst snd]; try (split; discriminate); [split; auto|]. cbn [Nat.eqb]. specialize (IH k).
  unfold recmatch. rewrite andb_assoc, (andb_comm _ (leqb a b)), <- andb_assoc, andb_true_iff, leqb_spec, IH. split; [intros [-> ->]; auto|intros E; injection E; auto].
Qed.
Theorem loop_ok fuel : forall A T s1 s2 acc, state_ok B A T acc s1 s2 -> (length s1 + length s2 <= fuel)%nat -> exists acc', merge_loop A T (length B) fuel s1 s2 acc = Ok acc' /\ over A T acc'.
Proof.
  assert (No1 : forall A T acc s, state_ok B A T acc s [] -> exists acc', only1 T (length B) s acc = Ok acc' /\ over A T acc').
  { intros A T acc s [C|[C|(x' & r1' & _ & _ & _ & _ & _ & _ & _ & E & _)]]; [apply only1_ok; auto|apply only1_ok; auto|discriminate]. }
  assert (No2 : forall A T acc s, state_ok B A T acc [] s -> exists acc', only2 A (length B) s acc = Ok acc' /\ over A T acc').
  { intros A T acc s St. apply state_swap in St. destruct (No1 _ _ _ _ St) as (acc' & E & O'). exists (map sw acc'). split; [|now apply over_swap]. rewrite <- (map_sw_inv acc), only_swap, E. reflexivity. }
  induction fuel as [|f IH]; intros A T s1 s2 acc St Lf; destruct s1 as [|x r1], s2 as [|y r2]; cbn [merge_loop]; auto; try (apply No1; auto; fail); try (apply No2; auto; fail); [cbn in Lf; lia|].
  cbn [length] in Lf.
  assert (CaseA : forall A T x r1 y r2 acc, state_ok B A T acc (x :: r1) (y :: r2) -> (S (length r1) + S (length r2) <= S f)%nat -> zi1 x + zc1 x < zi1 y -> exists acc',
    (do acc <- append_merge acc 1 (zi1 x) (zc1 x) (zi2 x) (zc2 x) (zi2 y - zi1 y + zi1 x) (zc1 x) ;; merge_loop A T (length B) f r1 (y :: r2) acc) = Ok acc' /\ over A T acc').
  { clear - IH. intros A T x r1 y r2 acc St Lf L.
    assert (J : forall p p2, fol B T p p2 (y :: r2) -> zi2 y - zi1 y + zi1 x - zi1 x = p2 - p). { intros p p2 F. apply fol_cons_inv in F. lia. }
    assert (exists acc', append_merge acc 1 (zi1 x) (zc1 x) (zi2 x) (zc2 x) (zi2 y - zi1 y + zi1 x) (zc1 x) = Ok acc' /\ clear_at B A T acc' r1 (y :: r2)) as (acc' & -> & C).
    { destruct St as [C|[C|C]]; [apply (alone A T acc x r1 (y :: r2)); auto; cbn [lim]; lia|apply (alone_open A T acc x r1 (y :: r2)); auto|].
      destruct C as (y' & r' & m & r & p & p1 & p2 & u & v & E & _ & _ & _ & _ & _ & _ & _ & _ & _ & _ & _ & Af). injection E as <- <-. cbn [after_] in Af. destruct (nonneg x) as (? & ? & ? & ?). lia. }
    cbn [bindr]. apply IH; [now left|cbn [length]; lia]. }
  destruct (Z.ltb_spec (zi1 x + zc1 x) (zi1 y)) as [L|L]; [apply CaseA; auto|].
  destruct (Z.ltb_spec (zi1 y + zc1 y) (zi1 x)) as [K|K].
  { apply state_swap in St. destruct (CaseA T A y r2 x r1 (map sw acc)) as (acc' & E & O'); auto; [lia|]. exists (map sw acc'). split; [|now apply over_swap].
    assert (R : append_merge acc 2 (zi1 y) (zc1 y) (zi2 x - zi1 x + zi1 y) (zc1 y) (zi2 y) (zc2 y) = mapr (map sw) (append_merge (map sw acc) 1 (zi1 y) (zc1 y) (zi2 y) (zc2 y) (zi2 x - zi1 x + zi1 y) (zc1 y))).
    { rewrite <- append_swap, map_sw_inv. reflexivity. }
    rewrite R. destruct (append_merge (map sw acc) 1 _ _ _ _ _ _) as [acc1| | |]; cbn [bindr mapr] in *; try discriminate. rewrite loop_swap, E. reflexivity. }
  clear CaseA No1 No2. destruct (nonneg x) as (? & ? & ? & ?). destruct (nonneg y) as (? & ? & ? & ?).
  match goal with |- context [do same <- ?e ;; _] => assert (Sm : exists b, e = Ok b /\ (b = true -> zi1 x = zi1 y /\ zc1 x = zc1 y /\ zc2 x = zc2 y /\ seg A (zi2 x) (zi2 x + zc2 x) = seg T (zi2 y) (zi2 y + zc2 y))) end.
  { destruct (Z.eqb_spec (zi1 x) (zi1 y)) as [X1|X1], (Z.eqb_spec (zc1 x) (zc1 y)) as [X2|X2], (Z.eqb_spec (zc2 x) (zc2 y)) as [X3|X3]; cbn [andb]; try (exists false; split; [reflexivity|discriminate]).
    assert (zi2 x + zc2 x <= zlen A /\ zi2 y + zc2 y <= zlen T) as [? ?].
    { destruct St as [(e0 & e1 & e2 & p & p1 & p2 & _ & _ & _ & _ & _ & F1 & F2 & _)|[C|C]].
      - apply fol_cons_inv in F1. apply fol_cons_inv in F2. lia.
      - destruct C as (x' & r1' & m & r & p & p1 & p2 & u & v & E & _ & _ & _ & _ & _ & _ & _ & _ & _ & _ & _ & Ay). injection E as <- <-. cbn [after_] in Ay. lia.
      - destruct C as (x' & r1' & m & r & p & p1 & p2 & u & v & E & _ & _ & _ & _ & _ & _ & _ & _ & _ & _ & _ & Ay). injection E as <- <-. cbn [after_] in Ay. lia. }
    destruct (same_lines_spec A T (zi2 x) (zi2 y) (zc2 x)) as (b & -> & Eb); try lia. exists b. split; auto. intros ->. do 3 (split; auto). rewrite <- X3. now apply Eb. }
  destruct Sm as (b & -> & Hb). cbn [bindr].
  assert (St' : exists acc', (if b then Ok acc else conf_append acc x y) = Ok acc' /\ state_ok B A T acc' (next1 x y r1 (x :: r1)) (if zi1 y + zc1 y <=? zi1 x + zc1 x then r2 else y :: r2)).
  { destruct b.
    - destruct (Hb eq_refl) as (X1 & X2 & X3 & X4). exists acc. split; auto. unfold next1. replace (zi1 x + zc1 x <=? zi1 y + zc1 y) with true by (symmetry; apply Z.leb_le; lia). replace (zi1 y + zc1 y <=? zi1 x + zc1 x) with true by (symmetry; apply Z.leb_le; lia). left.
      destruct St as [C|[C|C]]; [eapply agreed; eauto| |].
      + destruct C as (x' & r1' & m & r & p & p1 & p2 & u & v & E & _ & _ & _ & _ & _ & _ & _ & _ & _ & _ & _ & Ay). injection E as <- <-. cbn [after_] in Ay. lia.
      + destruct C as (x' & r1' & m & r & p & p1 & p2 & u & v & E & _ & _ & _ & _ & _ & _ & _ & _ & _ & _ & _ & Ay). injection E as <- <-. cbn [after_] in Ay. lia.
    - assert (CS : forall acc, conf_append acc x y = mapr (map sw) (conf_append (map sw acc) y x)).
      { intros acc0. unfold conf_append. rewrite <- append_swap, map_sw_inv. change (swm 0) with 0. apply append_eq; unfold lo, hi; lia. }
      destruct St as [C|[C|C]].
      + destruct (Z.leb_spec (zi1 y + zc1 y) (zi1 x + zc1 x)) as [Le|Le]; [apply clash_new; auto|]. apply clear_swap in C.
        destruct (clash_new T A _ y x r2 r1 C) as (acc' & E & S'); try lia. exists (map sw acc'). rewrite CS, E. split; [reflexivity|]. apply state_swap. unfold next1 in *. replace (zi1 y + zc1 y <=? zi1 x + zc1 x) with false in S' by (symmetry; apply Z.leb_gt; lia). replace (zi1 x + zc1 x <=? zi1 y + zc1 y) with true by (symmetry; apply Z.leb_le; lia). exact S'.
      + apply clash_open; auto.
      + destruct (clash_open T A _ y x r2 r1 C) as (acc' & E & S'); try lia. exists (map sw acc'). rewrite CS, E. split; [reflexivity|]. apply state_swap. exact S'. }
  destruct St' as (acc' & Ea & St').
  match goal with |- context [bindr ?e (fun acc => merge_loop _ _ _ _ _ _ acc)] => assert (Ee : e = (if b then Ok acc else conf_append acc x y)) end.
  { destruct b; auto. unfold conf_append, lo, hi. destruct (Z.ltb_spec (zi1 x - zi1 y + zc1 x - zc1 y) 0); cbv iota beta; apply append_eq; cmpz. }
  rewrite Ee, Ea. cbn [bindr]. apply IH; [exact St'|]. cmpz; cbn [length]; lia.
Qed.
End Loop.
