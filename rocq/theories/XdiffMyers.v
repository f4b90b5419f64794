(** The furthest reaching points on the diagonals of a box, one edit at a time. *)
From Coq Require Import ZArith Lia Bool.
Local Open Scope Z_scope.

Ltac par := Z.to_euclidean_division_equations; lia.
Section Box.
Variables (o1 l1 o2 l2 : Z).
Hypotheses (B1 : o1 < l1) (B2 : o2 < l2).
Notation fm := (o1 - o2).
Notation bm := (l1 - l2).
Notation dmin := (o1 - l2).
Notation dmax := (l1 - o2).
(** The diagonals looked at in step [a] from the diagonal [mid]. *)
Definition onV (mid a d : Z) : Prop := dmin <= d <= dmax /\ mid - a <= d <= mid + a /\ (d - mid - a) mod 2 = 0.
(** One step: [v0] comes from one of the neighbours, and a snake may follow in the box. *)
Definition stepped (a : Z) (F : Z -> Z) (d v : Z) : Prop := exists v0,
  ((onV fm a (d - 1) /\ v0 = F (d - 1) + 1) \/ (onV fm a (d + 1) /\ v0 = F (d + 1))) /\
  (onV fm a (d - 1) -> F (d - 1) + 1 <= v0) /\ (onV fm a (d + 1) -> F (d + 1) <= v0) /\
  v0 <= v /\ (v = v0 \/ (v <= l1 /\ v - d <= l2 /\ (v < l1 \/ v - d < l2))).
Definition grown (a : Z) (F F' : Z -> Z) : Prop := forall d, onV fm (a + 1) d -> stepped a F d (F' d).
(** Without regard to the other side. *)
Definition inv1 (a : Z) (F : Z -> Z) : Prop := forall d, onV fm a d -> o1 <= F d /\ o2 <= F d - d /\ o1 + o2 + a <= F d + (F d - d).
Lemma inv1_0 F : F fm = o1 -> inv1 0 F.
Proof. intros E d (_ & D & _). assert (d = fm) as -> by lia. rewrite E. lia. Qed.
Lemma inv1_step a F d v : inv1 a F -> stepped a F d v -> o1 <= v /\ o2 <= v - d /\ o1 + o2 + (a + 1) <= v + (v - d).
Proof. intros H (v0 & [[Dn E]|[Dn E]] & _ & _ & L & _); destruct (H _ Dn) as (H1 & H2 & H3); lia. Qed.
Lemma inv1_grown a F F' : inv1 a F -> grown a F F' -> inv1 (a + 1) F'.
Proof.
  intros H G d D. destruct (G d D) as (v0 & [[Dn E]|[Dn E]] & _ & _ & L & _); destruct (H _ Dn) as (H1 & H2 & H3); lia.
Qed.
(** With the other side looked at up to [a - eps] steps. *)
Variable eps : Z.
Hypothesis Eps : 0 <= eps <= 1.
Hypothesis Par : (fm - bm + eps) mod 2 = 0.
Definition inv (a : Z) (F : Z -> Z) : Prop := inv1 a F /\ forall d, onV fm a d ->
  F d <= l1 + a - 1 /\ F d - d <= l2 + a - 1 /\
  (l1 <= F d -> 1 <= a /\ bm + (a - eps) + 2 <= d) /\ (l1 < F d -> bm + (a - eps) + 4 <= d /\ F d - 1 <= F (d - 2) /\ onV fm a (d - 2)) /\
  (l2 <= F d - d -> 1 <= a /\ d <= bm - (a - eps) - 2) /\ (l2 < F d - d -> d <= bm - (a - eps) - 4 /\ F d + 1 <= F (d + 2) /\ onV fm a (d + 2)).
Lemma inv_0 F : F fm = o1 -> inv 0 F.
Proof. intros E. split; [now apply inv1_0|]. intros d (_ & D & _). assert (d = fm) as -> by lia. rewrite E. repeat split; lia. Qed.
(** A point on a diagonal that the other side is on is in the box, and not its corner. *)
Lemma inv_hit a F d v : 0 <= a -> inv a F -> stepped a F d v -> bm - (a + 1 - eps) <= d <= bm + (a + 1 - eps) ->
  v <= l1 /\ v - d <= l2 /\ (v < l1 \/ v - d < l2).
Proof.
  intros Ha [H1 H] G R. destruct G as (v0 & Src & _ & _ & L & [E|E]); [|auto]. rewrite E.
  destruct Src as [[Dn Ev]|[Dn Ev]]; destruct (H _ Dn) as (A1 & A2 & A3 & A4 & A5 & A6); subst v0; clear - B1 B2 Eps Ha R A3 A4 A5 A6.
  - assert (F (d - 1) + 1 <= l1) by (destruct (Z_le_gt_dec (F (d - 1) + 1) l1); auto; lia). assert (F (d - 1) - (d - 1) <= l2) by (destruct (Z_le_gt_dec (F (d - 1) - (d - 1)) l2); auto; lia).
    split; [lia|]. split; [lia|]. destruct (Z_lt_ge_dec (F (d - 1) - (d - 1)) l2); [lia|]. lia.
  - assert (F (d + 1) <= l1) by (destruct (Z_le_gt_dec (F (d + 1)) l1); auto; lia). assert (F (d + 1) - d <= l2) by (destruct (Z_le_gt_dec (F (d + 1) - d) l2); auto; lia).
    split; [lia|]. split; [lia|]. destruct (Z_lt_ge_dec (F (d + 1)) l1); [lia|]. lia.
Qed.
Lemma inv_grown a F F' : 0 <= a -> inv a F -> grown a F F' ->
  (forall d, onV fm (a + 1) d -> bm - (a + 1 - eps) <= d <= bm + (a + 1 - eps) -> F' d < l1 /\ F' d - d < l2) -> inv (a + 1) F'.
Proof.
  intros Ha I G NO. pose proof I as [H1 H]. split; [eapply inv1_grown; eauto|].
  (* v >= lim *)
  assert (C3 : forall d, onV fm (a + 1) d -> (l1 <= F' d -> bm + (a + 1 - eps) + 2 <= d) /\ (l2 <= F' d - d -> d <= bm - (a + 1 - eps) - 2)).
  { intros d D. assert (P : bm - (a + 1 - eps) <= d <= bm + (a + 1 - eps) \/ d <= bm - (a + 1 - eps) - 2 \/ bm + (a + 1 - eps) + 2 <= d).
    { destruct D as (_ & _ & D). clear - D Par Ha Eps. assert ((d - bm - (a + 1 - eps)) mod 2 = 0) by par. par. }
    destruct P as [P|P]; [destruct (NO d D P); split; intros; lia|].
    destruct (G d D) as (v0 & Src & _ & _ & L & Sn). 
    destruct Src as [[Dn Ev]|[Dn Ev]]; destruct (H _ Dn) as (A1 & A2 & A3 & A4 & A5 & A6); subst v0; clear - B1 B2 Eps Ha P L Sn A1 A2 A3 A5.
    - split; intros Q.
      + destruct P as [P|P]; [exfalso|auto]. destruct Sn as [Sn|Sn]; [|lia]. destruct (Z_le_gt_dec l1 (F (d - 1))); lia.
      + destruct P as [P|P]; [auto|exfalso]. destruct Sn as [Sn|Sn]; [|lia]. lia.
    - split; intros Q.
      + destruct P as [P|P]; [exfalso|auto]. destruct Sn as [Sn|Sn]; [|lia]. lia.
      + destruct P as [P|P]; [auto|exfalso]. destruct Sn as [Sn|Sn]; [|lia]. destruct (Z_le_gt_dec l2 (F (d + 1) - (d + 1))); lia. }
  intros d D. destruct (C3 d D) as [C1 C2].
  assert (U : F' d <= l1 + (a + 1) - 1 /\ F' d - d <= l2 + (a + 1) - 1).
  { destruct (G d D) as (v0 & Src & _ & _ & L & Sn). destruct Src as [[Dn Ev]|[Dn Ev]]; destruct (H _ Dn) as (A1 & A2 & _); subst v0; clear - Ha Sn A1 A2; lia. }
  split; [tauto|]. split; [tauto|]. split; [intros Q; split; [lia|auto]|].
  (* v > lim: the neighbour is as far *)
  split; [|split; [intros Q; split; [lia|auto]|]].
  - intros Q. assert (D2 : onV fm (a + 1) (d - 2) /\ F' d - 1 <= F' (d - 2)).
    { specialize (C1 ltac:(lia)). destruct (G d D) as (v0 & Src & Sl & _ & L & Sn). assert (v0 = F' d) as -> by (destruct Sn as [|(? & _)]; lia).
      destruct D as (D1 & D2 & D3).
      assert (Dm : dmin <= d - 2) by (clear - C1 B1 Eps Ha; lia).
      assert (Dn : onV fm a (d - 1) /\ F' d - 1 <= F (d - 1)).
      { destruct Src as [[Dn Ev]|[Dn Ev]]; [split; [exact Dn|lia]|]. destruct (H _ Dn) as (_ & _ & _ & A4 & _ & _). destruct (A4 ltac:(lia)) as (A7 & A8 & A9). replace (d + 1 - 2) with (d - 1) in A8, A9 by lia. split; [auto|lia]. }
      destruct Dn as [Dn Lf]. assert (Dd : onV fm (a + 1) (d - 2)). { destruct Dn as (N1 & N2 & N3). split; [lia|]. split; [lia|]. clear - N3. par. }
      split; auto. destruct (G _ Dd) as (w0 & _ & _ & Sr & Lw & _). replace (d - 2 + 1) with (d - 1) in Sr by lia. specialize (Sr Dn). lia. }
    destruct D2 as [D2 Lf]. split; [|split; auto]. destruct (C3 _ D2) as [C3' _]. specialize (C1 ltac:(lia)). specialize (C3' ltac:(lia)). lia.
  - intros Q. assert (D2 : onV fm (a + 1) (d + 2) /\ F' d + 1 <= F' (d + 2)).
    { specialize (C2 ltac:(lia)). destruct (G d D) as (v0 & Src & _ & Sr & L & Sn). assert (v0 = F' d) as -> by (destruct Sn as [|(_ & ? & _)]; lia).
      destruct D as (D1 & D2 & D3).
      assert (Dm : d + 2 <= dmax) by (clear - C2 B2 Eps Ha; lia).
      assert (Dn : onV fm a (d + 1) /\ F' d <= F (d + 1)).
      { destruct Src as [[Dn Ev]|[Dn Ev]]; [|split; [exact Dn|lia]]. destruct (H _ Dn) as (_ & _ & _ & _ & _ & A4). destruct (A4 ltac:(lia)) as (A7 & A8 & A9). replace (d - 1 + 2) with (d + 1) in A8, A9 by lia. split; [auto|lia]. }
      destruct Dn as [Dn Lf]. assert (Dd : onV fm (a + 1) (d + 2)). { destruct Dn as (N1 & N2 & N3). split; [lia|]. split; [lia|]. clear - N3. par. }
      split; auto. destruct (G _ Dd) as (w0 & _ & Sl & _ & Lw & _). replace (d + 2 - 1) with (d + 1) in Sl by lia. specialize (Sl Dn). lia. }
    destruct D2 as [D2 Lf]. split; [|split; auto]. destruct (C3 _ D2) as [_ C3']. specialize (C2 ltac:(lia)). specialize (C3' ltac:(lia)). lia.
Qed.
(** The two sides meet before all lines are used up. *)
Lemma inv_bound a F : 0 <= a -> inv a F -> a < (l1 - o1) + (l2 - o2).
Proof.
  intros Ha [H1 H]. destruct (Z_lt_ge_dec a ((l1 - o1) + (l2 - o2))) as [|Hge]; auto. exfalso.
  assert (exists d, onV fm a d /\ bm - 1 <= d <= bm) as (d & D & R).
  { assert (Q : (bm - fm - a) mod 2 = 0 \/ (bm - 1 - fm - a) mod 2 = 0) by par. destruct Q as [Q|Q]; [exists bm|exists (bm - 1)]; (split; [split; [lia|split; [lia|auto]]|lia]). }
  destruct (H1 d D) as (P1 & P2 & P3). destruct (H d D) as (_ & _ & A3 & _ & A5 & _).
  assert (F d < l1) by (destruct (Z_lt_ge_dec (F d) l1); auto; lia). assert (F d - d < l2) by (destruct (Z_lt_ge_dec (F d - d) l2); auto; lia). lia.
Qed.
End Box.

(** The other side, seen from its corner. *)
Section Other.
Variables (o1 l1 o2 l2 : Z).
Notation fm := (o1 - o2).
Notation bm := (l1 - l2).
Notation onV := (onV o1 l1 o2 l2).
Definition mirror (B : Z -> Z) (d : Z) : Z := o1 + l1 - B (fm + bm - d).
Definition stepped_back (b : Z) (B : Z -> Z) (d w : Z) : Prop := exists w0,
  ((onV bm b (d - 1) /\ w0 = B (d - 1)) \/ (onV bm b (d + 1) /\ w0 = B (d + 1) - 1)) /\
  (onV bm b (d - 1) -> w0 <= B (d - 1)) /\ (onV bm b (d + 1) -> w0 <= B (d + 1) - 1) /\
  w <= w0 /\ (w = w0 \/ (o1 <= w /\ o2 <= w - d /\ (o1 < w \/ o2 < w - d))).
Lemma onV_mirror a d : onV fm a d <-> onV bm a (fm + bm - d).
Proof. unfold XdiffMyers.onV. split; intros (H1 & H2 & H3); (split; [lia|]; split; [lia|]); clear - H3; par. Qed.
Lemma mirror_step b B d w : stepped_back b B d w -> stepped o1 l1 o2 l2 b (mirror B) (fm + bm - d) (o1 + l1 - w).
Proof.
  intros (w0 & Src & Sl & Sr & L & Sn). exists (o1 + l1 - w0). unfold mirror.
  assert (E1 : fm + bm - (fm + bm - d - 1) = d + 1) by lia. assert (E2 : fm + bm - (fm + bm - d + 1) = d - 1) by lia. rewrite !onV_mirror, E1, E2.
  split; [destruct Src as [[? ?]|[? ?]]; [right|left]; (split; [auto|lia])|]. split; [intros Q; specialize (Sr Q); lia|]. split; [intros Q; specialize (Sl Q); lia|]. split; [lia|]. destruct Sn as [Sn|Sn]; [left|right]; lia.
Qed.
Lemma mirror_grown b B B' : (forall d, onV bm (b + 1) d -> stepped_back b B d (B' d)) -> grown o1 l1 o2 l2 b (mirror B) (mirror B').
Proof.
  intros H d D. apply onV_mirror in D. specialize (H _ D). apply mirror_step in H. replace (fm + bm - (fm + bm - d)) with d in H by lia. exact H.
Qed.
Lemma mirror_inv1 b B : inv1 o1 l1 o2 l2 b (mirror B) -> forall d, onV bm b d -> B d <= l1 /\ B d - d <= l2 /\ B d + (B d - d) <= l1 + l2 - b.
Proof.
  intros H d D. assert (E : fm + bm - (fm + bm - d) = d) by lia. assert (D' : onV fm b (fm + bm - d)) by (apply onV_mirror; now rewrite E). destruct (H _ D') as (P1 & P2 & P3). unfold mirror in *. rewrite E in *. lia.
Qed.
End Other.
