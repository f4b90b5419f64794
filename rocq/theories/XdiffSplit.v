(** xdl_split finds a point in the box. *)
From Verif Require Import Base CStr Str ApplyModel XdiffModel XdiffProofs XdiffMyers.
Local Open Scope Z_scope.

Definition val (k : kvd) (d : Z) : Z := match k_at k d with Some v => v | None => 0 end.
Section Split.
Variables (ha1 ha2 : list nat) (o1 l1 o2 l2 mx : Z).
Notation n1 := (Z.of_nat (length ha1)).
Notation n2 := (Z.of_nat (length ha2)).
Hypotheses (A1 : 0 <= o1) (A2 : o1 < l1) (A3 : l1 <= n1) (A4 : 0 <= o2) (A5 : o2 < l2) (A6 : l2 <= n2) (A7 : n1 + n2 < LINE_MAX).
Hypothesis C1 : nth_error ha1 (Z.to_nat o1) <> nth_error ha2 (Z.to_nat o2).
Hypothesis C2 : nth_error ha1 (Z.to_nat (l1 - 1)) <> nth_error ha2 (Z.to_nat (l2 - 1)).
Notation bx := (mkbox o1 l1 o2 l2).
Notation env := (mkenv mx 20 256).
Notation fm := (o1 - o2).
Notation bm := (l1 - l2).
Notation dmin := (o1 - l2).
Notation dmax := (l1 - o2).
Notation onV := (onV o1 l1 o2 l2).

Lemma haget_ok ha i : 0 <= i < Z.of_nat (length ha) -> exists x, haget ha i = Ok x /\ nth_error ha (Z.to_nat i) = Some x.
Proof. intros H. unfold haget. destruct (Z.ltb_spec i 0); [lia|]. destruct (getc_lt ha (Z.to_nat i)) as (x & E & G); [lia|]. eauto. Qed.
Lemma snake_fwd_spec fuel : forall i1 i2, 0 <= i1 -> 0 <= i2 -> l1 - i1 <= Z.of_nat fuel ->
  exists k, 0 <= k /\ snake_fwd ha1 ha2 bx fuel i1 i2 = Ok (i1 + k, i2 + k) /\ (k = 0 \/ (i1 + k <= l1 /\ i2 + k <= l2 /\ (i1 + k < l1 \/ i2 + k < l2))).
Proof.
  induction fuel as [|f IH]; intros i1 i2 H1 H2 Hf; cbn [snake_fwd off1 lim1 off2 lim2].
  - destruct (Z.ltb_spec i1 l1); [lia|]. exists 0. rewrite !Z.add_0_r. cbn. repeat split; auto; lia.
  - destruct (Z.ltb_spec i1 l1) as [L1|]; [|exists 0; rewrite !Z.add_0_r; cbn; repeat split; auto; lia]. destruct (Z.ltb_spec i2 l2) as [L2|]; [|exists 0; rewrite !Z.add_0_r; cbn; repeat split; auto; lia].
    cbn [andb]. destruct (haget_ok ha1 i1) as (x & -> & X); [lia|]. destruct (haget_ok ha2 i2) as (y & -> & Y); [lia|]. cbn [bindr].
    destruct (Nat.eqb_spec x y) as [->|]; [|exists 0; rewrite !Z.add_0_r; repeat split; auto; lia].
    destruct (IH (i1 + 1) (i2 + 1)) as (k & K0 & -> & K); try lia. exists (1 + k). rewrite !Z.add_assoc. split; [lia|]. split; auto. right. destruct K as [->|K]; [|lia].
    assert (~ (i1 + 1 = l1 /\ i2 + 1 = l2)) by (intros [Q1 Q2]; apply C2; replace (l1 - 1) with i1 by lia; replace (l2 - 1) with i2 by lia; congruence). lia.
Qed.
Lemma snake_bwd_spec fuel : forall i1 i2, i1 <= n1 -> i2 <= n2 -> i1 - o1 <= Z.of_nat fuel ->
  exists k, 0 <= k /\ snake_bwd ha1 ha2 bx fuel i1 i2 = Ok (i1 - k, i2 - k) /\ (k = 0 \/ (o1 <= i1 - k /\ o2 <= i2 - k /\ (o1 < i1 - k \/ o2 < i2 - k))).
Proof.
  induction fuel as [|f IH]; intros i1 i2 H1 H2 Hf; cbn [snake_bwd off1 lim1 off2 lim2].
  - destruct (Z.ltb_spec o1 i1); [lia|]. exists 0. rewrite !Z.sub_0_r. cbn. repeat split; auto; lia.
  - destruct (Z.ltb_spec o1 i1) as [L1|]; [|exists 0; rewrite !Z.sub_0_r; cbn; repeat split; auto; lia]. destruct (Z.ltb_spec o2 i2) as [L2|]; [|exists 0; rewrite !Z.sub_0_r; cbn; repeat split; auto; lia].
    cbn [andb]. destruct (haget_ok ha1 (i1 - 1)) as (x & -> & X); [lia|]. destruct (haget_ok ha2 (i2 - 1)) as (y & -> & Y); [lia|]. cbn [bindr].
    destruct (Nat.eqb_spec x y) as [->|]; [|exists 0; rewrite !Z.sub_0_r; repeat split; auto; lia].
    destruct (IH (i1 - 1) (i2 - 1)) as (k & K0 & -> & K); try lia. exists (1 + k). rewrite !Z.sub_add_distr. split; [lia|]. split; auto. right. destruct K as [->|K]; [|lia].
    assert (~ (i1 - 1 = o1 /\ i2 - 1 = o2)) by (intros [Q1 Q2]; apply C1; rewrite <- Q1, <- Q2; congruence). lia.
Qed.

(** ** The K vectors *)
Definition wide (k : kvd) : Prop := k_lo k <= dmin - 1 /\ dmax + 1 <= k_hi k.
Lemma kget_ok k i v : wide k -> dmin - 1 <= i <= dmax + 1 -> k_at k i = Some v -> kget k i = Ok v.
Proof. intros [W1 W2] H E. unfold kget. destruct (Z.leb_spec (k_lo k) i); [|lia]. destruct (Z.leb_spec i (k_hi k)); [|lia]. cbn. now rewrite E. Qed.
Lemma kset_ok k i v : wide k -> dmin - 1 <= i <= dmax + 1 -> exists k', kset k i v = Ok k' /\ wide k' /\ k_at k' i = Some v /\ forall j, j <> i -> k_at k' j = k_at k j.
Proof.
  intros [W1 W2] H. unfold kset. destruct (Z.leb_spec (k_lo k) i); [|lia]. destruct (Z.leb_spec i (k_hi k)); [|lia]. cbn [andb]. eexists. split; [reflexivity|]. cbn. split; [split; auto|]. rewrite Z.eqb_refl. split; auto.
  intros j N. destruct (Z.eqb_spec j i); congruence.
Qed.
Definition has (k : kvd) (mid a : Z) : Prop := forall d, onV mid a d -> k_at k d = Some (val k d).
Definition edge (mid a lo hi : Z) : Prop := onV mid a lo /\ onV mid a hi /\ forall d, onV mid a d -> lo <= d <= hi.
Lemma widen_lo k mid a lo hi s : 0 <= a -> dmin < mid < dmax -> edge mid a lo hi -> wide k -> exists lo' k', (if dmin <? lo then do k <- kset k (lo - 1 - 1) s ;; Ok (lo - 1, k) else Ok (lo + 1, k)) = Ok (lo', k') /\
  wide k' /\ (forall x, onV mid a x -> k_at k' x = k_at k x) /\ onV mid (a + 1) lo' /\ (forall d, onV mid (a + 1) d -> lo' <= d) /\ (onV mid a (lo' - 1) \/ (~ onV mid a (lo' - 1) /\ k_at k' (lo' - 1) = Some s /\ onV mid a (lo' + 1))).
Proof.
  intros Ha Hm (E1 & E2 & E3) W. destruct (Z.ltb_spec dmin lo) as [L|L].
  - destruct (kset_ok k (lo - 1 - 1) s W) as (k' & -> & W' & K1 & K2); [destruct E1; lia|]. cbn [bindr]. exists (lo - 1), k'. split; auto. split; auto.
    assert (No : ~ onV mid a (lo - 1 - 1)) by (intros H; apply E3 in H; lia).
    split; [intros x Hx; apply K2; intros ->; tauto|]. split; [destruct E1 as (P1 & P2 & P3); split; [lia|]; split; [lia|]; clear - P3; par|].
    split.
    + intros d D. destruct (Z_le_gt_dec (lo - 1) d) as [|G]; auto. exfalso. assert (onV mid a (d + 1)); [|apply E3 in H; lia]. destruct D as (P1 & P2 & P3), E1 as (R1 & R2 & R3). assert (d <> lo - 2) by (clear - P3 R3; intros ->; par). split; [lia|]. split; [lia|]. clear - P3. par.
    + right. split; auto. split; auto. now replace (lo - 1 + 1) with lo by lia.
  - assert (lo = dmin) as -> by (destruct E1; lia). exists (dmin + 1), k. split; auto. split; auto. split; auto. split; [destruct E1 as (P1 & P2 & P3); split; [lia|]; split; [|clear - P3; par]|].
    + split; [lia|]. destruct (Z_le_gt_dec (dmin + 1) (mid + (a + 1))); auto. lia.
    + split; [|left; now replace (dmin + 1 - 1) with dmin by lia]. intros d (P1 & P2 & P3). destruct E1 as (_ & _ & R3). assert (d <> dmin) by (clear - P3 R3; intros ->; par). lia.
Qed.
Lemma widen_hi k mid a lo hi s : 0 <= a -> dmin < mid < dmax -> edge mid a lo hi -> wide k -> exists hi' k', (if hi <? dmax then do k <- kset k (hi + 1 + 1) s ;; Ok (hi + 1, k) else Ok (hi - 1, k)) = Ok (hi', k') /\
  wide k' /\ (forall x, x <= hi + 1 -> k_at k' x = k_at k x) /\ onV mid (a + 1) hi' /\ (forall d, onV mid (a + 1) d -> d <= hi') /\ (onV mid a (hi' + 1) \/ (~ onV mid a (hi' + 1) /\ k_at k' (hi' + 1) = Some s /\ onV mid a (hi' - 1))).
Proof.
  intros Ha Hm (E1 & E2 & E3) W. destruct (Z.ltb_spec hi dmax) as [L|L].
  - destruct (kset_ok k (hi + 1 + 1) s W) as (k' & -> & W' & K1 & K2); [destruct E2; lia|]. cbn [bindr]. exists (hi + 1), k'. split; auto. split; auto.
    assert (No : ~ onV mid a (hi + 1 + 1)) by (intros H; apply E3 in H; lia).
    split; [intros x Hx; apply K2; lia|]. split; [destruct E2 as (P1 & P2 & P3); split; [lia|]; split; [lia|]; clear - P3; par|].
    split.
    + intros d D. destruct (Z_le_gt_dec d (hi + 1)) as [|G]; auto. exfalso. assert (onV mid a (d - 1)); [|apply E3 in H; lia]. destruct D as (P1 & P2 & P3), E2 as (R1 & R2 & R3). assert (d <> hi + 2) by (clear - P3 R3; intros ->; par). split; [lia|]. split; [lia|]. clear - P3. par.
    + right. split; auto. split; auto. now replace (hi + 1 - 1) with hi by lia.
  - assert (hi = dmax) as -> by (destruct E2; lia). exists (dmax - 1), k. split; auto. split; auto. split; auto. split; [destruct E2 as (P1 & P2 & P3); split; [lia|]; split; [|clear - P3; par]|].
    + split; [|lia]. lia.
    + split; [|left; now replace (dmax - 1 + 1) with dmax by lia]. intros d (P1 & P2 & P3). destruct E2 as (_ & _ & R3). assert (d <> dmax) by (clear - P3 R3; intros ->; par). lia.
Qed.
(** After widening: the neighbours of each diagonal. *)
Definition ready (k : kvd) (F : Z -> Z) (s mid a : Z) : Prop := forall d, onV mid (a + 1) d ->
  ((onV mid a (d - 1) /\ k_at k (d - 1) = Some (F (d - 1))) \/ (~ onV mid a (d - 1) /\ k_at k (d - 1) = Some s /\ onV mid a (d + 1))) /\
  ((onV mid a (d + 1) /\ k_at k (d + 1) = Some (F (d + 1))) \/ (~ onV mid a (d + 1) /\ k_at k (d + 1) = Some s /\ onV mid a (d - 1))).
Lemma widen k mid a lo hi s : 0 <= a -> dmin < mid < dmax -> edge mid a lo hi -> wide k -> has k mid a -> exists lo' hi' k1 k',
  (if dmin <? lo then do k <- kset k (lo - 1 - 1) s ;; Ok (lo - 1, k) else Ok (lo + 1, k)) = Ok (lo', k1) /\
  (if hi <? dmax then do k <- kset k1 (hi + 1 + 1) s ;; Ok (hi + 1, k) else Ok (hi - 1, k1)) = Ok (hi', k') /\
  edge mid (a + 1) lo' hi' /\ wide k' /\ ready k' (val k) s mid a /\ (forall x, onV mid a x -> k_at k' x = Some (val k x)).
Proof.
  intros Ha Hm E W H. destruct (widen_lo k mid a lo hi s Ha Hm E W) as (lo' & k1 & EA & W1 & K1 & V1 & M1 & N1).
  destruct (widen_hi k1 mid a lo hi s Ha Hm E W1) as (hi' & k2 & EB & W2 & K2 & V2 & M2 & N2).
  exists lo', hi', k1, k2. split; auto. split; auto. split; [split; auto; split; auto; intros; split; auto|]. split; auto.
  assert (Kx : forall x, onV mid a x -> k_at k2 x = Some (val k x)) by (intros x Hx; rewrite K2, K1 by (auto; apply E in Hx; lia); auto).
  split; auto. intros d D. pose proof (M1 d D) as G1. pose proof (M2 d D) as G2. split.
  - destruct (Z.eq_dec d lo') as [->|N].
    + destruct N1 as [N1|(N1 & N3 & N4)]; [left; auto|right]. split; auto. split; auto. rewrite K2; auto. destruct E as (_ & _ & E). apply E in N4. lia.
    + left. assert (onV mid a (d - 1)); [|auto]. destruct D as (P1 & P2 & P3), V1 as (R1 & R2 & R3). assert (d <> lo' + 1) by (clear - P3 R3; intros ->; par). split; [lia|]. split; [lia|]. clear - P3. par.
  - destruct (Z.eq_dec d hi') as [->|N].
    + destruct N2 as [N2|(N2 & N3 & N4)]; [left; auto|right; auto].
    + left. assert (onV mid a (d + 1)); [|auto]. destruct D as (P1 & P2 & P3), V2 as (R1 & R2 & R3). assert (d <> hi' - 1) by (clear - P3 R3; intros ->; par). split; [lia|]. split; [lia|]. clear - P3. par.
Qed.
(** ** The loops over the diagonals *)
Notation stepF := (stepped o1 l1 o2 l2).
Notation stepB := (stepped_back o1 l1 o2 l2).
Lemma edge_in mid a lo hi d : edge mid a lo hi -> lo <= d <= hi -> (d - mid - a) mod 2 = 0 -> onV mid a d.
Proof. intros ((P1 & P2 & _) & (R1 & R2 & _) & _) H E. split; [lia|]. split; [lia|auto]. Qed.
Lemma onV_next mid a lo hi d : edge mid a lo hi -> onV mid a d -> d - 2 < lo \/ onV mid a (d - 2).
Proof. intros E D. destruct (Z_lt_ge_dec (d - 2) lo); auto. right. apply (edge_in mid a lo hi); auto; [apply E in D; lia|]. destruct D as (_ & _ & D). clear - D. par. Qed.
Lemma onV_between mid a x d : onV mid a x -> onV mid a d -> d - 2 < x -> d <= x.
Proof. intros (_ & _ & X) (_ & _ & D) H. assert (x <> d - 1) by (clear - X D; intros ->; par). lia. Qed.
Ltac fin := split; [first [left; split; [assumption|reflexivity] | right; split; [assumption|reflexivity]]|]; split; [intros; first [lia|tauto]|]; split; [intros; first [lia|tauto]|]; split; [lia|left; reflexivity].
Notation spn := (S (Z.to_nat (l1 - o1 + (l2 - o2)))).
Lemma fwd_loop_spec a F odd kb bmin bmax lo hi k0 : 0 <= a -> edge fm (a + 1) lo hi -> ready k0 F (-1) fm a -> inv1 o1 l1 o2 l2 a F ->
  (forall x, odd = true -> onV fm (a + 1) x -> bmin <= x <= bmax -> kget kb x = Ok (val kb x)) ->
  forall fuel k d got, d - lo < Z.of_nat fuel -> (d < lo \/ onV fm (a + 1) d) -> wide k -> (forall x, ~ onV fm (a + 1) x -> k_at k x = k_at k0 x) ->
  (forall x, onV fm (a + 1) x -> d < x -> k_at k x = Some (val k x) /\ stepF a F x (val k x) /\ (odd = true -> bmin <= x <= bmax -> val k x < val kb x)) ->
  (exists x v, onV fm (a + 1) x /\ stepF a F x v /\ odd = true /\ bmin <= x <= bmax /\ val kb x <= v /\ fwd_loop ha1 ha2 bx env fuel odd k kb lo bmin bmax d got = Ok (inl (mkspl v (v - x) true true))) \/
  (exists k' got', fwd_loop ha1 ha2 bx env fuel odd k kb lo bmin bmax d got = Ok (inr (k', got')) /\ wide k' /\ (forall x, ~ onV fm (a + 1) x -> k_at k' x = k_at k0 x) /\
    (forall x, onV fm (a + 1) x -> k_at k' x = Some (val k' x) /\ stepF a F x (val k' x) /\ (odd = true -> bmin <= x <= bmax -> val k' x < val kb x))).
Proof.
  intros Ha Ed Rd I1 Hb. induction fuel as [|f IH]; intros k d got Hf Hd W Par Done.
  - right. cbn [fwd_loop]. destruct (Z.ltb_spec d lo); [|lia]. exists k, got. split; auto. split; auto. split; auto. intros x Hx. apply Done; auto. apply Ed in Hx. lia.
  - cbn [fwd_loop]. destruct (Z.ltb_spec d lo) as [L|L].
    { right. exists k, got. split; auto. split; auto. split; auto. intros x Hx. apply Done; auto. apply Ed in Hx. lia. }
    destruct Hd as [Hd|Hd]; [lia|].
    assert (Nb : ~ onV fm (a + 1) (d - 1) /\ ~ onV fm (a + 1) (d + 1)) by (destruct Hd as (_ & _ & Q); split; intros (_ & _ & Q'); clear - Q Q'; par).
    assert (Bd : dmin <= d <= dmax) by apply Hd.
    assert (G1 : forall v, k_at k (d - 1) = Some v -> kget k (d - 1) = Ok v) by (intros; apply kget_ok; auto; lia). assert (G2 : forall v, k_at k (d + 1) = Some v -> kget k (d + 1) = Ok v) by (intros; apply kget_ok; auto; lia).
    assert (Src : exists i, stepF a F d i /\ (do l <- kget k (d - 1);; do r <- kget k (d + 1);; let i1 := if r <=? l then l + 1 else r in Ok i1) = Ok i /\ (exists l r, kget k (d - 1) = Ok l /\ kget k (d + 1) = Ok r /\ i = if r <=? l then l + 1 else r)).
    { destruct (Rd d Hd) as [[[V1 E1]|(V1 & E1 & V1')] [[V2 E2]|(V2 & E2 & V2')]]; try tauto; rewrite <- Par in E1, E2 by tauto;
      rewrite (G1 _ E1), (G2 _ E2); cbn [bindr]; cbv zeta.
      - destruct (Z.leb_spec (F (d + 1)) (F (d - 1))) as [Q|Q]; eexists; (split; [|split; [reflexivity|do 2 eexists; split; [reflexivity|split; [reflexivity|]]]]).
        2,4: (destruct (Z.leb_spec (F (d + 1)) (F (d - 1))); [reflexivity||lia|lia||reflexivity]).
        + exists (F (d - 1) + 1). fin.
        + exists (F (d + 1)). fin.
      - destruct (I1 _ V2') as (P & _). destruct (Z.leb_spec (-1) (F (d - 1))) as [Q|Q]; [|lia]. eexists. split; [|split; [reflexivity|do 2 eexists; split; [reflexivity|split; [reflexivity|]]]].
        + exists (F (d - 1) + 1). fin.
        + destruct (Z.leb_spec (-1) (F (d - 1))); [reflexivity|lia].
      - destruct (I1 _ V1') as (P & _). destruct (Z.leb_spec (F (d + 1)) (-1)) as [Q|Q]; [lia|]. eexists. split; [|split; [reflexivity|do 2 eexists; split; [reflexivity|split; [reflexivity|]]]].
        + exists (F (d + 1)). fin.
        + destruct (Z.leb_spec (F (d + 1)) (-1)); [lia|reflexivity]. }
    destruct Src as (i & Hi & _ & l & r & -> & -> & Ei). cbn [bindr]. cbv zeta. rewrite <- Ei. clear Ei l r.
    assert (Pi : o1 <= i /\ o2 <= i - d).
    { destruct Hi as (v0 & [[V E]|[V E]] & _ & _ & L0 & _); destruct (I1 _ V) as (P1 & P2 & _); lia. }
    destruct (snake_fwd_spec spn i (i - d)) as (j & J0 & Es & Js); try lia. unfold span. cbn [lim1 off1 lim2 off2]. rewrite Es. cbn [bindr].
    assert (Hv : stepF a F d (i + j)).
    { destruct Hi as (v0 & S1' & S2' & S3' & L0 & Sn). exists v0. repeat (split; [assumption|]). split; [lia|]. destruct Js as [->|Js]; [rewrite Z.add_0_r; auto|right]. lia. }
    destruct (kset_ok k d (i + j) W) as (k' & -> & W' & K1 & K2); [lia|]. cbn [bindr].
    assert (Par' : forall x, ~ onV fm (a + 1) x -> k_at k' x = k_at k0 x) by (intros x Hx; rewrite K2; auto; intros ->; tauto).
    assert (Vd : val k' d = i + j) by (unfold val; now rewrite K1).
    assert (Vx : forall x, x <> d -> val k' x = val k x) by (intros x N; unfold val; now rewrite K2).
    assert (Nx : forall x, onV fm (a + 1) x -> d - 2 < x -> x = d \/ d < x) by (intros x X Q; pose proof (onV_between _ _ _ _ X Hd Q); lia).
    assert (Go : (odd = true -> bmin <= d <= bmax -> i + j < val kb d) -> forall x, onV fm (a + 1) x -> d - 2 < x -> k_at k' x = Some (val k' x) /\ stepF a F x (val k' x) /\ (odd = true -> bmin <= x <= bmax -> val k' x < val kb x)).
    { intros Hn x X Q. destruct (Nx x X Q) as [->|Q']; [rewrite Vd; auto|]. rewrite Vx by lia. rewrite K2 by lia. apply Done; auto. }
    pose proof (onV_next _ _ _ _ _ Ed Hd) as Nd. replace (i - d + j) with (i + j - d) by lia.
    destruct odd; cbn [andb].
    + destruct (Z.leb_spec bmin d) as [Q1|Q1]; cbn [andb]; [destruct (Z.leb_spec d bmax) as [Q2|Q2]; cbn [andb]|].
      * rewrite (Hb d eq_refl Hd (conj Q1 Q2)). cbn [bindr]. destruct (Z.leb_spec (val kb d) (i + j)) as [Q3|Q3].
        -- left. exists d, (i + j). repeat (split; auto).
        -- apply IH; try assumption; [lia|]. apply Go. intros; lia.
      * apply IH; try assumption; [lia|]. apply Go. intros; lia.
      * apply IH; try assumption; [lia|]. apply Go. intros; lia.
    + apply IH; try assumption; [lia|]. apply Go. intros; discriminate.
Qed.
Lemma bwd_loop_spec a F odd kf fmin fmax lo hi k0 : 0 <= a -> edge bm (a + 1) lo hi -> ready k0 F LINE_MAX bm a -> (forall x, onV bm a x -> F x <= l1 /\ F x - x <= l2) ->
  (forall x, odd = false -> onV bm (a + 1) x -> fmin <= x <= fmax -> kget kf x = Ok (val kf x)) ->
  forall fuel k d got, d - lo < Z.of_nat fuel -> (d < lo \/ onV bm (a + 1) d) -> wide k -> (forall x, ~ onV bm (a + 1) x -> k_at k x = k_at k0 x) ->
  (forall x, onV bm (a + 1) x -> d < x -> k_at k x = Some (val k x) /\ stepB a F x (val k x) /\ (odd = false -> fmin <= x <= fmax -> val kf x < val k x)) ->
  (exists x v, onV bm (a + 1) x /\ stepB a F x v /\ odd = false /\ fmin <= x <= fmax /\ v <= val kf x /\ bwd_loop ha1 ha2 bx env fuel odd kf k lo fmin fmax d got = Ok (inl (mkspl v (v - x) true true))) \/
  (exists k' got', bwd_loop ha1 ha2 bx env fuel odd kf k lo fmin fmax d got = Ok (inr (k', got')) /\ wide k' /\ (forall x, ~ onV bm (a + 1) x -> k_at k' x = k_at k0 x) /\
    (forall x, onV bm (a + 1) x -> k_at k' x = Some (val k' x) /\ stepB a F x (val k' x) /\ (odd = false -> fmin <= x <= fmax -> val kf x < val k' x))).
Proof.
  intros Ha Ed Rd I1 Hb. induction fuel as [|f IH]; intros k d got Hf Hd W Par Done.
  - right. cbn [bwd_loop]. destruct (Z.ltb_spec d lo); [|lia]. exists k, got. split; auto. split; auto. split; auto. intros x Hx. apply Done; auto. apply Ed in Hx. lia.
  - cbn [bwd_loop]. destruct (Z.ltb_spec d lo) as [L|L].
    { right. exists k, got. split; auto. split; auto. split; auto. intros x Hx. apply Done; auto. apply Ed in Hx. lia. }
    destruct Hd as [Hd|Hd]; [lia|].
    assert (Nb : ~ onV bm (a + 1) (d - 1) /\ ~ onV bm (a + 1) (d + 1)) by (destruct Hd as (_ & _ & Q); split; intros (_ & _ & Q'); clear - Q Q'; par).
    assert (Bd : dmin <= d <= dmax) by apply Hd.
    assert (G1 : forall v, k_at k (d - 1) = Some v -> kget k (d - 1) = Ok v) by (intros; apply kget_ok; auto; lia). assert (G2 : forall v, k_at k (d + 1) = Some v -> kget k (d + 1) = Ok v) by (intros; apply kget_ok; auto; lia).
    assert (Src : exists i, stepB a F d i /\ (do l <- kget k (d - 1);; do r <- kget k (d + 1);; let i1 := if l <? r then l else r - 1 in Ok i1) = Ok i /\ (exists l r, kget k (d - 1) = Ok l /\ kget k (d + 1) = Ok r /\ i = if l <? r then l else r - 1)).
    { destruct (Rd d Hd) as [[[V1 E1]|(V1 & E1 & V1')] [[V2 E2]|(V2 & E2 & V2')]]; try tauto; rewrite <- Par in E1, E2 by tauto;
      rewrite (G1 _ E1), (G2 _ E2); cbn [bindr]; cbv zeta.
      - destruct (Z.ltb_spec (F (d - 1)) (F (d + 1))) as [Q|Q]; eexists; (split; [|split; [reflexivity|do 2 eexists; split; [reflexivity|split; [reflexivity|]]]]).
        2,4: (destruct (Z.ltb_spec (F (d - 1)) (F (d + 1))); [reflexivity||lia|lia||reflexivity]).
        + exists (F (d - 1)). fin.
        + exists (F (d + 1) - 1). fin.
      - destruct (I1 _ V2') as (P & _). destruct (Z.ltb_spec (F (d - 1)) LINE_MAX) as [Q|Q]; [|lia]. eexists. split; [|split; [reflexivity|do 2 eexists; split; [reflexivity|split; [reflexivity|]]]].
        + exists (F (d - 1)). fin.
        + destruct (Z.ltb_spec (F (d - 1)) LINE_MAX); [reflexivity|lia].
      - destruct (I1 _ V1') as (P & _). destruct (Z.ltb_spec LINE_MAX (F (d + 1))) as [Q|Q]; [lia|]. eexists. split; [|split; [reflexivity|do 2 eexists; split; [reflexivity|split; [reflexivity|]]]].
        + exists (F (d + 1) - 1). fin.
        + destruct (Z.ltb_spec LINE_MAX (F (d + 1))); [lia|reflexivity]. }
    destruct Src as (i & Hi & _ & l & r & -> & -> & Ei). cbn [bindr]. cbv zeta. rewrite <- Ei. clear Ei l r.
    assert (Pi : i <= l1 /\ i - d <= l2).
    { destruct Hi as (v0 & [[V E]|[V E]] & _ & _ & L0 & _); destruct (I1 _ V) as (P1 & P2); lia. }
    destruct (snake_bwd_spec spn i (i - d)) as (j & J0 & Es & Js); try lia. unfold span. cbn [lim1 off1 lim2 off2]. rewrite Es. cbn [bindr].
    assert (Hv : stepB a F d (i - j)).
    { destruct Hi as (v0 & S1' & S2' & S3' & L0 & Sn). exists v0. repeat (split; [assumption|]). split; [lia|]. destruct Js as [->|Js]; [rewrite Z.sub_0_r; auto|right]. lia. }
    destruct (kset_ok k d (i - j) W) as (k' & -> & W' & K1 & K2); [lia|]. cbn [bindr].
    assert (Par' : forall x, ~ onV bm (a + 1) x -> k_at k' x = k_at k0 x) by (intros x Hx; rewrite K2; auto; intros ->; tauto).
    assert (Vd : val k' d = i - j) by (unfold val; now rewrite K1).
    assert (Vx : forall x, x <> d -> val k' x = val k x) by (intros x N; unfold val; now rewrite K2).
    assert (Nx : forall x, onV bm (a + 1) x -> d - 2 < x -> x = d \/ d < x) by (intros x X Q; pose proof (onV_between _ _ _ _ X Hd Q); lia).
    assert (Go : (odd = false -> fmin <= d <= fmax -> val kf d < i - j) -> forall x, onV bm (a + 1) x -> d - 2 < x -> k_at k' x = Some (val k' x) /\ stepB a F x (val k' x) /\ (odd = false -> fmin <= x <= fmax -> val kf x < val k' x)).
    { intros Hn x X Q. destruct (Nx x X Q) as [->|Q']; [rewrite Vd; auto|]. rewrite Vx by lia. rewrite K2 by lia. apply Done; auto. }
    pose proof (onV_next _ _ _ _ _ Ed Hd) as Nd. replace (i - d - j) with (i - j - d) by lia.
    destruct odd; cbn [andb negb].
    + apply IH; try assumption; [lia|]. apply Go. intros; discriminate.
    + destruct (Z.leb_spec fmin d) as [Q1|Q1]; cbn [andb]; [destruct (Z.leb_spec d fmax) as [Q2|Q2]; cbn [andb]|].
      * rewrite (Hb d eq_refl Hd (conj Q1 Q2)). cbn [bindr]. destruct (Z.leb_spec (i - j) (val kf d)) as [Q3|Q3].
        -- left. exists d, (i - j). repeat (split; auto).
        -- apply IH; try assumption; [lia|]. apply Go. intros; lia.
      * apply IH; try assumption; [lia|]. apply Go. intros; lia.
      * apply IH; try assumption; [lia|]. apply Go. intros; lia.
Qed.

(** ** The heuristics *)
Lemma good_fwd_total fuel : forall k i1 i2, 1 <= k <= 20 -> 20 - k <= Z.of_nat fuel -> 20 <= i1 <= n1 -> 20 <= i2 <= n2 -> exists b, good_fwd ha1 ha2 env fuel k i1 i2 = Ok b.
Proof.
  induction fuel as [|f IH]; intros k i1 i2 Hk Hf H1 H2; cbn [good_fwd]; destruct (haget_ok ha1 (i1 - k)) as (x & -> & _); try lia; destruct (haget_ok ha2 (i2 - k)) as (y & -> & _); try lia; cbn [bindr snake_cnt]; (destruct (x =? y)%nat; [|eauto]); destruct (Z.eqb_spec k 20); eauto; try lia. apply IH; lia.
Qed.
Lemma good_bwd_total fuel : forall k i1 i2, 0 <= k <= 19 -> 19 - k <= Z.of_nat fuel -> 0 <= i1 <= n1 - 20 -> 0 <= i2 <= n2 - 20 -> exists b, good_bwd ha1 ha2 env fuel k i1 i2 = Ok b.
Proof.
  induction fuel as [|f IH]; intros k i1 i2 Hk Hf H1 H2; cbn [good_bwd]; destruct (haget_ok ha1 (i1 + k)) as (x & -> & _); try lia; destruct (haget_ok ha2 (i2 + k)) as (y & -> & _); try lia; cbn [bindr snake_cnt]; (destruct (x =? y)%nat; [|eauto]); destruct (Z.eqb_spec k (20 - 1)); eauto; try lia. apply IH; lia.
Qed.
Definition inside (p : Z * Z) : Prop := o1 < fst p < l1 /\ o2 < snd p < l2.
Lemma heur_fwd_spec k mid a lo hi ec : edge mid a lo hi -> wide k -> has k mid a -> forall fuel d best p, d - lo < Z.of_nat fuel -> (d < lo \/ onV mid a d) -> (0 < best -> inside p) ->
  exists best' p', heur_fwd ha1 ha2 bx env fuel k ec lo fm d best p = Ok (best', p') /\ (0 < best' -> inside p').
Proof.
  intros Ed W H. induction fuel as [|f IH]; intros d best p Hf Hd Hp; cbn [heur_fwd]; (destruct (Z.ltb_spec d lo) as [L|L]; [exists best, p; auto|]); [lia|]. destruct Hd as [Hd|Hd]; [lia|].
  rewrite (kget_ok k d (val k d)) by (auto; destruct Hd; lia). cbn [bindr]. cbv zeta. cbn [off1 lim1 off2 lim2 snake_cnt].
  pose proof (onV_next _ _ _ _ _ Ed Hd) as Nd. set (c := (_ && _ && _ && _ && _ && _)). destruct c eqn:Ec; [|apply IH; auto; lia].
  unfold c in Ec. clear c. rewrite !andb_true_iff, !Z.ltb_lt, !Z.leb_le in Ec.
  match goal with |- context [good_fwd _ _ _ ?f0 1 ?x ?y] => destruct (good_fwd_total f0 1 x y) as (g & ->); [lia|lia|lia|lia|] end.
  cbn [bindr]. destruct g; apply IH; auto; try lia. intros _. unfold inside. cbn. lia.
Qed.
Lemma heur_bwd_spec k mid a lo hi ec : edge mid a lo hi -> wide k -> has k mid a -> forall fuel d best p, d - lo < Z.of_nat fuel -> (d < lo \/ onV mid a d) -> (0 < best -> inside p) ->
  exists best' p', heur_bwd ha1 ha2 bx env fuel k ec lo bm d best p = Ok (best', p') /\ (0 < best' -> inside p').
Proof.
  intros Ed W H. induction fuel as [|f IH]; intros d best p Hf Hd Hp; cbn [heur_bwd]; (destruct (Z.ltb_spec d lo) as [L|L]; [exists best, p; auto|]); [lia|]. destruct Hd as [Hd|Hd]; [lia|].
  rewrite (kget_ok k d (val k d)) by (auto; destruct Hd; lia). cbn [bindr]. cbv zeta. cbn [off1 lim1 off2 lim2 snake_cnt].
  pose proof (onV_next _ _ _ _ _ Ed Hd) as Nd. set (c := (_ && _ && _ && _ && _ && _)). destruct c eqn:Ec; [|apply IH; auto; lia].
  unfold c in Ec. clear c. rewrite !andb_true_iff, !Z.ltb_lt, !Z.leb_le in Ec.
  match goal with |- context [good_bwd _ _ _ ?f0 0 ?x ?y] => destruct (good_bwd_total f0 0 x y) as (g & ->); [lia|lia|lia|lia|] end.
  cbn [bindr]. destruct g; apply IH; auto; try lia. intros _. unfold inside. cbn. lia.
Qed.
Definition inbox (s s1 : Z) : Prop := o1 <= s1 <= l1 /\ o2 <= s - s1 <= l2.
Lemma far_fwd_spec k a lo hi : 1 <= a -> edge fm a lo hi -> wide k -> has k fm a -> inv1 o1 l1 o2 l2 a (val k) -> forall fuel d fb fb1, d - lo < Z.of_nat fuel -> (d < lo \/ onV fm a d) ->
  ((inbox fb fb1 /\ o1 + o2 < fb) \/ (fb = -1 /\ lo <= d)) -> exists fb' fb1', far_fwd bx fuel k lo d fb fb1 = Ok (fb', fb1') /\ inbox fb' fb1' /\ o1 + o2 < fb'.
Proof.
  intros Ha Ed W H I1. induction fuel as [|f IH]; intros d fb fb1 Hf Hd Hp; cbn [far_fwd]; (destruct (Z.ltb_spec d lo) as [L|L]; [exists fb, fb1; destruct Hp as [Hp|Hp]; [tauto|lia]|]); [lia|]. destruct Hd as [Hd|Hd]; [lia|].
  rewrite (kget_ok k d (val k d)) by (auto; destruct Hd; lia). cbn [bindr]. cbv zeta. cbn [off1 lim1 off2 lim2].
  pose proof (onV_next _ _ _ _ _ Ed Hd) as Nd. destruct (I1 d Hd) as (P1 & P2 & P3). destruct Hd as (Hd & _). generalize dependent (val k d). intros v P1 P2 P3.
  assert (X : exists x y, (if l2 <? Z.min v l1 - d then (l2 + d, l2) else (Z.min v l1, Z.min v l1 - d)) = (x, y) /\ o1 <= x <= l1 /\ o2 <= y <= l2 /\ o1 + o2 < x + y).
  { destruct (Z.ltb_spec l2 (Z.min v l1 - d)); do 2 eexists; (split; [reflexivity|]); lia. }
  destruct X as (x & y & -> & X1 & X2 & X3). destruct (Z.ltb_spec fb (x + y)) as [Q|Q].
  - apply IH; auto; [lia|]. left. unfold inbox. lia.
  - apply IH; auto; [lia|]. destruct Hp as [Hp|[-> _]]; [auto|]. lia.
Qed.
Lemma far_bwd_spec k b lo hi : 1 <= b -> edge bm b lo hi -> wide k -> has k bm b -> inv1 o1 l1 o2 l2 b (mirror o1 l1 o2 l2 (val k)) -> forall fuel d fb fb1, d - lo < Z.of_nat fuel -> (d < lo \/ onV bm b d) ->
  ((inbox fb fb1 /\ fb < l1 + l2) \/ (fb = LINE_MAX /\ lo <= d)) -> exists fb' fb1', far_bwd bx fuel k lo d fb fb1 = Ok (fb', fb1') /\ inbox fb' fb1' /\ fb' < l1 + l2.
Proof.
  intros Ha Ed W H I1. pose proof (mirror_inv1 _ _ _ _ _ _ I1) as I2. clear I1. induction fuel as [|f IH]; intros d fb fb1 Hf Hd Hp; cbn [far_bwd]; (destruct (Z.ltb_spec d lo) as [L|L]; [exists fb, fb1; destruct Hp as [Hp|Hp]; [tauto|lia]|]); [lia|]. destruct Hd as [Hd|Hd]; [lia|].
  rewrite (kget_ok k d (val k d)) by (auto; destruct Hd; lia). cbn [bindr]. cbv zeta. cbn [off1 lim1 off2 lim2].
  pose proof (onV_next _ _ _ _ _ Ed Hd) as Nd. destruct (I2 d Hd) as (P1 & P2 & P3). destruct Hd as (Hd & _). generalize dependent (val k d). intros v P1 P2 P3.
  assert (X : exists x y, (if Z.max o1 v - d <? o2 then (o2 + d, o2) else (Z.max o1 v, Z.max o1 v - d)) = (x, y) /\ o1 <= x <= l1 /\ o2 <= y <= l2 /\ x + y < l1 + l2).
  { destruct (Z.ltb_spec (Z.max o1 v - d) o2); do 2 eexists; (split; [reflexivity|]); lia. }
  destruct X as (x & y & -> & X1 & X2 & X3). destruct (Z.ltb_spec (x + y) fb) as [Q|Q].
  - apply IH; auto; [lia|]. left. unfold inbox. lia.
  - apply IH; auto; [lia|]. destruct Hp as [Hp|[-> _]]; [auto|]. lia.
Qed.

(** ** All of it *)
Definition odd := Z.odd (fm - bm).
Definition okS (nm : bool) (s : spl) : Prop := o1 <= s_i1 s <= l1 /\ o2 <= s_i2 s <= l2 /\
  ((s_i1 s > o1 \/ s_i2 s > o2) \/ (nm = false /\ min_hi s = true)) /\ ((s_i1 s < l1 \/ s_i2 s < l2) \/ (nm = false /\ min_lo s = true)).
Definition state (a : Z) (kf kb : kvd) (fmin fmax bmin bmax : Z) : Prop :=
  edge fm a fmin fmax /\ edge bm a bmin bmax /\ wide kf /\ wide kb /\ has kf fm a /\ has kb bm a /\ inv1 o1 l1 o2 l2 a (val kf) /\ inv1 o1 l1 o2 l2 a (mirror o1 l1 o2 l2 (val kb)) /\
  (odd = true -> inv o1 l1 o2 l2 1 a (val kf)) /\ (odd = false -> inv o1 l1 o2 l2 0 a (mirror o1 l1 o2 l2 (val kb))).
Lemma odd_par : (odd = true -> (fm - bm + 1) mod 2 = 0) /\ (odd = false -> (fm - bm + 0) mod 2 = 0).
Proof.
  unfold odd. rewrite Zmod_odd, Z.add_0_r, Zmod_odd. rewrite Z.odd_add. destruct (Z.odd (fm - bm)); cbn; split; intros; congruence.
Qed.
Lemma val_ext k k' x : k_at k' x = Some (val k x) -> val k' x = val k x.
Proof. intros H. unfold val at 1. now rewrite H. Qed.
Lemma inv1_ext a F F' : (forall x, onV fm a x -> F' x = F x) -> inv1 o1 l1 o2 l2 a F -> inv1 o1 l1 o2 l2 a F'.
Proof. intros E H d D. rewrite E by auto. now apply H. Qed.
Lemma split_loop_spec nm fuel : forall a kf kb fmin fmax bmin bmax, 0 <= a -> (l1 - o1) + (l2 - o2) + 1 - a <= Z.of_nat fuel -> state a kf kb fmin fmax bmin bmax ->
  exists s, split_loop ha1 ha2 bx env fuel nm (a + 1) kf kb fmin fmax bmin bmax = Ok s /\ okS nm s.
Proof.
  induction fuel as [|f IH]; intros a kf kb fmin fmax bmin bmax Ha Hf (Ef & Eb & Wf & Wb & Hkf & Hkb & If & Ib & Io & Ie).
  { exfalso. destruct odd_par as [Po Pe]. destruct odd.
    - pose proof (inv_bound _ _ _ _ A2 A5 1 ltac:(lia) (Po eq_refl) _ _ Ha (Io eq_refl)). lia.
    - pose proof (inv_bound _ _ _ _ A2 A5 0 ltac:(lia) (Pe eq_refl) _ _ Ha (Ie eq_refl)). lia. }
  cbn [split_loop]. cbn [off1 lim1 off2 lim2]. cbv zeta. fold odd.
  (* forward *)
  destruct (widen kf fm a fmin fmax (-1) Ha ltac:(lia) Ef Wf Hkf) as (fmin1 & fmax1 & kf1 & kf2 & -> & EB & Ef1 & Wf1 & Rf & Kf1). cbn [bindr]. rewrite EB. cbn [bindr]. clear EB kf1.
  assert (Hb : forall x, odd = true -> onV fm (a + 1) x -> bmin <= x <= bmax -> kget kb x = Ok (val kb x)).
  { intros x Ho X Bx. assert (onV bm a x) as V; [|apply kget_ok; auto; destruct X; lia]. apply (edge_in bm a bmin bmax); auto. destruct X as (_ & _ & X). pose proof (proj1 odd_par Ho) as Q. clear - X Q. par. }
  unfold span at 1. cbn [lim1 off1 lim2 off2].
  assert (Bf : fmax1 - fmin1 < Z.of_nat spn) by (destruct Ef1 as ((Q1 & _) & (Q2 & _) & _); lia).
  destruct (fwd_loop_spec a (val kf) odd kb bmin bmax fmin1 fmax1 kf2 Ha Ef1 Rf If Hb spn kf2 fmax1 false Bf (or_intror (proj1 (proj2 Ef1))) Wf1 (fun x _ => eq_refl)) as [(x & v & Vx & Sx & Ox & Bx & Lv & ->)|(kf' & got & -> & Wf' & _ & Done)].
  { intros x X Lx. apply Ef1 in X. lia. }
  { cbn [bindr]. eexists. split; [reflexivity|].
    assert (Rx : bm - (a + 1 - 1) <= x <= bm + (a + 1 - 1)) by (destruct Eb as ((_ & Q1 & _) & (_ & Q2 & _) & _); lia).
    destruct (inv_hit _ _ _ _ 1 ltac:(lia) _ _ _ _ Ha (Io Ox) Sx Rx) as (R1 & R2 & R3). destruct (inv1_step _ _ _ _ _ _ _ _ If Sx) as (R4 & R5 & R6). unfold okS. cbn [s_i1 s_i2 min_hi min_lo]. clear - R1 R2 R3 R4 R5 R6 Ha. lia. }
  cbn [bindr].
  assert (Gf : grown o1 l1 o2 l2 a (val kf) (val kf')) by (intros d D; exact (proj1 (proj2 (Done d D)))).
  assert (If' : inv1 o1 l1 o2 l2 (a + 1) (val kf')) by exact (inv1_grown _ _ _ _ _ _ _ If Gf).
  assert (Hkf' : has kf' fm (a + 1)) by (intros d D; exact (proj1 (Done d D))).
  assert (Io' : odd = true -> inv o1 l1 o2 l2 1 (a + 1) (val kf')).
  { intros Ho. apply (inv_grown _ _ _ _ A2 A5 1 ltac:(lia) (proj1 odd_par Ho) a (val kf) (val kf') Ha (Io Ho) Gf). intros d D Rd. destruct (Done d D) as (_ & _ & Nd).
    assert (V : onV bm a d). { destruct D as (D1 & _ & D3). split; [lia|]. split; [lia|]. pose proof (proj1 odd_par Ho) as Q. clear - D3 Q. par. }
    specialize (Nd Ho ltac:(apply Eb in V; lia)). destruct (mirror_inv1 _ _ _ _ _ _ Ib d V) as (Q1 & Q2 & _). lia. }
  (* backward *)
  destruct (widen kb bm a bmin bmax LINE_MAX Ha ltac:(lia) Eb Wb Hkb) as (bmin1 & bmax1 & kb1 & kb2 & -> & EB & Eb1 & Wb1 & Rb & Kb1). cbn [bindr]. rewrite EB. cbn [bindr]. clear EB kb1.
  assert (Hb' : forall x, odd = false -> onV bm (a + 1) x -> fmin1 <= x <= fmax1 -> kget kf' x = Ok (val kf' x)).
  { intros x Ho X Bx. assert (onV fm (a + 1) x) as V; [|apply kget_ok; auto; destruct X; lia]. apply (edge_in fm (a + 1) fmin1 fmax1); auto. destruct X as (_ & _ & X). pose proof (proj2 odd_par Ho) as Q. clear - X Q. par. }
  unfold span at 1. cbn [lim1 off1 lim2 off2].
  assert (Bb : bmax1 - bmin1 < Z.of_nat spn) by (destruct Eb1 as ((Q1 & _) & (Q2 & _) & _); lia).
  pose proof (mirror_inv1 _ _ _ _ _ _ Ib) as Ib2.
  destruct (bwd_loop_spec a (val kb) odd kf' fmin1 fmax1 bmin1 bmax1 kb2 Ha Eb1 Rb (fun x X => conj (proj1 (Ib2 x X)) (proj1 (proj2 (Ib2 x X)))) Hb' spn kb2 bmax1 got Bb (or_intror (proj1 (proj2 Eb1))) Wb1 (fun x _ => eq_refl)) as [(x & v & Vx & Sx & Ox & Bx & Lv & ->)|(kb' & got' & -> & Wb' & _ & DoneB)].
  { intros x X Lx. apply Eb1 in X. lia. }
  { cbn [bindr]. eexists. split; [reflexivity|]. apply mirror_step in Sx.
    assert (Rx : bm - (a + 1 - 0) <= fm + bm - x <= bm + (a + 1 - 0)) by (destruct Ef1 as ((_ & Q1 & _) & (_ & Q2 & _) & _); lia).
    destruct (inv_hit _ _ _ _ 0 ltac:(lia) _ _ _ _ Ha (Ie Ox) Sx Rx) as (R1 & R2 & R3). destruct (inv1_step _ _ _ _ _ _ _ _ Ib Sx) as (R4 & R5 & R6). unfold okS. cbn [s_i1 s_i2 min_hi min_lo]. clear - R1 R2 R3 R4 R5 R6 Ha. lia. }
  cbn [bindr].
  assert (Gb : grown o1 l1 o2 l2 a (mirror o1 l1 o2 l2 (val kb)) (mirror o1 l1 o2 l2 (val kb'))) by (apply mirror_grown; intros d D; exact (proj1 (proj2 (DoneB d D)))).
  assert (Ib' : inv1 o1 l1 o2 l2 (a + 1) (mirror o1 l1 o2 l2 (val kb'))) by exact (inv1_grown _ _ _ _ _ _ _ Ib Gb).
  assert (Hkb' : has kb' bm (a + 1)) by (intros d D; exact (proj1 (DoneB d D))).
  assert (Ie' : odd = false -> inv o1 l1 o2 l2 0 (a + 1) (mirror o1 l1 o2 l2 (val kb'))).
  { intros Ho. apply (inv_grown _ _ _ _ A2 A5 0 ltac:(lia) (proj2 odd_par Ho) a (mirror o1 l1 o2 l2 (val kb)) _ Ha (Ie Ho) Gb). intros d D Rd. apply onV_mirror in D. destruct (DoneB _ D) as (_ & _ & Nd).
    assert (V : onV fm (a + 1) (fm + bm - d)). { destruct D as (D1 & _ & D3). split; [lia|]. split; [lia|]. pose proof (proj2 odd_par Ho) as Q. clear - D3 Q. par. }
    specialize (Nd Ho ltac:(apply Ef1 in V; lia)). destruct (If' _ V) as (Q1 & Q2 & _). unfold mirror. lia. }
  assert (St : state (a + 1) kf' kb' fmin1 fmax1 bmin1 bmax1) by (unfold state; auto 12).
  destruct nm; [apply IH; auto; lia|].
  (* the heuristics *)
  assert (Hh : exists h, (if got' && (heur_min env <? a + 1) then
      do hf <- heur_fwd ha1 ha2 bx env (span bx) kf' (a + 1) fmin1 fm fmax1 0 (0, 0) ;;
      let '(best, (i1, i2)) := hf in
      if 0 <? best then Ok (Some (mkspl i1 i2 true false))
      else do hb <- heur_bwd ha1 ha2 bx env (span bx) kb' (a + 1) bmin1 bm bmax1 0 (0, 0) ;;
           let '(best, (i1, i2)) := hb in
           if 0 <? best then Ok (Some (mkspl i1 i2 false true)) else Ok None
    else Ok None) = Ok h /\ match h with Some s => okS false s | None => True end).
  { destruct (got' && _); [|exists None; auto]. unfold span. cbn [lim1 off1 lim2 off2].
    destruct (heur_fwd_spec kf' fm (a + 1) fmin1 fmax1 (a + 1) Ef1 Wf' Hkf' spn fmax1 0 (0, 0)) as (best & [p1 p2] & -> & Hp); auto; [right; apply Ef1|lia|]. cbn [bindr].
    destruct (Z.ltb_spec 0 best) as [Q|Q]; [eexists; split; [reflexivity|]; destruct (Hp Q) as [I1 I2]; cbn [fst snd] in *; unfold okS; cbn; lia|].
    destruct (heur_bwd_spec kb' bm (a + 1) bmin1 bmax1 (a + 1) Eb1 Wb' Hkb' spn bmax1 0 (0, 0)) as (best' & [q1 q2] & -> & Hq); auto; [right; apply Eb1|lia|]. cbn [bindr].
    destruct (Z.ltb_spec 0 best') as [Q'|Q']; [eexists; split; [reflexivity|]; destruct (Hq Q') as [I1 I2]; cbn [fst snd] in *; unfold okS; cbn; lia|]. exists None. auto. }
  destruct Hh as (h & -> & Hh). cbn [bindr]. destruct h as [s|]; [eauto|]. cbn [mxcost].
  destruct (Z.leb_spec mx (a + 1)); [|apply IH; auto; lia]. unfold span. cbn [lim1 off1 lim2 off2].
  destruct (far_fwd_spec kf' (a + 1) fmin1 fmax1 ltac:(lia) Ef1 Wf' Hkf' If' spn fmax1 (-1) (-1)) as (fb & fb1 & -> & F1 & F2); auto; [right; apply Ef1|right; split; auto; apply Ef1; apply Ef1|]. cbn [bindr].
  destruct (far_bwd_spec kb' (a + 1) bmin1 bmax1 ltac:(lia) Eb1 Wb' Hkb' Ib' spn bmax1 LINE_MAX LINE_MAX) as (bb & bb1 & -> & B1' & B2'); auto; [right; apply Eb1|right; split; auto; apply Eb1; apply Eb1|]. cbn [bindr].
  destruct (_ <? _); eexists; (split; [reflexivity|]); unfold okS, inbox in *; cbn [s_i1 s_i2 min_hi min_lo]; lia.
Qed.
Theorem xdl_split_spec nm : exists s, xdl_split ha1 ha2 bx env nm = Ok s /\ okS nm s.
Proof.
  unfold xdl_split. cbn [lim1 off1 lim2 off2].
  assert (W0 : wide (mkkvd (- (n2 + 1)) (n1 + 1) (fun _ => None)) /\ wide (mkkvd (- (n2 + 1)) (n1 + 3) (fun _ => None))) by (unfold wide; cbn; lia).
  destruct (kset_ok _ fm o1 (proj1 W0)) as (kf & -> & Wf & Kf & _); [lia|]. cbn [bindr].
  destruct (kset_ok _ bm l1 (proj2 W0)) as (kb & -> & Wb & Kb & _); [lia|]. cbn [bindr].
  assert (One : forall mid d, onV mid 0 d -> d = mid) by (intros mid d (_ & ? & _); lia).
  assert (Vf : onV fm 0 fm) by (split; [lia|]; split; [lia|]; rewrite Z.sub_diag; reflexivity). assert (Vb : onV bm 0 bm) by (split; [lia|]; split; [lia|]; rewrite Z.sub_diag; reflexivity).
  assert (Ff : val kf fm = o1) by (unfold val; now rewrite Kf). assert (Fb : mirror o1 l1 o2 l2 (val kb) fm = o1) by (unfold mirror; replace (fm + bm - fm) with bm by lia; unfold val; rewrite Kb; lia).
  change (S (Z.to_nat (l1 - o1 + (l2 - o2)))) with (span bx). apply (split_loop_spec nm (span bx) 0); [lia|unfold span; cbn; lia|].
  unfold state. split; [|split; [|split; [|split; [|split; [|split; [|split; [|split; [|split]]]]]]]]; auto.
  - split; auto. split; auto. intros d D. apply One in D. lia.
  - split; auto. split; auto. intros d D. apply One in D. lia.
  - intros d D. apply One in D. subst d. now rewrite Kf, Ff.
  - intros d D. apply One in D. subst d. unfold val. now rewrite Kb.
  - now apply inv1_0.
  - now apply inv1_0.
  - intros _. now apply inv_0.
  - intros _. now apply inv_0.
Qed.
End Split.
Theorem split_of_right ha1 ha2 mx : Z.of_nat (length ha1) + Z.of_nat (length ha2) < LINE_MAX -> split_ok (split_of ha1 ha2 (mkenv mx 20 256)) ha1 ha2.
Proof.
  intros L p1 q1 p2 q2 nm H1 H2 H3 H4 N1 N2.
  destruct (xdl_split_spec ha1 ha2 (Z.of_nat p1) (Z.of_nat q1) (Z.of_nat p2) (Z.of_nat q2) mx) with (nm := nm) as (s & E & Ok1 & Ok2 & Ok3 & Ok4); try lia.
  - now rewrite !Nat2Z.id.
  - replace (Z.to_nat (Z.of_nat q1 - 1)) with (q1 - 1)%nat by lia. replace (Z.to_nat (Z.of_nat q2 - 1)) with (q2 - 1)%nat by lia. auto.
  - exists s. auto.
Qed.
