(** How high the run stack can get: a growth argument for the lengths on the stack.
    Pure arithmetic on lists of (length, ghost), topmost run first.  The ghost of a run
    is [None] when the run still satisfies the sum invariant with the two runs below
    it, and [Some C] when the run was merged in place below a topmost run of length
    [C]: then only [next > length + C] is known. *)
From Verif Require Import Base Arr TsortModel.

Definition ent := (Z * option Z)%type.

Definition unite (e : ent) : Prop :=
  0 < fst e /\ match snd e with Some C => 0 < C /\ fst e <= 7 * C | None => True end.

(** [e1] directly above [e0]. *)
Definition link (e1 e0 : ent) : Prop :=
  fst e1 < fst e0 /\
  match snd e1 with Some C1 => fst e1 + C1 < fst e0 | None => True end /\
  match snd e0 with
  | Some C0 => C0 <= fst e1 /\ match snd e1 with Some C1 => C0 <= C1 | None => True end
  | None => True
  end.

Definition trip (e1 e0 : ent) (t : list ent) : Prop :=
  match snd e1, t with None, v :: _ => fst e0 + fst e1 < fst v | _, _ => True end.

Fixpoint goodl (l : list ent) : Prop :=
  match l with
  | [] => True
  | e :: t => unite e /\ goodl t /\ match t with e0 :: t0 => link e e0 /\ trip e e0 t0 | [] => True end
  end.

Definition sum (l : list ent) : Z := fold_right (fun e s => fst e + s) 0 l.

Lemma sum_app l1 l2 : sum (l1 ++ l2) = sum l1 + sum l2.
Proof. induction l1 as [|e l IH]; cbn [app sum fold_right]; [reflexivity|]. fold (sum (l ++ l2)) (sum l). lia. Qed.

Lemma goodl_app l1 l2 : goodl (l1 ++ l2) -> goodl l2.
Proof. induction l1 as [|e l IH]; [auto|]. cbn [app goodl]. intros (_ & H & _). auto. Qed.

(** What is known of the total [T] of the runs from the top down to [z], above [y]. *)
Definition si (T : Z) (z y : ent) : Prop :=
  0 < T /\ T <= 7 * fst z /\ T <= 6 * fst y /\
  match snd z with
  | Some C => T <= 5 * fst y /\ forall d, 0 < d <= C -> 2 * d * T <= fst y * fst y + 16 * (d * d)
  | None => True
  end.

Lemma si_top z y l : goodl (z :: y :: l) -> si (fst z) z y.
Proof.
  intros ((Hz & Hg) & ((Hy & _) & _) & (Hl & Hl1 & _) & _). unfold si.
  split; [lia|]. split; [lia|]. split; [lia|]. destruct (snd z) as [C|]; [|exact I].
  split; [lia|]. intros d Hd. nia.
Qed.

Lemma quad C w X : 0 < C -> 2 * C <= w <= 8 * C -> 2 * C * X <= w * w + 15 * (C * C) -> X <= 5 * w.
Proof.
  intros H0 Hw HX.
  assert (0 <= (w - 2 * C) * (8 * C - w)) by (apply Z.mul_nonneg_nonneg; lia).
  assert (0 < C * C) by nia.
  assert (E : (w - 2 * C) * (8 * C - w) = 10 * (C * w) - w * w - 16 * (C * C)) by ring. rewrite E in H.
  assert (w * w + 15 * (C * C) <= 10 * (C * w)) by lia.
  assert (C * (2 * X) <= C * (10 * w)) by lia. assert (2 * X <= 10 * w) by (apply (Z.mul_le_mono_pos_l _ _ C); assumption). lia.
Qed.

Lemma si_step T z y x l : goodl (z :: y :: x :: l) -> si T z y -> si (T + fst y) y x.
Proof.
  intros (Uz & (Uy & (Ux & _) & (L2 & _)) & (L1 & T1)) (H0 & H7 & H6 & Hs).
  destruct z as [z gz], y as [y gy], x as [x gx]. unfold si, unite, link, trip in *. cbn [fst snd] in *.
  destruct L1 as (A1 & A2 & A3). destruct L2 as (B1 & B2 & B3).
  split; [lia|]. split; [lia|].
  destruct gz as [C2|].
  - destruct Hs as [Hs5 Hs]. split; [lia|]. destruct gy as [C|]; [|exact I]. destruct Uy as (Uy1 & Uy2 & Uy3). destruct A3 as [A3 A4].
    assert (HH : forall d, 0 < d <= C -> 2 * d * (T + y) <= (y + d) * (y + d) + 15 * (d * d)).
    { intros d Hd. specialize (Hs d ltac:(lia)). nia. }
    split.
    + specialize (HH C ltac:(lia)). assert (T + y <= 5 * (y + C)); [|lia].
      apply (quad C (y + C) (T + y)); try lia.
    + intros d Hd. specialize (HH d Hd). nia.
  - assert (T + y <= 4 * x) by lia. split; [lia|]. destruct gy as [C|]; [|exact I]. split; [lia|].
    intros d Hd. pose proof (Z.square_nonneg (x - 4 * d)) as Hsq.
    assert (E : (x - 4 * d) * (x - 4 * d) = x * x - 8 * (d * x) + 16 * (d * d)) by ring. rewrite E in Hsq.
    assert (d * (T + y) <= d * (4 * x)) by (apply Z.mul_le_mono_nonneg_l; lia). lia.
Qed.

Lemma walk : forall pre z y l T, goodl (z :: pre ++ y :: l) ->
  (forall e, hd_error (pre ++ y :: l) = Some e -> si T z e) -> T + sum pre <= 6 * fst y.
Proof.
  induction pre as [|w pre IH]; intros z y l T Hg Hs; cbn [sum fold_right app] in *.
  - specialize (Hs y eq_refl). destruct Hs as (_ & _ & H & _). lia.
  - fold (sum pre). specialize (Hs w eq_refl).
    replace (T + (fst w + sum pre)) with ((T + fst w) + sum pre) by lia. apply (IH w y l).
    + apply Hg.
    + intros e He. destruct (pre ++ y :: l) as [|x r] eqn:E; [discriminate|]. cbn in He. injection He as <-.
      exact (si_step T z w x r Hg Hs).
Qed.

(** Everything above a run is at most six times as long as the run. *)
Lemma prefix_sum pre y l : goodl (pre ++ y :: l) -> sum pre <= 6 * fst y.
Proof.
  destruct pre as [|z pre]; intros Hg; cbn [sum fold_right app] in *.
  - destruct Hg as ((Hy & _) & _). lia.
  - fold (sum pre). apply (walk pre z y l); [exact Hg|]. intros e He.
    destruct (pre ++ y :: l) as [|x r] eqn:E; [discriminate|]. cbn in He. injection He as <-. exact (si_top z x r Hg).
Qed.

Lemma grow : forall rest z T, goodl (z :: rest) -> 0 < T -> (forall e, hd_error rest = Some e -> si T z e) ->
  T * 7 ^ Z.of_nat (length rest) <= (T + sum rest) * 6 ^ Z.of_nat (length rest).
Proof.
  induction rest as [|y r IH]; intros z T Hg HT Hs; cbn [sum fold_right length]; [cbn; lia|]. fold (sum r).
  specialize (Hs y eq_refl). rewrite Nat2Z.inj_succ, !Z.pow_succ_r by lia.
  assert (Hy : 0 < fst y) by (destruct Hg as (_ & ((Hy & _) & _) & _); exact Hy).
  assert (IHr : (T + fst y) * 7 ^ Z.of_nat (length r) <= (T + fst y + sum r) * 6 ^ Z.of_nat (length r)).
  { apply (IH y); [apply Hg|lia|]. intros e He. destruct r as [|x r']; [discriminate|]. cbn in He. injection He as <-. exact (si_step T z y x r' Hg Hs). }
  destruct Hs as (_ & _ & H6 & _).
  assert (0 < 7 ^ Z.of_nat (length r)) by (apply Z.pow_pos_nonneg; lia).
  replace (T + (fst y + sum r)) with (T + fst y + sum r) by lia.
  apply Z.le_trans with (6 * ((T + fst y) * 7 ^ Z.of_nat (length r))); [nia|]. nia.
Qed.

(** 128 runs of at least 32 elements take more than 2^33 elements. *)
Lemma tall l : goodl l -> (128 <= length l)%nat -> (forall e, In e l -> 32 <= fst e) -> 8589934592 <= sum l.
Proof.
  intros Hg Hn Hb. destruct l as [|z rest]; [cbn in Hn; lia|].
  pose proof (Hb z (or_introl eq_refl)) as Hz.
  assert (HG : fst z * 7 ^ Z.of_nat (length rest) <= (fst z + sum rest) * 6 ^ Z.of_nat (length rest)).
  { apply (grow rest z); [exact Hg|lia|]. intros e He. destruct rest as [|y r]; [discriminate|]. cbn in He. injection He as <-. exact (si_top z y r Hg). }
  cbn [sum fold_right]. fold (sum rest). set (S := fst z + sum rest) in *.
  cbn [length] in Hn. replace (Z.of_nat (length rest)) with (127 + Z.of_nat (length rest - 127)) in HG by lia.
  set (m := Z.of_nat (length rest - 127)) in *. rewrite !Z.pow_add_r in HG by lia.
  assert (H6 : 0 < 6 ^ m) by (apply Z.pow_pos_nonneg; lia).
  assert (H76 : 6 ^ m <= 7 ^ m) by (apply Z.pow_le_mono_l; lia).
  assert (HC : 8589934592 * 6 ^ 127 <= 32 * 7 ^ 127) by (vm_compute; discriminate).
  assert (HP : 0 < 6 ^ 127) by (vm_compute; reflexivity). assert (HQ : 0 < 7 ^ 127) by (vm_compute; reflexivity).
  set (a := 6 ^ 127) in *. set (b := 7 ^ 127) in *. set (p := 6 ^ m) in *. set (q := 7 ^ m) in *. clearbody a b p q S m.
  assert (0 < b * p) by (apply Z.mul_pos_pos; assumption).
  assert (b * p <= b * q) by (apply Z.mul_le_mono_nonneg_l; lia).
  assert (32 * (b * q) <= fst z * (b * q)) by (apply Z.mul_le_mono_nonneg_r; lia).
  assert (E : (32 * b) * p <= (S * a) * p) by lia.
  apply Z.mul_le_mono_pos_r in E; [|exact H6].
  apply (Z.mul_le_mono_pos_r _ _ a HP). lia.
Qed.

Definition lens (st : list run) : list Z := map (fun r => Z.of_nat (snd r)) st.
Definition small_top (l : list ent) : Prop := match l with e :: _ => snd e = None | [] => True end.

(** A stack that is ready for another run. *)
Definition goodst (st : list run) : Prop := exists l, map fst l = lens st /\ goodl l /\ small_top l.

(** A stack in the middle of collapsing. *)
Definition cpre (st : list run) : Prop :=
  (length st <= 3)%nat \/
  exists rc rb rest pre y l, st = rc :: rb :: rest /\ goodl (pre ++ y :: l) /\ map fst l = lens rest /\
    Z.of_nat (snd rb) = sum pre + fst y /\
    ((pre = [] /\ match snd y with Some C => C <= Z.of_nat (snd rc) | None => True end) \/ (pre <> [] /\ fst y < Z.of_nat (snd rc))).

Definition pos (st : list run) : Prop := Forall (fun r => (0 < snd r)%nat) st.

Lemma sum_pos pre l : goodl (pre ++ l) -> 0 <= sum pre.
Proof.
  induction pre as [|e pre IH]; intros Hg; cbn [sum fold_right]; [lia|]. fold (sum pre).
  destruct Hg as ((He & _) & Hg & _). specialize (IH Hg). lia.
Qed.

Lemma link_at pre y e l : goodl (pre ++ y :: e :: l) -> link y e.
Proof. intros Hg. apply goodl_app in Hg. destruct Hg as (_ & _ & H & _). exact H. Qed.

Section C.
  Context {A : Type} (cmp : A -> A -> Z).

  Lemma collapse_good size : forall fuel d st d' st', collapse cmp fuel d st size = Ok (d', st') -> pos st -> cpre st -> goodst st'.
  Proof.
    induction fuel as [|f IH]; intros d st d' st' Hc Hp Hpre; [discriminate|].
    destruct st as [|rc [|rb [|ra rest]]]; cbn [collapse] in Hc.
    - injection Hc as <- <-. exists []. cbn. auto.
    - injection Hc as <- <-. inversion Hp as [|? ? Hp1 Hp2]; subst. exists [(Z.of_nat (snd rc), None)]. cbn. unfold unite. cbn. split; [reflexivity|]. split; [|reflexivity]. repeat split; lia.
    - inversion Hp as [|? ? Hp1 Hp2]; inversion Hp2 as [|? ? Hp3 _]; subst.
      destruct ((snd rb + snd rc =? size)%nat || (snd rb <=? snd rc)%nat) eqn:E.
      + destruct (merge cmp d rb rc) as [x| | |]; try discriminate. cbn [bindr] in Hc. injection Hc as <- <-.
        exists [(Z.of_nat (snd rb + snd rc), None)]. cbn. unfold unite. cbn. split; [reflexivity|]. split; [|reflexivity]. repeat split; lia.
      + injection Hc as <- <-. apply orb_false_iff in E. destruct E as [_ E]. apply Nat.leb_gt in E.
        exists [(Z.of_nat (snd rc), None); (Z.of_nat (snd rb), None)]. split; [reflexivity|]. split; [|reflexivity].
        unfold goodl, unite, link, trip. cbn. repeat split; lia.
    - inversion Hp as [|? ? Hp1 Hp2]; inversion Hp2 as [|? ? Hp3 Hp4]; inversion Hp4 as [|? ? Hp5 Hp6]; subst. cbv zeta in Hc.
      assert (HA : forall d1, collapse cmp f d1 (rc :: (fst ra, (snd ra + snd rb)%nat) :: rest) size = Ok (d', st') -> (snd ra < snd rc)%nat -> goodst st').
      { intros d1 H1 Hlt. apply (IH _ _ _ _ H1).
        - constructor; [exact Hp1|]. constructor; [cbn; lia|exact Hp6].
        - destruct Hpre as [Hs|(rc0 & rb0 & rest0 & pre & y & l & E & Hg & Hm & Hb & Hcond)]; [left; cbn in *; lia|].
          injection E as <- <- <-. destruct l as [|e l]; [discriminate|]. cbn [map lens] in Hm. injection Hm as Hm1 Hm2.
          right. exists rc, (fst ra, (snd ra + snd rb)%nat), rest, (pre ++ [y]), e, l. split; [reflexivity|].
          split; [rewrite <- app_assoc; exact Hg|]. split; [exact Hm2|].
          split; [rewrite sum_app; cbn [sum fold_right snd]; lia|]. right. split; [destruct pre; discriminate|]. lia. }
      assert (HB : forall d1, collapse cmp f d1 ((fst rb, (snd rb + snd rc)%nat) :: ra :: rest) size = Ok (d', st') -> goodst st').
      { intros d1 H1. apply (IH _ _ _ _ H1).
        - constructor; [cbn; lia|]. exact Hp4.
        - destruct Hpre as [Hs|(rc0 & rb0 & rest0 & pre & y & l & E & Hg & Hm & Hb & Hcond)]; [left; cbn in *; lia|].
          injection E as <- <- <-. destruct l as [|e l]; [discriminate|]. cbn [map lens] in Hm. injection Hm as Hm1 Hm2.
          right. exists (fst rb, (snd rb + snd rc)%nat), ra, rest, [], e, l. split; [reflexivity|]. cbn [app].
          split; [apply (goodl_app (pre ++ [y])); rewrite <- app_assoc; exact Hg|]. split; [exact Hm2|].
          split; [cbn; lia|]. left. split; [reflexivity|].
          pose proof (link_at _ _ _ _ Hg) as (_ & _ & HL). pose proof (sum_pos _ _ Hg). cbn [snd].
          destruct (snd e) as [C|]; [|exact I]. lia. }
      destruct (Nat.leb_spec (snd ra) (snd rb + snd rc)) as [E1|E1].
      + destruct (Nat.ltb_spec (snd ra) (snd rc)) as [E2|E2].
        * destruct (merge cmp d ra rb) as [d1| | |]; try discriminate. cbn [bindr] in Hc. exact (HA d1 Hc E2).
        * destruct (merge cmp d rb rc) as [d1| | |]; try discriminate. cbn [bindr] in Hc. exact (HB d1 Hc).
      + destruct (Nat.leb_spec (snd rb) (snd rc)) as [E2|E2].
        * destruct (merge cmp d rb rc) as [d1| | |]; try discriminate. cbn [bindr] in Hc. exact (HB d1 Hc).
        * injection Hc as <- <-. destruct Hpre as [Hs|(rc0 & rb0 & rest0 & pre & y & l & E & Hg & Hm & Hb & Hcond)].
          -- destruct rest; [|cbn in Hs; lia].
             exists [(Z.of_nat (snd rc), None); (Z.of_nat (snd rb), None); (Z.of_nat (snd ra), None)]. split; [reflexivity|]. split; [|reflexivity].
             unfold goodl, unite, link, trip. cbn. repeat split; lia.
          -- injection E as <- <- <-. destruct l as [|e l]; [discriminate|]. pose proof Hm as Hm0. cbn [map lens] in Hm. injection Hm as Hm1 Hm2.
             pose proof (link_at _ _ _ _ Hg) as HL. pose proof (sum_pos _ _ Hg) as Hsp.
             destruct Hcond as [[-> Hcond]|[Hne Hcond]].
             ++ cbn [app] in Hg. cbn in Hb.
                exists ((Z.of_nat (snd rc), None) :: y :: e :: l). split; [cbn [map lens fst]; cbn [map lens] in Hm0; rewrite Hm0; f_equal; f_equal; lia|].
                split; [|reflexivity]. cbn [goodl]. cbn [goodl] in Hg. split; [unfold unite; cbn; split; [lia|exact I]|]. split; [exact Hg|].
                unfold link, trip. cbn [fst snd]. split; [|lia]. split; [lia|]. split; [exact I|]. destruct (snd y) as [C|]; [|exact I]. split; [lia|exact I].
             ++ pose proof (prefix_sum _ _ _ Hg) as Hps.
                pose proof (goodl_app (pre ++ [y]) (e :: l)) as Hg'. rewrite <- app_assoc in Hg'. specialize (Hg' Hg).
                assert (Hy : 0 < fst y) by (apply goodl_app in Hg; destruct Hg as ((Hy & _) & _); exact Hy).
                set (c := Z.of_nat (snd rc)) in *.
                exists ((c, None) :: (Z.of_nat (snd rb), Some c) :: e :: l). split; [cbn [map lens fst]; cbn [map lens] in Hm0; rewrite Hm0; reflexivity|].
                split; [|reflexivity]. destruct HL as (HL1 & HL2 & HL3).
                change (unite (c, None) /\ (unite (Z.of_nat (snd rb), Some c) /\ goodl (e :: l) /\ (link (Z.of_nat (snd rb), Some c) e /\ trip (Z.of_nat (snd rb), Some c) e l)) /\
                  (link (c, None) (Z.of_nat (snd rb), Some c) /\ trip (c, None) (Z.of_nat (snd rb), Some c) (e :: l))).
                unfold unite, link, trip. cbn [fst snd].
                split; [split; [lia|exact I]|]. split; [split; [lia|]|].
                ** split; [exact Hg'|]. split; [|exact I]. split; [lia|]. split; [lia|].
                   destruct (snd e) as [C|]; [|exact I]. lia.
                ** split; [|lia]. split; [lia|]. split; [exact I|]. split; [lia|exact I].
  Qed.
End C.

Lemma good_check st : st <> [] -> goodst st -> check_invariant st = true.
Proof.
  intros Hne (l & Hm & Hg & Ht).
  destruct st as [|[oc lc] [|[ob lb] [|[oa la] st]]]; [contradiction|reflexivity| |].
  - destruct l as [|e [|e0 [|]]]; try discriminate. cbn in Hm. injection Hm as H1 H2. destruct Hg as (_ & _ & (HL & _) & _).
    unfold check_invariant. apply Nat.ltb_lt. lia.
  - destruct l as [|e [|e0 [|e1 l]]]; try discriminate. cbn in Hm. injection Hm as H1 H2 H3 _. destruct Hg as (_ & _ & (HL & _) & HT).
    cbn in Ht. unfold trip in HT. rewrite Ht in HT. unfold check_invariant.
    apply negb_true_iff, orb_false_iff. split; apply Nat.leb_gt; lia.
Qed.

(** With the check passed, a run pushed on a good stack gives a good stack. *)
Lemma push_good r st : goodst st -> (0 < snd r)%nat -> check_invariant (r :: st) = true -> goodst (r :: st).
Proof.
  intros (l & Hm & Hg & Ht) Hr Hc. exists ((Z.of_nat (snd r), None) :: l). split; [cbn; rewrite Hm; reflexivity|]. split; [|reflexivity].
  cbn [goodl]. split; [unfold unite; cbn; split; [lia|exact I]|]. split; [exact Hg|].
  destruct l as [|e0 l]; [exact I|]. destruct st as [|[ob lb] st]; [discriminate|]. cbn in Hm. injection Hm as Hm1 Hm2. cbn in Ht.
  destruct r as [oc lc]. cbn [snd] in *. unfold link, trip. cbn [fst snd]. rewrite Ht.
  destruct st as [|[oa la] st].
  - destruct l; [|discriminate]. unfold check_invariant in Hc. apply Nat.ltb_lt in Hc. repeat split; lia.
  - destruct l as [|e1 l]; [discriminate|]. cbn in Hm2. injection Hm2 as Hm2 _. unfold check_invariant in Hc.
    apply negb_true_iff, orb_false_iff in Hc. destruct Hc as [H1 H2]. apply Nat.leb_gt in H1, H2. repeat split; lia.
Qed.

Lemma three_good st : (length st <= 3)%nat -> pos st -> check_invariant st = true -> goodst st.
Proof.
  intros Hl Hp Hc. exists (map (fun x => (x, None)) (lens st)).
  split; [rewrite map_map; cbn [fst]; apply map_id|].
  destruct st as [|[oc lc] [|[ob lb] [|[oa la] [|]]]]; unfold check_invariant in Hc; cbn in Hl; try lia; cbn [lens map goodl small_top snd]; unfold unite, link, trip; cbn [fst snd].
  - auto.
  - inversion Hp; subst. cbn in *. repeat split; lia.
  - inversion Hp as [|? ? H1 H2]; inversion H2; subst. cbn in *. apply Nat.ltb_lt in Hc. repeat split; lia.
  - inversion Hp as [|? ? H1 H2]; inversion H2 as [|? ? H3 H4]; inversion H4; subst. cbn [snd] in *.
    apply negb_true_iff, orb_false_iff in Hc. destruct Hc as [E1 E2]. apply Nat.leb_gt in E1, E2. repeat split; lia.
Qed.
