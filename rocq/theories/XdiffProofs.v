(** Marking the changed lines: xdl_recs_cmp over any right splitting function. *)
From Verif Require Import Base CStr Str ApplyModel XdiffModel.
Local Open Scope nat_scope.

(** The elements that are not marked. *)
Fixpoint kept {A} (m : list bool) (xs : list A) : list A :=
  match m, xs with
  | b :: m', x :: xs' => if b then kept m' xs' else x :: kept m' xs'
  | _, _ => []
  end.
Lemma kept_app {A} m1 : forall (x1 : list A) m2 x2, length m1 = length x1 -> kept (m1 ++ m2) (x1 ++ x2) = kept m1 x1 ++ kept m2 x2.
Proof. induction m1 as [|b m1 IH]; intros [|x x1] m2 x2 L; try discriminate; auto. cbn in *. injection L as L. destruct b; cbn; now rewrite IH. Qed.
Lemma kept_true {A} n (xs : list A) : kept (repeat true n) xs = [].
Proof. revert xs; induction n; intros [|x xs]; cbn; auto. Qed.
Lemma kept_false {A} (xs : list A) : forall n, n = length xs -> kept (repeat false n) xs = xs.
Proof. induction xs as [|x xs IH]; intros n ->; cbn; auto. now rewrite IH. Qed.
Lemma kept_all {A} m : forall (xs : list A), length m = length xs -> length (kept m xs) = length xs -> m = repeat false (length m).
Proof.
  assert (B : forall m (xs : list A), length (kept m xs) <= length xs) by (clear; induction m as [|[] m IH]; intros [|x xs]; cbn; auto with arith; specialize (IH xs); lia).
  induction m as [|b m IH]; intros [|x xs] L K; try discriminate; auto. cbn in *. destruct b; cbn in *; [specialize (B m xs); lia|]. f_equal. eapply IH; [|injection K as K; exact K]. lia.
Qed.

Lemma kept_le {A} m : forall xs : list A, length (kept m xs) <= length xs.
Proof. induction m as [|[] m IH]; intros [|x xs]; cbn; auto with arith; specialize (IH xs); lia. Qed.
(** Slices. *)
Definition sl {A} (l : list A) (a b : nat) : list A := firstn (b - a) (skipn a l).
Lemma sl_length {A} (l : list A) a b : a <= b -> b <= length l -> length (sl l a b) = b - a.
Proof. intros. unfold sl. rewrite firstn_length, skipn_length. lia. Qed.
Lemma skipn_skipn' {A} (l : list A) : forall a b, skipn a (skipn b l) = skipn (b + a) l.
Proof. intros a b. revert l. induction b; intros l; cbn; auto. destruct l; cbn; auto. now rewrite !skipn_nil. Qed.
Lemma sl_app {A} (l : list A) a b c : a <= b -> b <= c -> sl l a c = sl l a b ++ sl l b c.
Proof.
  intros. unfold sl. replace (c - a) with ((b - a) + (c - b)) by lia. 
  rewrite <- (firstn_skipn (b - a) (skipn a l)) at 1. rewrite skipn_skipn'. replace (a + (b - a)) with b by lia.
  destruct (le_lt_dec (b - a) (length (skipn a l))) as [L|L].
  - rewrite firstn_app. rewrite firstn_length. rewrite Nat.min_l by lia. rewrite firstn_all2 by (rewrite firstn_length; lia). do 2 f_equal. lia.
  - rewrite !(firstn_all2 (n := b - a)) by lia. rewrite (skipn_all2 (n := b)) by (rewrite skipn_length in L; lia). rewrite firstn_nil, !app_nil_r. rewrite firstn_all2; auto. lia.
Qed.
Lemma sl_nil {A} (l : list A) a : sl l a a = [].
Proof. unfold sl. now rewrite Nat.sub_diag. Qed.
Lemma sl_one {A} (l : list A) a x : nth_error l a = Some x -> sl l a (S a) = [x].
Proof. intros H. unfold sl. replace (S a - a) with 1 by lia. revert l H. induction a; intros [|y l] H; try discriminate; cbn in *; [congruence|auto]. Qed.
Lemma sl_all {A} (l : list A) : sl l 0 (length l) = l.
Proof. unfold sl. rewrite Nat.sub_0_r. apply firstn_all. Qed.
Lemma getc_ok {A} (l : list A) i x : getc l i = Ok x <-> nth_error l i = Some x.
Proof. unfold getc. destruct (nth_error l i); split; congruence. Qed.
Lemma getc_lt {A} (l : list A) i : i < length l -> exists x, nth_error l i = Some x /\ getc l i = Ok x.
Proof. intros H. unfold getc. apply nth_error_Some in H. destruct (nth_error l i) as [x|]; [eauto|congruence]. Qed.

(** Marks written through an index. *)
Definition marks (r : list bool) (ix : list nat) (c : list bool) : list bool := fold_left (fun r (p : nat * bool) => if snd p then upd r (fst p) true else r) (combine ix c) r.
Lemma marks_app r i1 i2 c1 c2 : length i1 = length c1 -> marks r (i1 ++ i2) (c1 ++ c2) = marks (marks r i1 c1) i2 c2.
Proof. intros L. unfold marks. revert r c1 L. induction i1 as [|i i1 IH]; intros r [|c c1] L; try discriminate; auto. cbn in *. now rewrite IH by lia. Qed.
Lemma marks_false r ix : forall n, marks r ix (repeat false n) = r.
Proof. unfold marks. induction ix as [|i ix IH]; intros [|n]; cbn; auto. Qed.
Lemma marks_length ix : forall r c, length (marks r ix c) = length r.
Proof. unfold marks. induction ix as [|i ix IH]; intros r [|c cs]; cbn; auto. rewrite IH. destruct c; auto. apply upd_length. Qed.
Lemma mark_all_spec n : forall r ix o, o + n <= length ix -> Forall (fun i => i < length r) ix -> mark_all n r ix o = Ok (marks r (sl ix o (o + n)) (repeat true n)).
Proof.
  induction n as [|n IH]; intros r ix o L F; cbn [mark_all repeat].
  - rewrite Nat.add_0_r, sl_nil. reflexivity.
  - destruct (getc_lt ix o) as (i & E & ->); [lia|]. cbn [bindr]. unfold mark. assert (i < length r) by (rewrite Forall_forall in F; apply F; eapply nth_error_In; eauto).
    destruct (Nat.ltb_spec i (length r)); [|lia]. cbn [bindr]. rewrite IH; [|lia|rewrite upd_length; auto].
    rewrite (sl_app ix o (S o)) by lia. rewrite (sl_one _ _ _ E). replace (S o + n) with (o + S n) by lia. reflexivity.
Qed.

(** The snakes. *)
Lemma shrink_lo_spec ha1 ha2 l1 l2 fuel : forall o1 o2, o1 <= l1 -> o2 <= l2 -> l1 <= length ha1 -> l2 <= length ha2 -> l1 - o1 <= fuel ->
  exists k, shrink_lo fuel ha1 ha2 o1 l1 o2 l2 = Ok (o1 + k, o2 + k) /\ o1 + k <= l1 /\ o2 + k <= l2 /\ sl ha1 o1 (o1 + k) = sl ha2 o2 (o2 + k) /\
    (o1 + k = l1 \/ o2 + k = l2 \/ nth_error ha1 (o1 + k) <> nth_error ha2 (o2 + k)).
Proof.
  induction fuel as [|f IH]; intros o1 o2 H1 H2 L1 L2 F; cbn [shrink_lo].
  - assert (o1 = l1) as -> by lia. destruct (Nat.ltb_spec l1 l1); [lia|]. cbn [andb]. exists 0. rewrite !Nat.add_0_r, !sl_nil. repeat split; auto.
  - destruct (Nat.ltb_spec o1 l1), (Nat.ltb_spec o2 l2); cbn [andb]; try (exists 0; rewrite !Nat.add_0_r, !sl_nil; repeat split; auto; lia).
    destruct (getc_lt ha1 o1) as (a & Ea & ->); [lia|]. destruct (getc_lt ha2 o2) as (b & Eb & ->); [lia|]. cbn [bindr].
    destruct (Nat.eqb_spec a b) as [->|N].
    + destruct (IH (S o1) (S o2)) as (k & -> & K1 & K2 & S' & D); try lia. exists (S k). rewrite <- !Nat.add_succ_comm. split; auto. repeat split; auto.
      rewrite (sl_app ha1 o1 (S o1)), (sl_app ha2 o2 (S o2)) by lia. rewrite (sl_one _ _ _ Ea), (sl_one _ _ _ Eb). now rewrite S'.
    + exists 0. rewrite !Nat.add_0_r, !sl_nil. repeat split; auto. right. right. congruence.
Qed.
Lemma shrink_hi_spec ha1 ha2 o1 o2 fuel : forall l1 l2, o1 <= l1 -> o2 <= l2 -> l1 <= length ha1 -> l2 <= length ha2 -> l1 - o1 <= fuel ->
  exists k, shrink_hi fuel ha1 ha2 o1 l1 o2 l2 = Ok (l1 - k, l2 - k) /\ k <= l1 - o1 /\ k <= l2 - o2 /\ sl ha1 (l1 - k) l1 = sl ha2 (l2 - k) l2 /\
    (o1 = l1 - k \/ o2 = l2 - k \/ nth_error ha1 (l1 - k - 1) <> nth_error ha2 (l2 - k - 1)).
Proof.
  induction fuel as [|f IH]; intros l1 l2 H1 H2 L1 L2 F; cbn [shrink_hi].
  - assert (o1 = l1) as -> by lia. destruct (Nat.ltb_spec l1 l1); [lia|]. cbn [andb]. exists 0. rewrite !Nat.sub_0_r, !sl_nil. repeat split; auto; lia.
  - destruct (Nat.ltb_spec o1 l1), (Nat.ltb_spec o2 l2); cbn [andb]; try (exists 0; rewrite !Nat.sub_0_r, !sl_nil; repeat split; auto; lia).
    destruct (getc_lt ha1 (l1 - 1)) as (a & Ea & ->); [lia|]. destruct (getc_lt ha2 (l2 - 1)) as (b & Eb & ->); [lia|]. cbn [bindr].
    destruct (Nat.eqb_spec a b) as [->|N].
    + destruct (IH (l1 - 1) (l2 - 1)) as (k & -> & K1 & K2 & S' & D); try lia. exists (S k).
      replace (l1 - S k) with (l1 - 1 - k) by lia. replace (l2 - S k) with (l2 - 1 - k) by lia. split; auto. split; [lia|]. split; [lia|]. split; auto.
      rewrite (sl_app ha1 (l1 - 1 - k) (l1 - 1)), (sl_app ha2 (l2 - 1 - k) (l2 - 1)) by lia. rewrite S'. f_equal.
      pose proof (sl_one _ _ _ Ea) as Q1. pose proof (sl_one _ _ _ Eb) as Q2. replace (S (l1 - 1)) with l1 in Q1 by lia. replace (S (l2 - 1)) with l2 in Q2 by lia. congruence.
    + exists 0. rewrite !Nat.sub_0_r, !sl_nil. repeat split; auto; try lia. right. right. congruence.
Qed.

(** What is asked of a splitting function: the split is in the box, and neither part is the whole box
    again, unless the part is looked at more closely than the box was. *)
Definition split_ok (split : box -> bool -> res spl) (ha1 ha2 : list nat) : Prop :=
  forall o1 l1 o2 l2 nm, o1 < l1 -> l1 <= length ha1 -> o2 < l2 -> l2 <= length ha2 ->
    nth_error ha1 o1 <> nth_error ha2 o2 -> nth_error ha1 (l1 - 1) <> nth_error ha2 (l2 - 1) ->
    exists s, split (mkbox (Z.of_nat o1) (Z.of_nat l1) (Z.of_nat o2) (Z.of_nat l2)) nm = Ok s /\
      (Z.of_nat o1 <= s_i1 s <= Z.of_nat l1)%Z /\ (Z.of_nat o2 <= s_i2 s <= Z.of_nat l2)%Z /\
      ((s_i1 s > Z.of_nat o1 \/ s_i2 s > Z.of_nat o2)%Z \/ (nm = false /\ min_hi s = true)) /\
      ((s_i1 s < Z.of_nat l1 \/ s_i2 s < Z.of_nat l2)%Z \/ (nm = false /\ min_lo s = true)).

Lemma recs_cmp_spec split ha1 ha2 ix1 ix2 : split_ok split ha1 ha2 -> length ix1 = length ha1 -> length ix2 = length ha2 ->
  forall fuel o1 l1 o2 l2 (nm : bool) r1 r2, o1 <= l1 -> l1 <= length ha1 -> o2 <= l2 -> l2 <= length ha2 ->
  Forall (fun i => i < length r1) ix1 -> Forall (fun i => i < length r2) ix2 ->
  2 * ((l1 - o1) + (l2 - o2)) + (if nm then 0 else 1) < fuel ->
  exists c1 c2, recs_cmp split fuel ha1 ha2 ix1 ix2 o1 l1 o2 l2 nm r1 r2 = Ok (marks r1 (sl ix1 o1 l1) c1, marks r2 (sl ix2 o2 l2) c2) /\
    length c1 = l1 - o1 /\ length c2 = l2 - o2 /\ kept c1 (sl ha1 o1 l1) = kept c2 (sl ha2 o2 l2).
Proof.
  intros SP X1 X2. induction fuel as [|f IH]; intros o1 l1 o2 l2 nm r1 r2 H1 L1 H2 L2 F1 F2 Hf; [lia|]. cbn [recs_cmp].
  destruct (shrink_lo_spec ha1 ha2 l1 l2 (length ha1) o1 o2) as (k & -> & K1 & K2 & SK & DK); try lia. cbn [bindr].
  destruct (shrink_hi_spec ha1 ha2 (o1 + k) (o2 + k) (length ha1) l1 l2) as (j & -> & J1 & J2 & SJ & DJ); try lia. cbn [bindr].
  set (p1 := o1 + k) in *. set (p2 := o2 + k) in *. set (q1 := l1 - j) in *. set (q2 := l2 - j) in *.
  assert (Ep : o1 <= p1 /\ p1 <= q1 /\ q1 <= l1 /\ o2 <= p2 /\ p2 <= q2 /\ q2 <= l2 /\ k = p1 - o1 /\ k = p2 - o2 /\ j = l1 - q1 /\ j = l2 - q2) by (unfold p1, p2, q1, q2 in *; lia). clearbody p1 p2 q1 q2. destruct Ep as (E1 & E2 & E3 & E4 & E5 & E6 & E7 & E8 & E9 & E10). clear K1 K2 J1 J2.
  (* the middle part *)
  assert (M : exists c1 c2 : list bool, (if p1 =? q1 then do r2 <- mark_all (q2 - p2) r2 ix2 p2;; Ok (r1, r2)
     else if p2 =? q2 then do r1 <- mark_all (q1 - p1) r1 ix1 p1;; Ok (r1, r2)
     else do s <- split (mkbox (Z.of_nat p1) (Z.of_nat q1) (Z.of_nat p2) (Z.of_nat q2)) nm;;
        if ((s_i1 s <? 0) || (s_i2 s <? 0))%Z then UB
        else let m1 := Z.to_nat (s_i1 s) in let m2 := Z.to_nat (s_i2 s) in
          do rr <- recs_cmp split f ha1 ha2 ix1 ix2 p1 m1 p2 m2 (min_lo s) r1 r2;;
          let '(r1, r2) := rr in recs_cmp split f ha1 ha2 ix1 ix2 m1 q1 m2 q2 (min_hi s) r1 r2) = Ok (marks r1 (sl ix1 p1 q1) c1, marks r2 (sl ix2 p2 q2) c2) /\
    length c1 = q1 - p1 /\ length c2 = q2 - p2 /\ kept c1 (sl ha1 p1 q1) = kept c2 (sl ha2 p2 q2)).
  { destruct (Nat.eqb_spec p1 q1) as [E|N1].
    - exists [], (repeat true (q2 - p2)). rewrite mark_all_spec by (auto; lia). cbn [bindr]. replace (p2 + (q2 - p2)) with q2 by lia. rewrite E, !sl_nil, kept_true, repeat_length. repeat split; cbn; lia.
    - destruct (Nat.eqb_spec p2 q2) as [E|N2].
      + exists (repeat true (q1 - p1)), []. rewrite mark_all_spec by (auto; lia). cbn [bindr]. replace (p1 + (q1 - p1)) with q1 by lia. rewrite E, !sl_nil, kept_true, repeat_length. repeat split; cbn; lia.
      + destruct (SP p1 q1 p2 q2 nm) as (s & -> & B1 & B2 & PH & PL); try lia.
        { destruct DK as [|[]]; auto; lia. } { destruct DJ as [|[]]; auto; lia. }
        cbn [bindr]. destruct (Z.ltb_spec (s_i1 s) 0) as [Q|_]; [clear - B1 Q; lia|]. destruct (Z.ltb_spec (s_i2 s) 0) as [Q|_]; [clear - B2 Q; lia|]. cbn [orb]. cbv zeta.
        assert (G1 : p1 <= Z.to_nat (s_i1 s) <= q1) by (clear - B1; lia). assert (G2 : p2 <= Z.to_nat (s_i2 s) <= q2) by (clear - B2; lia).
        assert (PH' : Z.to_nat (s_i1 s) > p1 \/ Z.to_nat (s_i2 s) > p2 \/ (nm = false /\ min_hi s = true)) by (clear - B1 B2 PH; destruct PH as [[]|]; auto; lia).
        assert (PL' : Z.to_nat (s_i1 s) < q1 \/ Z.to_nat (s_i2 s) < q2 \/ (nm = false /\ min_lo s = true)) by (clear - B1 B2 PL; destruct PL as [[]|]; auto; lia).
        generalize dependent (Z.to_nat (s_i1 s)). generalize dependent (Z.to_nat (s_i2 s)). intros m2 G2 m1 G1 PH' PL'. clear B1 B2 PH PL DK DJ SK SJ.
        generalize dependent (min_lo s). generalize dependent (min_hi s). intros hi PH' lo PL'. clear s.
        destruct (IH p1 m1 p2 m2 lo r1 r2) as (a1 & a2 & -> & A1 & A2 & AK); try lia; auto.
        { destruct PL' as [P|[P|[-> ->]]]; [destruct nm, lo; lia|destruct nm, lo; lia|lia]. }
        cbn [bindr].
        destruct (IH m1 q1 m2 q2 hi (marks r1 (sl ix1 p1 m1) a1) (marks r2 (sl ix2 p2 m2) a2)) as (b1 & b2 & -> & B1' & B2' & BK); try lia; try (rewrite marks_length; auto).
        { destruct PH' as [P|[P|[-> ->]]]; [destruct nm, hi; lia|destruct nm, hi; lia|lia]. }
        exists (a1 ++ b1), (a2 ++ b2). rewrite (sl_app ix1 p1 m1 q1), (sl_app ix2 p2 m2 q2), (sl_app ha1 p1 m1 q1), (sl_app ha2 p2 m2 q2) by lia.
        rewrite !marks_app by (rewrite sl_length; lia). split; auto. rewrite !app_length. split; [lia|]. split; [lia|].
        rewrite !kept_app by (rewrite sl_length; lia). congruence. }
  destruct M as (c1 & c2 & EM & C1 & C2 & CK).
  exists (repeat false k ++ c1 ++ repeat false j), (repeat false k ++ c2 ++ repeat false j).
  rewrite (sl_app ix1 o1 p1 l1), (sl_app ix1 p1 q1 l1), (sl_app ix2 o2 p2 l2), (sl_app ix2 p2 q2 l2) by lia.
  rewrite (sl_app ha1 o1 p1 l1), (sl_app ha1 p1 q1 l1), (sl_app ha2 o2 p2 l2), (sl_app ha2 p2 q2 l2) by lia.
  rewrite !marks_app by (rewrite ?repeat_length, ?sl_length; lia). rewrite !marks_false. split; [exact EM|]. clear EM.
  rewrite !app_length, !repeat_length. split; [lia|]. split; [lia|].
  rewrite !kept_app by (rewrite ?repeat_length, ?sl_length; lia). rewrite !kept_false by (rewrite sl_length; lia). now rewrite SK, SJ, CK.
Qed.

(** ** Trimming and leaving out *)
Lemma trim_spec lim : forall a b, lim <= length a -> lim <= length b -> trim a b lim <= lim /\ firstn (trim a b lim) a = firstn (trim a b lim) b.
Proof.
  induction lim as [|n IH]; intros a b La Lb; cbn [trim]; [split; [lia|reflexivity]|]. destruct a as [|x a], b as [|y b]; cbn [length] in La, Lb; [lia|lia|lia|].
  destruct (Nat.eqb_spec x y) as [->|]; [|cbn; split; auto; lia]. destruct (IH a b) as [I1 I2]; try lia. cbn. split; [lia|]. now rewrite I2.
Qed.
Lemma trim_self lim : forall a, lim <= length a -> trim a a lim = lim.
Proof. induction lim as [|n IH]; intros [|x a] L; cbn in *; try lia; auto. rewrite Nat.eqb_refl, IH; lia. Qed.
Lemma trim_ends_spec h1 h2 s e : trim_ends h1 h2 = (s, e) ->
  s + e <= length h1 /\ s + e <= length h2 /\ firstn s h1 = firstn s h2 /\ skipn (length h1 - e) h1 = skipn (length h2 - e) h2.
Proof.
  unfold trim_ends. intros H. injection H as H1 H2.
  destruct (trim_spec (Nat.min (length h1) (length h2)) h1 h2) as [A B]; try lia. rewrite H1 in *.
  destruct (trim_spec (Nat.min (length h1) (length h2) - s) (rev h1) (rev h2)) as [C D]; rewrite ?rev_length; try lia. rewrite H2 in *.
  split; [lia|]. split; [lia|]. split; auto. rewrite !firstn_rev in D. apply (f_equal (@rev _)) in D. now rewrite !rev_involutive in D.
Qed.
(** The marks with those of the lines looked at filled in. *)
Fixpoint fill (m c : list bool) : list bool :=
  match m with
  | [] => []
  | true :: m' => true :: fill m' c
  | false :: m' => match c with [] => false :: m' | b :: c' => b :: fill m' c' end
  end.
Lemma fill_length m : forall c, length (fill m c) = length m.
Proof. induction m as [|[] m IH]; intros c; cbn; auto. destruct c; cbn; auto. Qed.
Lemma kept_fill {A} m : forall c (xs : list A), length m = length xs -> length c = length (kept m xs) -> kept (fill m c) xs = kept c (kept m xs).
Proof.
  induction m as [|b m IH]; intros c [|x xs] L K; try discriminate; cbn in *.
  - now destruct c.
  - destruct b; [apply IH; auto|]. destruct c as [|b c]; [discriminate|]. cbn in *. destruct b; rewrite ?IH; auto; lia.
Qed.
Lemma upd_at {A} (p : list A) x y q : upd (p ++ x :: q) (length p) y = p ++ y :: q.
Proof. induction p as [|z p IH]; cbn; auto. now rewrite IH. Qed.
Lemma cleanup_loop_spec kp : forall hs i m ix ha, cleanup_loop kp i hs = (m, ix, ha) ->
  length m = length hs /\ length ix = length ha /\ ha = kept m hs /\ Forall (fun j => i <= j < i + length hs) ix /\
  forall p q c, length p = i -> length c = length ha -> marks (p ++ m ++ q) ix c = p ++ fill m c ++ q.
Proof.
  induction hs as [|h hs IH]; intros i m ix ha H; cbn [cleanup_loop] in H.
  - injection H as <- <- <-. split; [auto|]. split; [auto|]. split; [auto|]. split; auto.
  - destruct (cleanup_loop kp (S i) hs) as [[m0 ix0] ha0] eqn:E. destruct (IH _ _ _ _ E) as (I1 & I2 & I3 & I4 & I5). assert (Fi : Forall (fun j => i <= j < i + length (h :: hs)) ix0) by (eapply Forall_impl; [|exact I4]; cbn; intros; lia).
    destruct (kp i); injection H as <- <- <-; cbn [length kept].
    + split; [lia|]. split; [lia|]. split; [congruence|]. split; [constructor; [lia|auto]|].
      intros p q [|b c] Lp Lc; [discriminate|]. cbn in Lc. cbn [fill app]. unfold marks. cbn [combine fold_left fst snd]. fold (marks (if b then upd (p ++ false :: m0 ++ q) i true else p ++ false :: m0 ++ q) ix0 c).
      replace (if b then upd (p ++ false :: m0 ++ q) i true else p ++ false :: m0 ++ q) with ((p ++ [b]) ++ m0 ++ q).
      * rewrite I5; [now rewrite <- app_assoc| |lia]. rewrite app_length. cbn. lia.
      * rewrite <- app_assoc. cbn. destruct b; auto. now rewrite <- Lp, upd_at.
    + split; [lia|]. split; [lia|]. split; [auto|]. split; auto.
      intros p q c Lp Lc. specialize (I5 (p ++ [true]) q c). rewrite <- !app_assoc in I5. apply I5; auto. rewrite app_length. cbn. lia.
Qed.
Lemma cleanup_spec kp hs s e m ix ha : s + e <= length hs -> cleanup_records kp hs s e = (m, ix, ha) ->
  length m = length hs /\ length ix = length ha /\ Forall (fun j => j < length m) ix /\
  forall c, length c = length ha -> length (marks m ix c) = length hs /\ kept (marks m ix c) hs = firstn s hs ++ kept c ha ++ skipn (length hs - e) hs.
Proof.
  intros L H. unfold cleanup_records in H. set (mid := firstn (length hs - s - e) (skipn s hs)) in *.
  assert (Lm : length mid = length hs - s - e) by (subst mid; rewrite firstn_length, skipn_length; lia).
  destruct (cleanup_loop kp s mid) as [[m0 ix0] ha0] eqn:E. injection H as <- <- <-. destruct (cleanup_loop_spec _ _ _ _ _ _ E) as (I1 & I2 & I3 & I4 & I5).
  assert (Lr : length (repeat false s ++ m0 ++ repeat false e) = length hs) by (rewrite !app_length, !repeat_length; lia).
  split; auto. split; auto. split; [eapply Forall_impl; [|exact I4]; cbn; intros; lia|].
  intros c Lc. rewrite I5 by (auto; apply repeat_length). split; [rewrite !app_length, !repeat_length, fill_length; lia|].
  assert (Eh : hs = firstn s hs ++ mid ++ skipn (length hs - e) hs).
  { rewrite <- (firstn_skipn s hs) at 1. f_equal. unfold mid. rewrite <- (firstn_skipn (length hs - s - e) (skipn s hs)) at 1. f_equal. rewrite skipn_skipn'. f_equal. lia. }
  rewrite Eh at 1. rewrite !kept_app. 2: rewrite fill_length; lia. 2: rewrite repeat_length, firstn_length; lia.
  rewrite !kept_false by (rewrite ?firstn_length, ?skipn_length; lia). do 2 f_equal. rewrite I3. apply kept_fill; [lia|congruence].
Qed.

Theorem do_diff_spec split hr op cf h1 h2 : (forall ha1 ha2 mx, length ha1 <= length h1 -> length ha2 <= length h2 -> split_ok (split ha1 ha2 (mkenv mx 20 256)) ha1 ha2) ->
  exists r1 r2, do_diff split hr op cf h1 h2 = Ok (r1, r2) /\ length r1 = length h1 /\ length r2 = length h2 /\ kept r1 h1 = kept r2 h2.
Proof.
  intros SP. unfold do_diff. destruct (trim_ends h1 h2) as [s e] eqn:T. destruct (trim_ends_spec _ _ _ _ T) as (T1 & T2 & T3 & T4).
  destruct (cleanup_records (leave1 hr cf h1 s e) h1 s e) as [[r1 ix1] ha1] eqn:C1. destruct (cleanup_records (leave2 hr cf h2 s e) h2 s e) as [[r2 ix2] ha2] eqn:C2.
  destruct (cleanup_spec _ _ _ _ _ _ _ T1 C1) as (A1 & A2 & A3 & A4). destruct (cleanup_spec _ _ _ _ _ _ _ T2 C2) as (B1 & B2 & B3 & B4).
  assert (Hl1 : length ha1 <= length h1).
  { destruct (A4 (repeat false (length ha1)) (repeat_length _ _)) as [_ Q]. apply (f_equal (@length _)) in Q. rewrite kept_false in Q by auto. rewrite !app_length in Q. match type of Q with length (kept ?a ?b) = _ => pose proof (kept_le a b) end. lia. }
  assert (Hl2 : length ha2 <= length h2).
  { destruct (B4 (repeat false (length ha2)) (repeat_length _ _)) as [_ Q]. apply (f_equal (@length _)) in Q. rewrite kept_false in Q by auto. rewrite !app_length in Q. match type of Q with length (kept ?a ?b) = _ => pose proof (kept_le a b) end. lia. }
  match goal with |- context [mkenv ?m _ _] => set (env := mkenv m _ _) end.
  destruct (recs_cmp_spec (split ha1 ha2 env) ha1 ha2 ix1 ix2 (SP _ _ _ Hl1 Hl2) A2 B2 (2 * (length ha1 + length ha2) + 2) 0 (length ha1) 0 (length ha2) (minimal op) r1 r2) as (c1 & c2 & -> & L1 & L2 & K); try lia; auto.
  { destruct (minimal op); lia. }
  rewrite <- A2, <- B2, !sl_all in *. rewrite A2, B2, !sl_all in K. rewrite A2, B2 in *. rewrite Nat.sub_0_r in *.
  destruct (A4 c1 L1) as [M1 M2]. destruct (B4 c2 L2) as [M3 M4]. do 2 eexists. split; [reflexivity|]. split; auto. split; auto. rewrite M2, M4. now rewrite T3, T4, K.
Qed.
(** Equal files have no marks. *)
Lemma do_diff_same split hr op cf h : do_diff split hr op cf h h = Ok (repeat false (length h), repeat false (length h)).
Proof.
  unfold do_diff, trim_ends. rewrite Nat.min_id, trim_self by auto. rewrite Nat.sub_diag. cbn [trim].
  unfold cleanup_records. rewrite Nat.sub_diag. cbn [Nat.sub firstn cleanup_loop repeat app]. rewrite !app_nil_r. cbn [length Nat.add Nat.mul recs_cmp shrink_lo shrink_hi andb Nat.ltb Nat.leb bindr Nat.eqb mark_all Nat.sub]. reflexivity.
Qed.
