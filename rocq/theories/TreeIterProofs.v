From Verif Require Import Base CStr Str TreeIterModel TreeIterSpec.
Local Open Scope Z_scope.

(** ** Order on strings *)
Definition le (a b : list Z) : Prop := lex a b <> Gt.
Lemma lt_le a b : lex a b = Lt -> le a b. Proof. unfold le. congruence. Qed.
Lemma le_refl a : le a a. Proof. unfold le. rewrite lex_refl. discriminate. Qed.
Lemma le_cases a b : le a b -> a = b \/ lex a b = Lt.
Proof. unfold le. destruct (lex a b) eqn:E; intros H; auto; [left; now apply lex_eq|congruence]. Qed.
Lemma le_lt_trans a b c : le a b -> lex b c = Lt -> lex a c = Lt.
Proof. intros H L. destruct (le_cases _ _ H) as [->|K]; auto. eapply lex_lt_trans; eauto. Qed.
Lemma lt_le_trans a b c : lex a b = Lt -> le b c -> lex a c = Lt.
Proof. intros L H. destruct (le_cases _ _ H) as [->|K]; auto. eapply lex_lt_trans; eauto. Qed.
Lemma le_trans a b c : le a b -> le b c -> le a c.
Proof. intros H K. destruct (le_cases _ _ H) as [->|L]; auto. apply lt_le. eapply lt_le_trans; eauto. Qed.
Lemma lt_irrefl a : lex a a <> Lt. Proof. rewrite lex_refl. discriminate. Qed.
Lemma le_prefix a r : le a (a ++ r).
Proof. unfold le. rewrite <- (app_nil_r a) at 1. rewrite lex_app_common. destruct r; discriminate. Qed.
Lemma lex_gt_lt a b : lex a b = Gt <-> lex b a = Lt.
Proof. rewrite (lex_antisym a b). destruct (lex a b); cbn; split; congruence. Qed.
(** Two strings that differ at some place. *)
Definition apart (p v : list Z) : Prop := exists c a b s t, p = c ++ a :: s /\ v = c ++ b :: t /\ a < b.
Lemma apart_lt p v : apart p v -> lex p v = Lt.
Proof. intros (c & a & b & s & t & -> & -> & L). rewrite lex_app_common. cbn. assert (a ?= b = Lt) as -> by now apply Z.compare_lt_iff. reflexivity. Qed.
Lemma lt_split p : forall v, lex p v = Lt -> apart p v \/ exists a r, v = p ++ a :: r.
Proof.
  induction p as [|x p IH]; intros [|y v] H; cbn in H; try discriminate; [right; exists y, v; reflexivity|].
  destruct (Z.compare_spec x y) as [->|L|G]; try discriminate.
  - destruct (IH v H) as [(c & a & b & s & t & -> & -> & L)|(a & r & ->)]; [left; exists (y :: c), a, b, s, t; auto|right; exists a, r; reflexivity].
  - left. exists [], x, y, p, v. auto.
Qed.
Lemma apart_ext p v r s : apart p v -> apart (p ++ r) (v ++ s).
Proof. intros (c & a & b & x & y & -> & -> & L). exists c, a, b, (x ++ r), (y ++ s). rewrite <- !app_assoc. auto. Qed.
Lemma firstn_apart n p v : (n <= length p)%nat -> (n <= length v)%nat -> lex (firstn n p) (firstn n v) = Lt -> apart p v.
Proof.
  intros Lp Lv H. rewrite <- (firstn_skipn n p), <- (firstn_skipn n v). apply apart_ext.
  destruct (lt_split _ _ H) as [A|(a & r & E)]; auto. exfalso. apply (f_equal (@length Z)) in E. rewrite app_length, !firstn_length_le in E by auto. cbn in E. lia.
Qed.

(** ** The list of paths *)
Definition hit (p v : list Z) : bool :=
  let n := Nat.min (bare_len v) (bare_len p) in
  match lex (firstn n p) (firstn n v) with
  | Eq => ((nth n p 0 =? 0) && ((nth n v 0 =? 0) || (nth n v 0 =? 47))) || ((nth n p 0 =? 47) && (nth n v 0 =? 47))
  | _ => false
  end.
Definition nonul (p : list Z) : Prop := ~ In 0 p.
Lemma bare_le p : (bare_len p <= length p)%nat. Proof. unfold bare_len. destruct (_ =? 47); lia. Qed.
Lemma bare_slash p : nth (bare_len p) p 0 = 47 -> length p = S (bare_len p).
Proof.
  unfold bare_len. destruct (Z.eqb_spec (nth (length p - 1) p 0) 47) as [E|E]; intros H.
  - destruct p; cbn in *; [discriminate|lia].
  - rewrite nth_overflow in H by lia. discriminate.
Qed.
Lemma nth_zero_end p n : nonul p -> nth n p 0 = 0 -> (length p <= n)%nat.
Proof. intros N E. destruct (Nat.le_gt_cases (length p) n); auto. exfalso. apply N. rewrite <- E. now apply nth_In. Qed.
Lemma firstn_S n (p : list Z) : (n < length p)%nat -> firstn (S n) p = firstn n p ++ [nth n p 0].
Proof. revert p. induction n as [|n IH]; intros [|x p] H; cbn in *; try lia; auto. f_equal. apply IH. lia. Qed.
(** A hit means one path is a prefix of the other. *)
Lemma hit_prefix p v : nonul p -> hit p v = true -> (exists r, v = p ++ r) \/ (exists r, p = v ++ r).
Proof.
  intros Np. unfold hit. set (n := Nat.min _ _). destruct (lex (firstn n p) (firstn n v)) eqn:E; try discriminate. apply lex_eq in E.
  pose proof (bare_le p) as Bp. pose proof (bare_le v) as Bv. intros H. apply orb_true_iff in H as [H|H]; apply andb_true_iff in H as [H1 H2]; apply Z.eqb_eq in H1.
  - left. apply nth_zero_end in H1; auto. assert (n = length p) by lia. exists (skipn n v). rewrite <- (firstn_skipn n v) at 1. rewrite <- E, H. now rewrite firstn_all.
  - apply Z.eqb_eq in H2. assert (Sp : (n < length p)%nat) by (destruct (Nat.le_gt_cases (length p) n); auto; rewrite nth_overflow in H1 by auto; discriminate).
    assert (Sv : (n < length v)%nat) by (destruct (Nat.le_gt_cases (length v) n); auto; rewrite nth_overflow in H2 by auto; discriminate).
    assert (E2 : firstn (S n) p = firstn (S n) v) by (rewrite !firstn_S by auto; congruence).
    destruct (Nat.min_dec (bare_len v) (bare_len p)) as [M|M]; fold n in M.
    + right. rewrite M in H2. apply bare_slash in H2. exists (skipn (S n) p). rewrite <- (firstn_skipn (S n) p) at 1. rewrite E2, firstn_all2 by lia. reflexivity.
    + left. rewrite M in H1. apply bare_slash in H1. exists (skipn (S n) v). rewrite <- (firstn_skipn (S n) v) at 1. rewrite <- E2, firstn_all2 by lia. reflexivity.
Qed.

Definition sorted_pl (pl : list (list Z)) : Prop := forall i j a b, (i < j)%nat -> nth_error pl i = Some a -> nth_error pl j = Some b -> lex a b <> Gt.
Definition prefix_free (pl : list (list Z)) : Prop := forall a b, In a pl -> In b pl -> (exists r, b = a ++ r) -> a = b.
Definition dead (p v : list Z) : Prop := forall x, le v x -> hit p x = false.
Definition inv (pl : list (list Z)) (idx : nat) (v : list Z) : Prop := forall k p, (k < idx)%nat -> nth_error pl k = Some p -> dead p v.
Lemma inv_mono pl idx v w : le v w -> inv pl idx v -> inv pl idx w.
Proof. intros L H k p Hk Hp x Hx. apply (H k p Hk Hp). eapply le_trans; eauto. Qed.
Lemma dead_apart p v : nonul p -> apart p v -> dead p v.
Proof.
  intros Np A x Lx. destruct (hit p x) eqn:H; auto. exfalso. destruct (hit_prefix p x Np H) as [(r & ->)|(r & ->)].
  - pose proof (apart_ext _ _ r [] A) as A2. rewrite app_nil_r in A2. apply apart_lt in A2. apply (lt_irrefl v). eapply le_lt_trans; eauto.
  - apply apart_lt in A. apply (lt_irrefl (x ++ r)). eapply lt_le_trans; [exact A|]. eapply le_trans; [exact Lx|]. apply le_prefix.
Qed.
Lemma dead_before q p v : nonul q -> lex q p = Lt -> ~ (exists r, p = q ++ r) -> le p v -> dead q v.
Proof.
  intros Nq L NP Lv x Lx. destruct (lt_split _ _ L) as [A|(a & r & ->)]; [|exfalso; apply NP; eexists; reflexivity].
  apply (dead_apart q p Nq A). eapply le_trans; eauto.
Qed.
Lemma lt_no_hit p v : lex (firstn (Nat.min (bare_len v) (bare_len p)) p) (firstn (Nat.min (bare_len v) (bare_len p)) v) <> Eq -> hit p v = false.
Proof. unfold hit. destruct (lex _ _); congruence. Qed.

Lemma pl_loop_spec pl v : Forall nonul pl -> sorted_pl pl -> forall ps pre idx, pl = pre ++ ps -> (idx <= length pre)%nat ->
  let '(b, idx') := pl_loop ps idx v in
  (b = true <-> exists p, In p ps /\ hit p v = true) /\ (prefix_free pl -> inv pl idx v -> inv pl idx' v).
Proof.
  intros Nn Sp. induction ps as [|p ps IH]; intros pre idx E Hi; cbn [pl_loop].
  { split; auto. split; [discriminate|intros (p & [] & _)]. }
  set (n := Nat.min (bare_len v) (bare_len p)). pose proof (bare_le p) as Bp. pose proof (bare_le v) as Bv.
  assert (Hp : nonul p) by (rewrite Forall_forall in Nn; apply Nn; rewrite E; apply in_or_app; right; left; auto).
  assert (E' : pl = (pre ++ [p]) ++ ps) by (rewrite <- app_assoc; exact E).
  destruct (lex (firstn n p) (firstn n v)) eqn:C.
  - assert (HH : hit p v = (((nth n p 0 =? 0) && ((nth n v 0 =? 0) || (nth n v 0 =? 47))) || ((nth n p 0 =? 47) && (nth n v 0 =? 47)))) by (unfold hit; fold n; now rewrite C).
    destruct ((nth n p 0 =? 0) && ((nth n v 0 =? 0) || (nth n v 0 =? 47))).
    { split; auto. split; auto. intros _. exists p. split; [left|]; auto. }
    destruct ((nth n p 0 =? 47) && (nth n v 0 =? 47)).
    { split; auto. split; auto. intros _. exists p. split; [left|]; auto. }
    cbn [orb] in HH. specialize (IH (pre ++ [p]) idx E' ltac:(rewrite app_length; cbn; lia)). destruct (pl_loop ps idx v) as [b idx']. destruct IH as [I1 I2]. split; auto.
    rewrite I1. split; intros (q & Q1 & Q2); exists q; [split; [right|]; auto|]. destruct Q1 as [<-|Q1]; [congruence|auto].
  - specialize (IH (pre ++ [p]) (S idx) E' ltac:(rewrite app_length; cbn; lia)). destruct (pl_loop ps (S idx) v) as [b idx']. destruct IH as [I1 I2].
    assert (HH : hit p v = false) by (apply lt_no_hit; fold n; congruence). split.
    + rewrite I1. split; intros (q & Q1 & Q2); exists q; [split; [right|]; auto|]. destruct Q1 as [<-|Q1]; [congruence|auto].
    + intros PF Iv. apply I2; auto. assert (A : apart p v) by (apply (firstn_apart n); auto; lia).
      intros k q Hk Hq. destruct (Nat.eq_dec k (length pre)) as [->|Nk].
      * assert (q = p) as -> by (rewrite E, nth_error_app2, Nat.sub_diag in Hq by lia; cbn in Hq; congruence). now apply dead_apart.
      * assert (Pp : nth_error pl (length pre) = Some p) by (rewrite E, nth_error_app2, Nat.sub_diag by lia; reflexivity).
        assert (L0 : le q p) by (apply (Sp k (length pre)); auto; lia). destruct (le_cases _ _ L0) as [->|L]; [now apply dead_apart|].
        apply (dead_before q p v); auto.
        -- rewrite Forall_forall in Nn. apply Nn. eapply nth_error_In; eauto.
        -- intros X. assert (q = p) by (apply PF; auto; eapply nth_error_In; eauto). subst q. now apply lt_irrefl in L.
        -- apply lt_le, apart_lt, A.
  - assert (A : apart v p) by (apply (firstn_apart n); try lia; now apply lex_gt_lt). split; auto. split; [discriminate|]. intros (q & Iq & Hq). exfalso.
    assert (HH : hit p v = false) by (apply lt_no_hit; fold n; congruence). destruct Iq as [<-|Iq]; [congruence|].
    assert (Lq : le p q).
    { apply In_nth_error in Iq as (j & Hj). apply (Sp (length pre) (S (length pre + j))); [lia|rewrite E, nth_error_app2, Nat.sub_diag by lia; reflexivity|].
      rewrite E, nth_error_app2 by lia. replace (S (length pre + j) - length pre)%nat with (S j) by lia. exact Hj. }
    assert (Nq : nonul q) by (rewrite Forall_forall in Nn; apply Nn; rewrite E; apply in_or_app; right; right; auto).
    destruct (hit_prefix q v Nq Hq) as [(r & ->)|(r & ->)].
    + apply apart_lt in A. apply (lt_irrefl q). eapply le_lt_trans; [apply (le_prefix q r)|]. eapply lt_le_trans; eauto.
    + apply (apart_ext _ _ r []) in A. rewrite app_nil_r in A. apply apart_lt in A. apply (lt_irrefl p). eapply le_lt_trans; eauto.
Qed.

Definition passes (pl : list (list Z)) (v : list Z) : Prop := pl = [] \/ exists p, In p pl /\ hit p v = true.
Lemma next_is_sound pl idx v : Forall nonul pl -> sorted_pl pl -> fst (next_is pl idx v) = true -> passes pl v.
Proof.
  intros Nn Sp. unfold next_is, passes. destruct pl as [|p0 pl0] eqn:E; auto. rewrite <- E. intros H. right.
  destruct (Nat.le_gt_cases (length pl) idx) as [L|L]; [rewrite E in L; rewrite E, skipn_all2 in H by lia; discriminate|].
  pose proof (pl_loop_spec pl v ltac:(now rewrite E) ltac:(now rewrite E) (skipn idx pl) (firstn idx pl) idx (eq_sym (firstn_skipn idx pl)) ltac:(rewrite firstn_length_le by lia; lia)) as S'.
  destruct (pl_loop (skipn idx pl) idx v) as [b idx']. cbn in H. destruct S' as [S' _]. apply S' in H as (p & Ip & Hp). exists p. split; auto. rewrite <- (firstn_skipn idx pl). apply in_or_app. auto.
Qed.
Lemma next_is_complete pl idx v : Forall nonul pl -> sorted_pl pl -> prefix_free pl -> inv pl idx v ->
  let '(b, idx') := next_is pl idx v in (b = true <-> passes pl v) /\ inv pl idx' v.
Proof.
  intros Nn Sp PF Iv. unfold next_is, passes. destruct pl as [|p0 pl0] eqn:E; [split; auto; split; auto|]. rewrite <- E in *.
  assert (Q : forall b idx', pl_loop (skipn idx pl) idx v = (b, idx') -> (b = true <-> exists p, In p pl /\ hit p v = true) /\ inv pl idx' v).
  { intros b idx' R. assert (Pre : forall p, In p (firstn idx pl) -> hit p v = false).
    { intros p Ip. apply In_nth_error in Ip as (k & Hk). assert (Lk : (k < idx)%nat). { assert (k < length (firstn idx pl))%nat by (apply nth_error_Some; congruence). rewrite firstn_length in H. lia. }
      apply (Iv k p); auto; [|apply le_refl]. rewrite <- (firstn_skipn idx pl). rewrite nth_error_app1; auto. apply nth_error_Some. congruence. }
    destruct (Nat.le_gt_cases (length pl) idx) as [L|L].
    - rewrite skipn_all2 in R by lia. cbn in R. injection R as <- <-. split; auto. split; [discriminate|]. intros (p & Ip & Hp). rewrite firstn_all2 in Pre by lia. rewrite Pre in Hp by auto. discriminate.
    - pose proof (pl_loop_spec pl v Nn Sp (skipn idx pl) (firstn idx pl) idx (eq_sym (firstn_skipn idx pl)) ltac:(rewrite firstn_length_le by lia; lia)) as S'. rewrite R in S'. destruct S' as [S1' S2']. split; auto.
      rewrite S1'. split; intros (p & Ip & Hp); exists p; split; auto.
      + rewrite <- (firstn_skipn idx pl). apply in_or_app; auto.
      + rewrite <- (firstn_skipn idx pl) in Ip. apply in_app_iff in Ip as [Ip|Ip]; auto. rewrite Pre in Hp by auto. discriminate. }
  destruct (pl_loop (skipn idx pl) idx v) as [b idx']. destruct (Q b idx' eq_refl) as [Q1 Q2]. split; auto. rewrite Q1. split; auto. intros [H|H]; auto. rewrite H in E. discriminate.
Qed.
