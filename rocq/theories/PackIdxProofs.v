(** Proofs about pack index files. *)
From Verif Require Import Base CStr OidModel OidSpec OidProofs IdxFileModel IdxFileProofs PackIdxModel PackIdxSpec.

Lemma bigend_be k : forall v, bigend k v = be k v.
Proof. reflexivity. Qed.

(** *** Order of ids and prefixes *)
Lemma lex_nibbles a : forall b, bytes a -> bytes b -> lex (nibbles a) (nibbles b) = lex a b.
Proof.
  induction a as [|x a IH]; intros [|y b] Ha Hb; try reflexivity.
  inversion_clear Ha. inversion_clear Hb. cbn [nibbles lex]. rewrite IH by assumption. unfold is_byte in *.
  destruct (Z.compare_spec (x / 16) (y / 16)), (Z.compare_spec (x mod 16) (y mod 16)), (Z.compare_spec x y); try reflexivity; lia.
Qed.
Lemma lex_zeros t : Forall (fun v => 0 <= v) t -> lex (repeat 0 (length t)) t <> Gt.
Proof.
  induction 1 as [|x t Hx _ IH]; cbn [length repeat lex]; [discriminate|].
  destruct (Z.compare_spec 0 x); [assumption|discriminate|lia].
Qed.
Lemma sandwich vs : forall z X t, length z = length t -> length X = length (vs ++ t) ->
  lex (vs ++ z) X <> Gt -> lex X (vs ++ t) <> Gt -> firstn (length vs) X = vs.
Proof.
  induction vs as [|v vs IH]; intros z X t Hl HX H1 H2; [reflexivity|].
  destruct X as [|x X]; [cbn in HX; lia|]. cbn [app lex length firstn] in *.
  destruct (Z.compare_spec v x), (Z.compare_spec x v); try lia; try congruence.
  subst. f_equal. apply (IH z X t); auto.
Qed.

Definition le_id (a b : list Z) : Prop := lex a b <> Gt.
Lemma prefix_min osz q vs x : oid_ok osz q -> oid_ok osz x -> nibbles q = vs ++ repeat 0 (2 * osz - length vs) -> (length vs <= 2 * osz)%nat ->
  firstn (length vs) (nibbles x) = vs -> le_id q x.
Proof.
  intros [Lq Bq] [Lx Bx] Hq Hl Hp. unfold le_id. rewrite <- lex_nibbles by assumption. rewrite Hq.
  assert (E : nibbles x = vs ++ skipn (length vs) (nibbles x)) by (rewrite <- (firstn_skipn (length vs) (nibbles x)) at 1; rewrite Hp; reflexivity).
  rewrite E. rewrite lex_app_common.
  replace (2 * osz - length vs)%nat with (length (skipn (length vs) (nibbles x))) by (rewrite skipn_length, nibbles_length; lia).
  apply lex_zeros. pose proof (nibbles_range x Bx) as R. rewrite E in R. apply Forall_app in R as [_ R].
  eapply Forall_impl; [|exact R]. cbn. intros; lia.
Qed.
Lemma prefix_between osz q vs x y : oid_ok osz q -> oid_ok osz x -> oid_ok osz y ->
  nibbles q = vs ++ repeat 0 (2 * osz - length vs) -> (length vs <= 2 * osz)%nat ->
  le_id q x -> le_id x y -> firstn (length vs) (nibbles y) = vs -> firstn (length vs) (nibbles x) = vs.
Proof.
  intros [Lq Bq] [Lx Bx] [Ly By] Hq Hl H1 H2 Hp. unfold le_id in *. rewrite <- lex_nibbles in H1, H2 by assumption. rewrite Hq in H1.
  assert (E : nibbles y = vs ++ skipn (length vs) (nibbles y)) by (rewrite <- (firstn_skipn (length vs) (nibbles y)) at 1; rewrite Hp; reflexivity).
  rewrite E in H2.
  apply (sandwich vs (repeat 0 (2 * osz - length vs)) (nibbles x) (skipn (length vs) (nibbles y))); auto.
  - rewrite repeat_length, skipn_length, nibbles_length. lia.
  - rewrite app_length, skipn_length, !nibbles_length. lia.
Qed.

Lemma increasing_nth ids : increasing ids -> forall i j x y, (i < j)%nat -> nth_error ids i = Some x -> nth_error ids j = Some y -> lex x y = Lt.
Proof.
  induction ids as [|a [|b r] IH]; intros Hs i j x y Hij Hi Hj.
  - destruct i; discriminate.
  - destruct j as [|[|j]]; [lia|discriminate|discriminate].
  - destruct Hs as [Hab Hs]. destruct j as [|j]; [lia|]. cbn in Hj. destruct i as [|i].
    + injection Hi as <-. destruct j as [|j]; [injection Hj as <-; exact Hab|].
      eapply lex_lt_trans; [exact Hab|]. apply (IH Hs 0%nat (S j) b y); [lia|reflexivity|exact Hj].
    + apply (IH Hs i j x y); [lia|exact Hi|exact Hj].
Qed.

(** *** The first table *)
Lemma lex_hd a b : a <> [] -> b <> [] -> hd 0 a < hd 0 b -> lex a b = Lt.
Proof. destruct a, b; try congruence. cbn. intros _ _ H. destruct (Z.compare_spec z z0); try lia. reflexivity. Qed.
Lemma filter_split {A} (f : A -> bool) l : forall i x, nth_error l i = Some x ->
  (forall j y, (j < i)%nat -> nth_error l j = Some y -> f y = true) ->
  (if f x then (i < length (filter f l))%nat else True).
Proof.
  induction l as [|a l IH]; intros [|i] x Hi Hall; try discriminate; cbn [nth_error] in Hi.
  - injection Hi as <-. cbn [filter]. destruct (f a); [cbn; lia|trivial].
  - cbn [filter]. rewrite (Hall 0%nat a ltac:(lia) eq_refl). cbn [length].
    specialize (IH i x Hi (fun j y Hj => Hall (S j) y ltac:(lia))). destruct (f x); [lia|trivial].
Qed.
Lemma filter_bound {A} (f : A -> bool) l : forall k, (forall j y, (k <= j)%nat -> nth_error l j = Some y -> f y = false) -> (length (filter f l) <= k)%nat.
Proof.
  induction l as [|a l IH]; intros k Hall; cbn [filter]; [cbn; lia|].
  destruct k as [|k].
  - rewrite (Hall 0%nat a ltac:(lia) eq_refl). apply IH. intros j y _ Hj. apply (Hall (S j) y); [lia|exact Hj].
  - specialize (IH k (fun j y Hj => Hall (S j) y ltac:(lia))). destruct (f a); cbn [length]; lia.
Qed.
(** A predicate true on an initial segment: position [i] satisfies it iff it is
    below the number of elements satisfying it. *)
Lemma filter_pos {A} (f : A -> bool) l : (forall i j x y, (i < j)%nat -> nth_error l i = Some x -> nth_error l j = Some y -> f y = true -> f x = true) ->
  forall i x, nth_error l i = Some x -> (f x = true <-> (i < length (filter f l))%nat).
Proof.
  intros Hm i x Hi. split; intros H.
  - pose proof (filter_split f l i x Hi) as F. rewrite H in F. apply F. intros j y Hj Hy. exact (Hm j i y x Hj Hy Hi H).
  - destruct (f x) eqn:E; [reflexivity|]. pose proof (filter_bound f l i) as F. exfalso.
    enough (length (filter f l) <= i)%nat by lia. apply F. intros j y Hj Hy. destruct (Nat.eq_dec j i) as [->|N]; [congruence|].
    destruct (f y) eqn:Ey; [|reflexivity]. rewrite (Hm i j x y ltac:(lia) Hi Hy Ey) in E. discriminate.
Qed.

Lemma filter_le {A} (f g : A -> bool) l : (forall x, f x = true -> g x = true) -> (length (filter f l) <= length (filter g l))%nat.
Proof.
  intros H. induction l as [|a l IH]; cbn [filter]; [lia|]. destruct (f a) eqn:E; [rewrite (H a E); cbn [length]; lia|]. destruct (g a); cbn [length]; lia.
Qed.
Lemma filter_le_all {A} (f : A -> bool) l : (length (filter f l) <= length l)%nat.
Proof. induction l as [|a l IH]; cbn [filter]; [lia|]. destruct (f a); cbn [length]; lia. Qed.
Lemma filter_all {A} (f : A -> bool) l : Forall (fun x => f x = true) l -> filter f l = l.
Proof. induction 1 as [|x l H _ IH]; cbn; [reflexivity|]. rewrite H. f_equal. exact IH. Qed.

Section Objs.
  Context (osz : nat) (objs : list pobj).
  Hypothesis Hosz : (0 < osz)%nat.
  Hypothesis Hok : objs_ok osz objs.

  Lemma obj_ok i o : nth_error objs i = Some o -> oid_ok osz (fst o).
  Proof using Hok. intros H. destruct Hok as [F _]. rewrite Forall_forall in F. apply F. eapply nth_error_In; eauto. Qed.
  Lemma obj_lt i j x y : (i < j)%nat -> nth_error objs i = Some x -> nth_error objs j = Some y -> lex (fst x) (fst y) = Lt.
  Proof using Hok. intros Hij Hi Hj. destruct Hok as [_ S]. apply (increasing_nth _ S i j); auto using map_nth_error. Qed.
  Lemma oid_ne o : oid_ok osz o -> o <> [].
  Proof using Hosz. intros [L _] ->. cbn in L. lia. Qed.
  Lemma count_pos b i o : nth_error objs i = Some o -> (hd 0 (fst o) <= b <-> Z.of_nat i < count_upto objs b).
  Proof using Hosz Hok.
    intros Hi. unfold count_upto.
    assert (M : forall i j (x y : pobj), (i < j)%nat -> nth_error objs i = Some x -> nth_error objs j = Some y -> (hd 0 (fst y) <=? b) = true -> (hd 0 (fst x) <=? b) = true).
    { intros i' j x y Hij Hx Hy Hb. pose proof (obj_lt i' j x y Hij Hx Hy) as L. apply Z.leb_le in Hb. apply Z.leb_le.
      destruct (Z.lt_ge_cases b (hd 0 (fst x))) as [G|]; [|lia]. exfalso.
      assert (hd 0 (fst y) < hd 0 (fst x)) as C by lia. apply lex_hd in C; [|eapply oid_ne, obj_ok; eauto|eapply oid_ne, obj_ok; eauto].
      rewrite lex_antisym, L in C. discriminate. }
    pose proof (filter_pos (fun o : pobj => hd 0 (fst o) <=? b) objs M i o Hi) as F. cbn beta in F. rewrite Z.leb_le in F. rewrite F. apply Nat2Z.inj_lt.
  Qed.
  Lemma count_mono b c : b <= c -> count_upto objs b <= count_upto objs c.
  Proof using. clear Hosz Hok. intros H. unfold count_upto. apply inj_le. apply filter_le. intros o. rewrite !Z.leb_le. lia. Qed.
  Lemma count_le b : 0 <= count_upto objs b <= Z.of_nat (length objs).
  Proof using. clear Hosz Hok. unfold count_upto. split; [lia|]. apply inj_le, filter_le_all. Qed.
  Lemma count_all : count_upto objs 255 = Z.of_nat (length objs).
  Proof using Hosz Hok.
    unfold count_upto. rewrite filter_all; [reflexivity|]. destruct Hok as [F _]. eapply Forall_impl; [|exact F].
    intros o [L B]. cbn beta. apply Z.leb_le. destruct (fst o); [cbn in L; lia|]. inversion_clear B. cbn. unfold is_byte in *. lia.
  Qed.
End Objs.

(** *** Binary search *)
Lemma memcmp_firstn n : forall a b, (n <= length a)%nat -> (n <= length b)%nat -> memcmp a b n = memcmp (firstn n a) (firstn n b) n.
Proof.
  induction n; intros a b Ha Hb; [destruct a; reflexivity|]. destruct a as [|x a]; [cbn in Ha; lia|]. destruct b as [|y b]; [cbn in Hb; lia|].
  cbn [memcmp firstn]. destruct (x =? y); [|reflexivity]. apply IHn; cbn in *; lia.
Qed.
Lemma memcmp_sub data off q n : (off + n <= length data)%nat -> length q = n ->
  exists z, memcmp (skipn off data) q n = Ok z /\ sgn_cmp z = lex (sub data off n) q.
Proof.
  intros H L. rewrite memcmp_firstn by (rewrite ?skipn_length; lia). rewrite (firstn_all2 q) by lia.
  assert (Ls : length (sub data off n) = n) by (apply sub_length; lia).
  destruct (memcmp_lex (sub data off n) q) as (z & E & Hz); [lia|]. exists z. rewrite <- Hz. split; [|reflexivity].
  unfold sub in *. rewrite Ls in E. exact E.
Qed.
Lemma lookup_safe fuel : forall data base stride lo hi q osz, (Z.to_nat (hi - lo) < fuel)%nat -> 0 <= lo <= hi -> hi < 2147483648 -> 0 <= base -> 0 <= osz -> 0 <= stride ->
  length q = Z.to_nat osz -> (lo < hi -> base + (hi - 1) * stride + osz <= Z.of_nat (length data)) ->
  exists r, lookup_id fuel data base stride lo hi q osz = Ok r /\
    ((exists mi, lo <= mi < hi /\ r = mi /\ sub data (Z.to_nat (base + mi * stride)) (Z.to_nat osz) = q) \/
     (exists k, lo <= k <= hi /\ r = - k - 1)).
Proof.
  induction fuel as [|f IH]; intros data base stride lo hi q osz Hf Hlo Hhi Hb Ho Hs Lq Hd; [lia|].
  cbn [lookup_id]. destruct (Z.ltb_spec lo hi).
  - unfold two32. rewrite Z.mod_small by lia. set (mi := (lo + hi) / 2). assert (Hm : lo <= mi < hi) by (unfold mi; lia).
    destruct (memcmp_sub data (Z.to_nat (base + mi * stride)) q (Z.to_nat osz)) as (z & -> & Hz); [specialize (Hd ltac:(lia)); nia|exact Lq|].
    cbn [bindr]. unfold sgn_cmp in Hz. destruct (Z.eqb_spec z 0) as [->|Nz].
    + eexists. split; [reflexivity|]. left. exists mi. symmetry in Hz. apply lex_eq in Hz. repeat split; try lia; auto.
      unfold to_int32. destruct (Z.ltb_spec mi 2147483648); lia.
    + destruct (Z.ltb_spec 0 z).
      * destruct (IH data base stride lo mi q osz) as (r & E & Hr); try lia; try (intros; specialize (Hd ltac:(lia)); nia).
        exists r. split; [exact E|]. destruct Hr as [(m & ? & ? & ?)|(k & ? & ?)]; [left; exists m|right; exists k]; repeat split; auto; lia.
      * destruct (IH data base stride (mi + 1) hi q osz) as (r & E & Hr); try lia; try (intros; specialize (Hd ltac:(lia)); nia).
        exists r. split; [exact E|]. destruct Hr as [(m & ? & ? & ?)|(k & ? & ?)]; [left; exists m|right; exists k]; repeat split; auto; lia.
  - eexists. split; [reflexivity|]. right. exists lo. split; [lia|]. unfold to_int32. destruct (Z.ltb_spec lo 2147483648); lia.
Qed.

(** With sorted keys: where the search ends. *)
Lemma lookup_sorted fuel : forall data base stride lo hi q osz (key : nat -> list Z), (Z.to_nat (hi - lo) < fuel)%nat -> 0 <= lo <= hi -> hi < 2147483648 -> 0 <= base -> 0 <= osz -> 0 <= stride ->
  length q = Z.to_nat osz -> (lo < hi -> base + (hi - 1) * stride + osz <= Z.of_nat (length data)) ->
  (forall i, lo <= i < hi -> sub data (Z.to_nat (base + i * stride)) (Z.to_nat osz) = key (Z.to_nat i)) ->
  (forall i j, lo <= i < j -> j < hi -> lex (key (Z.to_nat i)) (key (Z.to_nat j)) = Lt) ->
  exists r, lookup_id fuel data base stride lo hi q osz = Ok r /\
    ((0 <= r /\ lo <= r < hi /\ key (Z.to_nat r) = q) \/
     (exists k, r = - k - 1 /\ lo <= k <= hi /\ (forall i, lo <= i < k -> lex (key (Z.to_nat i)) q = Lt) /\ (forall i, k <= i < hi -> lex q (key (Z.to_nat i)) = Lt))).
Proof.
  induction fuel as [|f IH]; intros data base stride lo hi q osz key Hf Hlo Hhi Hb Ho Hs Lq Hd Hk Hsrt; [lia|].
  cbn [lookup_id]. destruct (Z.ltb_spec lo hi).
  - unfold two32. rewrite Z.mod_small by lia. set (mi := (lo + hi) / 2). assert (Hm : lo <= mi < hi) by (unfold mi; lia).
    destruct (memcmp_sub data (Z.to_nat (base + mi * stride)) q (Z.to_nat osz)) as (z & -> & Hz); [specialize (Hd ltac:(lia)); nia|exact Lq|].
    cbn [bindr]. unfold sgn_cmp in Hz. rewrite Hk in Hz by lia. destruct (Z.eqb_spec z 0) as [->|Nz].
    + eexists. split; [reflexivity|]. left. symmetry in Hz. apply lex_eq in Hz.
      unfold to_int32. destruct (Z.ltb_spec mi 2147483648); [|lia]. repeat split; try lia; auto.
    + destruct (Z.ltb_spec 0 z).
      * assert (Gz : lex (key (Z.to_nat mi)) q = Gt) by (rewrite <- Hz; apply Z.compare_gt_iff; lia).
        destruct (IH data base stride lo mi q osz key) as (r & E & Hr); try lia; try (intros; specialize (Hd ltac:(lia)); nia); try (intros; apply Hk; lia); try (intros; apply Hsrt; lia).
        exists r. split; [exact E|]. destruct Hr as [(? & ? & ?)|(k & ? & ? & Hl & Hg)]; [left; repeat split; auto; lia|right; exists k; repeat split; auto; try lia].
        intros i Hi. destruct (Z.lt_ge_cases i mi); [apply Hg; lia|].
        assert (Gm : lex q (key (Z.to_nat mi)) = Lt) by (rewrite lex_antisym, Gz; reflexivity).
        destruct (Z.eq_dec i mi) as [->|]; [exact Gm|]. eapply lex_lt_trans; [exact Gm|]. apply Hsrt; lia.
      * assert (Gz : lex (key (Z.to_nat mi)) q = Lt) by (rewrite <- Hz; apply Z.compare_lt_iff; lia).
        destruct (IH data base stride (mi + 1) hi q osz key) as (r & E & Hr); try lia; try (intros; specialize (Hd ltac:(lia)); nia); try (intros; apply Hk; lia); try (intros; apply Hsrt; lia).
        exists r. split; [exact E|]. destruct Hr as [(? & ? & ?)|(k & ? & ? & Hl & Hg)]; [left; repeat split; auto; lia|right; exists k; repeat split; auto; try lia].
        intros i Hi. destruct (Z.lt_ge_cases mi i); [apply Hl; lia|].
        destruct (Z.eq_dec i mi) as [->|]; [exact Gz|]. eapply lex_lt_trans; [|exact Gz]. apply Hsrt; lia.
  - eexists. split; [reflexivity|]. right. exists lo. unfold to_int32. destruct (Z.ltb_spec lo 2147483648); [|lia]. repeat split; try lia; intros; lia.
Qed.

(** *** The search result on a sorted list *)
Lemma starts_spec vs o : starts_with vs o = true <-> firstn (length vs) (nibbles (fst o)) = vs.
Proof. unfold starts_with. destruct list_eq_dec; split; congruence. Qed.

(** What the code must establish: each claim in terms of positions. *)
Definition layout (p : pidx) (objs : list pobj) : Prop :=
  let lvl1 := if 1 <? p_version p then 8 else 0 in
  let stride := if 1 <? p_version p then p_osz p else p_osz p + 4 in
  let index := lvl1 + 1024 + (if 1 <? p_version p then 0 else 4) in
  p_nr p = Z.of_nat (length objs) /\ p_nr p * stride < two32 /\
  (forall b, 0 <= b < 256 -> rd32 (p_data p) (lvl1 + 4 * b) = Ok (count_upto objs b)) /\
  (objs <> [] -> index + (p_nr p - 1) * stride + p_osz p <= Z.of_nat (length (p_data p))) /\
  (forall i o, nth_error objs i = Some o -> sub (p_data p) (Z.to_nat (index + Z.of_nat i * stride)) (Z.to_nat (p_osz p)) = fst o) /\
  (forall i o, nth_error objs i = Some o -> nth_offset p (Z.of_nat i) = Ok (snd o) /\ 0 <= snd o).

Lemma firstn_nibbles n : forall x k, (k <= n)%nat -> firstn (2 * k) (nibbles (firstn n x)) = firstn (2 * k) (nibbles x).
Proof.
  induction n; intros x k Hk; [replace k with 0%nat by lia; reflexivity|].
  destruct x as [|b x]; [reflexivity|]. destruct k; [reflexivity|]. replace (2 * S k)%nat with (S (S (2 * k))) by lia.
  cbn [firstn nibbles]. rewrite IHn by lia. reflexivity.
Qed.
Lemma ncmp_at_spec data off q len osz : bytes data -> oid_ok (Z.to_nat osz) q -> 0 <= off -> 0 <= osz -> off + osz <= Z.of_nat (length data) -> (len <= 2 * Z.to_nat osz)%nat ->
  exists r, ncmp_at osz data off q len = Ok r /\ (r = 0 <-> firstn len (nibbles q) = firstn len (nibbles (sub data (Z.to_nat off) (Z.to_nat osz)))).
Proof.
  intros Bd [Lq Bq] Ho Hz Hl Hlen. unfold ncmp_at, oid_ncmp. destruct (Nat.ltb_spec (2 * Z.to_nat osz) len); [lia|].
  assert (Bs : bytes (skipn (Z.to_nat off) data)).
  { unfold bytes in *. rewrite Forall_forall in *. intros x Hx. apply Bd. rewrite <- (firstn_skipn (Z.to_nat off) data). apply in_or_app. auto. }
  destruct (ncmp_loop_spec len q (skipn (Z.to_nat off) data) len Bq Bs) as (r & E & Hr); try lia; [rewrite skipn_length; lia|].
  exists r. split; [exact E|]. rewrite Hr. unfold sub.
  assert (Q : firstn len (nibbles (firstn (Z.to_nat osz) (skipn (Z.to_nat off) data))) = firstn len (nibbles (skipn (Z.to_nat off) data))).
  { rewrite <- (Nat.min_l len (2 * Z.to_nat osz)) at 1 2 by lia.
    rewrite <- !firstn_firstn. f_equal. apply firstn_nibbles. lia. }
  rewrite Q. tauto.
Qed.

Lemma filter_none {A} (f : A -> bool) l : (forall x, In x l -> f x = false) -> filter f l = [].
Proof. induction l as [|a l IH]; intros H; cbn; [reflexivity|]. rewrite (H a) by (cbn; auto). apply IH. intros x Hx. apply H. cbn; auto. Qed.
Lemma nth_skipn {A} (l : list A) k : forall i, nth_error (skipn k l) i = nth_error l (k + i).
Proof. revert l. induction k; intros l i; [reflexivity|]. destruct l; [destruct i; reflexivity|]. cbn. apply IHk. Qed.

Lemma find_spec p objs q vs : (0 < p_osz p) -> objs_ok (Z.to_nat (p_osz p)) objs -> bytes (p_data p) -> layout p objs -> Z.of_nat (length objs) < 2147483648 ->
  oid_ok (Z.to_nat (p_osz p)) q -> (length vs <= 2 * Z.to_nat (p_osz p))%nat -> nibbles q = vs ++ repeat 0 (2 * Z.to_nat (p_osz p) - length vs) ->
  find_offset p q (length vs) = answer_res (lookup_spec objs vs).
Proof.
  intros Hosz Hok Bd HL Hn Hq Hlv Hnq. unfold layout in HL. cbv zeta in HL. unfold find_offset.
  set (lvl1 := if 1 <? p_version p then 8 else 0) in *.
  set (stride := if 1 <? p_version p then p_osz p else p_osz p + 4) in *.
  set (index := lvl1 + 1024 + (if 1 <? p_version p then 0 else 4)) in *.
  destruct HL as (Hnr & Hwrap & Hfan & Hsize & Hid & Hoff).
  assert (Hix : 0 <= index) by (unfold index, lvl1; destruct (1 <? p_version p); lia).
  assert (Hst : p_osz p <= stride <= p_osz p + 4) by (unfold stride; destruct (1 <? p_version p); lia).
  destruct q as [|b q'] eqn:Eq; [destruct Hq as [L _]; cbn in L; lia|]. rewrite <- Eq in *.
  assert (Hb : 0 <= b < 256) by (destruct Hq as [_ B]; subst q; inversion_clear B; assumption).
  assert (Hhd : hd 0 q = b) by (subst q; reflexivity).
  assert (Er : rd q 0 = Ok b) by (subst q; reflexivity). clear Eq q'. rewrite Er. cbn [bindr]. rewrite Hfan by lia. cbn [bindr].
  assert (Elo : (if b =? 0 then Ok 0 else rd32 (p_data p) (lvl1 + 4 * (b - 1))) = Ok (count_upto objs (b - 1))).
  { destruct (Z.eqb_spec b 0) as [->|]; [|apply Hfan; lia]. f_equal. unfold count_upto. rewrite filter_none; [reflexivity|].
    intros o Ho. destruct Hok as [F _]. rewrite Forall_forall in F. destruct (F o Ho) as [_ B].
    apply Z.leb_gt. destruct (fst o) as [|c r] eqn:Ec; cbn; [|inversion_clear B; unfold is_byte in *; lia].
    destruct (F o Ho) as [L _]. rewrite Ec in L. cbn in L. lia. }
  rewrite Elo. cbn [bindr]. clear Elo.
  set (lo := count_upto objs (b - 1)). set (hi := count_upto objs b).
  assert (Hlohi : 0 <= lo <= hi) by (split; [apply (count_le objs (b - 1))|apply count_mono; lia]).
  assert (Hhi : hi <= Z.of_nat (length objs)) by apply (count_le objs b).
  set (key := fun i => fst (nth i objs ([], 0))).
  assert (Hkey : forall i o, nth_error objs i = Some o -> key i = fst o) by (intros i o Ho; unfold key; rewrite (nth_error_nth _ _ _ Ho); reflexivity).
  assert (Hex : forall i, 0 <= i < Z.of_nat (length objs) -> exists o, nth_error objs (Z.to_nat i) = Some o).
  { intros i Hi. destruct (nth_error objs (Z.to_nat i)) eqn:E; [eauto|]. apply nth_error_None in E. lia. }
  destruct (lookup_sorted (S (Z.to_nat (hi - lo))) (p_data p) index stride lo hi q (p_osz p) key) as (r & Er' & Hr); try lia.
  { destruct Hq as [L _]. exact L. }
  { intros Hlt. assert (objs <> []) by (intros ->; cbn in Hhi; lia). specialize (Hsize ltac:(assumption)). nia. }
  { intros i Hi. destruct (Hex i ltac:(lia)) as [o Ho]. rewrite (Hkey _ _ Ho). rewrite <- (Hid _ _ Ho). rewrite Z2Nat.id by lia. reflexivity. }
  { intros i j Hij Hj. destruct (Hex i ltac:(lia)) as [x Hx], (Hex j ltac:(lia)) as [y Hy]. rewrite (Hkey _ _ Hx), (Hkey _ _ Hy).
    apply (obj_lt _ objs Hok (Z.to_nat i) (Z.to_nat j)); auto. lia. }
  rewrite Er'. cbn [bindr]. clear Er'. rewrite Hnr.
  replace (to_int32 (Z.of_nat (length objs))) with (Z.of_nat (length objs)) by (unfold to_int32; destruct (Z.ltb_spec (Z.of_nat (length objs)) 2147483648); lia).
  (* the position k splits the objects *)
  assert (Hsplit : exists k found, 0 <= k <= Z.of_nat (length objs) /\
     (forall i o, Z.of_nat i < k -> nth_error objs i = Some o -> lex (fst o) q = Lt) /\
     (forall i o, k <= Z.of_nat i -> nth_error objs i = Some o -> le_id q (fst o)) /\
     (if 0 <=? r then Ok (true, r, index + (r * stride) mod two32)
      else if - 1 - r <? Z.of_nat (length objs) then
             do c <- ncmp_at (p_osz p) (p_data p) (index + ((- 1 - r) * stride) mod two32) q (length vs) ;; Ok (c =? 0, - 1 - r, index + ((- 1 - r) * stride) mod two32)
           else Ok (false, - 1 - r, 0)) = Ok (found, k, if k <? Z.of_nat (length objs) then index + k * stride else 0) /\
     (found = true <-> exists o, nth_error objs (Z.to_nat k) = Some o /\ starts_with vs o = true)).
  { assert (Hne : forall i o, nth_error objs i = Some o -> fst o <> []).
    { intros i o Ho. apply (oid_ne (Z.to_nat (p_osz p)) ltac:(lia)). exact (obj_ok _ _ Hok i o Ho). }
    assert (Hqne : q <> []) by (apply (oid_ne (Z.to_nat (p_osz p)) ltac:(lia)); exact Hq).
    assert (Hfar : forall i o, nth_error objs i = Some o -> Z.of_nat i < lo -> lex (fst o) q = Lt).
    { intros i o Ho Hi. apply lex_hd; [exact (Hne i o Ho)|exact Hqne|].
      apply (count_pos (Z.to_nat (p_osz p)) objs ltac:(lia) Hok (b - 1) i o Ho) in Hi. lia. }
    assert (Hfar2 : forall i o, nth_error objs i = Some o -> hi <= Z.of_nat i -> lex q (fst o) = Lt).
    { intros i o Ho Hi. apply lex_hd; [exact Hqne|exact (Hne i o Ho)|].
      pose proof (count_pos (Z.to_nat (p_osz p)) objs ltac:(lia) Hok b i o Ho) as C. fold hi in C. lia. }
    assert (Ncmp : forall k o, 0 <= k < Z.of_nat (length objs) -> nth_error objs (Z.to_nat k) = Some o ->
       exists c, ncmp_at (p_osz p) (p_data p) (index + k * stride) q (length vs) = Ok c /\ (c = 0 <-> starts_with vs o = true)).
    { intros k o Hk Ho. destruct (ncmp_at_spec (p_data p) (index + k * stride) q (length vs) (p_osz p)) as (c & Ec & Hc); auto; try lia; try nia.
      { assert (objs <> []) by (intros ->; cbn in Hk; lia). specialize (Hsize ltac:(assumption)).
        assert (k * stride <= (p_nr p - 1) * stride) by (apply Z.mul_le_mono_nonneg_r; lia). lia. }
      exists c. split; [exact Ec|]. rewrite Hc, starts_spec. pose proof (Hid _ _ Ho) as E. rewrite Z2Nat.id in E by lia. rewrite E.
      rewrite Hnq, firstn_app, firstn_all, Nat.sub_diag. cbn [firstn]. rewrite app_nil_r. split; congruence. }
    destruct Hr as [(R0 & Hrr & Hrk)|(k & -> & Hk & Hl & Hg)].
    - exists r, true. destruct (Hex r ltac:(lia)) as [o Ho]. rewrite (Hkey _ _ Ho) in Hrk.
      repeat split; try lia.
      + intros i x Hi Hx. rewrite <- Hrk. apply (obj_lt _ objs Hok i (Z.to_nat r)); auto. lia.
      + intros i x Hi Hx. unfold le_id. destruct (Nat.eq_dec i (Z.to_nat r)) as [->|]; [replace x with o by congruence; rewrite Hrk, lex_refl; discriminate|].
        rewrite <- Hrk. rewrite (obj_lt _ objs Hok (Z.to_nat r) i o x); auto; [discriminate|lia].
      + destruct (Z.leb_spec 0 r); [|lia]. destruct (Z.ltb_spec r (Z.of_nat (length objs))); [|lia]. rewrite Z.mod_small; [reflexivity|]. rewrite Hnr in Hwrap. nia.
      + intros _. exists o. split; [exact Ho|]. apply starts_spec. rewrite Hrk, Hnq, firstn_app, firstn_all, Nat.sub_diag. cbn [firstn]. apply app_nil_r.
    - destruct (Z.leb_spec 0 (- k - 1)); [lia|]. replace (- 1 - (- k - 1)) with k by lia.
      assert (P1 : forall i o, Z.of_nat i < k -> nth_error objs i = Some o -> lex (fst o) q = Lt).
      { intros i o Hi Ho. destruct (Z.lt_ge_cases (Z.of_nat i) lo); [eauto|]. rewrite <- (Hkey _ _ Ho). rewrite <- (Nat2Z.id i). apply Hl. lia. }
      assert (P2 : forall i o, k <= Z.of_nat i -> nth_error objs i = Some o -> le_id q (fst o)).
      { intros i o Hi Ho. unfold le_id. destruct (Z.lt_ge_cases (Z.of_nat i) hi) as [Hh|Hh].
        - rewrite <- (Hkey _ _ Ho). rewrite <- (Nat2Z.id i). rewrite Hg by lia. discriminate.
        - rewrite (Hfar2 i o Ho) by lia. discriminate. }
      destruct (Z.ltb_spec k (Z.of_nat (length objs))).
      + destruct (Hex k ltac:(lia)) as [o Ho]. destruct (Ncmp k o ltac:(lia) Ho) as (c & Ec & Hc).
        exists k, (c =? 0). repeat split; auto; try lia.
        * rewrite Z.mod_small by (rewrite Hnr in Hwrap; nia). rewrite Ec. cbn [bindr]. destruct (Z.ltb_spec k (Z.of_nat (length objs))); [reflexivity|lia].
        * intros Hz. exists o. split; [exact Ho|]. apply Hc. lia.
        * intros (o' & Ho' & Hs). assert (o' = o) by congruence. subst. apply Z.eqb_eq. tauto.
      + exists k, false. repeat split; auto; try lia; try discriminate.
        * destruct (Z.ltb_spec k (Z.of_nat (length objs))); [lia|reflexivity].
        * intros (o & Ho & _). assert (nth_error objs (Z.to_nat k) <> None) as C by congruence. apply nth_error_Some in C. lia. }
  cbv zeta. destruct Hsplit as (k & found & Hk & Hbelow & Habove & -> & Hfound). cbn [bindr]. clear Hr.
  (* objects below k do not match *)
  assert (Hfil : filter (starts_with vs) objs = filter (starts_with vs) (skipn (Z.to_nat k) objs)).
  { rewrite <- (firstn_skipn (Z.to_nat k) objs) at 1. rewrite filter_app. rewrite filter_none; [reflexivity|].
    intros x Hx. apply In_nth_error in Hx as [i Hi]. assert (Li : (i < Z.to_nat k)%nat).
    { assert (nth_error (firstn (Z.to_nat k) objs) i <> None) as C by congruence. apply nth_error_Some in C. rewrite firstn_length in C. lia. }
    assert (Ho : nth_error objs i = Some x). { rewrite <- (firstn_skipn (Z.to_nat k) objs). rewrite nth_error_app1; auto. rewrite firstn_length. lia. }
    destruct (starts_with vs x) eqn:Es; [|reflexivity]. exfalso. apply starts_spec in Es.
    pose proof (Hbelow i x ltac:(lia) Ho) as B.
    pose proof (prefix_min _ q vs (fst x) Hq (obj_ok _ _ Hok i x Ho) Hnq Hlv Es) as M. apply M. rewrite lex_antisym, B. reflexivity. }
  assert (Hmono : forall i j x y, (i <= j)%nat -> nth_error (skipn (Z.to_nat k) objs) i = Some x -> nth_error (skipn (Z.to_nat k) objs) j = Some y -> starts_with vs y = true -> starts_with vs x = true).
  { intros i j x y Hij Hi Hj Hy. rewrite nth_skipn in Hi, Hj. apply starts_spec in Hy. apply starts_spec.
    apply (prefix_between _ q vs (fst x) (fst y) Hq (obj_ok _ _ Hok _ x Hi) (obj_ok _ _ Hok _ y Hj) Hnq Hlv); auto.
    - apply (Habove (Z.to_nat k + i)%nat); auto. lia.
    - unfold le_id. destruct (Nat.eq_dec i j) as [->|]; [assert (x = y) as -> by congruence; rewrite lex_refl; discriminate|].
      rewrite (obj_lt _ objs Hok (Z.to_nat k + i)%nat (Z.to_nat k + j)%nat x y); auto; [discriminate|lia]. }
  unfold lookup_spec. rewrite Hfil.
  assert (Hn0 : forall i, nth_error (skipn (Z.to_nat k) objs) i = nth_error objs (Z.to_nat k + i)) by (intros; apply nth_skipn).
  destruct (skipn (Z.to_nat k) objs) as [|o [|o2 rest]] eqn:Esk.
  - (* k is past the end *)
    assert (Lk : k = Z.of_nat (length objs)). { assert (length (skipn (Z.to_nat k) objs) = 0%nat) by (rewrite Esk; reflexivity). rewrite skipn_length in *. lia. }
    assert (found = false) as ->. { destruct found; [|reflexivity]. destruct (proj1 Hfound eq_refl) as (o & Ho & _). assert (nth_error objs (Z.to_nat k) <> None) as C by congruence. apply nth_error_Some in C. lia. }
    reflexivity.
  - assert (Lk : k = Z.of_nat (length objs) - 1). { assert (length (skipn (Z.to_nat k) objs) = 1%nat) by (rewrite Esk; reflexivity). rewrite skipn_length in *. lia. }
    assert (Ho : nth_error objs (Z.to_nat k) = Some o). { rewrite <- (Nat.add_0_r (Z.to_nat k)). rewrite <- Hn0. reflexivity. }
    assert (Ef : found = starts_with vs o). { destruct found.
      - destruct (proj1 Hfound eq_refl) as (o' & Ho' & Hs). congruence.
      - destruct (starts_with vs o) eqn:E; [|reflexivity]. assert (false = true) by (apply Hfound; eauto). discriminate. }
    destruct (Z.ltb_spec (k + 1) (Z.of_nat (length objs))); [lia|]. rewrite andb_false_r. cbn [bindr].
    rewrite Ef. cbn [filter]. destruct (starts_with vs o) eqn:Es; cbn [negb answer_res]; [|reflexivity].
    destruct (Hoff _ _ Ho) as [Eo Po]. rewrite Z2Nat.id in Eo by lia. rewrite Eo. cbn [bindr].
    destruct (Z.ltb_spec (snd o) 0); [lia|]. destruct (Z.ltb_spec k (Z.of_nat (length objs))); [|lia].
    pose proof (Hid _ _ Ho) as Ei. rewrite Z2Nat.id in Ei by lia.
    rewrite rdn_ok; [cbn [bindr]; rewrite Ei; reflexivity|]. assert (objs <> []) by (intros ->; destruct (Z.to_nat k); discriminate). specialize (Hsize ltac:(assumption)). rewrite Hnr in Hsize. nia.
  - assert (Lk : k <= Z.of_nat (length objs) - 2). { assert (length (skipn (Z.to_nat k) objs) = S (S (length rest))) by (rewrite Esk; reflexivity). rewrite skipn_length in *. lia. }
    assert (Ho : nth_error objs (Z.to_nat k) = Some o). { rewrite <- (Nat.add_0_r (Z.to_nat k)). rewrite <- Hn0. reflexivity. }
    assert (Ho2 : nth_error objs (Z.to_nat (k + 1)) = Some o2). { replace (Z.to_nat (k + 1)) with (Z.to_nat k + 1)%nat by lia. rewrite <- Hn0. reflexivity. }
    assert (Ef : found = starts_with vs o). { destruct found.
      - destruct (proj1 Hfound eq_refl) as (o' & Ho' & Hs). congruence.
      - destruct (starts_with vs o) eqn:E; [|reflexivity]. assert (false = true) by (apply Hfound; eauto). discriminate. }
    destruct (Z.ltb_spec (k + 1) (Z.of_nat (length objs))); [|lia]. destruct (Z.ltb_spec k (Z.of_nat (length objs))); [|lia].
    rewrite Ef. assert (objs <> []) by (intros ->; destruct (Z.to_nat k); discriminate). specialize (Hsize ltac:(assumption)). rewrite Hnr in Hsize.
    assert (Hrest : starts_with vs o2 = false -> filter (starts_with vs) (o2 :: rest) = []).
    { intros F2. apply filter_none. intros x Hx. apply In_nth_error in Hx as [i Hi].
      destruct (starts_with vs x) eqn:Ex; [|reflexivity]. rewrite (Hmono 1%nat (S i) o2 x ltac:(lia) eq_refl Hi Ex) in F2. discriminate. }
    destruct (starts_with vs o) eqn:Es.
    + cbn [andb negb].
      assert (Eend : forall amb, (if (amb : bool) then Err (-5) else do offset <- nth_offset p k ;; if offset <? 0 then Err (-1)
             else do o0 <- rdn (p_data p) (Z.to_nat (index + k * stride)) (Z.to_nat (p_osz p)) ;; Ok (offset, o0)) = if amb then Err (-5) else Ok (snd o, fst o)).
      { intros [|]; [reflexivity|]. destruct (Hoff _ _ Ho) as [Eo Po]. rewrite Z2Nat.id in Eo by lia. rewrite Eo. cbn [bindr].
        destruct (Z.ltb_spec (snd o) 0); [lia|]. pose proof (Hid _ _ Ho) as Ei. rewrite Z2Nat.id in Ei by lia.
        rewrite rdn_ok; [cbn [bindr]; rewrite Ei; reflexivity|]. nia. }
      assert (Eamb : (if negb (Z.of_nat (length vs) =? 2 * p_osz p) && true
          then do c <- ncmp_at (p_osz p) (p_data p) (index + k * stride + stride) q (length vs);; Ok (c =? 0) else Ok false) = Ok (starts_with vs o2)).
      { rewrite andb_true_r. destruct (Z.eqb_spec (Z.of_nat (length vs)) (2 * p_osz p)) as [Efull|Nf]; cbn [negb].
        - f_equal. destruct (starts_with vs o2) eqn:E2; [|reflexivity]. exfalso. apply starts_spec in Es, E2.
          assert (A : forall x, oid_ok (Z.to_nat (p_osz p)) x -> firstn (length vs) (nibbles x) = nibbles x).
          { intros x [Lx _]. apply firstn_all2. rewrite nibbles_length. lia. }
          pose proof (obj_ok _ _ Hok _ o Ho) as K1. pose proof (obj_ok _ _ Hok _ o2 Ho2) as K2. rewrite A in Es, E2 by assumption.
          assert (fst o = fst o2) as Eid by (apply nibbles_inj; [apply K1|apply K2|congruence]).
          pose proof (obj_lt _ objs Hok (Z.to_nat k) (Z.to_nat (k + 1)) o o2 ltac:(lia) Ho Ho2) as L. rewrite Eid, lex_refl in L. discriminate.
        - replace (index + k * stride + stride) with (index + (k + 1) * stride) by lia.
          destruct (ncmp_at_spec (p_data p) (index + (k + 1) * stride) q (length vs) (p_osz p)) as (c & Ec & Hc); auto; try lia; try nia.
          rewrite Ec. cbn [bindr]. f_equal. pose proof (Hid _ _ Ho2) as E. rewrite Z2Nat.id in E by lia. rewrite E in Hc.
          rewrite Hnq, firstn_app, firstn_all, Nat.sub_diag in Hc. cbn [firstn] in Hc. rewrite app_nil_r in Hc.
          destruct (starts_with vs o2) eqn:E2; [apply starts_spec in E2; apply Z.eqb_eq; apply Hc; congruence|].
          apply Z.eqb_neq. intros ->. assert (starts_with vs o2 = true) by (apply starts_spec; symmetry; apply Hc; reflexivity). congruence. }
      rewrite Eamb. cbn [bindr]. rewrite Eend. cbn [filter]. rewrite Es. destruct (starts_with vs o2) eqn:E2; [reflexivity|].
      specialize (Hrest eq_refl). cbn [filter] in Hrest. rewrite ?E2 in Hrest. rewrite Hrest. reflexivity.
    + cbn [andb bindr negb]. rewrite filter_none; [reflexivity|]. intros x Hx. apply In_nth_error in Hx as [i Hi].
      destruct (starts_with vs x) eqn:Ex; [|reflexivity]. rewrite (Hmono 0%nat i o x ltac:(lia) eq_refl Hi Ex) in Es. discriminate.
Qed.
