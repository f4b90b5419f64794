(** From the edit script to the hunks. *)
From Verif Require Import Base CStr Str ApplyModel ApplySpec ApplyProofs ReflogProofs XdiffModel XdiffProofs XdiffCompact XdiffSpec XdiffMain.
Local Open Scope nat_scope.

Definition render (o : origin) (l : list Z) : list pline := if (nth (length l - 1) l 0 =? 10)%Z then [mkline o l] else [mkline o l; mkline Eofnl no_newline].
Lemma nth_last (l : list Z) : l <> [] -> nth (length l - 1) l 0%Z = last l 0%Z.
Proof. intros H. destruct l as [|x l _] using rev_ind; [congruence|]. rewrite app_length, last_last. cbn [length]. replace (length l + 1 - 1) with (length l) by lia. rewrite app_nth2, Nat.sub_diag by lia. reflexivity. Qed.
Lemma render_complete l : l <> [] -> ((nth (length l - 1) l 0 =? 10)%Z = true <-> complete l).
Proof.
  intros H. rewrite nth_last by auto. destruct l as [|x l _] using rev_ind; [congruence|]. rewrite last_last. split.
  - intros E. apply Z.eqb_eq in E. subst x. exists l. reflexivity.
  - intros (a & E). apply app_inj_tail in E. destruct E as [_ ->]. reflexivity.
Qed.
Lemma emit_range_spec recs o n : Forall (fun l => l <> []) recs -> forall ri, ri + n <= length recs -> emit_range n recs ri o = Ok (flat_map (render o) (firstn n (skipn ri recs))).
Proof.
  intros NE. induction n as [|n IH]; intros ri H; [reflexivity|]. cbn [emit_range]. destruct (getc_lt recs ri) as (x & E & G); [lia|].
  unfold emit_record. rewrite G. cbn [bindr]. rewrite IH by lia.
  assert (skipn ri recs = x :: skipn (S ri) recs) as ->. { clear - E. revert recs E. induction ri; intros [|y recs] E; try discriminate; cbn in *; [congruence|auto]. }
  cbn [firstn flat_map]. assert (x <> []) by (rewrite Forall_forall in NE; apply NE; eapply nth_error_In; eauto).
  replace (0 <? Z.of_nat (length x))%Z with true by (symmetry; apply Z.ltb_lt; destruct x; cbn; [congruence|lia]). cbn [andb]. unfold render. destruct (nth _ x 0 =? 10)%Z; reflexivity.
Qed.
Lemma shows_ctx K : Forall (fun l => l <> []) K -> forall r a b, shows r a b -> shows (flat_map (render Context) K ++ r) (K ++ a) (K ++ b).
Proof.
  induction 1 as [|l K H _ IH]; intros r a b S'; auto. cbn [flat_map app]. unfold render at 1. pose proof (render_complete l H) as R. destruct (nth _ l 0 =? 10)%Z.
  - cbn [app]. apply sh_ctx; auto. now apply R.
  - cbn [app]. apply sh_ctx_end; auto. intros C. apply R in C. discriminate.
Qed.
Lemma shows_del K : Forall (fun l => l <> []) K -> forall r a b, shows r a b -> shows (flat_map (render Deletion) K ++ r) (K ++ a) b.
Proof.
  induction 1 as [|l K H _ IH]; intros r a b S'; auto. cbn [flat_map app]. unfold render at 1. pose proof (render_complete l H) as R. destruct (nth _ l 0 =? 10)%Z.
  - cbn [app]. apply sh_del; auto. now apply R.
  - cbn [app]. apply sh_del_end; auto. intros C. apply R in C. discriminate.
Qed.
Lemma shows_add K : Forall (fun l => l <> []) K -> forall r a b, shows r a b -> shows (flat_map (render Addition) K ++ r) a (K ++ b).
Proof.
  induction 1 as [|l K H _ IH]; intros r a b S'; auto. cbn [flat_map app]. unfold render at 1. pose proof (render_complete l H) as R. destruct (nth _ l 0 =? 10)%Z.
  - cbn [app]. apply sh_add; auto. now apply R.
  - cbn [app]. apply sh_add_end; auto. intros C. apply R in C. discriminate.
Qed.
Lemma shows_app r a b : shows r a b -> forall r' a' b', shows r' a' b' -> shows (r ++ r') (a ++ a') (b ++ b').
Proof. induction 1; intros r' a' b' H'; cbn [app]; auto; first [apply sh_ctx; now auto | apply sh_del; now auto | apply sh_add; now auto | apply sh_ctx_end; now auto | apply sh_del_end; now auto | apply sh_add_end; now auto]. Qed.
Lemma render_ends a o l : o = Deletion \/ o = Addition -> ends_changed (a ++ render o l).
Proof. intros H. exists a, (mkline o l). split; [exact H|]. unfold render. destruct (_ =? 10)%Z; auto. Qed.
(** ** The changes of one hunk *)
Lemma fs_mid {A} (P K Q : list A) n m : n = length P -> m = length K -> firstn m (skipn n (P ++ K ++ Q)) = K.
Proof. intros -> ->. rewrite skipn_app, skipn_all, Nat.sub_diag. cbn [app skipn]. rewrite firstn_app, Nat.sub_diag, firstn_all. cbn [firstn]. apply app_nil_r. Qed.
Lemma scripted_inv {L} a b x r (xs ys : list L) : scripted a b (x :: r) xs ys -> exists K De Ad xs' ys', xs = K ++ De ++ xs' /\ ys = K ++ Ad ++ ys' /\ i1 x = a + length K /\ i2 x = b + length K /\ chg1 x = length De /\ chg2 x = length Ad /\
  0 < length De + length Ad /\ (match r with [] => True | y :: _ => i1 x + chg1 x < i1 y end) /\ scripted (a + length K + length De) (b + length K + length Ad) r xs' ys'.
Proof. intros H. inversion H; subst. do 5 eexists. repeat (split; [eauto|]). auto. Qed.
Lemma emit_changes_spec l1 l2 : Forall (fun l => l <> []) l1 -> Forall (fun l => l <> []) l2 -> forall more rest a b A B xs ys, scripted a b (more ++ rest) xs ys -> l1 = A ++ xs -> l2 = B ++ ys -> length A = a -> length B = b ->
  exists U V xs' ys' out, xs = U ++ xs' /\ ys = V ++ ys' /\ scripted (a + length U) (b + length V) rest xs' ys' /\ emit_changes l1 l2 a b more = Ok out /\ shows out U V /\
    (forall d, more <> [] -> a + length U = i1 (last more d) + chg1 (last more d) /\ b + length V = i2 (last more d) + chg2 (last more d)) /\
    (more <> [] -> ends_changed out) /\ (forall x r, more = x :: r -> i1 x = a -> starts_changed out).
Proof.
  intros N1 N2. induction more as [|x more IH]; intros rest a b A B xs ys Sc E1 E2 LA LB.
  { exists [], [], xs, ys, []. cbn. rewrite !Nat.add_0_r. repeat (split; [auto; try constructor; congruence|]). discriminate. }
  cbn [app] in Sc. apply scripted_inv in Sc. destruct Sc as (K & De & Ad & xs0 & ys0 & -> & -> & I1 & I2 & C1 & C2 & Pos & _ & Sc).
  destruct (IH rest _ _ (A ++ K ++ De) (B ++ K ++ Ad) xs0 ys0 Sc) as (U & V & xs' & ys' & out & -> & -> & Sc' & Em & Sh & Las & Ends & _); try (subst; rewrite <- ?app_assoc; auto; fail); try (subst; rewrite !app_length; lia).
  cbn [emit_changes]. replace (Nat.min (i1 x - a) (i2 x - b)) with (length K) by lia.
  assert (Q1 : length l1 = a + length K + length De + length U + length xs') by (rewrite E1, !app_length; lia). assert (Q2 : length l2 = b + length K + length Ad + length V + length ys') by (rewrite E2, !app_length; lia).
  rewrite !emit_range_spec by (auto; lia).
  assert (R1 : firstn (length K) (skipn b l2) = K) by (rewrite E2; apply fs_mid; auto).
  assert (R2 : firstn (chg1 x) (skipn (i1 x) l1) = De) by (rewrite E1, app_assoc; apply fs_mid; [rewrite app_length|]; lia).
  assert (R3 : firstn (chg2 x) (skipn (i2 x) l2) = Ad) by (rewrite E2, app_assoc; apply fs_mid; [rewrite app_length|]; lia).
  rewrite R1, R2, R3. cbn [bindr]. rewrite I1, I2, C1, C2, Em. cbn [bindr].
  assert (F1 : Forall (fun l => l <> []) K /\ Forall (fun l => l <> []) De) by (rewrite E1, !Forall_app in N1; tauto). assert (F2 : Forall (fun l => l <> []) Ad) by (rewrite E2, !Forall_app in N2; tauto).
  exists (K ++ De ++ U), (K ++ Ad ++ V), xs', ys'. eexists. split; [now rewrite <- !app_assoc|]. split; [now rewrite <- !app_assoc|]. rewrite !app_length, !Nat.add_assoc. split; auto. split; [reflexivity|].
  split; [apply shows_ctx; [tauto|]; apply shows_del; [tauto|]; apply shows_add; auto|]. split.
  - intros d _. destruct more as [|y more]; [|change (last (x :: y :: more) d) with (last (y :: more) d); apply (Las d); discriminate].
    cbn [last]. cbn in Em. apply Ok_inj in Em. subst out. inversion Sh; subst U V. cbn. rewrite I1, I2, C1, C2. lia.
  - split.
    + intros _. destruct more as [|y more].
      * cbn in Em. apply Ok_inj in Em. subst out. rewrite app_nil_r. destruct Ad as [|l Ad _] using rev_ind; [destruct De as [|l De _] using rev_ind; [cbn in Pos; lia|]|].
        -- cbn [flat_map]. rewrite app_nil_r, flat_map_app, app_assoc. cbn [flat_map]. rewrite app_nil_r. apply render_ends; auto.
        -- rewrite flat_map_app, !app_assoc. cbn [flat_map]. rewrite app_nil_r. apply render_ends; auto.
      * destruct Ends as (r & l & C & [->| ->]); [discriminate| |]; eexists; exists l; (split; [exact C|]); rewrite !app_assoc; [left|right]; reflexivity.
    + intros x' r' E Ea. injection E as <- <-. assert (K = []) as -> by (destruct K; auto; cbn in I1; lia). cbn [flat_map app].
      destruct De as [|l De]; [destruct Ad as [|l Ad]; [cbn in Pos; lia|]|].
      * exists (mkline Addition l). cbn [flat_map app]. unfold render at 1; destruct (nth _ l _ =? 10)%Z; cbn [app]; eexists; (split; [reflexivity|now right]).
      * exists (mkline Deletion l). cbn [flat_map app]. unfold render at 1; destruct (nth _ l _ =? 10)%Z; cbn [app]; eexists; (split; [reflexivity|now left]).
Qed.
(** ** The hunks *)
Lemma last_cons {A} (x : A) l d : last (x :: l) d = last l x.
Proof. revert x d. induction l as [|y l IH]; intros x d; auto. change (last (x :: y :: l) d) with (last (y :: l) d). now rewrite !IH. Qed.
Lemma get_hunk_spec mc : forall r x more rest, get_hunk mc x r = (more, rest) -> r = more ++ rest /\ match rest with [] => True | y :: _ => mc < i1 y - (i1 (last more x) + chg1 (last more x)) end.
Proof.
  induction r as [|y r IH]; intros x more rest H; cbn [get_hunk] in H; [injection H as <- <-; auto|]. revert H. destruct (Nat.ltb_spec mc (i1 y - (i1 x + chg1 x))) as [L|L]; intros H; [injection H as <- <-; auto|].
  destruct (get_hunk mc y r) as [a b] eqn:G. injection H as <- <-. destruct (IH _ _ _ G) as [-> E]. split; auto. now rewrite last_cons.
Qed.
Lemma ctx_unchanged K : Forall (fun l => ~ is_change l) (flat_map (render Context) K).
Proof. induction K as [|k K IH]; cbn [flat_map]; [constructor|]. apply Forall_app. split; auto. unfold render. destruct (_ =? 10)%Z; repeat constructor; intros [|]; discriminate. Qed.
Lemma hunk_start_one {A} (s c : nat) (l : list A) : c = length l -> hunk_start s c = (Z.of_nat s + one_if l)%Z.
Proof. intros ->. unfold hunk_start. destruct l; cbn; lia. Qed.
Lemma emit_diff_spec ctx inter l1 l2 : Forall (fun l => l <> []) l1 -> Forall (fun l => l <> []) l2 -> forall fuel scr first a b t A B xs ys, scripted a b scr xs ys -> l1 = A ++ xs -> l2 = B ++ ys -> length A = a -> length B = b -> length scr <= fuel ->
  (if first : bool then a = 0 /\ b = 0 /\ t = 0 else t = ctx \/ (scr = [] /\ t = Nat.min ctx (length xs))) -> (match scr with [] => True | y :: _ => first = false -> 2 * ctx + inter < i1 y - a end) ->
  exists hs cs tail, emit_diff fuel ctx inter l1 l2 scr = Ok hs /\ reports (a + t) (b + t) hs cs /\ skipn t xs = before cs tail /\ skipn t ys = after cs tail /\ spaced ctx inter first hs cs tail /\
    (scr = [] -> hs = []) /\ (scr <> [] -> hs <> []).
Proof.
  intros N1 N2. induction fuel as [|f IH]; intros scr first a b t A B xs ys Sc E1 E2 LA LB F Ht Gap.
  all: destruct scr as [|x r]; [inversion Sc; subst; exists [], [], (skipn t ys); cbn; repeat (split; [auto; constructor|]); congruence|].
  { cbn in F. lia. }
  cbn [emit_diff]. destruct (get_hunk (2 * ctx + inter) x r) as [more rest] eqn:G. apply get_hunk_spec in G. destruct G as [-> Grest].
  apply scripted_inv in Sc. destruct Sc as (K & De & Ad & xs0 & ys0 & -> & -> & I1 & I2 & C1 & C2 & Pos & Gx & Sc).
  (* the context before *)
  assert (Hp : exists K0 Kp, K = K0 ++ Kp /\ length Kp = Nat.min ctx (i1 x) /\ Nat.min ctx (i1 x) = Nat.min ctx (i2 x) /\ t <= length K0 /\ (length Kp = ctx \/ (length Kp < ctx /\ first = true /\ skipn t K0 = [])) /\ (first = false -> inter < length K0 - t)).
  { assert (Nat.min ctx (i1 x) <= length K - t /\ Nat.min ctx (i1 x) = Nat.min ctx (i2 x) /\ t <= length K /\ (first = true -> i1 x = length K /\ t = 0)) as (Q1 & Q2 & Q3 & Q4).
    { destruct first; [destruct Ht as (-> & -> & ->); repeat split; lia|]. specialize (Gap eq_refl). destruct Ht as [->|[Ht _]]; [|discriminate]. repeat split; try lia; discriminate. }
    exists (firstn (length K - Nat.min ctx (i1 x)) K), (skipn (length K - Nat.min ctx (i1 x)) K). rewrite firstn_skipn, skipn_length, firstn_length.
    split; auto. split; [lia|]. split; auto. split; [lia|]. split.
    - destruct first; [|specialize (Gap eq_refl); left; lia]. destruct (Q4 eq_refl) as [Q5 Q6]. destruct (Nat.le_gt_cases ctx (length K)); [left; lia|right]. split; [lia|]. split; auto.
      replace (length K - Nat.min ctx (i1 x)) with 0 by lia. now rewrite skipn_nil.
    - intros ->. specialize (Gap eq_refl). destruct Ht as [->|[Ht _]]; [|discriminate]. lia. }
  destruct Hp as (K0 & Kp & -> & LKp & Emin & Lt & Pctx & Pint). rewrite app_length in *.
  (* the changes *)
  assert (ScX : scripted (i1 x) (i2 x) ((x :: more) ++ rest) (De ++ xs0) (Ad ++ ys0)).
  { change (De ++ xs0) with ([] ++ De ++ xs0). change (Ad ++ ys0) with ([] ++ Ad ++ ys0). cbn [app]. apply (sc_cons (i1 x) (i2 x) [] De Ad x (more ++ rest) xs0 ys0); cbn [length]; try lia; auto. now rewrite !Nat.add_0_r, I1, I2. }
  destruct (emit_changes_spec l1 l2 N1 N2 (x :: more) rest (i1 x) (i2 x) (A ++ K0 ++ Kp) (B ++ K0 ++ Kp) _ _ ScX) as (U & V & xs' & ys' & mid & EU & EV & Sc' & Em & Shm & Las & Ends & Starts).
  1,2: subst; now rewrite <- !app_assoc. 1,2: rewrite !app_length; lia.
  destruct (Las x) as [LU LV]; [discriminate|]. rewrite last_cons in LU, LV. specialize (Ends ltac:(discriminate)). specialize (Starts _ _ eq_refl eq_refl). clear Las.
  set (f1 := i1 (last more x) + chg1 (last more x)) in *. set (f2 := i2 (last more x) + chg2 (last more x)) in *.
  assert (Ef1 : i1 (last more x) + chg1 (last more x) = f1) by reflexivity. assert (Ef2 : i2 (last more x) + chg2 (last more x) = f2) by reflexivity. clearbody f1 f2.
  rewrite EU, <- !app_assoc in E1. rewrite EV, <- !app_assoc in E2. rewrite EU, EV. clear EU EV Sc ScX. rewrite LU, LV in Sc'.
  assert (Len1 : length l1 = f1 + length xs') by (rewrite E1, !app_length; lia). assert (Len2 : length l2 = f2 + length ys') by (rewrite E2, !app_length; lia).
  (* the context after *)
  assert (exists lctx, Nat.min (Nat.min ctx (length l1 - f1)) (length l2 - f2) = lctx) as (lctx & Elctx) by eauto.
  assert (Hq : exists q xs2 ys2, xs' = q ++ xs2 /\ ys' = q ++ ys2 /\ length q = lctx /\ (lctx = ctx \/ (lctx < ctx /\ rest = [] /\ xs2 = [] /\ ys2 = [])) /\ (lctx = ctx \/ (rest = [] /\ lctx = Nat.min ctx (length xs')))).
  { assert (Hc : exists C xs3 ys3, xs' = C ++ xs3 /\ ys' = C ++ ys3 /\ (rest = [] -> xs3 = [] /\ ys3 = []) /\ (rest = [] \/ ctx <= length C)).
    { destruct rest as [|y rest]; [inversion Sc'; subst; exists ys', [], []; rewrite app_nil_r; auto|]. apply scripted_inv in Sc'. destruct Sc' as (K' & De' & Ad' & xs3 & ys3 & -> & -> & I3 & _). exists K'. do 2 eexists. split; eauto. split; eauto. split; [discriminate|]. right. lia. }
    destruct Hc as (C & xs3 & ys3 & -> & -> & Hr & Hl). rewrite app_length in Len1, Len2. exists (firstn lctx C), (skipn lctx C ++ xs3), (skipn lctx C ++ ys3).
    rewrite !app_assoc, firstn_skipn. split; auto. split; auto. rewrite firstn_length. destruct Hl as [->|Hl].
    - destruct (Hr eq_refl) as [-> ->]. cbn [length] in *. assert (lctx = Nat.min ctx (length C)) by lia. rewrite !app_nil_r. split; [lia|]. split; [|right; auto].
      destruct (Nat.le_gt_cases ctx (length C)); [left; lia|right]. rewrite skipn_all2 by lia. repeat split; auto. lia.
    - assert (lctx = ctx) by lia. split; [lia|]. split; left; auto. }
  destruct Hq as (q & xs2 & ys2 & -> & -> & Lq & Qctx & Qt). rewrite app_length in Len1, Len2.
  assert (NKp : Forall (fun l => l <> []) Kp /\ Forall (fun l => l <> []) q) by (rewrite E1, !Forall_app in N1; tauto).
  (* the hunk *)
  assert (Eh : emit_hunk ctx l1 l2 x more = Ok (mkdhunk (hunk_start (i1 x - ctx) (length (Kp ++ U ++ q))) (Z.of_nat (length (Kp ++ U ++ q))) (hunk_start (i2 x - ctx) (length (Kp ++ V ++ q))) (Z.of_nat (length (Kp ++ V ++ q))) (flat_map (render Context) Kp ++ mid ++ flat_map (render Context) q))).
  { unfold emit_hunk. rewrite Ef1, Ef2, Elctx. clear Elctx Ef1 Ef2 IH Ht Gap Qt Qctx Pctx Pint Gx Grest.
    assert (Z2 : i2 x = length B + length K0 + length Kp) by lia. assert (Z3 : length Kp = Nat.min ctx (i2 x)) by lia.
    rewrite (emit_range_spec l2 Context _ N2) by lia. cbn [bindr]. rewrite Em. cbn [bindr]. rewrite (emit_range_spec l2 Context _ N2) by lia. cbn [bindr].
    assert (X1 : firstn (i2 x - (i2 x - ctx)) (skipn (i2 x - ctx) l2) = Kp) by (rewrite E2, (app_assoc B); apply fs_mid; [rewrite app_length|]; lia).
    assert (X2 : firstn (f2 + lctx - f2) (skipn f2 l2) = q).
    { rewrite E2. rewrite !app_assoc. rewrite <- (app_assoc (((B ++ K0) ++ Kp) ++ V)). apply fs_mid; [rewrite !app_length|]; lia. }
    rewrite X1, X2. f_equal. f_equal; try f_equal; rewrite !app_length; lia. }
  rewrite Eh. cbn [bindr]. clear Eh.
  assert (F' : length rest <= f) by (clear - F; cbn [length] in F; rewrite app_length in F; lia).
  assert (LA' : length (A ++ K0 ++ Kp ++ U) = f1) by (clear - LU I1 LA; rewrite !app_length; lia).
  assert (LB' : length (B ++ K0 ++ Kp ++ V) = f2) by (clear - LV I2 LB; rewrite !app_length; lia).
  destruct (IH rest false f1 f2 lctx (A ++ K0 ++ Kp ++ U) (B ++ K0 ++ Kp ++ V) (q ++ xs2) (q ++ ys2) Sc') as (hs & cs & tail & -> & Rep & Bef & Aft & Spc & Hnil & _); auto.
  { subst l1. now rewrite <- !app_assoc. }
  { subst l2. now rewrite <- !app_assoc. }
  { destruct rest; auto. }
  clear IH Elctx Ef1 Ef2 Qt Grest Gx Gap F F' Ht.
  cbn [bindr]. exists (mkdhunk (hunk_start (i1 x - ctx) (length (Kp ++ U ++ q))) (Z.of_nat (length (Kp ++ U ++ q))) (hunk_start (i2 x - ctx) (length (Kp ++ V ++ q))) (Z.of_nat (length (Kp ++ V ++ q))) (flat_map (render Context) Kp ++ mid ++ flat_map (render Context) q) :: hs), (mkchange (skipn t K0) (Kp ++ U ++ q) (Kp ++ V ++ q) :: cs), tail.
  split; [reflexivity|]. assert (Shq : shows (flat_map (render Context) q) q q) by (pose proof (shows_ctx q (proj2 NKp) [] [] [] sh_nil) as H; now rewrite !app_nil_r in H).
  assert (Shp : shows (flat_map (render Context) Kp) Kp Kp) by (pose proof (shows_ctx Kp (proj1 NKp) [] [] [] sh_nil) as H; now rewrite !app_nil_r in H).
  assert (Lk : length (skipn t K0) = length K0 - t) by apply skipn_length.
  split; [|split; [|split; [|split; [|split; [discriminate|intros _; discriminate]]]]].
  - apply r_cons; cbn [d_lines old_start old_lines new_start new_lines keep del add]; auto.
    + apply shows_app; auto. apply shows_app; auto.
    + rewrite (hunk_start_one _ _ (Kp ++ U ++ q)) by auto. f_equal. f_equal. lia.
    + rewrite (hunk_start_one _ _ (Kp ++ V ++ q)) by auto. f_equal. f_equal. lia.
    + rewrite Lk, !app_length. match goal with |- reports ?u ?v _ _ => replace u with (f1 + lctx) by lia; replace v with (f2 + lctx) by lia end. exact Rep.
  - unfold before in *. cbn [map concat keep del]. rewrite <- !app_assoc. rewrite skipn_app. replace (t - length K0) with 0 by lia. cbn [skipn]. do 3 f_equal. rewrite <- Bef. rewrite skipn_app, skipn_all2, Lq by lia. now rewrite Nat.sub_diag.
  - unfold after in *. cbn [map concat keep add]. rewrite <- !app_assoc. rewrite skipn_app. replace (t - length K0) with 0 by lia. cbn [skipn]. do 3 f_equal. rewrite <- Aft. rewrite skipn_app, skipn_all2, Lq by lia. now rewrite Nat.sub_diag.
  - apply sp_cons; cbn [keep]; [|intros H; specialize (Pint H); lia|auto].
    exists (flat_map (render Context) Kp), mid, (flat_map (render Context) q), Kp, U, V, q. cbn [d_lines del add keep].
    split; [auto|]. split; [auto|]. split; [auto|]. split; [auto|]. split; [apply Forall_app; split; apply ctx_unchanged|]. split; [auto|]. split; [auto|]. split; [auto|]. split; [auto|].
    split; [destruct Pctx as [P|(P1 & P2 & P3)]; auto|].
    destruct Qctx as [Q|(Q1 & -> & Q3 & Q4)]; [left; lia|right]. split; [lia|]. split; [auto|]. subst xs2. rewrite skipn_app, skipn_all2, Lq in Bef by lia. rewrite Nat.sub_diag in Bef. cbn [skipn app] in Bef. symmetry in Bef. unfold before in Bef. apply app_eq_nil in Bef. tauto.
Qed.
