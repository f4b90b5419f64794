(** From the marks to the edit script and the hunks. *)
From Verif Require Import Base CStr Str ApplyModel ApplySpec ApplyProofs XdiffModel XdiffSpec XdiffProofs XdiffCompact.
Local Open Scope nat_scope.

(** ** The classes of the lines *)
Definition hash_of (l : list Z) : Z := fst (fst (hash_record l 5381)).
Lemma hash_record_cut s : forall ha h l t, hash_record s ha = (h, l, t) -> cut_line s = (l, t) /\ fst (fst (hash_record l ha)) = h.
Proof.
  induction s as [|c s IH]; intros ha h l t H; cbn [hash_record cut_line] in *.
  - injection H as <- <- <-. auto.
  - destruct (Z.eqb_spec c 10) as [->|N].
    + injection H as <- <- <-. auto.
    + destruct (hash_record s _) as [[h0 l0] t0] eqn:E. injection H as <- <- <-. destruct (IH _ _ _ _ E) as [I1 I2]. rewrite I1. split; auto.
      cbn [hash_record]. destruct (Z.eqb_spec c 10); [congruence|]. destruct (hash_record l0 _) as [[h1 l1] t1]. exact I2.
Qed.
Definition hashed (cf : list xclass) : Prop := Forall (fun c => c_ha c = hash_of (c_line c)) cf /\ NoDup (map c_line cf).
Lemma find_class_spec cf line : Forall (fun c => c_ha c = hash_of (c_line c)) cf -> forall i,
  match find_class cf (hash_of line) line i with
  | Some j => i <= j /\ nth_error (map c_line cf) (j - i) = Some line
  | None => ~ In line (map c_line cf)
  end.
Proof.
  induction cf as [|c cf IH]; intros H i; cbn [find_class map]; auto. inversion_clear H as [|? ? Hc H']. rewrite Hc. unfold recmatch.
  destruct (leqb (c_line c) line) eqn:E.
  - apply leqb_spec in E. rewrite E, Z.eqb_refl. cbn [andb]. rewrite Nat.sub_diag. cbn. auto.
  - rewrite andb_false_r. specialize (IH H' (S i)). destruct (find_class cf _ line (S i)) as [j|].
    + destruct IH as [I1 I2]. split; [lia|]. replace (j - i) with (S (j - S i)) by lia. exact I2.
    + intros [Q|Q]; auto. subst line. rewrite leqb_refl in E. discriminate.
Qed.
Lemma map_upd {A B} (f : A -> B) l : forall i x, map f (upd l i x) = upd (map f l) i (f x).
Proof. induction l as [|y l IH]; intros [|i] x; cbn; auto. now rewrite IH. Qed.
Lemma upd_id {A} (l : list A) : forall i x, nth_error l i = Some x -> upd l i x = l.
Proof. induction l as [|y l IH]; intros [|i] x H; cbn in *; try discriminate; [congruence|]. now rewrite IH. Qed.
Lemma bump_line pass c : c_line (bump pass c) = c_line c /\ c_ha (bump pass c) = c_ha c.
Proof. unfold bump. destruct (pass =? 1)%Z; auto. Qed.
Lemma Forall_upd {A} (P : A -> Prop) l : Forall P l -> forall i x, P x -> Forall P (upd l i x).
Proof. induction 1; intros [|i] y Hy; cbn; auto. Qed.
Lemma classify_spec pass cf line i cf' : hashed cf -> classify_record pass cf (hash_of line) line = (i, cf') ->
  hashed cf' /\ nth_error (map c_line cf') i = Some line /\ exists more, map c_line cf' = map c_line cf ++ more.
Proof.
  intros [H1 H2] H. unfold classify_record in H. pose proof (find_class_spec cf line H1 0) as F.
  assert (Fin : forall cf1 j, hashed cf1 -> nth_error (map c_line cf1) j = Some line -> (exists more, map c_line cf1 = map c_line cf ++ more) ->
     hashed (match nth_error cf1 j with Some c => upd cf1 j (bump pass c) | None => cf1 end) /\ nth_error (map c_line (match nth_error cf1 j with Some c => upd cf1 j (bump pass c) | None => cf1 end)) j = Some line /\
     exists more, map c_line (match nth_error cf1 j with Some c => upd cf1 j (bump pass c) | None => cf1 end) = map c_line cf ++ more).
  { clear. intros cf1 j [H1 H2] N M. rewrite nth_error_map in N. destruct (nth_error cf1 j) as [c|] eqn:E; [|discriminate]. cbn in N. destruct (bump_line pass c) as [B1 B2].
    assert (Em : map c_line (upd cf1 j (bump pass c)) = map c_line cf1) by (rewrite map_upd, B1; apply upd_id; rewrite nth_error_map, E; auto).
    rewrite Em. split; [|split; auto; rewrite nth_error_map, E; auto]. split; [|now rewrite Em]. apply Forall_upd; auto. rewrite B1, B2. rewrite Forall_forall in H1. apply H1. eapply nth_error_In; eauto. }
  destruct (find_class cf (hash_of line) line 0) as [j|].
  - injection H as <- <-. destruct F as [_ F]. rewrite Nat.sub_0_r in F. apply Fin; auto; [split; auto|]. exists []. now rewrite app_nil_r.
  - injection H as <- <-. apply Fin.
    + split; [apply Forall_app; split; auto|]. rewrite map_app. cbn. rewrite <- (rev_involutive (map c_line cf ++ [line])). apply NoDup_rev. rewrite rev_app_distr. cbn. constructor; [now rewrite <- in_rev|now apply NoDup_rev].
    + rewrite map_app, nth_error_app2; rewrite map_length; auto. rewrite Nat.sub_diag. reflexivity.
    + rewrite map_app. eauto.
Qed.
Lemma prepare_spec pass fuel : forall s cf, hashed cf -> length s <= fuel ->
  exists ls is cf' more, prepare_ctx fuel pass s cf = Ok (ls, is, cf') /\ image_loop fuel s = Ok ls /\ hashed cf' /\ map c_line cf' = map c_line cf ++ more /\ Forall2 (fun i l => nth_error (map c_line cf') i = Some l) is ls.
Proof.
  induction fuel as [|f IH]; intros s cf H L; destruct s as [|c s]; try (cbn in L; lia); cbn [prepare_ctx image_loop].
  1,2: exists [], [], cf, []; rewrite app_nil_r; repeat split; auto; apply H.
  destruct (hash_record (c :: s) 5381) as [[ha line] rest] eqn:E. destruct (hash_record_cut _ _ _ _ _ E) as [Ec Eh]. rewrite Ec. change (hash_of line = ha) in Eh. rewrite <- Eh.
  destruct (classify_record pass cf (hash_of line) line) as [i cf1] eqn:C. destruct (classify_spec _ _ _ _ _ H C) as (H1 & N1 & more1 & M1).
  assert (Lr : length rest <= f).
  { assert (c :: s = line ++ rest /\ line <> []) as [Q1 Q2].
    { clear - Ec. assert (G : forall l a b, cut_line l = (a, b) -> l = a ++ b) by (clear; induction l as [|x l IH]; intros a b H; cbn in H; [injection H as <- <-; auto|]; destruct (x =? 10)%Z; [injection H as <- <-; auto|]; destruct (cut_line l) as [a0 b0]; injection H as <- <-; cbn; now rewrite (IH a0 b0)).
      cbn in Ec. destruct (c =? 10)%Z; [injection Ec as <- <-; split; [auto|discriminate]|]. destruct (cut_line s) as [a b] eqn:E2. injection Ec as <- <-. cbn. rewrite <- (G _ _ _ E2). split; [auto|discriminate]. }
    apply (f_equal (@length _)) in Q1. rewrite app_length in Q1. destruct line; [congruence|]. cbn in *. lia. }
  destruct (IH rest cf1 H1 Lr) as (ls & is & cf' & more & -> & -> & H' & M' & F'). cbn [bindr].
  exists (line :: ls), (i :: is), cf', (more1 ++ more). split; auto. split; auto. split; auto. split; [rewrite M', M1; now rewrite app_assoc|]. constructor; auto. rewrite M'. rewrite nth_error_app1; auto. apply nth_error_Some. congruence.
Qed.
(** The classes of two files: equal for equal lines. *)
Lemma classes_lines (lines : list (list Z)) is ls : Forall2 (fun i l => nth_error lines i = Some l) is ls -> ls = map (fun i => nth i lines []) is.
Proof. induction 1 as [|i l is ls H _ IH]; cbn; auto. rewrite <- IH. f_equal. symmetry. now apply nth_error_nth. Qed.
Lemma kept_map {A B} (f : A -> B) m : forall xs, kept m (map f xs) = map f (kept m xs).
Proof. induction m as [|[] m IH]; intros [|x xs]; cbn; auto. now rewrite IH. Qed.
Lemma classes_same (lines : list (list Z)) : NoDup lines -> forall ls i1 i2, Forall2 (fun i l => nth_error lines i = Some l) i1 ls -> Forall2 (fun i l => nth_error lines i = Some l) i2 ls -> i1 = i2.
Proof.
  intros N. induction ls as [|l ls IH]; intros i1 i2 H1 H2; inversion H1; inversion H2; subst; auto. f_equal; [|eapply IH; eauto].
  rewrite NoDup_nth_error in N. apply N; [apply nth_error_Some|]; congruence.
Qed.

(** ** The edit script *)
Inductive scripted {L} : nat -> nat -> list xdchange -> list L -> list L -> Prop :=
| sc_nil a b xs : scripted a b [] xs xs
| sc_cons a b K De Ad x r xs ys : i1 x = a + length K -> i2 x = b + length K -> chg1 x = length De -> chg2 x = length Ad -> 0 < length De + length Ad ->
    (match r with [] => True | y :: _ => i1 x + chg1 x < i1 y end) ->
    scripted (a + length K + length De) (b + length K + length Ad) r xs ys -> scripted a b (x :: r) (K ++ De ++ xs) (K ++ Ad ++ ys).
Lemma scripted_line {L} a b scr (l : L) xs ys : scripted (S a) (S b) scr xs ys -> scripted a b scr (l :: xs) (l :: ys).
Proof.
  intros H. inversion H; subst; [constructor|]. change (l :: K ++ De ++ xs0) with ((l :: K) ++ De ++ xs0). change (l :: K ++ Ad ++ ys0) with ((l :: K) ++ Ad ++ ys0).
  econstructor; eauto; cbn [length]; try lia. replace (a + S (length K)) with (S a + length K) by lia. replace (b + S (length K)) with (S b + length K) by lia. auto.
Qed.
Lemma build_loop_spec {L} m1 m2 fuel : forall P1 P2 M1 M2 cscr (X1 X2 S1 S2 : list L), m1 = P1 ++ M1 -> m2 = P2 ++ M2 -> length P1 = length X1 -> length P2 = length X2 -> kept P1 X1 = kept P2 X2 ->
  scripted (length P1) (length P2) cscr S1 S2 -> (match cscr with [] => True | y :: _ => length P1 < i1 y end) -> length P1 <= fuel ->
  exists scr, build_loop fuel m1 m2 (length P1) (length P2) cscr = Ok scr /\ scripted 0 0 scr (X1 ++ S1) (X2 ++ S2).
Proof.
  induction fuel as [|f IH]; intros P1 P2 M1 M2 cscr X1 X2 S1 S2 E1 E2 L1 L2 Kp Sc Gap F.
  all: destruct (trail P1) as (A1 & k1 & EP1 & Ed1); destruct (trail P2) as (A2 & k2 & EP2 & Ed2).
  all: assert (Sp : forall (A : list bool) k (X : list L) P, P = A ++ repeat true k -> length P = length X -> exists Xa Xk, X = Xa ++ Xk /\ length Xa = length A /\ length Xk = k) by
    (clear; intros A k X P -> Lp; rewrite app_length, repeat_length in Lp; exists (firstn (length A) X), (skipn (length A) X); rewrite firstn_skipn, firstn_length, skipn_length; repeat split; lia).
  all: destruct (Sp A1 k1 X1 P1 EP1 L1) as (Xa1 & Xk1 & EX1 & La1 & Lk1); destruct (Sp A2 k2 X2 P2 EP2 L2) as (Xa2 & Xk2 & EX2 & La2 & Lk2); clear Sp.
  all: assert (Kp' : kept A1 Xa1 = kept A2 Xa2) by (rewrite EP1, EP2, EX1, EX2, !kept_app, !kept_true, !app_nil_r in Kp by lia; auto).
  all: assert (B1 : rchg_before m1 (length P1) = Ok (last P1 false)) by (rewrite E1; apply rchg_before_app; auto); assert (B2 : rchg_before m2 (length P2) = Ok (last P2 false)) by (rewrite E2; apply rchg_before_app; auto).
  all: assert (Lst : forall (A : list bool) k, edge_l A -> last (A ++ repeat true k) false = match k with O => false | _ => true end) by (clear; intros A [|k] E; [cbn; rewrite app_nil_r; destruct E as [->|(A' & ->)]; rewrite ?last_last; auto|rewrite <- repeat_snoc, app_assoc; apply last_last]).
  (* the change before this line, if there is one *)
  all: assert (Mid : exists cscr', (do r <- (if last P1 false || last P2 false then do a' <- scan_up (length m1) m1 (length P1);; do b' <- scan_up (length m2) m2 (length P2);; Ok (a', b', mkxch a' b' (length P1 - a') (length P2 - b') :: cscr) else Ok (length P1, length P2, cscr));; Ok r) = Ok (length A1, length A2, cscr') /\
      scripted (length A1) (length A2) cscr' (Xk1 ++ S1) (Xk2 ++ S2) /\ match cscr' with [] => True | y :: _ => length A1 <= i1 y end).
  1,3: rewrite EP1, EP2, !Lst by auto; assert (Q : (k1 = 0 /\ k2 = 0) \/ 0 < k1 + k2) by lia; destruct Q as [[-> ->]|Q].
  1,3: (cbn [orb bindr]; exists cscr; destruct Xk1, Xk2; try discriminate; cbn [repeat app]; rewrite !app_nil_r; rewrite EP1, EP2 in Sc; rewrite EP1 in Gap; cbn [repeat] in *; rewrite !app_nil_r in *; split; auto; split; auto; destruct cscr; auto; lia).
  1,2: (assert (match k1 with 0 => false | S _ => true end || match k2 with 0 => false | S _ => true end = true) as -> by (destruct k1, k2; auto; lia);
    rewrite E1, E2, EP1, EP2, <- !app_assoc; rewrite !app_length, !repeat_length; rewrite !scan_up_app by (auto; rewrite ?app_length, ?repeat_length; lia); cbn [bindr]; eexists; split; [reflexivity|]; split; [|cbn; lia];
    pose proof (sc_cons (length A1) (length A2) [] Xk1 Xk2 (mkxch (length A1) (length A2) (length A1 + k1 - length A1) (length A2 + k2 - length A2)) cscr S1 S2) as Hsc; cbn [length app i1 i2 chg1 chg2] in Hsc; apply Hsc; try lia;
    [destruct cscr; auto; rewrite EP1, app_length, repeat_length in Gap; lia|]; rewrite EP1, EP2, !app_length, !repeat_length in Sc; rewrite !Nat.add_0_r, Lk1, Lk2; exact Sc).
  all: destruct Mid as (cscr' & Em & Sc' & Gap'); cbn [build_loop]; rewrite B1, B2; cbn [bindr].
  all: match type of Em with (bindr ?x _) = _ => destruct x as [r| | |] eqn:Ex; try discriminate; cbn [bindr] in Em; assert (r = (length A1, length A2, cscr')) as -> by congruence end; cbn [bindr].
  all: destruct Ed1 as [->|(A1' & ->)]; destruct Ed2 as [->|(A2' & ->)].
  all: try (exfalso; apply (f_equal (@length _)) in Kp'; rewrite !nfalse_kept in Kp' by lia; rewrite nfalse_app in Kp'; cbn in Kp'; unfold nfalse in Kp'; cbn in Kp'; lia).
  - cbn [length]. destruct Xa1, Xa2; try discriminate. subst X1 X2. eauto.
  - exfalso. rewrite EP1, !app_length in F. cbn in F. lia.
  - cbn [length]. destruct Xa1, Xa2; try discriminate. subst X1 X2. eauto.
  - rewrite !app_length in *. cbn [length] in *. rewrite !Nat.add_1_r in *.
    assert (Sn : forall (X : list L) n, length X = S n -> exists X' x, X = X' ++ [x] /\ length X' = n) by (clear; intros X n H; destruct X as [|y X _] using rev_ind; [discriminate|]; exists X, y; split; auto; rewrite app_length in H; cbn in H; lia).
    destruct (Sn Xa1 _ La1) as (Y1 & x1 & -> & LY1). destruct (Sn Xa2 _ La2) as (Y2 & x2 & -> & LY2). clear Sn.
    rewrite !kept_app in Kp' by lia. cbn [kept] in Kp'. apply app_inj_tail in Kp'. destruct Kp' as [Kp' <-].
    subst X1 X2. rewrite <- !app_assoc. cbn [app].
    destruct (IH A1' A2' ([false] ++ repeat true k1 ++ M1) ([false] ++ repeat true k2 ++ M2) cscr' Y1 Y2 (x1 :: Xk1 ++ S1) (x1 :: Xk2 ++ S2)) as (scr & -> & Hs); eauto; try lia.
    all: first [rewrite E1, EP1; now rewrite <- !app_assoc | rewrite E2, EP2; now rewrite <- !app_assoc | now apply scripted_line | rewrite EP1, !app_length in F; cbn in F; lia | destruct cscr'; auto; lia].
Qed.
Theorem build_script_spec {L} m1 m2 (l1 l2 : list L) : length m1 = length l1 -> length m2 = length l2 -> kept m1 l1 = kept m2 l2 ->
  exists scr, build_script m1 m2 = Ok scr /\ scripted 0 0 scr l1 l2.
Proof.
  intros H1 H2 K. unfold build_script. destruct (build_loop_spec m1 m2 (length m1) m1 m2 [] [] [] l1 l2 [] []) as (scr & E & S'); rewrite ?app_nil_r; auto; [constructor|].
  rewrite !app_nil_r in S'. eauto.
Qed.
