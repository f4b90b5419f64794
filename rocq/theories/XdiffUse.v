(** The differ over any right way to split; what its hunks are good for. *)
From Verif Require Import Base CStr Str ApplyModel ApplySpec ApplyProofs ApplyProps ReflogProofs XdiffModel XdiffSpec XdiffProofs XdiffCompact XdiffMain XdiffEmit.
Local Open Scope nat_scope.

Lemma lines_nonempty s ls : lines_of s ls -> Forall (fun l => l <> []) ls.
Proof. induction 1; constructor; auto. destruct a; discriminate. Qed.
Lemma lines_count s ls : lines_of s ls -> length ls <= length s.
Proof. induction 1; cbn; auto; [destruct a; [congruence|cbn; lia]|]. rewrite app_length. cbn. lia. Qed.
Lemma Forall2_more {A} (xs ys : list A) is ls : Forall2 (fun (i : nat) l => nth_error xs i = Some l) is ls -> Forall2 (fun i l => nth_error (xs ++ ys) i = Some l) is ls.
Proof. intros H. induction H as [|i l is ls E _ IH]; constructor; auto. rewrite nth_error_app1; auto. apply nth_error_Some. congruence. Qed.
Definition right_split (split : list nat -> list nat -> xenv -> box -> bool -> res spl) (n : nat) : Prop := forall ha1 ha2 mx, length ha1 + length ha2 <= n -> split_ok (split ha1 ha2 (mkenv mx 20 256)) ha1 ha2.
(** Common to all: the lines and their classes. *)
Lemma prepared old new : exists l1 h1 cf1 l2 h2 cf2, prepare_ctx (length old) 1 old [] = Ok (l1, h1, cf1) /\ prepare_ctx (length new) 2 new cf1 = Ok (l2, h2, cf2) /\ lines_of old l1 /\ lines_of new l2 /\
  length h1 = length l1 /\ length h2 = length l2 /\ (forall r1 r2, kept r1 h1 = kept r2 h2 -> kept r1 l1 = kept r2 l2) /\ (old = new -> h1 = h2 /\ l1 = l2).
Proof.
  destruct (prepare_spec 1 (length old) old []) as (l1 & h1 & cf1 & m1 & E1 & I1 & H1 & M1 & F1); auto; [split; constructor|].
  destruct (prepare_spec 2 (length new) new cf1) as (l2 & h2 & cf2 & m2 & E2 & I2 & H2 & M2 & F2); auto.
  apply image_of_spec in I1. apply image_of_spec in I2. assert (F1' : Forall2 (fun i l => nth_error (map c_line cf2) i = Some l) h1 l1) by (rewrite M2; now apply Forall2_more).
  exists l1, h1, cf1, l2, h2, cf2. do 6 (split; [eauto using Forall2_length|]). split.
  - intros r1 r2 K. rewrite (classes_lines _ _ _ F1'), (classes_lines _ _ _ F2), !kept_map. now rewrite K.
  - intros ->. apply image_of_spec in I1. apply image_of_spec in I2. assert (l1 = l2) as -> by congruence. split; auto. eapply classes_same; [apply H2| |]; eauto.
Qed.
Theorem diff_with_spec split hr op old new : right_split split (length old + length new) -> exists hs cs tail, diff_with split hr op old new = Ok hs /\
  lines_of old (before cs tail) /\ lines_of new (after cs tail) /\ reports 0 0 hs cs /\ spaced (context_lines op) (interhunk_lines op) true hs cs tail.
Proof.
  intros SP. unfold diff_with. destruct (prepared old new) as (l1 & h1 & cf1 & l2 & h2 & cf2 & -> & E2 & L1 & L2 & Lh1 & Lh2 & HK & _). cbn [bindr]. rewrite E2. cbn [bindr].
  assert (SP' : forall ha1 ha2 mx, length ha1 <= length h1 -> length ha2 <= length h2 -> split_ok (split ha1 ha2 (mkenv mx 20 256)) ha1 ha2).
  { intros ha1 ha2 mx Q1 Q2. apply SP. pose proof (lines_count _ _ L1). pose proof (lines_count _ _ L2). lia. }
  destruct (do_diff_spec split hr op cf2 h1 h2 SP') as (r1 & r2 & -> & Lr1 & Lr2 & K). cbn [bindr].
  destruct (change_compact_spec (indent op) (better1 hr l1) h1 h2 r1 r2) as (r1' & -> & Lr1' & K1); auto. cbn [bindr].
  destruct (change_compact_spec (indent op) (better2 hr l2) h2 h1 r2 r1') as (r2' & -> & Lr2' & K2); auto; [congruence|]. cbn [bindr].
  destruct (build_script_spec r1' r2' l1 l2) as (scr & -> & Sc); [congruence|congruence|apply HK; congruence|]. cbn [bindr].
  destruct (emit_diff_spec (context_lines op) (interhunk_lines op) l1 l2 (lines_nonempty _ _ L1) (lines_nonempty _ _ L2) (length scr) scr true 0 0 0 [] [] l1 l2 Sc) as (hs & cs & tail & -> & R & B & A & Sp & _); auto.
  { destruct scr; auto. discriminate. }
  cbn [skipn Nat.add] in *. subst l1 l2. exists hs, cs, tail. auto.
Qed.
Lemma build_none n : forall m fuel, n <= m -> n <= fuel -> build_loop fuel (repeat false m) (repeat false m) n n [] = Ok [].
Proof.
  induction n as [|n IH]; intros m fuel Lm Lf.
  - destruct fuel; reflexivity.
  - assert (R : rchg_before (repeat false m) (S n) = Ok false).
    { replace (repeat false m) with (repeat false (S n) ++ repeat false (m - S n)) by (rewrite <- repeat_app; f_equal; lia). rewrite rchg_before_app by (now rewrite repeat_length). now rewrite <- repeat_snoc, last_last. }
    destruct fuel; [lia|]. cbn [build_loop]. rewrite R. cbn [bindr orb]. apply IH; lia.
Qed.
Theorem diff_with_same split hr op a : diff_with split hr op a a = Ok [].
Proof.
  unfold diff_with. destruct (prepared a a) as (l1 & h1 & cf1 & l2 & h2 & cf2 & -> & E2 & _ & _ & Lh1 & _ & _ & Same). destruct (Same eq_refl) as [<- <-]. cbn [bindr]. rewrite E2. cbn [bindr].
  rewrite do_diff_same. cbn [bindr]. set (r := repeat false (length h1)). assert (Lr : length r = length h1) by apply repeat_length.
  assert (Kr : kept r h1 = h1) by now apply kept_false.
  assert (C : forall better, change_compact (indent op) better h1 r r = Ok r).
  { intros better. destruct (change_compact_spec (indent op) better h1 h1 r r Lr Lr eq_refl) as (r' & -> & L' & K'). f_equal. rewrite (kept_all r' h1 L'); [|now rewrite K', Kr]. now rewrite L'. }
  rewrite !C. cbn [bindr]. rewrite C. cbn [bindr]. unfold build_script. rewrite Lr. unfold r. rewrite build_none by lia. reflexivity.
Qed.
Theorem diff_with_empty split hr op old new : right_split split (length old + length new) -> (diff_with split hr op old new = Ok [] <-> old = new).
Proof.
  intros SP. split; [|intros ->; apply diff_with_same]. intros E. destruct (diff_with_spec split hr op old new SP) as (hs & cs & tail & E' & L1 & L2 & R & _). rewrite E in E'. apply Ok_inj in E'. subst hs.
  inversion R; subst. apply lines_concat in L1. apply lines_concat in L2. unfold before, after in *. cbn in *. congruence.
Qed.

(** ** Applying them *)
Lemma shows_unified ls a b : shows ls a b -> exists ls', unified ls' a b /\ unmarked ls'.
Proof.
  assert (U0 : forall o c r, o <> Eofnl -> unmarked (mkline o c :: r)) by (intros o c r H m r' E; injection E as -> _ _; congruence).
  induction 1 as [|c r a b C _ (r' & U & M)|c r a b C _ (r' & U & M)|c r a b C _ (r' & U & M)|c r a b C _ (r' & U & M)|c r a b C _ (r' & U & M)|c r a b C _ (r' & U & M)].
  - exists []. split; [constructor|intros ? ? ?; discriminate].
  - exists (mkline Context c :: r'). split; [now apply u_ctx|apply U0; discriminate].
  - exists (mkline Deletion c :: r'). split; [now apply u_del|apply U0; discriminate].
  - exists (mkline Addition c :: r'). split; [now apply u_add|apply U0; discriminate].
  - exists (mkline Context (c ++ [10%Z]) :: mkline Eofnl [] :: r'). split; [now apply u_ctx_end|apply U0; discriminate].
  - exists (mkline Deletion (c ++ [10%Z]) :: mkline Eofnl [] :: r'). split; [now apply u_del_end|apply U0; discriminate].
  - exists (mkline Addition (c ++ [10%Z]) :: mkline Eofnl [] :: r'). split; [now apply u_add_end|apply U0; discriminate].
Qed.
Lemma shows_unmarked ls a b : shows ls a b -> unmarked ls.
Proof. intros H m r' E. inversion H; subst; congruence. Qed.
Lemma shows_images ls a b : shows ls a b -> Forall (fun l => l <> []) a -> Forall (fun l => l <> []) b -> images ls = Ok (a, b).
Proof.
  assert (St : forall o (c : list Z) r, c <> [] -> ~ complete c -> settled (mkline o c) (mkline Eofnl no_newline :: r) = Ok c).
  { intros o c r N C. unfold settled. cbn [l_content]. destruct c as [|x c]; [congruence|]. destruct (nth _ (x :: c) 0 =? 10)%Z eqn:Q; auto. apply render_complete in Q; auto. tauto. }
  assert (Sm : forall c (r : list pline), settled (mkline Eofnl c) r = Ok c \/ True) by auto. clear Sm.
  intros H. induction H as [|c r a b C H IH|c r a b C H IH|c r a b C H IH|c r a b C H IH|c r a b C H IH|c r a b C H IH]; intros Na Nb; auto; repeat match goal with Hf : Forall _ (_ :: _) |- _ => apply Forall_cons_iff in Hf; destruct Hf end.
  1-3: cbn [images]; rewrite settled_plain by (eapply shows_unmarked; eauto); cbn [bindr l_content l_origin]; rewrite IH by auto; reflexivity.
  all: cbn [images]; rewrite St by auto; cbn [bindr l_origin]; rewrite settled_plain by (eapply shows_unmarked; eauto); cbn [bindr l_origin]; rewrite IH by auto; reflexivity.
Qed.
Lemma before_in cs tail c : In c cs -> (forall l, In l (del c) -> In l (before cs tail)) /\ (forall l, In l (add c) -> In l (after cs tail)).
Proof.
  intros H. apply in_split in H. destruct H as (p & q & ->). unfold before, after. rewrite !map_app, !concat_app. cbn [map concat]. split; intros l Hl; repeat (apply in_or_app; first [left; repeat (apply in_or_app; right); exact Hl|left; apply in_or_app; right; apply in_or_app; left; apply in_or_app; right; exact Hl]).
Qed.
Lemma describes_text o n hs cs : reports o n hs cs -> Forall (fun c => Forall (fun l => l <> []) (del c) /\ Forall (fun l => l <> []) (add c)) cs ->
  exists hs', describes n hs' cs /\ forall img c, hunks_loop (fun _ => 0%Z) img (map to_apply hs) c = hunks_loop (fun _ => 0%Z) img hs' c.
Proof.
  induction 1 as [|o n h hs c cs Sh Eo El En Enl _ IH]; intros N; [exists []; split; [constructor|reflexivity]|]. inversion_clear N as [|? ? [Nd Na] Nr]. destruct (IH Nr) as (hs' & D & E).
  destruct (shows_unified _ _ _ Sh) as (ls' & U & _). exists (mkhunk (new_start h) (old_lines h) (new_lines h) ls' :: hs'). split.
  - apply d_cons; auto.
  - intros img ct. cbn [map hunks_loop]. unfold apply_hunk. cbn [to_apply h_lines h_new_start h_old_lines h_new_lines]. rewrite (shows_images _ _ _ Sh Nd Na), (images_spec _ _ _ U). cbn [bindr].
    change (0 <? 0)%Z with false. cbn iota.
    match goal with |- context [find_hunk_linenum ?a ?b ?c] => destruct (find_hunk_linenum a b c) as [[] k] end; cbn [bindr]; auto.
Qed.
Lemma spaced_context ctx inter hs cs tail : 1 <= ctx -> forall f, spaced ctx inter f hs cs tail -> if f : bool then with_context cs else Forall (fun c => add c <> []) cs.
Proof.
  intros Hc f H. induction H as [[] tail|f h hs c cs tail Su _ _ IH]; cbn; auto. cbn in IH.
  destruct Su as (P & M & Q & p & u & v & q & _ & _ & _ & _ & _ & _ & _ & _ & Ea & Hp & _).
  assert (add c = [] -> f = true /\ keep c = []).
  { rewrite Ea. intros E. apply app_eq_nil in E. destruct E as [-> _]. destruct Hp as [Hp|(_ & Hp)]; [cbn in Hp; lia|auto]. }
  destruct f; [split; auto; intros E; now destruct (H E)|constructor; auto]. intros E. destruct (H E). discriminate.
Qed.
Theorem diff_with_applies split hr op old new hs : right_split split (length old + length new) -> 1 <= context_lines op -> (Z.of_nat (length old + length new) < 2 ^ 64)%Z ->
  diff_with split hr op old new = Ok hs -> apply_hunks (fun _ => 0%Z) old (map to_apply hs) = Ok new.
Proof.
  intros SP Hc Hl E. destruct (diff_with_spec split hr op old new SP) as (hs' & cs & tail & E' & L1 & L2 & R & Sp). rewrite E in E'. apply Ok_inj in E'. subst hs'.
  destruct (describes_text _ _ _ _ R) as (ht & D & Eq).
  { apply Forall_forall. intros c Hi. destruct (before_in cs tail c Hi) as [B1 B2]. pose proof (lines_nonempty _ _ L1) as N1. pose proof (lines_nonempty _ _ L2) as N2. rewrite Forall_forall in N1, N2. split; apply Forall_forall; auto. }
  assert (Ea : apply_hunks (fun _ => 0%Z) old (map to_apply hs) = apply_hunks (fun _ => 0%Z) old ht) by (unfold apply_hunks; destruct (image_of old); cbn [bindr]; auto; now rewrite Eq).
  rewrite Ea. apply (C38_apply_reproduces_partial cs tail ht old new); auto.
  - exact (spaced_context _ _ _ _ _ Hc true Sp).
  - pose proof (lines_count _ _ L1). pose proof (lines_count _ _ L2). lia.
Qed.

(** ** The numbers of the lines *)
Inductive wl : list (list Z) -> Prop :=
| wl_nil : wl []
| wl_cons c a : complete c -> newlines c = 1%Z -> wl a -> wl (c :: a)
| wl_last c : ~ complete c -> newlines c = 0%Z -> wl [c].
Lemma newlines_app a b : newlines (a ++ b) = (newlines a + newlines b)%Z.
Proof. unfold newlines. rewrite filter_app, app_length. lia. Qed.
Lemma newlines_none a : ~ In 10%Z a -> newlines a = 0%Z.
Proof. intros H. unfold newlines. assert (filter (Z.eqb 10) a = []) as ->; auto. induction a as [|x a IH]; auto. cbn [filter]. destruct (Z.eqb_spec 10 x); [subst; exfalso; apply H; now left|]. apply IH. intros Hi. apply H. now right. Qed.
Lemma lines_wl s ls : lines_of s ls -> wl ls.
Proof.
  induction 1 as [|a N H|a s ls N _ IH]; [constructor|apply wl_last|apply wl_cons; auto].
  - intros (b & ->). apply H. apply in_or_app. right. now left.
  - now apply newlines_none.
  - eexists; reflexivity.
  - now rewrite newlines_app, newlines_none.
Qed.
Lemma wl_app a : forall b, wl (a ++ b) -> wl a /\ wl b.
Proof.
  induction a as [|x a IH]; intros b H; [split; [constructor|auto]|]. cbn [app] in H. inversion H; subst.
  - destruct (IH b) as [A B]; auto. split; auto. now constructor.
  - destruct a; [|discriminate]. cbn in *. subst b. split; [now apply wl_last|constructor].
Qed.
Lemma shows_nil_tail r : forall a b, shows r a b -> (a = [] -> b = [] -> r = []).
Proof. intros a b H. inversion H; subst; intros; try discriminate; auto. Qed.
Lemma numbered_shows ls a b : shows ls a b -> wl a -> wl b -> forall prev o n o' n', (a <> [] -> o = o') -> (b <> [] -> n = n') -> numbered ls (number_lines prev ls o' n') o n.
Proof.
  intros H. induction H as [|c r a b C H IH|c r a b C H IH|c r a b C H IH|c r a b C H IH|c r a b C H IH|c r a b C H IH]; intros Wa Wb prev o n o' n' Eo En; cbn [number_lines update_lines l_origin l_content].
  - constructor.
  - inversion Wa; subst; [|tauto]. inversion Wb; subst; [|tauto]. rewrite Eo, En by discriminate. apply n_ctx. replace (newlines c) with 1%Z by auto. apply IH; auto.
  - inversion Wa; subst; [|tauto]. rewrite Eo by discriminate. apply n_del. replace (newlines c) with 1%Z by auto. apply IH; auto.
  - inversion Wb; subst; [|tauto]. rewrite En by discriminate. apply n_add. replace (newlines c) with 1%Z by auto. apply IH; auto.
  - inversion Wa; subst; [tauto|]. inversion Wb; subst; [tauto|]. rewrite Eo, En by discriminate. apply n_ctx. apply n_eof. rewrite (shows_nil_tail _ _ _ H) by auto. constructor.
  - inversion Wa; subst; [tauto|]. rewrite Eo by discriminate. apply n_del. apply n_eof. apply IH; auto; try constructor; congruence.
  - inversion Wb; subst; [tauto|]. rewrite En by discriminate. apply n_add. apply n_eof. apply IH; auto; try constructor; congruence.
Qed.
Lemma numbered_reports o n hs cs : reports o n hs cs -> forall tail, wl (before cs tail) -> wl (after cs tail) -> all_numbered o n hs cs.
Proof.
  induction 1 as [|o n h hs c cs Sh Eo El En Enl _ IH]; intros tail Wa Wb; [constructor|]. unfold before, after in *. cbn [map concat] in *. rewrite <- !app_assoc in Wa, Wb.
  apply wl_app in Wa. destruct Wa as [_ Wa]. apply wl_app in Wa. destruct Wa as [Wd Wa]. apply wl_app in Wb. destruct Wb as [_ Wb]. apply wl_app in Wb. destruct Wb as [Wad Wb].
  apply an_cons; [|eapply IH; eauto]. unfold line_numbers. apply (numbered_shows _ _ _ Sh Wd Wad).
  - rewrite Eo. destruct (del c); [congruence|]. reflexivity.
  - rewrite En. destruct (add c); [congruence|]. reflexivity.
Qed.
