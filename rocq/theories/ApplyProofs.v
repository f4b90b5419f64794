From Verif Require Import Base CStr Str ApplyModel ApplySpec.
Local Open Scope Z_scope.

Lemma lb_refl l : leqb l l = true. Proof. now apply leqb_spec. Qed.
Lemma cut_none a : ~ In 10 a -> cut_line a = (a, []).
Proof. induction a as [|c r IH]; intros N; auto. cbn. destruct (Z.eqb_spec c 10) as [->|E]; [exfalso; apply N; left; auto|]. rewrite IH; auto. intros X; apply N; right; auto. Qed.
Lemma cut_some a s : ~ In 10 a -> cut_line (a ++ [10] ++ s) = (a ++ [10], s).
Proof. induction a as [|c r IH]; intros N; [reflexivity|]. cbn. destruct (Z.eqb_spec c 10) as [->|E]; [exfalso; apply N; left; auto|]. cbn in IH. rewrite IH; auto. intros X; apply N; right; auto. Qed.
Lemma image_spec s ls : lines_of s ls -> forall fuel, (length s <= fuel)%nat -> image_loop fuel s = Ok ls.
Proof.
  intros H. induction H as [|a Na N|a s ls N H IH]; intros fuel L.
  - destruct fuel; reflexivity.
  - destruct a as [|c r]; [congruence|]. destruct fuel; [cbn in L; lia|]. cbn [image_loop]. rewrite cut_none by auto. cbn [bindr]. destruct fuel; reflexivity.
  - rewrite !app_length in L. cbn [length] in L. destruct fuel; [lia|]. destruct (a ++ [10] ++ s) as [|c r] eqn:E; [destruct a; discriminate|]. rewrite <- E in *. cbn [image_loop].
    destruct (a ++ [10] ++ s) as [|c' r'] eqn:E'; [discriminate|]. rewrite <- E'. rewrite cut_some by auto. rewrite IH by lia. reflexivity.
Qed.
Lemma lines_exist s : exists ls, lines_of s ls.
Proof.
  remember (length s) as n eqn:En. revert s En. induction n as [n IH] using lt_wf_ind. intros s ->.
  destruct s as [|c s]; [exists []; constructor|].
  assert (D : ~ In 10 (c :: s) \/ exists a b, ~ In 10 a /\ c :: s = a ++ [10] ++ b).
  { generalize (c :: s). clear. induction l as [|x l IH]; [left; intros []|]. destruct (Z.eq_dec x 10) as [->|N]; [right; exists [], l; split; [intros []|reflexivity]|].
    destruct IH as [H|(a & b & Na & ->)]; [left; intros [E|E]; auto|]. right. exists (x :: a), b. split; [intros [E|E]; auto|reflexivity]. }
  destruct D as [D|(a & b & Na & E)]; [exists [c :: s]; apply lines_last; [discriminate|auto]|].
  destruct (IH (length b)) with (s := b) as (ls & Hl); auto; [rewrite E, !app_length; cbn; lia|]. rewrite E. exists ((a ++ [10]) :: ls). apply lines_cons; auto.
Qed.
Lemma image_of_spec s ls : image_of s = Ok ls <-> lines_of s ls.
Proof.
  split; [|intros H; apply (image_spec _ _ H); auto]. intros H. destruct (lines_exist s) as (ls' & Hl). unfold image_of in H. rewrite (image_spec _ _ Hl) in H by auto. injection H as <-. exact Hl.
Qed.
Lemma lines_concat s ls : lines_of s ls -> concat ls = s.
Proof. intros H. induction H; cbn; auto; [now rewrite app_nil_r|]. rewrite IHlines_of, <- app_assoc. reflexivity. Qed.

Lemma match_lines_spec image pre0 n : forall todo i, (n + i + length todo <= length image)%nat ->
  match_lines image pre0 n i todo = true <-> firstn (length todo) (skipn (n + i) image) = todo.
Proof.
  induction todo as [|p r IH]; intros i L; cbn [match_lines length firstn]; [split; auto|]. cbn [length] in L.
  destruct (skipn (n + i) image) as [|x xs] eqn:E; [apply (f_equal (@length _)) in E; rewrite skipn_length in E; cbn in E; lia|].
  assert (Nx : nth (n + i) image [] = x). { rewrite <- (firstn_skipn (n + i) image), app_nth2; rewrite firstn_length_le by lia; [|lia]. rewrite Nat.sub_diag, E. reflexivity. }
  assert (Sx : skipn (n + S i) image = xs). { replace (n + S i)%nat with (1 + (n + i))%nat by lia. rewrite <- skipn_skipn, E. reflexivity. }
  rewrite Nx. cbn [firstn length]. destruct (leqb p x) eqn:Q.
  - apply leqb_spec in Q. subst p. rewrite IH by lia. rewrite Sx. split; [intros ->; reflexivity|intros H; injection H; auto].
  - split; [discriminate|]. intros H. injection H as -> _. rewrite lb_refl in Q. discriminate.
Qed.
Lemma match_hunk_spec image pre n : match_hunk image pre n = true <-> exists A B, image = A ++ pre ++ B /\ length A = n.
Proof.
  unfold match_hunk. destruct (Nat.ltb_spec (length image) (length pre + n)) as [L|L].
  - split; [discriminate|]. intros (A & B & -> & <-). rewrite !app_length in L. lia.
  - rewrite (match_lines_spec image pre n pre 0) by lia. rewrite Nat.add_0_r. split.
    + intros H. exists (firstn n image), (skipn (length pre) (skipn n image)). split; [rewrite <- H at 1; now rewrite firstn_skipn, firstn_skipn|]. apply firstn_length_le. lia.
    + intros (A & B & -> & <-). rewrite skipn_app, skipn_all, Nat.sub_diag. cbn. rewrite firstn_app, firstn_all, Nat.sub_diag. cbn. now rewrite app_nil_r.
Qed.
Lemma upd_mid {T} (a : list T) x b y : upd (a ++ x :: b) (length a) y = a ++ y :: b.
Proof. induction a as [|c a IH]; cbn; [reflexivity|now rewrite IH]. Qed.
Lemma put_lines_spec A B : forall post done X, length X = length post -> put_lines (A ++ done ++ X ++ B) (length A) (length done) post = A ++ done ++ post ++ B.
Proof.
  induction post as [|p r IH]; intros done X L; cbn [put_lines]; [destruct X; [reflexivity|discriminate]|]. destruct X as [|x X]; [discriminate|].
  replace (A ++ done ++ (x :: X) ++ B) with ((A ++ done) ++ x :: X ++ B) by (now rewrite <- app_assoc).
  rewrite <- app_length, upd_mid. replace (S (length done)) with (length (done ++ [p])) by (rewrite app_length; cbn; lia).
  replace ((A ++ done) ++ p :: X ++ B) with (A ++ (done ++ [p]) ++ X ++ B) by (rewrite <- !app_assoc; reflexivity).
  rewrite IH by (cbn in L; lia). rewrite <- !app_assoc. reflexivity.
Qed.
Lemma update_spec A pre post B : update_hunk (A ++ pre ++ B) (length A) pre post = A ++ post ++ B.
Proof.
  unfold update_hunk, insert_null, remove_range.
  assert (F : forall Y : list (list Z), firstn (length A) (A ++ Y) = A) by (intros Y; rewrite firstn_app, firstn_all, Nat.sub_diag; cbn; now rewrite app_nil_r).
  assert (S' : forall (Y : list (list Z)) k, skipn (length A + k) (A ++ Y) = skipn k Y) by (intros Y k; rewrite skipn_app, skipn_all2 by lia; cbn; f_equal; lia).
  destruct (Nat.ltb_spec (length pre) (length post)) as [L|L]; [|destruct (Nat.ltb_spec (length post) (length pre)) as [L'|L']].
  - rewrite F. rewrite <- (Nat.add_0_r (length A)) at 1. rewrite S'. cbn [skipn]. rewrite app_assoc with (m := pre). apply (put_lines_spec A B post [] (repeat [] (length post - length pre) ++ pre)). rewrite app_length, repeat_length. lia.
  - rewrite F, S'. rewrite skipn_app. replace (length pre - length post - length pre)%nat with 0%nat by lia. cbn [skipn]. apply (put_lines_spec A B post [] (skipn (length pre - length post) pre)). rewrite skipn_length. lia.
  - apply (put_lines_spec A B post [] pre). lia.
Qed.

Lemma settled_plain l r : unmarked r -> settled l r = Ok (l_content l).
Proof. intros U. unfold settled. destruct r as [|[o m] r]; auto. destruct o; auto. exfalso. eapply U; reflexivity. Qed.
Lemma settled_end o c m r : settled (mkline o (c ++ [10])) (mkline Eofnl m :: r) = Ok c.
Proof.
  unfold settled. cbn [l_content]. destruct (c ++ [10]) as [|x y] eqn:E; [destruct c; discriminate|]. rewrite <- E. rewrite app_length. cbn [length]. replace (length c + 1 - 1)%nat with (length c) by lia.
  rewrite app_nth2, Nat.sub_diag by lia. cbn [nth]. rewrite Z.eqb_refl, firstn_app, firstn_all, Nat.sub_diag. cbn. now rewrite app_nil_r.
Qed.
Lemma unified_unmarked r a b : unified r a b -> unmarked r. Proof. intros H m r' ->. inversion H. Qed.
Lemma images_spec ls a b : unified ls a b -> images ls = Ok (a, b).
Proof.
  intros H. induction H as [|c r a b U H IH|c r a b U H IH|c r a b U H IH|c m r a b H IH|c m r a b H IH|c m r a b H IH]; cbn [images l_origin]; auto;
    try (rewrite settled_plain by auto; cbn [bindr l_content]; rewrite IH; reflexivity).
  all: rewrite settled_end, (settled_plain (mkline Eofnl m) r) by (eapply unified_unmarked; eauto); rewrite IH; reflexivity.
Qed.
Lemma unified_fun ls a b a' b' : unified ls a b -> unified ls a' b' -> a = a' /\ b = b'.
Proof. intros H H'. apply images_spec in H. apply images_spec in H'. rewrite H in H'. injection H' as -> ->. auto. Qed.

Lemma wrap_id z : 0 <= z < 2 ^ 64 -> wrap64 z = z. Proof. intros. unfold wrap64. now apply Z.mod_small. Qed.
Lemma wrap_plus a b : wrap64 (wrap64 a + b) = wrap64 (a + b). Proof. unfold wrap64. now rewrite Zplus_mod_idemp_l. Qed.
Lemma wrap_line s n o : wrap64 (s - wrap64 n + wrap64 o - 1) = wrap64 (s - n + o - 1).
Proof.
  unfold wrap64. assert (M : 2 ^ 64 <> 0) by discriminate. generalize dependent (2 ^ 64). intros m M. rewrite (Z.mod_eq n m M), (Z.mod_eq o m M).
  replace (s - (n - m * (n / m)) + (o - m * (o / m)) - 1) with ((s - n + o - 1) + (n / m - o / m) * m) by lia. apply Z_mod_plus_full.
Qed.

(** One hunk in its place. *)
Lemma apply_here cb h c A pre post B : cb h = 0 -> unified (h_lines h) pre post -> Z.of_nat (length (A ++ pre ++ B)) < 2 ^ 64 ->
  (if h_new_start h =? 0 then 0 else wrap64 (h_new_start h - skipped_new c + skipped_old c - 1)) = Z.of_nat (length A) ->
  apply_hunk cb (A ++ pre ++ B) h c = Ok (A ++ post ++ B, c).
Proof.
  intros Hc U Lb Ln. unfold apply_hunk. rewrite Hc. cbn [Z.ltb Z.compare]. rewrite (images_spec _ _ _ U). cbn [bindr]. rewrite Ln. unfold find_hunk_linenum.
  assert (Z.of_nat (length (A ++ pre ++ B)) <? Z.of_nat (length A) = false) as -> by (apply Z.ltb_ge; rewrite app_length; lia). rewrite Nat2Z.id.
  assert (match_hunk (A ++ pre ++ B) pre (length A) = true) as -> by (apply match_hunk_spec; exists A, B; auto). now rewrite update_spec.
Qed.

Lemma hunks_spec cb hs : forall n cs, describes n hs cs -> 
  Forall (fun h => cb h = 0 \/ cb h = 1) hs -> forall done tail sn so,
  (match cs with [] => True | c :: r => (add c = [] -> (n + length (keep c) = 0)%nat /\ done = []) /\ Forall (fun c => add c <> []) r end) ->
  Z.of_nat (length done) = Z.of_nat n - sn + so -> Z.of_nat (length done + length (before cs tail) + length (after cs [])) < 2 ^ 64 ->
  hunks_loop cb (done ++ before cs tail) hs (mkctx (wrap64 sn) (wrap64 so)) = Ok (done ++ some_after (map (fun h => cb h =? 0) hs) cs tail).
Proof.
  intros n cs D. induction D as [n|n h hs c cs U Ho Hn Hs D IH]; intros Hcb done tail sn so Wc Ld Lb.
  - reflexivity.
  - destruct Wc as [W1 W2]. inversion_clear Hcb as [|? ? Hh Hr].
    assert (W' : forall done' : list (list Z), match cs with [] => True | c' :: r' => (add c' = [] -> (n + length (keep c) + length (add c) + length (keep c') = 0)%nat /\ done' = []) /\ Forall (fun c => add c <> []) r' end).
    { intros done'. destruct cs as [|c' r']; auto. inversion_clear W2. split; auto. intros; contradiction. }
    assert (Bf : before (c :: cs) tail = keep c ++ del c ++ before cs tail) by (unfold before; cbn; now rewrite <- !app_assoc).
    assert (Af : length (after (c :: cs) []) = (length (keep c) + length (add c) + length (after cs []))%nat) by (unfold after; cbn; rewrite !app_nil_r, !app_length; lia).
    rewrite Bf, Af, !app_length in Lb. cbn [hunks_loop map]. rewrite Bf.
    assert (E : some_after ((cb h =? 0) :: map (fun h => cb h =? 0) hs) (c :: cs) tail = keep c ++ (if cb h =? 0 then add c else del c) ++ some_after (map (fun h => cb h =? 0) hs) cs tail) by (unfold some_after; cbn; now rewrite <- !app_assoc).
    rewrite E. destruct Hh as [Hh|Hh].
    + rewrite (app_assoc done). rewrite (apply_here cb h _ (done ++ keep c) (del c) (add c) (before cs tail) Hh U); [|rewrite !app_length; lia|].
      * cbn [bindr]. rewrite Hh. cbn [Z.eqb].
        replace ((done ++ keep c) ++ add c ++ before cs tail) with ((done ++ keep c ++ add c) ++ before cs tail) by (now rewrite <- !app_assoc).
        rewrite IH; [now rewrite <- !app_assoc|auto|apply W'| |].
        -- rewrite !app_length. lia.
        -- rewrite !app_length. lia.
      * cbn [skipped_new skipped_old]. rewrite Hs. rewrite app_length. destruct (add c) as [|x xs] eqn:Ea.
        -- destruct (W1 eq_refl) as [W3 ->]. rewrite Z.add_0_r. assert (Z.of_nat (n + length (keep c)) =? 0 = true) as -> by (apply Z.eqb_eq; lia). cbn. lia.
        -- destruct (Z.eqb_spec (Z.of_nat (n + length (keep c)) + 1) 0); [lia|]. rewrite wrap_line, wrap_id; lia.
    + assert (apply_hunk cb (done ++ keep c ++ del c ++ before cs tail) h (mkctx (wrap64 sn) (wrap64 so)) = Ok (done ++ keep c ++ del c ++ before cs tail, mkctx (wrap64 (sn + h_new_lines h)) (wrap64 (so + h_old_lines h)))) as ->.
      { unfold apply_hunk. rewrite Hh. cbn [Z.ltb Z.compare skipped_new skipped_old]. now rewrite !wrap_plus. }
      cbn [bindr]. rewrite Hh. cbn [Z.eqb].
      replace (done ++ keep c ++ del c ++ before cs tail) with ((done ++ keep c ++ del c) ++ before cs tail) by (now rewrite <- !app_assoc).
      rewrite IH; [now rewrite <- !app_assoc|auto|apply W'| |].
      * rewrite !app_length, Hn, Ho. lia.
      * rewrite !app_length. lia.
Qed.
