(** C38: applying a patch. *)
From Verif Require Import Base CStr Str DeltaModel ApplyModel ApplySpec ApplyProofs.
Local Open Scope Z_scope.

Lemma hunks_nonempty cs : forall n h hs, describes n (h :: hs) cs -> cs <> []. Proof. intros n h hs H. inversion H. discriminate. Qed.
(** The hunks the callback lets through are applied, the others leave their lines alone; the
    later hunks still find their place. *)
Theorem C38_picked_hunks_apply : forall cs tail hs cb a, describes 0 hs cs -> with_context cs -> lines_of a (before cs tail) ->
  Z.of_nat (length (before cs tail) + length (after cs tail)) < 2 ^ 64 -> Forall (fun h => cb h = 0 \/ cb h = 1) hs ->
  apply_hunks cb a hs = Ok (concat (some_after (map (fun h => cb h =? 0) hs) cs tail)).
Proof.
  intros cs tail hs cb a D W La Lb Hcb. unfold apply_hunks. apply image_of_spec in La. rewrite La. cbn [bindr].
  pose proof (hunks_spec cb hs 0 cs D Hcb [] tail 0 0) as H. cbn [app] in H. change (wrap64 0) with 0 in H. rewrite H; [reflexivity| |reflexivity|].
  - destruct cs as [|c r]; auto. destruct W as [W1 W2]. split; auto. intros E. rewrite (W1 E). auto.
  - assert (length (after cs []) <= length (after cs tail))%nat by (unfold after; rewrite !app_length; cbn; lia). cbn [length]. lia.
Qed.
Lemma all_after hs : forall n cs tail, describes n hs cs -> some_after (map (fun _ => true) hs) cs tail = after cs tail.
Proof.
  induction hs as [|h hs IH]; intros n cs tail H; inversion H; subst; [reflexivity|]. cbn [map]. unfold some_after, after in *. cbn. rewrite <- !app_assoc. do 2 f_equal.
  match goal with H : describes _ hs ?c |- _ => exact (IH _ c tail H) end.
Qed.
(** Applying the hunks computed between two texts to the first yields the second. *)
Theorem C38_apply_reproduces_partial : forall cs tail hs a b, describes 0 hs cs -> with_context cs -> lines_of a (before cs tail) -> lines_of b (after cs tail) ->
  Z.of_nat (length (before cs tail) + length (after cs tail)) < 2 ^ 64 -> apply_hunks (fun _ => 0) a hs = Ok b.
Proof.
  intros cs tail hs a b D W La Lb Ln. rewrite (C38_picked_hunks_apply cs tail hs _ a D W La Ln) by (apply Forall_forall; auto). cbn [Z.eqb].
  rewrite (all_after hs 0 cs tail D). f_equal. now apply lines_concat.
Qed.

(** A patch applies exactly when each hunk in turn finds the lines it deletes at its place. *)
Lemma app_inj_len {T} (a : list T) : forall b c d, length a = length c -> a ++ b = c ++ d -> a = c /\ b = d.
Proof. induction a as [|x a IH]; intros b [|y c] d L E; try discriminate; auto. cbn in *. injection E as -> E. injection L as L. destruct (IH _ _ _ L E) as [-> ->]. auto. Qed.
Inductive rewritten_all : list hunk -> list (list Z) -> list (list Z) -> Prop :=
| ra_nil i : rewritten_all [] i i
| ra_cons h hs i j k : rewritten h i j -> rewritten_all hs j k -> rewritten_all (h :: hs) i k.
Definition well_formed (h : hunk) : Prop := 0 <= h_new_start h < 2 ^ 31 /\ exists pre post, unified (h_lines h) pre post.
Lemma apply_hunk_iff h i : well_formed h -> (exists j, apply_hunk (fun _ => 0) i h (mkctx 0 0) = Ok (j, mkctx 0 0) /\ rewritten h i j) \/ (apply_hunk (fun _ => 0) i h (mkctx 0 0) = Err EAPPLYFAIL /\ forall j, ~ rewritten h i j).
Proof.
  intros (R & pre & post & U). unfold apply_hunk. cbn [Z.ltb Z.compare skipped_new skipped_old]. rewrite (images_spec _ _ _ U). cbn [bindr].
  assert (E : (if h_new_start h =? 0 then 0 else wrap64 (h_new_start h - 0 + 0 - 1)) = Z.max 0 (h_new_start h - 1)).
  { destruct (Z.eqb_spec (h_new_start h) 0) as [->|N]; [reflexivity|]. rewrite wrap_id by lia. lia. }
  rewrite E. clear E. unfold find_hunk_linenum. set (n := if _ <? _ then _ else _).
  assert (Hn : (Z.of_nat n = Z.max 0 (h_new_start h - 1) /\ (n <= length i)%nat) \/ (n = length i /\ Z.of_nat (length i) < Z.max 0 (h_new_start h - 1))).
  { unfold n. destruct (Z.ltb_spec (Z.of_nat (length i)) (Z.max 0 (h_new_start h - 1))); [right; auto|left]. split; [rewrite Z2Nat.id; lia|lia]. }
  clearbody n. destruct (match_hunk i pre n) eqn:M.
  - left. pose proof M as M'. apply match_hunk_spec in M' as (A & B & -> & <-). exists (A ++ post ++ B). rewrite update_spec. split; auto. exists pre, post, A, B. repeat split; auto.
    destruct Hn as [[Hn _]|[Hn L]]; [auto|]. right. rewrite !app_length in *. destruct pre, B; cbn in *; try lia. repeat split; auto. lia.
  - right. split; auto. intros j (pre' & post' & A & B & U' & -> & -> & Pl). destruct (unified_fun _ _ _ _ _ U U') as [<- <-].
    enough (match_hunk (A ++ pre ++ B) pre n = true) by congruence. apply match_hunk_spec. exists A, B. split; auto. rewrite !app_length in Hn.
    destruct Pl as [Pl|(-> & -> & Pl)]; cbn in *; lia.
Qed.
Theorem C38_applies_iff : forall hs a out, Forall well_formed hs ->
  (apply_hunks (fun _ => 0) a hs = Ok out <-> exists ls ls', lines_of a ls /\ rewritten_all hs ls ls' /\ out = concat ls').
Proof.
  intros hs a out W. unfold apply_hunks. destruct (lines_exist a) as (ls & La). rewrite (proj2 (image_of_spec a ls) La). cbn [bindr].
  assert (G : forall i k, hunks_loop (fun _ => 0) i hs (mkctx 0 0) = Ok k <-> rewritten_all hs i k).
  { clear La ls a out. induction hs as [|h hs IH]; intros i k; cbn [hunks_loop]; [split; [intros H; assert (i = k) as -> by congruence; constructor|intros H; inversion H; reflexivity]|].
    inversion_clear W as [|? ? Wh Wr]. destruct (apply_hunk_iff h i Wh) as [(j & -> & Rj)|[-> N]]; cbn [bindr].
    - rewrite (IH Wr). split; [intros H; econstructor; eauto|]. intros H. inversion H as [|? ? ? j' ? Rj' R']; subst.
      assert (j' = j) as <-; auto. destruct Rj as (p1 & q1 & A1 & B1 & U1 & E1 & -> & P1). destruct Rj' as (p2 & q2 & A2 & B2 & U2 & E2 & -> & P2). destruct (unified_fun _ _ _ _ _ U1 U2) as [<- <-].
      assert (length A1 = length A2) as LA. { pose proof (f_equal (@length _) E2) as E3. rewrite E1 in E3. rewrite !app_length in E3. destruct P1 as [P1|(Q1 & Q2 & P1)], P2 as [P2|(Q3 & Q4 & P2)]; subst; cbn in *; lia. }
      rewrite E1 in E2. destruct (app_inj_len _ _ _ _ LA E2) as [<- E3]. apply app_inv_head in E3. now subst.
    - split; [discriminate|]. intros H. inversion H; subst. exfalso. eapply N; eauto. }
  split.
  - intros H. destruct (hunks_loop (fun _ => 0) ls hs (mkctx 0 0)) as [k| | |] eqn:E; try discriminate. cbn in H. assert (out = concat k) as -> by congruence. exists ls, k. split; auto. split; auto. now apply G.
  - intros (ls1 & ls2 & L1 & R & ->). apply image_of_spec in L1. apply image_of_spec in La. assert (ls1 = ls) as -> by congruence. apply G in R. now rewrite R.
Qed.
(** Otherwise it fails with GIT_EAPPLYFAIL and there is no output. *)
Theorem C38_fails_cleanly : forall hs a, Forall well_formed hs -> (exists out, apply_hunks (fun _ => 0) a hs = Ok out) \/ apply_hunks (fun _ => 0) a hs = Err EAPPLYFAIL.
Proof.
  intros hs a W. unfold apply_hunks. destruct (lines_exist a) as (ls & La). apply image_of_spec in La. rewrite La. cbn [bindr]. clear La a. revert ls. induction W as [|h hs Wh Wr IH]; intros ls; cbn [hunks_loop bindr]; [left; eexists; reflexivity|].
  destruct (apply_hunk_iff h ls Wh) as [(j & -> & _)|[-> _]]; cbn [bindr]; auto.
Qed.
(** A patch that removes a file succeeds only if nothing is left of it. *)
Theorem C38_removal_leaves_nothing : forall inflate cb a p out, apply_patch inflate cb a p = Ok out -> p_deleted p = true -> out = [].
Proof.
  intros inflate cb a p out H D. unfold apply_patch in H. destruct (match p_binary p with Some b => _ | None => _ end) as [o| | |]; try discriminate. cbn [bindr] in H. rewrite D in H. cbn [andb] in H.
  destruct (Z.ltb_spec 0 (Z.of_nat (length o))); [discriminate|]. assert (out = o) as -> by congruence. destruct o; auto. cbn in *. lia.
Qed.
(** A binary patch with data gives a result from which its reverse gives back the source. *)
Theorem C38_binary_reversible : forall inflate a b out, apply_binary inflate a b = Ok out -> b_data (old_file b) <> [] \/ b_data (new_file b) <> [] ->
  apply_binary_delta inflate a (new_file b) = Ok out /\ apply_binary_delta inflate out (old_file b) = Ok a.
Proof.
  intros inflate a b out H N. unfold apply_binary in H. destruct (contains_data b); [|discriminate]. cbn [negb] in H.
  assert (H' : (do out0 <- apply_binary_delta inflate a (new_file b) ;; do back <- apply_binary_delta inflate out0 (old_file b) ;; (if leqb a back then Ok out0 else Err EAPPLYFAIL)) = Ok out).
  { destruct (b_data (old_file b)), (b_data (new_file b)); auto. destruct N; congruence. }
  clear H. destruct (apply_binary_delta inflate a (new_file b)) as [o| | |]; try discriminate. cbn [bindr] in H'. destruct (apply_binary_delta inflate o (old_file b)) as [k| | |] eqn:E; try discriminate. cbn [bindr] in H'.
  destruct (leqb a k) eqn:Q; [|discriminate]. apply leqb_spec in Q. subst k. assert (out = o) as -> by congruence. auto.
Qed.

(** ** Cases *)
Definition ln (s : string) : list Z := bs s ++ [10].
Definition ex_hunk : hunk := mkhunk 1 3 4 [mkline Context (ln "a"); mkline Deletion (ln "b"); mkline Addition (ln "B"); mkline Addition (ln "BB"); mkline Context (ln "c")].
Definition ex_hunk2 : hunk := mkhunk 6 2 2 [mkline Context (ln "e"); mkline Deletion (ln "f"); mkline Eofnl (ln "\ No newline at end of file"); mkline Addition (ln "f")].
Definition ex_changes : list change := [mkchange [] [ln "a"; ln "b"; ln "c"] [ln "a"; ln "B"; ln "BB"; ln "c"]; mkchange [ln "d"] [ln "e"; bs "f"] [ln "e"; ln "f"]].
Ltac plain := let m := fresh in let r := fresh in let H := fresh in intros m r H; discriminate H.
Lemma ex_describes : describes 0 [ex_hunk; ex_hunk2] ex_changes.
Proof.
  unfold ex_changes. apply d_cons; [|reflexivity|reflexivity|reflexivity|].
  - cbn [h_lines ex_hunk del add]. apply u_ctx; [plain|]. apply u_del; [plain|]. apply u_add; [plain|]. apply u_add; [plain|]. apply u_ctx; [plain|]. constructor.
  - apply d_cons; [|reflexivity|reflexivity|reflexivity|apply d_nil]. cbn [h_lines ex_hunk2 del add]. apply u_ctx; [plain|]. apply u_del_end. apply u_add; [plain|]. constructor.
Qed.
Example ex_applies : apply_hunks (fun _ => 0) (concat (before ex_changes [])) [ex_hunk; ex_hunk2] = Ok (concat (after ex_changes [])) /\ with_context ex_changes.
Proof. split; [vm_compute; reflexivity|]. cbn. split; [discriminate|]. constructor; [discriminate|constructor]. Qed.
Example ex_second_only : apply_hunks (fun h => if h_new_start h =? 1 then 1 else 0) (concat (before ex_changes [])) [ex_hunk; ex_hunk2] = Ok (bs "a" ++ [10] ++ bs "b" ++ [10] ++ bs "c" ++ [10] ++ bs "d" ++ [10] ++ bs "e" ++ [10] ++ bs "f" ++ [10]).
Proof. vm_compute. reflexivity. Qed.
Example ex_well_formed : Forall well_formed [ex_hunk; ex_hunk2].
Proof.
  constructor; [|constructor; [|constructor]]; (split; [cbn; lia|]); eexists; eexists.
  - cbn [h_lines ex_hunk]. apply u_ctx; [plain|]. apply u_del; [plain|]. apply u_add; [plain|]. apply u_add; [plain|]. apply u_ctx; [plain|]. constructor.
  - cbn [h_lines ex_hunk2]. apply u_ctx; [plain|]. apply u_del_end. apply u_add; [plain|]. constructor.
Qed.
Example ex_fails : apply_hunks (fun _ => 0) (bs "other") [ex_hunk] = Err EAPPLYFAIL. Proof. vm_compute. reflexivity. Qed.

(** Without context lines a hunk that only deletes is looked for one line too early, and the
    patch between two texts does not apply to the first. *)
Theorem C38_no_context_deletion_refuted : exists cs tail hs a b, describes 0 hs cs /\ lines_of a (before cs tail) /\ lines_of b (after cs tail) /\ apply_hunks (fun _ => 0) a hs = Err EAPPLYFAIL.
Proof.
  exists [mkchange [ln "a"] [ln "b"] []], [ln "c"], [mkhunk 1 1 0 [mkline Deletion (ln "b")]], (bs "a" ++ [10] ++ bs "b" ++ [10] ++ bs "c" ++ [10] ++ []), (bs "a" ++ [10] ++ bs "c" ++ [10] ++ []).
  split. { apply d_cons; [|reflexivity|reflexivity|reflexivity|apply d_nil]. apply u_del; [plain|constructor]. }
  assert (N : forall s, existsb (Z.eqb 10) s = false -> ~ In 10 s) by (intros s H I; assert (existsb (Z.eqb 10) s = true) by (apply existsb_exists; exists 10; split; auto); congruence).
  split. { apply lines_cons; [apply N; reflexivity|]. apply lines_cons; [apply N; reflexivity|]. apply lines_cons; [apply N; reflexivity|constructor]. }
  split. { apply lines_cons; [apply N; reflexivity|]. apply lines_cons; [apply N; reflexivity|constructor]. }
  vm_compute. reflexivity.
Qed.
(** A binary patch that says that nothing changes empties the file (apply_binary_delta itself, 307,
    takes no data to mean identical contents). *)
Theorem C38_binary_no_data_refuted : forall inflate a t t' n n', apply_binary inflate a (mkbinary true (mkbinfile t [] n) (mkbinfile t' [] n')) = Ok [] /\
  apply_binary_delta inflate a (mkbinfile t' [] n') = Ok a.
Proof. intros. split; reflexivity. Qed.
