From Verif Require Import Base CStr Str ReflogProofs WildModel MmapModel MmapSpec MmapProofs MmpModel MmpSpec.

Lemma isspace_iff c : isspace c = true <-> space c.
Proof. unfold isspace, space. rewrite orb_true_iff, andb_true_iff, Z.eqb_eq, !Z.leb_le. tauto. Qed.
Lemma isspace_no c : isspace c = false <-> ~ space c.
Proof. rewrite <- isspace_iff. destruct (isspace c); split; congruence. Qed.
Lemma space_lt c : space c -> c <> 35 /\ c <> 60 /\ c <> 62.
Proof. unfold space. lia. Qed.

Lemma cons_eq (x y : Z) l m : x :: l = y :: m -> x = y /\ l = m.
Proof. intros H. injection H. auto. Qed.
Lemma some_pair (a b c d : list Z) : Some (a, b) = Some (c, d) -> a = c /\ b = d.
Proof. intros H. injection H. auto. Qed.
(** *** Trimming *)
Lemma drop_blank w s : blank w -> drop_ws (w ++ s) = drop_ws s.
Proof. induction 1 as [|c w Hc Hw IH]; [reflexivity|]. cbn [app drop_ws]. apply isspace_iff in Hc. rewrite Hc. exact IH. Qed.
Lemma drop_cut s : exists w, s = w ++ drop_ws s /\ blank w /\ (drop_ws s = [] \/ exists c r, drop_ws s = c :: r /\ ~ space c).
Proof.
  induction s as [|c s (w & E & B & H)]; [exists []; cbn; repeat split; auto; constructor|]. cbn [drop_ws]. destruct (isspace c) eqn:Ec.
  - exists (c :: w). split; [cbn [app]; congruence|]. split; [constructor; [now apply isspace_iff|exact B]|exact H].
  - exists []. split; [reflexivity|]. split; [constructor|]. right. exists c, s. split; [reflexivity|now apply isspace_no].
Qed.
Lemma blank_rev w : blank w -> blank (rev w).
Proof. intros H. apply Forall_forall. intros c Hc. apply in_rev in Hc. exact (proj1 (Forall_forall _ _) H c Hc). Qed.
Lemma rtrim_trimmed s t : trimmed s t <-> t = rtrim s.
Proof.
  unfold rtrim. split.
  - intros (w & -> & B & H). rewrite rev_app_distr, drop_blank by (apply blank_rev, B). destruct H as [->|(u & c & -> & N)]; [reflexivity|].
    rewrite rev_app_distr. cbn [rev app drop_ws]. apply isspace_no in N. rewrite N. cbn [rev]. rewrite rev_involutive. reflexivity.
  - intros ->. destruct (drop_cut (rev s)) as (w & E & B & H). exists (rev w). split; [rewrite <- rev_app_distr, <- E, rev_involutive; reflexivity|]. split; [apply blank_rev, B|].
    destruct H as [->|(c & r & -> & N)]; [left; reflexivity|]. right. exists (rev r), c. split; [reflexivity|exact N].
Qed.

(** *** The pieces of a line *)
Lemma until_iff needle s a b : needle <> 35 -> until needle s = Some (a, b) <-> s = a ++ needle :: b /\ clean needle a.
Proof.
  intros Hn. revert a. induction s as [|c s IH]; intros a; cbn [until].
  - split; [discriminate|]. intros [E _]. destruct a; discriminate.
  - destruct (Z.eqb_spec c 35) as [->|H35].
    + split; [discriminate|]. intros [E C]. destruct a as [|x a]; cbn [app] in E; apply cons_eq in E; destruct E as [E1 E2]; [congruence|]. subst x. apply Forall_inv in C. destruct C as [_ C]. exfalso. apply C. reflexivity.
    + destruct (Z.eqb_spec c needle) as [->|Hc].
      * split; [intros H; apply some_pair in H; destruct H as [<- <-]; split; [reflexivity|constructor]|]. intros [E C]. destruct a as [|x a]; cbn [app] in E; apply cons_eq in E; destruct E as [E1 E2]; [congruence|]. subst x. apply Forall_inv in C. destruct C as [C _]. congruence.
      * split.
        -- destruct (until needle s) as [[a' b']|]; [|discriminate]. intros H. injection H as <- <-. destruct (proj1 (IH a') eq_refl) as [-> C]. split; [reflexivity|]. constructor; [split; [exact Hc|exact H35]|exact C].
        -- intros [E C]. destruct a as [|x a]; cbn [app] in E; apply cons_eq in E; destruct E as [E1 E2]; [congruence|]. subst x. apply Forall_inv_tail in C. subst s. rewrite (proj2 (IH a)) by auto. reflexivity.
Qed.
Lemma peek_drop s : peek s = match drop_ws s with [] => None | c :: _ => Some c end.
Proof. induction s as [|c s IH]; [reflexivity|]. cbn [peek drop_ws]. destruct (isspace c); [exact IH|reflexivity]. Qed.
Lemma idle_iff s : is_eol s = true <-> idle s.
Proof.
  unfold is_eol. rewrite peek_drop. split.
  - intros H. destruct (drop_cut s) as (w & E & B & K). exists w, (drop_ws s). split; [exact E|]. split; [exact B|]. destruct (drop_ws s) as [|c r]; [auto|]. right. exists r. apply Z.eqb_eq in H. subst c. reflexivity.
  - intros (w & c & -> & B & H). rewrite drop_blank by exact B. destruct H as [->|[d ->]]; reflexivity.
Qed.
Definition no10 (s : list Z) : Prop := ~ In 10 s.
Lemma adv_drop s : no10 s -> adv_ws s = drop_ws s.
Proof.
  unfold no10. induction s as [|c s IH]; [reflexivity|]. cbn [In adv_ws drop_ws]. intros H. destruct (Z.eqb_spec c 10); [tauto|]. cbn [negb andb]. rewrite IH by tauto. reflexivity.
Qed.
(** One name and email. *)
Definition one (s : list Z) : option (list Z * list Z * list Z) :=
  match until 60 (drop_ws s) with
  | None => None
  | Some (n, s) => match until 62 s with None => None | Some (e, s) => Some (rtrim n, e, s) end
  end.
Lemma one_iff s name email rest : one s = Some (name, email, rest) <-> person s name email rest.
Proof.
  unfold one. split.
  - destruct (until 60 (drop_ws s)) as [[n s1]|] eqn:E1; [|discriminate]. destruct (until 62 s1) as [[e s2]|] eqn:E2; [|discriminate]. intros H. injection H as <- <- <-.
    apply until_iff in E1; [|lia]. apply until_iff in E2; [|lia]. destruct E1 as [E1 C1], E2 as [E2 C2]. destruct (drop_cut s) as (w & E & B & K). exists w, n.
    split; [rewrite E at 1; rewrite E1, E2; reflexivity|]. split; [exact B|]. split; [|split; [exact C1|split; [exact C2|apply rtrim_trimmed; reflexivity]]].
    destruct n as [|c r]; [auto|]. right. exists c, r. split; [reflexivity|]. rewrite E1 in K. cbn [app] in K. destruct K as [K|(c' & r' & K & N)]; [discriminate|]. injection K as -> _. exact N.
  - intros (w & n & -> & B & H & C1 & C2 & T). rewrite drop_blank by exact B. apply rtrim_trimmed in T. subst name.
    assert (D : drop_ws (n ++ [60] ++ email ++ [62] ++ rest) = n ++ 60 :: email ++ 62 :: rest).
    { destruct H as [->|(c & r & -> & N)]; [reflexivity|]. cbn [app drop_ws]. apply isspace_no in N. rewrite N. reflexivity. }
    change [ch "<"] with [60]. change [ch ">"] with [62]. rewrite D. rewrite (proj2 (until_iff 60 _ n (email ++ 62 :: rest) ltac:(lia))) by auto. rewrite (proj2 (until_iff 62 _ email rest ltac:(lia))) by auto. reflexivity.
Qed.

(** *** A line *)
Definition pure (s : list Z) : option (madd * list Z) :=
  match one s with
  | None => None
  | Some (n1, e1, s1) =>
    if is_eol s1 then Some (mkadd (Some n1) (Some []) (Some []) e1, s1)
    else match one s1 with
         | None => None
         | Some (n2, e2, s2) => if is_eol s2 then Some (mkadd (Some n1) (Some e1) (Some n2) e2, s2) else None
         end
  end.
Lemma one_not_eol s r : one s = Some r -> is_eol s = false.
Proof.
  unfold one, is_eol. rewrite peek_drop. destruct (drop_ws s) as [|c x]; cbn [until]; [discriminate|]. destruct (c =? 35); [discriminate|reflexivity].
Qed.
Lemma says_iff s a : says s a <-> exists c, pure s = Some (a, c).
Proof.
  unfold says, pure. split.
  - intros [(n & e & r & P & I & ->)|(n & e & r & n2 & e2 & r2 & P & P2 & I & ->)].
    + apply one_iff in P. apply idle_iff in I. rewrite P, I. eauto.
    + apply one_iff in P. apply one_iff in P2. apply idle_iff in I. rewrite P, (one_not_eol _ _ P2), P2, I. eauto.
  - intros [c H]. destruct (one s) as [[[n e] r]|] eqn:E; [|discriminate]. apply one_iff in E. destruct (is_eol r) eqn:I.
    + injection H as <- _. apply idle_iff in I. left. exists n, e, r. auto.
    + destruct (one r) as [[[n2 e2] r2]|] eqn:E2; [|discriminate]. apply one_iff in E2. destruct (is_eol r2) eqn:I2; [|discriminate]. injection H as <- _. apply idle_iff in I2. right. exists n, e, r, n2, e2, r2. auto.
Qed.
Definition isnl (nl : list Z) : Prop := nl = [] \/ nl = [10].
Lemma adv_nl s nl : no10 s -> isnl nl -> adv_ws (s ++ nl) = drop_ws s ++ nl.
Proof.
  unfold no10. intros H N. induction s as [|c s IH]; cbn [In app adv_ws drop_ws] in *; [destruct N as [->| ->]; reflexivity|]. destruct (Z.eqb_spec c 10); [tauto|]. cbn [negb andb]. destruct (isspace c); [apply IH; tauto|reflexivity].
Qed.
Lemma eol_nl s nl : isnl nl -> is_eol (s ++ nl) = is_eol s.
Proof.
  intros N. unfold is_eol. replace (peek (s ++ nl)) with (peek s); [reflexivity|]. induction s as [|c s IH]; cbn [app peek]; [destruct N as [->| ->]; reflexivity|]. destruct (isspace c); [exact IH|reflexivity].
Qed.
Lemma until_nl needle s nl : isnl nl -> needle <> 10 -> until needle (s ++ nl) = match until needle s with Some (a, b) => Some (a, b ++ nl) | None => None end.
Proof.
  intros N Hn. induction s as [|c s IH]; cbn [app until].
  - destruct N as [->| ->]; [reflexivity|]. cbn [until]. change (10 =? 35) with false. destruct (Z.eqb_spec 10 needle); [congruence|reflexivity].
  - destruct (c =? 35); [reflexivity|]. destruct (c =? needle); [reflexivity|]. rewrite IH. destruct (until needle s) as [[a b]|]; reflexivity.
Qed.
Lemma no10_drop s : no10 s -> no10 (drop_ws s).
Proof. unfold no10. intros H K. apply H. destruct (drop_cut s) as (w & E & _). rewrite E, in_app_iff. auto. Qed.
Lemma no10_until needle s a b : needle <> 35 -> no10 s -> until needle s = Some (a, b) -> no10 b.
Proof. unfold no10. intros Hn H E K. apply until_iff in E; [|exact Hn]. destruct E as [-> _]. apply H. rewrite in_app_iff. cbn [In]. auto. Qed.
Lemma parse_pure s nl : no10 s -> isnl nl -> parse_entry (s ++ nl) = match pure s with Some (a, c) => Some (a, c ++ nl) | None => None end.
Proof.
  intros H N. unfold parse_entry. cbv zeta. rewrite adv_nl, eol_nl by assumption. unfold pure. destruct (is_eol (drop_ws s)) eqn:E0.
  - destruct (one s) as [r|] eqn:E; [|reflexivity]. exfalso. apply one_not_eol in E. unfold is_eol in *. rewrite peek_drop in E0, E. destruct (drop_cut s) as (w & _ & _ & D). destruct (drop_ws s) as [|c x] eqn:Ed; [discriminate|].
    destruct D as [D|(c' & r' & D & ND)]; [discriminate|]. injection D as <- <-. cbn [drop_ws] in E0. apply isspace_no in ND. rewrite ND in E0. congruence.
  - unfold one. rewrite until_nl by (assumption || lia). destruct (until 60 (drop_ws s)) as [[n1 s1]|] eqn:U1; [|reflexivity].
    rewrite until_nl by (assumption || lia). destruct (until 62 s1) as [[e1 s2]|] eqn:U2; [|reflexivity]. rewrite eol_nl by assumption. destruct (is_eol s2) eqn:I2; [reflexivity|].
    assert (H2 : no10 s2) by (eapply no10_until; [|eapply no10_until; [|apply no10_drop, H|exact U1]|exact U2]; lia).
    rewrite adv_nl, until_nl by (assumption || lia). destruct (until 60 (drop_ws s2)) as [[n2 s3]|] eqn:U3; [|reflexivity].
    rewrite until_nl by (assumption || lia). destruct (until 62 s3) as [[e2 s4]|] eqn:U4; [|reflexivity]. rewrite eol_nl by assumption. destruct (is_eol s4); reflexivity.
Qed.
Lemma peek_adv s : peek (adv_ws s) = peek s.
Proof. induction s as [|c s IH]; [reflexivity|]. cbn [adv_ws peek]. destruct (negb (c =? 10)); cbn [andb]; [|reflexivity]. destruct (isspace c) eqn:E; [exact IH|cbn [peek]; rewrite E; reflexivity]. Qed.
Lemma pure_eol s a c nl : isnl nl -> pure s = Some (a, c) -> parse_entry (c ++ nl) = None.
Proof.
  intros N H. assert (I : is_eol c = true).
  { unfold pure in H. destruct (one s) as [[[n e] r]|]; [|discriminate]. destruct (is_eol r) eqn:I; [injection H as _ <-; exact I|]. destruct (one r) as [[[n2 e2] r2]|]; [|discriminate]. destruct (is_eol r2) eqn:I2; [|discriminate]. injection H as _ <-. exact I2. }
  unfold parse_entry. cbv zeta. replace (is_eol (adv_ws (c ++ nl))) with true; [reflexivity|]. unfold is_eol. rewrite peek_adv. fold (is_eol (c ++ nl)). rewrite eol_nl; auto.
Qed.

(** *** The lines of a text *)
Fixpoint unlines (l : list (list Z)) : list Z :=
  match l with [] => [] | p :: ps => match ps with [] => p | _ => p ++ 10 :: unlines ps end end.
Definition nlof (ps : list (list Z)) : list Z := match ps with [] => [] | _ => [10] end.
Lemma nlof_isnl ps : isnl (nlof ps).
Proof. destruct ps; [left|right]; reflexivity. Qed.
Lemma unlines_split s : unlines (split 10 s) = s.
Proof.
  induction s as [|c s IH]; [reflexivity|]. cbn [split]. pose proof (split_nonnil 10 s) as N. destruct (Z.eqb_spec c 10) as [->|]; destruct (split 10 s) as [|p ps]; try congruence.
  - cbn [unlines] in *. rewrite IH. reflexivity.
  - cbn [unlines] in *. rewrite <- IH. destruct ps; reflexivity.
Qed.
Lemma cut_unlines p ps : no10 p -> cut_line (unlines (p :: ps)) = (p ++ nlof ps, unlines ps).
Proof.
  unfold no10. induction p as [|c p IH]; cbn [In]; intros H.
  - destruct ps; reflexivity.
  - specialize (IH ltac:(tauto)). destruct ps as [|q qs]; cbn [unlines app cut_line] in *; (destruct (Z.eqb_spec c 10); [tauto|]); rewrite IH; reflexivity.
Qed.
Definition line_of (s : list Z) : option madd := match pure s with Some (a, _) => Some a | None => None end.
Lemma loop_round f mm cur rest : cur <> [] \/ rest <> [] -> mm_buf_loop (S f) mm cur rest = mm_buf_round (mm_buf_loop f) mm cur rest.
Proof. intros H. cbn [mm_buf_loop]. destruct cur, rest; try reflexivity. destruct H; congruence. Qed.
Lemma unlines_nil ps : nlof ps = [] -> ps = [].
Proof. destruct ps; [reflexivity|discriminate]. Qed.
Lemma loop_lines ps : Forall no10 ps -> forall f mm, (2 * length ps + 1 <= f)%nat ->
  (let '(cur, rest) := cut_line (unlines ps) in mm_buf_loop f mm cur rest) = mm_adds mm (somes (map line_of ps)).
Proof.
  induction 1 as [|q qs Hq _ IH]; intros f mm Hf; [destruct f; [cbn in Hf; lia|reflexivity]|]. rewrite cut_unlines by exact Hq. cbn [length] in Hf. destruct f as [|f]; [lia|].
  assert (D : forall c, c ++ nlof qs = [] /\ unlines qs = [] \/ (c ++ nlof qs <> [] \/ unlines qs <> [])).
  { intros c. destruct (c ++ nlof qs); [|right; left; discriminate]. destruct (unlines qs); [auto|right; right; discriminate]. }
  change (somes (map line_of (q :: qs))) with (match line_of q with Some a => [a] | None => [] end ++ somes (map line_of qs)). unfold line_of at 1.
  destruct (D q) as [[E1 E2]|N].
  - apply app_eq_nil in E1. destruct E1 as [-> E1]. apply unlines_nil in E1. subst qs. reflexivity.
  - rewrite loop_round by exact N. unfold mm_buf_round. rewrite parse_pure by (exact Hq || apply nlof_isnl). destruct (pure q) as [[a c]|] eqn:EP.
    + cbn [app mm_adds]. destruct (mm_add mm _ _ _ _) as [mm'| | |]; try reflexivity. cbn [bindr]. destruct (D c) as [[E1 E2]|N2].
      * rewrite E1, E2. apply app_eq_nil in E1. destruct E1 as [_ E1]. apply unlines_nil in E1. subst qs. destruct f; [lia|]. reflexivity.
      * destruct f as [|f]; [lia|]. rewrite loop_round by exact N2. unfold mm_buf_round. rewrite (pure_eol q a c) by (exact EP || apply nlof_isnl). apply IH. lia.
    + cbn [app]. apply IH. lia.
Qed.
Lemma split_no10 s : Forall no10 (split 10 s).
Proof. exact (split_clean 10 s). Qed.
Lemma split_len s : (length (split 10 s) <= S (length s))%nat.
Proof. induction s as [|c s IH]; [cbn; lia|]. cbn [split]. destruct (c =? 10); [cbn [length]; lia|]. destruct (split 10 s); cbn [length] in *; lia. Qed.
Lemma from_buffer_ok text : ~ In 0 text -> mm_from_buffer text = mm_adds [] (somes (map line_of (split 10 text))).
Proof.
  intros H. unfold mm_from_buffer. replace (existsb (Z.eqb 0) text) with false.
  - pose proof (loop_lines (split 10 text) (split_no10 text) (2 * length text + 3) []) as L. rewrite unlines_split in L. apply L. pose proof (split_len text). lia.
  - symmetry. apply Bool.not_true_is_false. intros E. apply existsb_exists in E. destruct E as (x & I & Ex). apply Z.eqb_eq in Ex. subst x. exact (H I).
Qed.
Lemma lines_say l : Forall2 says_maybe l (map line_of l).
Proof.
  induction l as [|s l IH]; cbn [map]; constructor; [|exact IH]. unfold says_maybe, line_of. destruct (pure s) as [[a c]|] eqn:E; [apply says_iff; eauto|]. intros a K. apply says_iff in K. destruct K as [c K]. congruence.
Qed.
