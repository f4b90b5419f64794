From Verif Require Import Base Str CStr RefnameModel RefnameSpec.

Fixpoint chk (s : list Z) (prev : Z) (glob : bool) : bool :=
  match s with
  | [] => true
  | c :: r =>
      valid_ref_char c && negb ((prev =? 46) && (c =? 46)) && negb ((prev =? 64) && (c =? 123)) &&
      (if c =? 42 then glob && chk r c false else chk r c glob)
  end.
Definition tail_ok (rest : list Z) : Prop := rest = [] \/ exists r, rest = 47 :: r.

Lemma seg_loop_spec s rest : ~ In 47 s -> tail_ok rest -> forall prev glob n,
  seg_loop (s ++ rest) prev glob n = if chk s prev glob then Some (n + length s)%nat else None.
Proof.
  intros Hs Ht. induction s as [|c s IH]; intros prev glob n; cbn.
  - rewrite Nat.add_0_r. destruct Ht as [->|[r ->]]; reflexivity.
  - destruct (Z.eqb_spec c 47) as [->|N]; [exfalso; apply Hs; left; reflexivity|].
    assert (IH' := IH (fun H => Hs (or_intror H))). destruct (valid_ref_char c); cbn; [|reflexivity].
    destruct ((prev =? 46) && (c =? 46)); cbn; [reflexivity|]. destruct ((prev =? 64) && (c =? 123)); cbn; [reflexivity|].
    destruct (c =? 42).
    + destruct glob; cbn; [|reflexivity]. rewrite IH'. destruct (chk s c false); [f_equal; lia|reflexivity].
    + rewrite IH'. destruct (chk s c glob); [f_equal; lia|reflexivity].
Qed.

Definition vchar (c : Z) : Prop := valid_ref_char c = true.
Lemma vchar_spec c : vchar c <-> ~ forbidden c.
Proof.
  unfold vchar, forbidden, valid_ref_char. cbn.
  destruct (Z.leb_spec c 32).
  - split; [discriminate|]. intros H'. exfalso. apply H'. left. lia.
  - rewrite negb_true_iff, !orb_false_iff, !Z.eqb_neq. split; [intros Hx [?|?]; lia|].
    intros Hx. repeat split; intros ->; apply Hx; right; cbn; tauto.
Qed.

Lemma chk_spec s : forall prev glob, chk s prev glob = true <->
  Forall vchar s /\ ~ contains [46; 46] (prev :: s) /\ ~ contains [64; 123] (prev :: s) /\ (count 42 s <= if glob then 1 else 0)%nat.
Proof.
  induction s as [|c s IH]; intros prev glob.
  - cbn [chk]. split; [intros _|reflexivity]. split; [constructor|].
    assert (Hn : forall a b, ~ contains [a; b] [prev]).
    { intros a b H. apply contains_cons2 in H. destruct H as [[_ [r H]]|H]; [discriminate|exact (contains_nil2 _ _ H)]. }
    split; [apply Hn|]. split; [apply Hn|]. cbn. lia.
  - cbn [chk]. rewrite !andb_true_iff, !negb_true_iff, !andb_false_iff, !Z.eqb_neq.
    rewrite !(contains_cons2 _ _ prev).
    assert (Hcnt : count 42 (c :: s) = if c =? 42 then S (count 42 s) else count 42 s).
    { unfold count. cbn [filter]. rewrite (Z.eqb_sym 42 c). destruct (c =? 42); reflexivity. }
    rewrite Hcnt. fold (vchar c).
    destruct (Z.eqb_spec c 42) as [->|N].
    + rewrite andb_true_iff, IH. split.
      * intros (((H1 & H2) & H3) & -> & H4 & H5 & H6 & H7). split; [constructor; assumption|]. split; [intros [[-> [r E]]|E]; [discriminate|auto]|].
        split; [intros [[-> [r E]]|E]; [discriminate|auto]|]. lia.
      * intros (H1 & H2 & H3 & H4). inversion H1; subst. destruct glob; [|lia]. split; [split; [split; [assumption|]|]|].
        -- right. lia.
        -- right. lia.
        -- split; [reflexivity|]. split; [assumption|]. split; [tauto|]. split; [tauto|]. lia.
    + rewrite IH. split.
      * intros (((H1 & H2) & H3) & H4 & H5 & H6 & H7). split; [constructor; assumption|].
        split; [intros [[-> [r [= -> ->]]]|E]; [lia|auto]|]. split; [intros [[-> [r [= -> ->]]]|E]; [lia|auto]|]. exact H7.
      * intros (H1 & H2 & H3 & H4). inversion H1; subst. split; [split; [split; [assumption|]|]|].
        -- destruct (Z.eq_dec prev 46) as [->|]; [|tauto]. destruct (Z.eq_dec c 46) as [->|]; [exfalso; apply H2; left; split; [reflexivity|eauto]|tauto].
        -- destruct (Z.eq_dec prev 64) as [->|]; [|tauto]. destruct (Z.eq_dec c 123) as [->|]; [exfalso; apply H3; left; split; [reflexivity|eauto]|tauto].
        -- split; [assumption|]. split; [tauto|]. split; [tauto|]. exact H4.
Qed.

Definition segok (s : list Z) (pat caret : bool) : bool :=
  negb (hd 0 s =? 46) &&
  (match s with c :: t => if caret && (c =? 94) then chk t 0 pat else chk s 0 pat | [] => true end) &&
  negb ((5 <=? length s)%nat && leqb (skipn (length s - 5) s) (bs ".lock")).

Lemma memcmp_eq a b : forall n, (n <= length a)%nat -> length b = n ->
  (match memcmp a b n with Ok 0 => true | _ => false end) = leqb (firstn n a) b.
Proof.
  intros n; revert a b. induction n as [|n IH]; intros a b Ha Hb.
  - destruct b; [destruct a; reflexivity|discriminate].
  - destruct a as [|x a]; [cbn in Ha; lia|]. destruct b as [|y b]; [discriminate|]. cbn [memcmp firstn].
    destruct (Z.eqb_spec x y) as [->|N].
    + rewrite IH by (cbn in *; lia). unfold leqb. destruct (list_eq_dec Z.eq_dec (firstn n a) b), (list_eq_dec Z.eq_dec (y :: firstn n a) (y :: b)); congruence.
    + destruct (x - y) eqn:E; [lia| |]; unfold leqb; destruct (list_eq_dec Z.eq_dec (x :: firstn n a) (y :: b)); congruence.
Qed.

Lemma ensure_spec s rest pat caret : ~ In 47 s -> tail_ok rest ->
  ensure_segment (s ++ rest) pat caret = if segok s pat caret then Some (length s) else None.
Proof.
  intros Hs Ht. unfold ensure_segment, segok. cbv zeta.
  assert (Hhd : forall c, c <> 47 -> c <> 0 -> (hd 0 (s ++ rest) =? c) = (hd 0 s =? c)).
  { intros c Hc H0. destruct s; [|reflexivity]. destruct Ht as [->|[r ->]]; [reflexivity|]. cbn [hd app]. rewrite (proj2 (Z.eqb_neq 47 c)), (proj2 (Z.eqb_neq 0 c)) by lia. reflexivity. }
  rewrite (Hhd 46), (Hhd 94) by lia. destruct (hd 0 s =? 46); [reflexivity|]. cbn [negb andb].
  assert (Hlk : forall len, len = length s ->
     (if (5 <=? len)%nat && (match memcmp (skipn (len - 5) (s ++ rest)) (bs ".lock") 5 with Ok 0 => true | _ => false end) then None else Some len)
     = (if negb ((5 <=? length s)%nat && leqb (skipn (length s - 5) s) (bs ".lock")) then Some (length s) else None)).
  { intros len ->. destruct (Nat.leb_spec 5 (length s)) as [L|L]; [|reflexivity]. rewrite memcmp_eq; [|rewrite skipn_length, app_length; lia|reflexivity].
    rewrite skipn_app. replace (length s - 5 - length s)%nat with O by lia. cbn [skipn]. rewrite firstn_app, skipn_length.
    replace (5 - (length s - (length s - 5)))%nat with O by lia. rewrite firstn_O, app_nil_r, firstn_all2 by (rewrite skipn_length; lia).
    destruct (leqb _ _); reflexivity. }
  destruct s as [|c t].
  - cbn [hd]. rewrite andb_false_r. cbn [skipn]. rewrite (seg_loop_spec [] rest Hs Ht). reflexivity.
  - cbn [hd] in *. destruct (caret && (c =? 94)).
    + cbn [skipn app]. rewrite seg_loop_spec; [|intros H; apply Hs; right; exact H|exact Ht].
      destruct (chk t 0 pat); [|reflexivity]. cbn [andb]. apply Hlk. reflexivity.
    + cbn [skipn]. rewrite seg_loop_spec by assumption. destruct (chk (c :: t) 0 pat); [|reflexivity]. cbn [andb]. apply Hlk. reflexivity.
Qed.

Definition comp_body (s : list Z) : Prop :=
  ~ starts_with (bs ".") s /\ ~ ends_with (bs ".lock") s /\ ~ contains (bs "..") s /\ ~ contains (bs "@{") s.

Lemma contains_skip a b x s : x <> a -> (contains [a; b] (x :: s) <-> contains [a; b] s).
Proof. intros N. rewrite contains_cons2. intuition. Qed.

Lemma segok_spec s pat caret : s <> [] -> (segok s pat caret = true <->
  comp_body s /\ (count 42 s <= if pat then 1 else 0)%nat /\
  (Forall vchar s \/ (caret = true /\ exists r, s = 94 :: r /\ Forall vchar r))).
Proof.
  intros Hne. destruct s as [|c t]; [congruence|]. clear Hne. unfold segok, comp_body. cbn [hd].
  rewrite !andb_true_iff, !negb_true_iff.
  assert (H46 : (c =? 46) = false <-> ~ starts_with (bs ".") (c :: t)).
  { rewrite Z.eqb_neq. split; [intros N [v [= E _]]; cbn in E; lia|]. intros H ->. apply H. exists t. reflexivity. }
  assert (Hlock : (5 <=? length (c :: t))%nat && leqb (skipn (length (c :: t) - 5) (c :: t)) (bs ".lock") = false <-> ~ ends_with (bs ".lock") (c :: t)).
  { rewrite <- not_true_iff_false, andb_true_iff, leqb_spec, Nat.leb_le. split.
    - intros H He. apply H. pose proof (ends_with_len _ _ He) as L. change (length (bs ".lock")) with 5%nat in L. split; [exact L|].
      apply (ends_with_skipn (bs ".lock")) in He; [exact He|exact L].
    - intros H [L E]. apply H, (ends_with_skipn (bs ".lock")); [exact L|exact E]. }
  rewrite H46, Hlock. change (bs "..") with [46; 46]. change (bs "@{") with [64; 123].
  assert (Hv94 : ~ vchar 94) by (unfold vchar; vm_compute; discriminate).
  destruct caret; cbn [andb].
  - destruct (Z.eqb_spec c 94) as [->|N].
    + rewrite chk_spec, !(contains_skip _ _ 0), !(contains_skip _ _ 94) by lia.
      assert (Hc : count 42 (94 :: t) = count 42 t) by reflexivity. rewrite Hc. split.
      * intros ((H1 & H2 & H3 & H4 & H5) & H6). repeat (split; [tauto|]). right. split; [reflexivity|]. exists t. auto.
      * intros ((H1 & H2 & H3 & H4) & H5 & [H6|(_ & r & [= ->] & H6)]); [inversion H6; subst; contradiction|]. tauto.
    + rewrite chk_spec, !(contains_skip _ _ 0) by lia. split.
      * tauto.
      * intros ((H1 & H2 & H3 & H4) & H5 & [H6|(_ & r & [= -> ->] & H6)]); [tauto|lia].
  - rewrite chk_spec, !(contains_skip _ _ 0) by lia. intuition discriminate.
Qed.

(** *** the segment loop *)
Definition nempty (s : list Z) : bool := negb (leqb s []).
Fixpoint ssum (segs : list (list Z)) (pat caret : bool) : bool :=
  match segs with
  | [] => true
  | s :: r => segok s pat caret && ssum r (if existsb (Z.eqb 42) s then false else pat) false
  end.
Definition addseg (buf s : list Z) : list Z := match s with [] => buf | _ => match buf with [] => s | _ => buf ++ 47 :: s end end.

Lemma strip_sl_nosl s rest : s <> [] -> ~ In 47 s -> strip_sl (s ++ rest) = s ++ rest.
Proof. destruct s as [|c t]; [congruence|]. intros _ H. cbn. destruct (Z.eqb_spec c 47) as [->|]; [exfalso; apply H; left; reflexivity|reflexivity]. Qed.

Lemma norm_loop_spec norm : forall segs fuel pre pat caret cnt buf,
  segs <> [] -> Forall (fun s => ~ In 47 s) segs -> (length segs <= fuel)%nat ->
  (norm = true -> (cnt = 0%nat <-> buf = []) /\ last buf 0 <> 47) ->
  norm_loop fuel (pre ++ join 47 segs) norm pat caret (length pre) cnt buf =
    if ssum segs pat caret && (norm || forallb nempty segs) then
      Ok (mkn (length (pre ++ join 47 segs) - length (last segs [])) (length (last segs []))
          (cnt + length (filter nempty segs)) (if norm then fold_left addseg segs buf else buf))
    else Err EINVALIDSPEC.
Proof.
  induction segs as [|s r IH]; intros fuel pre pat caret cnt buf Hne Hcl Hf Hb; [congruence|].
  destruct fuel as [|fuel]; [cbn in Hf; lia|]. cbn [norm_loop].
  inversion Hcl as [|? ? Hs Hr]; subst.
  assert (Hj : exists rest, join 47 (s :: r) = s ++ rest /\ tail_ok rest /\ (r = [] -> rest = []) /\ (r <> [] -> rest = 47 :: join 47 r)).
  { destruct r as [|q r].
    - exists []. cbn. rewrite app_nil_r. repeat split; auto. left; reflexivity. congruence.
    - exists (47 :: join 47 (q :: r)). rewrite join_cons by discriminate. repeat split; auto. right; eauto. discriminate. }
  destruct Hj as (rest & Hj & Ht & Hr1 & Hr2). rewrite Hj.
  rewrite skipn_app, skipn_all, Nat.sub_diag. cbn [app skipn]. rewrite ensure_spec by assumption.
  cbn [ssum]. destruct (segok s pat caret); [|reflexivity]. cbn [andb].
  rewrite firstn_app, firstn_all, Nat.sub_diag. cbn [firstn]. rewrite app_nil_r.
  assert (Hpat : (if negb (length s =? 0)%nat && existsb (Z.eqb 42) s then false else pat) = (if existsb (Z.eqb 42) s then false else pat)).
  { destruct s; reflexivity. }
  rewrite Hpat.
  assert (Hemp : (length s =? 0)%nat = negb (nempty s)) by (destruct s; reflexivity).
  rewrite Hemp, negb_involutive.
  set (pat' := if existsb (Z.eqb 42) s then false else pat).
  assert (Hbuf : (if nempty s && norm then firstn (length buf + length s + (if (cnt =? 0)%nat then 0 else 1)) (joinpath buf (s ++ rest)) else buf)
                 = if norm then addseg buf s else buf).
  { destruct norm; [|rewrite andb_false_r; reflexivity]. rewrite andb_true_r. destruct (Hb eq_refl) as [Hc Hl].
    destruct s as [|c t]; [reflexivity|]. cbn [nempty negb leqb]. unfold nempty, leqb. cbn [list_eq_dec].
    destruct buf as [|b0 bu].
    - rewrite (proj2 Hc eq_refl). cbn [Nat.eqb length joinpath addseg]. rewrite Nat.add_0_r. cbn [Nat.add].
      change (S (length t)) with (length (c :: t)). rewrite firstn_app, firstn_all, Nat.sub_diag. cbn [firstn]. apply app_nil_r.
    - destruct (Nat.eqb_spec cnt 0) as [E|_]; [apply Hc in E; discriminate|]. unfold joinpath, addseg.
      rewrite strip_sl_nosl by (assumption || discriminate). destruct (Z.eqb_spec (last (b0 :: bu) 0) 47); [contradiction|].
      replace ((b0 :: bu) ++ 47 :: (c :: t) ++ rest) with (((b0 :: bu) ++ 47 :: c :: t) ++ rest) by (rewrite <- app_assoc; reflexivity).
      replace (length (b0 :: bu) + length (c :: t) + 1)%nat with (length ((b0 :: bu) ++ 47 :: c :: t)) by (rewrite app_length; cbn; lia).
      rewrite firstn_app, firstn_all, Nat.sub_diag. cbn [firstn]. apply app_nil_r. }
  rewrite Hbuf.
  cbn [forallb fold_left filter].
  destruct (negb (nempty s) && negb norm) eqn:Een.
  { apply andb_prop in Een. destruct Een as [E1 E2]. apply negb_true_iff in E1, E2. rewrite E1, E2. cbn. rewrite andb_false_r. reflexivity. }
  assert (Hor : norm || nempty s && forallb nempty r = norm || forallb nempty r).
  { destruct norm; [reflexivity|]. destruct (nempty s); [reflexivity|discriminate]. }
  rewrite Hor.
  destruct r as [|q r].
  - rewrite (Hr1 eq_refl), app_nil_r. rewrite (proj2 (nth_error_None s (length s))) by lia. cbn [ssum forallb last fold_left filter].
    rewrite andb_true_l, orb_true_r. rewrite app_length. f_equal. f_equal; [lia|]. destruct (nempty s); cbn; lia.
  - rewrite (Hr2 ltac:(discriminate)).
    assert (Hnth : nth_error (s ++ 47 :: join 47 (q :: r)) (length s) = Some 47) by (rewrite nth_error_app2, Nat.sub_diag by lia; reflexivity).
    rewrite Hnth. fold pat'.
    assert (Hsplit : pre ++ s ++ 47 :: join 47 (q :: r) = (pre ++ s ++ [47]) ++ join 47 (q :: r)) by (rewrite <- !app_assoc; reflexivity).
    rewrite Hsplit. replace (length pre + length s + 1)%nat with (length (pre ++ s ++ [47])) by (rewrite !app_length; cbn; lia).
    rewrite IH; [|discriminate|assumption|cbn in *; lia|].
    + destruct (ssum (q :: r) pat' false && (norm || forallb nempty (q :: r))); [|reflexivity]. cbn [last]. f_equal. f_equal.
      * destruct (nempty s); cbn [length]; lia.
      * destruct norm; reflexivity.
    + intros Hn. rewrite Hn. destruct (Hb Hn) as [Hc Hl]. destruct s as [|c t]; [cbn; auto|]. cbn [nempty negb]. unfold nempty, leqb. cbn [list_eq_dec].
      unfold addseg. destruct buf as [|b0 bu].
      * split; [split; discriminate|]. intros E. apply Hs. rewrite <- E.
        destruct (@exists_last _ (c :: t) ltac:(discriminate)) as (l' & a & El). rewrite El, last_last. apply in_or_app. right. left. reflexivity.
      * split; [split; discriminate|]. destruct (@exists_last _ (c :: t) ltac:(discriminate)) as (l' & a & El). rewrite El.
        replace ((b0 :: bu) ++ 47 :: l' ++ [a]) with (((b0 :: bu) ++ 47 :: l') ++ [a]) by (rewrite <- app_assoc; reflexivity).
        rewrite last_last. intros ->. apply Hs. rewrite El. apply in_or_app. right. left. reflexivity.
Qed.
