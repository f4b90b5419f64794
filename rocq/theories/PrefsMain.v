From Verif Require Import Base Str CStr CodecModel OidModel OidSpec OidProofs OidProps ReflogProofs PrefsModel PrefsSpec PrefsProofs PrefsFind.

Lemma ascending_app a b : ascending (a ++ b) <-> ascending a /\ ascending b /\ (forall x y, In x a -> In y b -> lex (e_name x) (e_name y) = Lt).
Proof.
  induction a as [|e a IH]; cbn [app ascending].
  - split; [intros H; split; [exact I|split; [exact H|intros x y []]]|tauto].
  - rewrite IH, Forall_app. rewrite !Forall_forall. split.
    + intros [[H1 H2] (H3 & H4 & H5)]. split; [split; auto|]. split; [exact H4|]. intros x y [<-|Hx] Hy; auto.
    + intros [[H1 H2] [H3 H4]]. split; [split; [exact H1|intros y Hy; apply H4; [now left|exact Hy]]|]. split; [exact H2|split; [exact H3|]]. intros x y Hx Hy. apply H4; [now right|exact Hy].
Qed.
Definition found (r : option ent) : res (list Z * option (list Z)) := match r with Some e => Ok (e_oid e, e_peel e) | None => Err (-3) end.
Definition named (q : list Z) (e : ent) : bool := leqb (e_name e) q.
Lemma find_app_none {A} (f : A -> bool) a b : (forall x, In x a -> f x = false) -> find f (a ++ b) = find f b.
Proof. induction a as [|x a IH]; intros H; cbn; [reflexivity|]. rewrite (H x (or_introl eq_refl)). apply IH. intros y Hy. apply H. now right. Qed.
Lemma find_none_all {A} (f : A -> bool) a : (forall x, In x a -> f x = false) -> find f a = None.
Proof. intros H. rewrite <- (app_nil_r a), find_app_none by exact H. reflexivity. Qed.
Lemma find_app_l {A} (f : A -> bool) a b : (forall x, In x b -> f x = false) -> find f (a ++ b) = find f a.
Proof. intros H. induction a as [|x a IH]; cbn; [now apply find_none_all|]. now rewrite IH. Qed.
Lemma named_neq q e c : lex (e_name e) q = c -> c <> Eq -> named q e = false.
Proof. intros H Hc. unfold named. destruct (leqb (e_name e) q) eqn:E; [|reflexivity]. apply leqb_spec in E. rewrite E, lex_refl in H. congruence. Qed.
Lemma lex_gt_lt a b : lex a b = Gt -> lex b a = Lt.
Proof. intros H. rewrite lex_antisym, H. reflexivity. Qed.
Lemma lex_lt_gt a b : lex a b = Lt -> lex b a = Gt.
Proof. intros H. rewrite lex_antisym, H. reflexivity. Qed.
Section M.
Variable size : nat.
Hypothesis Hsize : (0 < size)%nat.
Lemma peel_of_good e p : good_ent size e -> e_peel e = Some p -> peel_of p = Some p.
Proof.
  intros (_ & _ & H) E. rewrite E in H. destruct H as [_ H]. unfold peel_of. destruct (oid_is_zero p) eqn:Ez; [|reflexivity]. exfalso. clear - H Ez. induction H as [c p H|c p H IH]; cbn in Ez; destruct (negb (c =? 0)) eqn:Ec; try discriminate; auto. apply negb_false_iff, Z.eqb_eq in Ec. contradiction.
Qed.
Lemma bisect_exact H d q : (0 < length H)%nat -> forall fuel l1 m l2, Forall (good_ent size) (l1 ++ m ++ l2) -> ascending (l1 ++ m ++ l2) ->
  d = H ++ body (l1 ++ m ++ l2) -> (length (body m) < fuel)%nat ->
  bisect size fuel d q (length H + length (body l1)) (length H + length (body l1) + length (body m)) = found (find (named q) m).
Proof.
  intros HH. induction fuel as [|fuel IH]; intros l1 m l2 HG HA Hd Hf; [lia|]. cbn [bisect]. set (lf := (length H + length (body l1))%nat). set (rt := (lf + length (body m))%nat). destruct (lf <? rt)%nat eqn:E.
  2: { apply Nat.ltb_ge in E. destruct m as [|e m]; [reflexivity|]. exfalso. unfold rt, body in E. cbn in E. rewrite app_length in E. unfold record in E. rewrite app_length in E. cbn [length] in E. lia. }
  apply Nat.ltb_lt in E. set (mid := (lf + (rt - lf) / 2)%nat). assert (Hm : (lf <= mid < rt)%nat) by (unfold mid; pose proof (Nat.div_lt (rt - lf) 2); lia).
  destruct (locate m (mid - lf)) as (m1 & e & m2 & j & Em & Hk & Hj); [unfold rt in *; lia|]. subst m.
  assert (HG2 := HG). rewrite !Forall_app in HG2. destruct HG2 as (HG1 & (HGm1 & HGem2) & HGl2). apply Forall_cons_iff in HGem2. destruct HGem2 as [HGe HGm2].
  assert (BE : forall x y, body (x :: y) = record x ++ body y) by reflexivity.
  assert (S1 : skipn lf d = body m1 ++ record e ++ (body m2 ++ body l2)).
  { rewrite Hd, !body_app, BE. unfold lf. rewrite <- app_length. rewrite !app_assoc. rewrite <- !app_assoc. rewrite (app_assoc H). now rewrite skipn_pre by reflexivity. }
  assert (Mid : mid = (lf + (length (body m1) + j))%nat) by lia.
  rewrite Mid. rewrite (start_exact size Hsize d lf m1 e (body m2 ++ body l2)) by (auto; unfold lf; lia). cbn [bindr].
  set (st := (lf + length (body m1))%nat). assert (S2 : skipn st d = record e ++ (body m2 ++ body l2)) by (unfold st; apply skipn_more; exact S1).
  destruct (cmp_exact size Hsize d st e _ q HGe S2) as (z & -> & Hz). cbn [bindr]. unfold sgn_cmp in Hz.
  assert (Hlen : (length d = st + length (record e) + length (body m2) + length (body l2))%nat). { assert (length (skipn st d) = (length (record e) + length (body m2) + length (body l2))%nat) as X by (rewrite S2, !app_length; lia). rewrite skipn_length in X. assert (st < length d)%nat. { rewrite Hd, !body_app, BE, !app_length. unfold st, lf. unfold record. rewrite app_length. cbn [length]. lia. } lia. }
  assert (RT : rt = (st + length (record e) + length (body m2))%nat) by (unfold rt, st; rewrite body_app, BE, !app_length; lia).
  assert (HA2 := HA). rewrite (app_assoc l1), !ascending_app in HA2.
  destruct (z <? 0) eqn:Z1; [|destruct (0 <? z) eqn:Z2].
  - apply Z.ltb_lt in Z1. rewrite (proj2 (Z.compare_lt_iff z 0) Z1) in Hz. rewrite RT. replace (lf + (length (body m1) + j))%nat with (st + j)%nat by (unfold st; lia).
    rewrite (end_exact size Hsize d st e j m2 (body l2)); auto; try lia.
    2: { intros c r Ec. assert (Hh := body_head size Hsize (m2 ++ l2)). rewrite body_app, Ec in Hh. destruct Hh as [[C _]|(c' & r' & C & Hc & _)]; [apply Forall_app; now split|discriminate|]. injection C as -> ->. exact Hc. }
    cbn [bindr]. replace (st + length (record e))%nat with (length H + length (body (l1 ++ m1 ++ [e])))%nat. 2: { rewrite !body_app, !app_length, BE, app_length. cbn [length body map concat]. unfold st, lf. cbn. lia. }
    rewrite (IH (l1 ++ m1 ++ [e]) m2 l2).
    + replace (m1 ++ e :: m2) with ((m1 ++ [e]) ++ m2) by now rewrite <- app_assoc. rewrite find_app_none; [reflexivity|]. intros x Hx. assert (lex (e_name x) q = Lt) as HX; [|now apply (named_neq q x Lt)]. apply in_app_or in Hx. destruct Hx as [Hx|[<-|[]]]; [|now symmetry].
      apply (lex_lt_trans _ (e_name e)); [|now symmetry]. destruct HA2 as ((_ & HA2 & _) & _). apply HA2; [exact Hx|now left].
    + replace ((l1 ++ m1 ++ [e]) ++ m2 ++ l2) with (l1 ++ (m1 ++ e :: m2) ++ l2) by (rewrite <- !app_assoc; reflexivity). exact HG.
    + replace ((l1 ++ m1 ++ [e]) ++ m2 ++ l2) with (l1 ++ (m1 ++ e :: m2) ++ l2) by (rewrite <- !app_assoc; reflexivity). exact HA.
    + replace ((l1 ++ m1 ++ [e]) ++ m2 ++ l2) with (l1 ++ (m1 ++ e :: m2) ++ l2) by (rewrite <- !app_assoc; reflexivity). exact Hd.
    + rewrite body_app, BE, !app_length in Hf. unfold record in Hf. rewrite app_length in Hf. cbn [length] in Hf. lia.
  - apply Z.ltb_lt in Z2. rewrite (proj2 (Z.compare_gt_iff z 0) Z2) in Hz. unfold lf, st. fold lf. replace (lf + length (body m1))%nat with (length H + length (body l1) + length (body m1))%nat by reflexivity. unfold lf.
    rewrite (IH l1 m1 (e :: m2 ++ l2)).
    + rewrite find_app_l; [reflexivity|]. intros x Hx. assert (lex (e_name x) q = Gt) as HX; [|now apply (named_neq q x Gt)]. destruct Hx as [<-|Hx]; [now symmetry|]. apply lex_lt_gt. apply (lex_lt_trans _ (e_name e)); [apply lex_gt_lt; now symmetry|].
      destruct HA2 as ((_ & (_ & (HA3 & _) & _) & _) & _ & HA4). rewrite Forall_forall in HA3. now apply HA3.
    + rewrite <- !app_assoc in HG. exact HG.
    + rewrite <- !app_assoc in HA. exact HA.
    + rewrite Hd. rewrite <- !app_assoc. reflexivity.
    + rewrite body_app, BE, !app_length in Hf. unfold record in Hf. rewrite app_length in Hf. cbn [length] in Hf. lia.
  - apply Z.ltb_ge in Z1, Z2. assert (z = 0) by lia. subst z. cbn in Hz. symmetry in Hz. apply lex_eq in Hz.
    assert (FD : find (named q) (m1 ++ e :: m2) = Some e).
    { rewrite find_app_none; [cbn; unfold named at 1; rewrite Hz, leqb_refl; reflexivity|]. intros x Hx. apply (named_neq q x Lt); [|discriminate]. rewrite <- Hz. destruct HA2 as ((_ & HA2 & _) & _). apply HA2; [exact Hx|now left]. }
    rewrite FD. cbn [found]. pose proof (line_len size e HGe) as Hl. pose proof HGe as (Hgn & Ho & Hpe). pose proof (hex_len _ _ Ho) as Hh.
    assert (HR : (length (record e) >= length (line e) + 1)%nat) by (unfold record; rewrite app_length; cbn [length]; lia).
    destruct (length d - st <? 2 * size)%nat eqn:E1; [apply Nat.ltb_lt in E1; lia|]. clear E1.
    assert (Hbd : bytes (body m2 ++ body l2)) by (apply bytes_app; split; now apply (body_bytes size)).
    assert (Hbr : bytes (record e)) by now apply (record_bytes size).
    assert (S3 : skipn st d = hex_text (e_oid e) ++ [32] ++ (e_name e ++ 10 :: (match e_peel e with Some p => 94 :: hex_text p ++ [10] | None => [] end) ++ body m2 ++ body l2)).
    { rewrite S2. unfold record, line. destruct (e_peel e); repeat (rewrite <- ?app_assoc; cbn [app]); reflexivity. }
    rewrite S3. rewrite parse_hex; auto.
    2: { assert (X : bytes (skipn st d)) by (rewrite S2; apply bytes_app; split; assumption). rewrite S3 in X. apply bytes_app in X. apply X. }
    cbn [bindr].
    assert (S4 : skipn (st + 2 * size + 1) d = e_name e ++ 10 :: (match e_peel e with Some p => 94 :: hex_text p ++ [10] | None => [] end) ++ body m2 ++ body l2).
    { replace (st + 2 * size + 1)%nat with (st + length (hex_text (e_oid e) ++ [32%Z]))%nat by (rewrite app_length, Hh; cbn; lia). apply skipn_more. rewrite S3. rewrite <- !app_assoc. reflexivity. }
    assert (HN : no_nl (e_name e)) by (unfold no_nl; eapply Forall_impl; [|apply (good_name_chars), Hgn]; cbn; tauto).
    rewrite (memchr_at _ _ _ _ _ S4) by (try exact HN; lia). cbn [bindr].
    set (eol := (st + 2 * size + 1 + length (e_name e))%nat).
    assert (S5 : skipn (S eol) d = (match e_peel e with Some p => 94 :: hex_text p ++ [10] | None => [] end) ++ body m2 ++ body l2).
    { replace (S eol) with (st + 2 * size + 1 + length (e_name e ++ [10%Z]))%nat by (rewrite app_length; cbn; unfold eol; lia). apply skipn_more. rewrite S4. rewrite <- !app_assoc. reflexivity. }
    destruct (e_peel e) as [p|] eqn:Ep.
    + destruct Hpe as [Hpe Hpz]. cbn [app] in S5. assert (Lp : (S eol + S (length (hex_text p)) < length d)%nat). { unfold record in Hlen. rewrite Ep, app_length in Hlen. cbn [length] in Hlen. rewrite app_length in Hlen. cbn [length] in Hlen. unfold eol. lia. }
      replace (S eol <? length d)%nat with true by (symmetry; apply Nat.ltb_lt; lia). rewrite (rd_at _ _ _ _ S5). cbn [bindr]. unfold CARET. cbn [Z.eqb Pos.eqb].
      pose proof (hex_len _ _ Hpe) as Hh2. destruct (length d - S (S eol) <? 2 * size)%nat eqn:E3; [apply Nat.ltb_lt in E3; lia|].
      assert (S6 : skipn (S (S eol)) d = hex_text p ++ 10 :: body m2 ++ body l2). { replace (S (S eol)) with (S eol + length [94%Z])%nat by (cbn; lia). apply skipn_more. rewrite S5. cbn [app]. now rewrite <- app_assoc. }
      rewrite S6, parse_hex; auto. 2: { constructor; [unfold is_byte; lia|exact Hbd]. }
      cbn [bindr]. now rewrite (peel_of_good e p).
    + cbn [app] in S5. destruct (S eol <? length d)%nat eqn:E3; [|reflexivity]. apply Nat.ltb_lt in E3.
      destruct (rd_ok d (S eol) E3) as (c & Hc & _). rewrite Hc. cbn [bindr]. unfold CARET. destruct (c =? 94) eqn:Ec; [|reflexivity]. exfalso. apply Z.eqb_eq in Ec. subst c.
      assert (Hhd := body_head size Hsize (m2 ++ l2)). rewrite body_app in Hhd. destruct Hhd as [[C _]|(c' & r' & C & Hc' & _)]; [apply Forall_app; now split| |].
      * rewrite C in S5. assert (length (skipn (S eol) d) = 0%nat) as X by (rewrite S5; reflexivity). rewrite skipn_length in X. lia.
      * rewrite C in S5. rewrite (rd_at _ _ _ _ S5) in Hc. apply Ok_inj in Hc. congruence.
Qed.
Lemma skip_hash_file l : Forall (good_ent size) l -> skip_hash (S (length (file_text l))) (file_text l) 0 = Ok (length (hdr ++ [10])).
Proof.
  intros HG. unfold file_text. fold hdr. set (d := hdr ++ 10 :: body l). assert (HL : (length d = length hdr + 1 + length (body l))%nat) by (unfold d; rewrite app_length; cbn [length]; lia).
  assert (E : hdr = 35 :: tl hdr) by reflexivity. cbn [skip_hash]. replace (0 <? length d)%nat with true by (symmetry; apply Nat.ltb_lt; lia).
  rewrite (rd_at d 0 35 (tl hdr ++ 10 :: body l)) by reflexivity. cbn [bindr]. unfold HASH at 1. cbn [Z.eqb Pos.eqb].
  rewrite (memchr_at d 0 _ hdr (body l)); [|reflexivity|repeat constructor; discriminate|lia|lia]. cbn [bindr].
  replace (S (0 + length hdr)) with (length (hdr ++ [10])) by (rewrite app_length; cbn; lia).
  assert (exists f, length d = S f) as (f & ->) by (exists (length d - 1)%nat; lia). cbn [skip_hash]. destruct (length (hdr ++ [10%Z]) <? length d)%nat eqn:E1; [|reflexivity]. apply Nat.ltb_lt in E1.
  assert (SK : skipn (length (hdr ++ [10])) d = body l) by (replace d with ((hdr ++ [10]) ++ body l) by (unfold d; rewrite <- app_assoc; reflexivity); now apply skipn_pre).
  destruct (body_head size Hsize l HG) as [[C _]|(c & r & C & _ & Hc)]; [rewrite C, app_length in *; cbn [length] in *; lia|]. rewrite C in SK. rewrite (rd_at _ _ _ _ SK). cbn [bindr]. unfold HASH. destruct (c =? 35) eqn:Ec; [apply Z.eqb_eq in Ec; contradiction|reflexivity].
Qed.
Lemma lookup_file l b q : good_list size l -> packed_lookup size (file_text l) b q = (found (find (named q) l), true).
Proof.
  intros [HG HA]. unfold packed_lookup. assert (X : match file_text l with [] => (PNone, b, None) | _ => peeling_mode (file_text l) b end = peeling_mode (file_text l) b) by reflexivity. rewrite X, (peeling_file size Hsize). f_equal.
  rewrite skip_hash_file by exact HG. cbn [bindr].
  assert (D : file_text l = (hdr ++ [10]) ++ body ([] ++ l ++ [])) by (cbn [app]; rewrite app_nil_r; unfold file_text; fold hdr; rewrite <- app_assoc; reflexivity).
  pose proof (bisect_exact (hdr ++ [10]) (file_text l) q ltac:(cbn; lia) (S (length (file_text l))) [] l []) as P. cbn [app] in P. rewrite !app_nil_r in P. cbn [body map concat length] in P. rewrite Nat.add_0_r in P.
  assert (LL : (length (file_text l) = length (hdr ++ [10%Z]) + length (body l))%nat) by (rewrite D; cbn [app]; rewrite app_nil_r, app_length; reflexivity).
  rewrite <- LL in P. apply P; [exact HG|exact HA| |lia]. rewrite D at 1. cbn [app]. rewrite app_nil_r. reflexivity.
Qed.
End M.
