From Verif Require Import Base Str CStr CodecModel OidModel OidSpec OidProofs OidProps ReflogProofs PrefsModel PrefsSpec PrefsProofs.

(** *** Safety on any bytes *)
Lemma memchr_ok d p n : (p + n <= length d)%nat -> exists o, memchr d p n = Ok o /\ match o with Some q => (p <= q < p + n)%nat | None => True end.
Proof.
  intros H. unfold memchr. destruct (length d <? p + n)%nat eqn:E; [apply Nat.ltb_lt in E; lia|]. destruct (find_nl (skipn p d) n) as [i|] eqn:F; cbn; eexists; split; try reflexivity; auto. apply find_nl_bound in F. cbn. lia.
Qed.
Lemma memrchr_ok d p n : (p + n <= length d)%nat -> exists o, memrchr d p n = Ok o /\ match o with Some q => (p <= q < p + n)%nat | None => True end.
Proof.
  intros H. unfold memrchr. destruct (length d <? p + n)%nat eqn:E; [apply Nat.ltb_lt in E; lia|]. destruct (rfind_nl (skipn p d) n) as [i|] eqn:F; cbn; eexists; split; try reflexivity; auto. apply rfind_nl_bound in F. cbn. lia.
Qed.
Lemma rd_ok d i : (i < length d)%nat -> exists c, rd d i = Ok c /\ nth_error d i = Some c.
Proof. intros H. unfold rd. destruct (nth_error d i) as [c|] eqn:E; [eauto|]. apply nth_error_None in E. lia. Qed.
Lemma start_safe fuel : forall d buf nl, (buf <= nl < length d)%nat -> (nl < fuel)%nat -> exists r, start_of_record fuel d buf nl = Ok r /\ (buf <= r <= nl)%nat.
Proof.
  induction fuel as [|fuel IH]; intros d buf nl H Hf; [lia|]. cbn [start_of_record]. destruct (memrchr_ok d buf (nl - buf)) as (o & -> & Ho); [lia|]. cbn [bindr]. destruct o as [q|]; [|exists buf; split; [reflexivity|lia]].
  destruct (rd_ok d (S q)) as (c & -> & _); [lia|]. cbn [bindr]. destruct ((c =? CARET) && (buf <? q)%nat) eqn:E.
  - apply andb_true_iff in E. destruct E as [_ E]. apply Nat.ltb_lt in E. destruct (IH d buf (q - 1)%nat) as (r & -> & Hr); [lia|lia|]. exists r. split; [reflexivity|lia].
  - exists (S q). split; [reflexivity|lia].
Qed.
Lemma end_safe fuel : forall d p e, (p <= e <= length d)%nat -> (e - p < fuel)%nat -> exists r, end_of_record fuel d p e = Ok r /\ (p <= r <= e)%nat /\ (p < e -> p < r)%nat.
Proof.
  induction fuel as [|fuel IH]; intros d p e H Hf; [lia|]. cbn [end_of_record]. destruct (memchr_ok d p (e - p)) as (o & -> & Ho); [lia|]. cbn [bindr]. destruct o as [q|]; [|exists e; split; [reflexivity|lia]].
  assert (A : exists b : bool, (if (S q <? e)%nat then do c <- rd d (S q) ;; Ok (c =? CARET) else Ok false) = Ok b /\ (b = true -> S q < e)%nat).
  { destruct (S q <? e)%nat eqn:E; [|exists false; split; [reflexivity|discriminate]]. apply Nat.ltb_lt in E. destruct (rd_ok d (S q)) as (c & -> & _); [lia|]. cbn [bindr]. eexists. split; [reflexivity|]. intros _. exact E. }
  destruct A as (b & -> & Hb). cbn [bindr]. destruct b; [|exists (S q); split; [reflexivity|lia]].
  specialize (Hb eq_refl). destruct (IH d (S (S q)) e) as (r & -> & Hr); [lia|lia|]. exists r. split; [reflexivity|lia].
Qed.
Lemma memcmp_ok a : forall b n, (n <= length a)%nat -> (n <= length b)%nat -> exists z, memcmp a b n = Ok z.
Proof.
  induction a as [|x a IH]; intros [|y b] [|n] Ha Hb; cbn in Ha, Hb; try lia; cbn [memcmp]; eauto. destruct (x =? y); eauto. apply IH; lia.
Qed.
Lemma cmp_safe size d rec name : (rec <= length d)%nat -> exists z, cmp_record size d rec name = Ok z /\ (z = 0 -> (2 * size + 3 <= length d - rec)%nat).
Proof.
  intros H. unfold cmp_record. destruct (length d - rec <? 2 * size + 3)%nat eqn:E; [exists (-1); split; [reflexivity|lia]|]. apply Nat.ltb_ge in E.
  destruct (memchr_ok d (rec + 2 * size + 1) (length d - rec - (2 * size + 1))) as (o & -> & Ho); [lia|]. cbn [bindr].
  set (n := match o with Some q => (q - (rec + 2 * size + 1))%nat | None => (length d - rec - (2 * size + 1))%nat end).
  assert (Hn : (n <= length d - rec - (2 * size + 1))%nat) by (unfold n; destruct o; lia).
  destruct (memcmp_ok (skipn (rec + 2 * size + 1) d) name (Nat.min (length name) n)) as (z & ->); [rewrite skipn_length; lia|lia|]. cbn [bindr]. destruct ((z =? 0) && negb (n =? length name)%nat); [destruct (length name <? n)%nat|]; eexists; split; try reflexivity; intros; lia.
Qed.
Definition fine {A} (r : res A) : Prop := match r with Ok _ => True | Err e => e = -1 \/ e = -3 | _ => False end.
Lemma oid_fine size s n : bytes s -> (n <= length s)%nat \/ In 0 s -> fine (oid_from_prefix size s n).
Proof. intros Hb H. destruct (oid_parse_safe size s n Hb H) as [(id & ->) | -> ]; cbn; auto. Qed.
Lemma bytes_skipn n d : bytes d -> bytes (skipn n d).
Proof. unfold bytes. rewrite !Forall_forall. intros H x Hx. apply H. rewrite <- (firstn_skipn n d). apply in_or_app. now right. Qed.
Lemma fine_bind {A B} (r : res A) (k : A -> res B) : fine r -> (forall x, r = Ok x -> fine (k x)) -> fine (bindr r k).
Proof. destruct r; cbn; auto. Qed.
Lemma bisect_safe size d name : bytes d -> forall fuel left right, (left <= right <= length d)%nat \/ (right <= left)%nat -> (right - left < fuel)%nat -> fine (bisect size fuel d name left right).
Proof.
  intros Hd. induction fuel as [|fuel IH]; intros lf right H Hf; [lia|]. cbn [bisect]. destruct (lf <? right)%nat eqn:E; [|cbn; auto]. apply Nat.ltb_lt in E. destruct H as [H|H]; [|lia].
  set (mid := (lf + (right - lf) / 2)%nat). assert (Hm : (lf <= mid < right)%nat) by (unfold mid; pose proof (Nat.div_lt (right - lf) 2); lia).
  destruct (start_safe (S mid) d lf mid) as (rec & -> & Hr); [lia|lia|]. cbn [bindr]. destruct (cmp_safe size d rec name) as (z & -> & Hz); [lia|]. cbn [bindr].
  destruct (z <? 0) eqn:Z1; [|destruct (0 <? z) eqn:Z2].
  - destruct (end_safe (S right) d mid right) as (l & -> & Hl & Hl2); [lia|lia|]. cbn [bindr]. apply IH; lia.
  - apply IH; lia.
  - apply Z.ltb_ge in Z1, Z2. specialize (Hz ltac:(lia)). destruct (length d - rec <? 2 * size)%nat eqn:E1; [cbn; auto|]. apply fine_bind; [apply oid_fine; [now apply bytes_skipn|left; rewrite skipn_length; lia]|]. intros oid _.
    destruct (memchr_ok d (rec + 2 * size + 1) (length d - (rec + 2 * size + 1))) as (o & -> & Ho); [lia|]. cbn [bindr]. destruct o as [eol|]; [|cbn; auto]. destruct (S eol <? length d)%nat eqn:E2; [|cbn; auto]. apply Nat.ltb_lt in E2. destruct (rd_ok d (S eol)) as (c & -> & _); [lia|]. cbn [bindr]. destruct (c =? CARET); [|cbn; auto].
    destruct (length d - S (S eol) <? 2 * size)%nat eqn:E3; [cbn; auto|]. apply Nat.ltb_ge in E3. apply fine_bind; [apply oid_fine; [now apply bytes_skipn|left; rewrite skipn_length; lia]|]. intros p _. cbn. auto.
Qed.
Lemma skip_hash_safe d : forall fuel l, (l <= length d)%nat -> (length d - l < fuel)%nat -> (exists r, skip_hash fuel d l = Ok r /\ (r <= length d)%nat) \/ skip_hash fuel d l = Err (-1).
Proof.
  induction fuel as [|fuel IH]; intros l H Hf; [lia|]. cbn [skip_hash]. destruct (l <? length d)%nat eqn:E; [|left; eauto]. apply Nat.ltb_lt in E. destruct (rd_ok d l) as (c & -> & _); [lia|]. cbn [bindr]. destruct (c =? HASH); [|left; eauto].
  destruct (memchr_ok d l (length d - l)) as (o & -> & Ho); [lia|]. cbn [bindr]. destruct o as [q|]; [|right; reflexivity]. apply IH; lia.
Qed.
Definition zt (s : list Z) : Prop := exists t, s = t ++ [0].
Lemma zt_in s : zt s -> In 0 s.
Proof. intros (t & ->). apply in_or_app. right. now left. Qed.
Lemma zt_skipn s n : zt s -> (n < length s)%nat -> zt (skipn n s).
Proof. intros (t & ->) H. rewrite app_length in H. cbn in H. exists (skipn n t). rewrite skipn_app. replace (n - length t)%nat with O by lia. reflexivity. Qed.
Lemma zt_len s : zt s -> (0 < length s)%nat.
Proof. intros (t & ->). rewrite app_length. cbn. lia. Qed.
Lemma zt_tl c s : zt (c :: s) -> c <> 0 -> zt s.
Proof. intros (t & E) H. destruct t as [|x t]; cbn in E; [injection E; intros; congruence|]. injection E as -> ->. now exists t. Qed.
Lemma strnl_zt s : zt s -> exists o, strnl s = Ok o /\ match o with Some (a, r) => s = a ++ 10 :: r /\ zt r | None => True end.
Proof.
  induction s as [|c s IH]; intros H; [destruct H as ([|? ?] & E); discriminate|]. cbn [strnl]. unfold NL. destruct (c =? 10) eqn:E1.
  - apply Z.eqb_eq in E1. subst c. eexists. split; [reflexivity|]. split; [reflexivity|]. apply (zt_tl 10); [exact H|lia].
  - destruct (c =? 0) eqn:E2; [eexists; split; [reflexivity|exact I]|]. apply Z.eqb_neq in E1, E2. destruct IH as (o & -> & Ho); [apply (zt_tl c); auto|]. cbn [bindr]. eexists. split; [reflexivity|]. destruct o as [[a r]|]; cbn; [|exact I]. destruct Ho as [-> Hr]. auto.
Qed.
Lemma skip_comments_safe : forall fuel s, zt s -> (length s < fuel)%nat -> (exists r, skip_comments fuel s = Ok r /\ zt r /\ (length r <= length s)%nat /\ (bytes s -> bytes r)) \/ skip_comments fuel s = Err (-1).
Proof.
  induction fuel as [|fuel IH]; intros s Hs Hf; [lia|]. cbn [skip_comments]. destruct (1 <? length s)%nat; [|left; eauto]. pose proof (zt_len _ Hs). destruct s as [|c s]; [cbn in *; lia|]. cbn [first bindr]. destruct (c =? HASH); [|left; eauto 6].
  destruct (strnl_zt _ Hs) as (o & -> & Ho). cbn [bindr]. destruct o as [[a r]|]; [|right; reflexivity]. destruct Ho as [E Hr].
  assert (L : (length r < length (c :: s))%nat) by (rewrite E, app_length; cbn [length]; lia).
  destruct (IH r Hr ltac:(lia)) as [(r' & E' & H1 & H2 & H3)|E']; [left|right; exact E']. exists r'. split; [exact E'|]. split; [exact H1|]. split; [lia|]. intros B. apply H3. rewrite E in B. apply bytes_app in B. destruct B as [_ B]. now inversion B.
Qed.
(** Parsing an id that succeeds has looked only at digits. *)
Lemma oid_parse_len size s id : bytes s -> zt s -> (0 < size)%nat -> oid_from_prefix size s (2 * size) = Ok id -> (2 * size < length s)%nat.
Proof.
  intros Hb Hz Hs H. apply oid_parse_exact in H; [|exact Hb]. destruct H as (_ & _ & _ & vs & H & _). pose proof (zt_len _ Hz) as HL. destruct (Nat.le_gt_cases (length s) (2 * size)) as [L|L]; [|exact L]. exfalso.
  rewrite firstn_all2 in H by lia. destruct Hz as (t & ->). unfold digits_of in H. assert (In 0 (t ++ [0])) as Hi by (apply in_or_app; right; now left).
  clear - H Hi. induction H as [|c v cs vs Hc H IH]; [destruct Hi|]. destruct Hi as [->|Hi]; [|auto]. revert Hc. vm_compute. discriminate.
Qed.
Lemma read_refs_safe size mode : (0 < size)%nat -> forall fuel s cache, zt s -> bytes s -> (length s < fuel)%nat -> fine (read_refs size fuel mode s cache).
Proof.
  intros Hs. induction fuel as [|fuel IH]; intros s cache Hz Hb Hf; [lia|]. cbn [read_refs]. destruct (1 <? length s)%nat; [|exact I].
  apply fine_bind; [apply oid_fine; [exact Hb|right; now apply zt_in]|]. intros oid Ho. pose proof (oid_parse_len _ _ _ Hb Hz Hs Ho) as HL.
  pose proof (zt_skipn s (2 * size) Hz HL) as Hz2. pose proof (bytes_skipn (2 * size) s Hb) as Hb2. pose proof (skipn_length (2 * size) s) as Hl2. destruct (skipn (2 * size) s) as [|c s2]; [cbn in Hl2; lia|]. cbn [first bindr tl].
  destruct (negb (c =? SP)) eqn:Ec; [cbn; auto|]. apply negb_false_iff, Z.eqb_eq in Ec. subst c. apply zt_tl in Hz2; [|unfold SP; lia].
  destruct (strnl_zt _ Hz2) as (o & -> & H3). cbn [bindr]. destruct o as [[ln s3]|]; [|cbn; auto]. destruct H3 as [E3 Hz3]. pose proof (zt_len _ Hz3) as L3.
  assert (Hb3 : bytes s3) by (inversion Hb2; subst; match goal with H : Forall _ (ln ++ _) |- _ => apply bytes_app in H; destruct H as [_ H]; now inversion H end).
  assert (HL3 : (length s3 < length s)%nat) by (subst s2; cbn [length] in Hl2; rewrite app_length in Hl2; cbn [length] in Hl2; lia).
  destruct s3 as [|c s3]; [cbn in L3; lia|]. cbn [first bindr]. destruct (c =? CARET) eqn:Ec; [|apply IH; auto; lia]. apply Z.eqb_eq in Ec. subst c. cbn [tl skipn].
  apply zt_tl in Hz3; [|unfold CARET; lia]. inversion Hb3 as [|? ? _ Hb4]; subst. apply fine_bind; [apply oid_fine; [exact Hb4|right; now apply zt_in]|]. intros peel Hp. pose proof (oid_parse_len _ _ _ Hb4 Hz3 Hs Hp) as HL4.
  pose proof (zt_skipn s3 (2 * size) Hz3 HL4) as Hz5. pose proof (bytes_skipn (2 * size) s3 Hb4) as Hb5. pose proof (skipn_length (2 * size) s3) as Hl5. cbn [length] in *. set (s5 := skipn (2 * size) s3) in *. clearbody s5.
  assert (A : (exists r, (if (1 <? length s5)%nat then do e <- strnl s5 ;; match e with None => Err (-1) | Some (_, r) => Ok r end else Ok s5) = Ok r /\ zt r /\ bytes r /\ (length r <= length s5)%nat) \/ (if (1 <? length s5)%nat then do e <- strnl s5 ;; match e with None => Err (-1) | Some (_, r) => Ok r end else Ok s5) = Err (-1)).
  { destruct (1 <? length s5)%nat; [|left; eauto 6]. destruct (strnl_zt _ Hz5) as (o & -> & Ho5). cbn [bindr]. destruct o as [[a r]|]; [|right; reflexivity]. destruct Ho5 as [-> Hr]. left. exists r. split; [reflexivity|]. split; [exact Hr|]. apply bytes_app in Hb5. destruct Hb5 as [_ Hb5]. split; [now inversion Hb5|]. rewrite app_length. cbn [length]. lia. }
  destruct A as [(r & -> & A1 & A2 & A3) | -> ]; cbn [bindr]; [|cbn; auto]. apply IH; auto; lia.
Qed.
Lemma peeling_bound data b m s p : peeling_mode data b = (m, s, Some p) -> (p <= length data)%nat.
Proof.
  unfold peeling_mode. destruct (prefixb traits data) eqn:E; [|intros H; injection H as _ _ <-; lia]. apply prefixb_spec in E. destruct E as (t & ->). rewrite skipn_app, Nat.sub_diag, skipn_all. cbn [app skipn].
  destruct (find_nl t (length t)) as [i|] eqn:F; [|discriminate]. intros H. assert (p = (length traits + S i)%nat) by (injection H; congruence). apply find_nl_bound in F. rewrite app_length. lia.
Qed.
Lemma reload_fine size data b : (0 < size)%nat -> bytes data -> fine (reload size data b).
Proof.
  intros Hs Hb. unfold reload. destruct (peeling_mode data b) as [[m s] [p|]] eqn:E; [|cbn; auto]. apply peeling_bound in E.
  assert (Hz : zt (skipn p (data ++ [0]))) by (apply zt_skipn; [now exists data|rewrite app_length; cbn; lia]).
  assert (Hb2 : bytes (skipn p (data ++ [0]))) by (apply bytes_skipn, bytes_app; split; [exact Hb|constructor; [unfold is_byte; lia|constructor]]).
  set (t := skipn p (data ++ [0])) in *. destruct (skip_comments_safe (S (length t)) t Hz ltac:(lia)) as [(r & -> & H1 & H2 & H3) | -> ]; cbn [bindr]; [|cbn; auto].
  apply fine_bind; [apply read_refs_safe; auto; lia|]. intros. cbn. auto.
Qed.
Lemma packed_lookup_fine size data b name : (0 < size)%nat -> bytes data -> fine (fst (packed_lookup size data b name)).
Proof.
  intros Hs Hb. unfold packed_lookup. destruct (match data with [] => (PNone, b, None) | _ => peeling_mode data b end) as [[m s] p]. cbn [fst]. destruct s.
  - destruct (skip_hash_safe data (S (length data)) 0 ltac:(lia) ltac:(lia)) as [(r & -> & Hr) | -> ]; cbn [bindr]; [|cbn; auto]. apply bisect_safe; auto; lia.
  - unfold unsorted_lookup. apply fine_bind; [now apply reload_fine|]. intros x _. destruct (find _ (fst x)); cbn; auto.
Qed.

(** *** Bisection is exact *)
Lemma skipn_pre {A} (a b : list A) n : n = length a -> skipn n (a ++ b) = b.
Proof. intros ->. rewrite skipn_app, Nat.sub_diag, skipn_all. reflexivity. Qed.
Lemma memcmp_min a : forall b, exists z, memcmp a b (Nat.min (length b) (length a)) = Ok z /\ ((z <> 0 -> sgn_cmp z = lex a b) /\ (z = 0 -> lex a b = (length a ?= length b)%nat)).
Proof.
  induction a as [|x a IH]; intros [|y b]; cbn [length Nat.min memcmp lex Nat.compare]; try (exists 0; split; [reflexivity|split; [congruence|reflexivity]]).
  destruct (x =? y) eqn:E.
  - apply Z.eqb_eq in E. subst y. rewrite Z.compare_refl. apply IH.
  - apply Z.eqb_neq in E. exists (x - y). split; [reflexivity|]. unfold sgn_cmp. destruct (Z.compare_spec x y), (Z.compare_spec (x - y) 0); split; intros; try reflexivity; lia.
Qed.
Lemma memcmp_app a r b n : (n <= length a)%nat -> memcmp (a ++ r) b n = memcmp a b n.
Proof. revert b n. induction a as [|x a IH]; intros b [|n] H; cbn in H; try lia; cbn [app memcmp]; try reflexivity. - destruct r; reflexivity. - destruct b; [reflexivity|]. destruct (x =? z); [apply IH; lia|reflexivity]. Qed.

Lemma memchr_at d p n a r : skipn p d = a ++ 10 :: r -> no_nl a -> (length a < n)%nat -> (p + n <= length d)%nat -> memchr d p n = Ok (Some (p + length a)%nat).
Proof. intros E Ha Hn Hl. unfold memchr. destruct (length d <? p + n)%nat eqn:E1; [apply Nat.ltb_lt in E1; lia|]. rewrite E, find_nl_some by assumption. reflexivity. Qed.
Lemma rd_at d p c r : skipn p d = c :: r -> rd d p = Ok c.
Proof.
  intros E. unfold rd. enough (nth_error d p = Some c) as -> by reflexivity. revert d E. induction p as [|p IH]; intros [|x d] E; cbn in E; try discriminate; cbn; [now injection E as -> _|now apply IH].
Qed.
Lemma skipn_more {A} (d : list A) p a r : skipn p d = a ++ r -> skipn (p + length a) d = r.
Proof. intros E. rewrite Nat.add_comm. rewrite <- (skipn_skipn (length a) p). rewrite E. now apply skipn_pre. Qed.
(** The record around an offset. *)
Lemma locate m : forall k, (k < length (body m))%nat -> exists m1 e m2 j, m = m1 ++ e :: m2 /\ k = (length (body m1) + j)%nat /\ (j < length (record e))%nat.
Proof.
  induction m as [|e m IH]; intros k H; [cbn in H; lia|]. unfold body in H. cbn in H. rewrite app_length in H. fold (body m) in H. destruct (Nat.lt_ge_cases k (length (record e))) as [L|L].
  - exists [], e, m, k. cbn. auto.
  - destruct (IH (k - length (record e))%nat ltac:(lia)) as (m1 & e' & m2 & j & -> & Hk & Hj). exists (e :: m1), e', m2, j. split; [reflexivity|]. split; [|exact Hj]. unfold body. cbn. rewrite app_length. fold (body m1). lia.
Qed.
Lemma memrchr_split d p n a b : skipn p d = a ++ b -> (length a <= n)%nat -> (p + n <= length d)%nat ->
  memrchr d p n = Ok (match rfind_nl b (n - length a) with Some i => Some (p + (length a + i))%nat | None => option_map (fun i => (p + i)%nat) (rfind_nl a (length a)) end).
Proof.
  intros E Hn Hl. unfold memrchr. destruct (length d <? p + n)%nat eqn:E1; [apply Nat.ltb_lt in E1; lia|]. rewrite E. replace n with (length a + (n - length a))%nat at 1 by lia. rewrite rfind_nl_app. destruct (rfind_nl b (n - length a)); reflexivity.
Qed.
Lemma end_stop d q e rest : (S q <= e)%nat -> (skipn (S q) d = rest) -> (forall c r, rest = c :: r -> c <> 94) -> (S q < e -> rest <> [])%nat ->
  (if (S q <? e)%nat then do c <- rd d (S q) ;; Ok (c =? CARET) else Ok false) = Ok false.
Proof.
  intros H E Hc Hr. destruct (S q <? e)%nat eqn:E1; [|reflexivity]. apply Nat.ltb_lt in E1. destruct rest as [|c r]; [now destruct (Hr E1)|]. rewrite (rd_at _ _ _ _ E). cbn [bindr]. unfold CARET. specialize (Hc c r eq_refl). destruct (c =? 94) eqn:Ec; [apply Z.eqb_eq in Ec; contradiction|reflexivity].
Qed.
Section X.
Variable size : nat.
Hypothesis Hsize : (0 < size)%nat.
Lemma cmp_exact d rec e rest q : good_ent size e -> skipn rec d = record e ++ rest -> exists z, cmp_record size d rec q = Ok z /\ sgn_cmp z = lex (e_name e) q.
Proof.
  intros HG E. pose proof (line_len size e HG) as Hl. pose proof (name_pos size e HG) as Hn. pose proof HG as (Hgn & Ho & _). pose proof (hex_len _ _ Ho) as Hh.
  assert (HL : (length d - rec = length (record e) + length rest)%nat) by (rewrite <- skipn_length, E, app_length; reflexivity).
  assert (HR : (length (record e) >= length (line e) + 1)%nat) by (unfold record; rewrite app_length; cbn [length]; lia).
  unfold cmp_record. destruct (length d - rec <? 2 * size + 3)%nat eqn:E1; [apply Nat.ltb_lt in E1; lia|]. clear E1.
  assert (E2 : skipn (rec + 2 * size + 1) d = e_name e ++ 10 :: ((match e_peel e with Some p => 94 :: hex_text p ++ [10] | None => [] end) ++ rest)).
  { replace (rec + 2 * size + 1)%nat with (rec + length (hex_text (e_oid e) ++ [32%Z]))%nat by (rewrite app_length, Hh; cbn; lia). apply skipn_more. rewrite E. unfold record, line. repeat (rewrite <- ?app_assoc; cbn [app]). reflexivity. }
  assert (HN : no_nl (e_name e)) by (unfold no_nl; eapply Forall_impl; [|apply good_name_chars, Hgn]; cbn; tauto).
  rewrite (memchr_at _ _ _ _ _ E2) by (try exact HN; lia). cbn [bindr]. replace (rec + 2 * size + 1 + length (e_name e) - (rec + 2 * size + 1))%nat with (length (e_name e)) by lia.
  rewrite E2, memcmp_app by lia. destruct (memcmp_min (e_name e) q) as (z & -> & H1 & H2). cbn [bindr].
  destruct (z =? 0) eqn:Ez; cbn [andb].
  - apply Z.eqb_eq in Ez. rewrite (H2 Ez). destruct (length (e_name e) =? length q)%nat eqn:El; cbn [negb].
    + apply Nat.eqb_eq in El. exists z. split; [reflexivity|]. subst z. rewrite El, Nat.compare_refl. reflexivity.
    + apply Nat.eqb_neq in El. destruct (length q <? length (e_name e))%nat eqn:E3.
      * apply Nat.ltb_lt in E3. exists 1. split; [reflexivity|]. symmetry. now apply Nat.compare_gt_iff.
      * apply Nat.ltb_ge in E3. exists (-1). split; [reflexivity|]. symmetry. apply Nat.compare_lt_iff. lia.
  - apply Z.eqb_neq in Ez. exists z. auto.
Qed.
Lemma rfind_end l : Forall (good_ent size) l -> rfind_nl (body l) (length (body l)) = match l with [] => None | _ => Some (length (body l) - 1)%nat end.
Proof.
  intros _. destruct l as [|e l]; [reflexivity|]. destruct (body_end (e :: l)) as [[_ ?]|(r & ->)]; [discriminate|]. rewrite app_length. cbn [length]. rewrite rfind_nl_app. cbn [rfind_nl NL]. cbn. f_equal. lia.
Qed.
Lemma start_in_line d p m1 e rest j fuel : Forall (good_ent size) m1 -> good_ent size e -> skipn p d = body m1 ++ record e ++ rest -> (j <= length (line e))%nat -> (0 < fuel)%nat ->
  start_of_record fuel d p (p + (length (body m1) + j)) = Ok (p + length (body m1))%nat.
Proof.
  intros HM HG E Hj Hf. destruct fuel as [|fuel]; [lia|]. cbn [start_of_record]. replace (p + (length (body m1) + j) - p)%nat with (length (body m1) + j)%nat by lia.
  assert (HL : (length d - p = length (body m1) + length (record e) + length rest)%nat) by (rewrite <- skipn_length, E, !app_length; lia).
  assert (HR : (length (record e) >= length (line e) + 1)%nat) by (unfold record; rewrite app_length; cbn [length]; lia).
  rewrite (memrchr_split _ _ _ _ _ E) by lia. replace (length (body m1) + j - length (body m1))%nat with j by lia.
  unfold record. rewrite <- app_assoc. rewrite rfind_nl_none_app by (try apply (line_no_nl size); auto). rewrite rfind_end by exact HM. cbn [bindr]. destruct m1 as [|x m1]; [cbn; f_equal; lia|]. cbn [option_map].
  assert (Hpos : (0 < length (body (x :: m1)))%nat). { apply Forall_cons_iff in HM. destruct HM as [Hx _]. unfold body. cbn. unfold record. rewrite !app_length. pose proof (line_len size x Hx). lia. }
  set (B := body (x :: m1)) in *. destruct (line_head size Hsize e HG) as (c & r & El & Hc & _).
  assert (E2 : skipn (S (p + (length B - 1))) d = c :: r ++ (10 :: match e_peel e with Some p => 94 :: hex_text p ++ [10] | None => [] end) ++ rest).
  { replace (S (p + (length B - 1))) with (p + length B)%nat by lia. apply skipn_more. rewrite E. unfold record. rewrite El, <- app_assoc. reflexivity. }
  rewrite (rd_at _ _ _ _ E2). cbn [bindr]. unfold CARET. destruct (c =? 94) eqn:Ec; [apply Z.eqb_eq in Ec; contradiction|]. cbn [andb]. f_equal. lia.
Qed.
Lemma start_exact d p m1 e rest j : Forall (good_ent size) m1 -> good_ent size e -> skipn p d = body m1 ++ record e ++ rest -> (j < length (record e))%nat -> (0 < p)%nat ->
  start_of_record (S (p + (length (body m1) + j))) d p (p + (length (body m1) + j)) = Ok (p + length (body m1))%nat.
Proof.
  intros HM HG E Hj Hp. destruct (Nat.le_gt_cases j (length (line e))) as [L|L]; [apply (start_in_line d p m1 e rest); auto; lia|].
  pose proof (line_len size e HG) as Hl. pose proof (name_pos size e HG) as Hn. pose proof HG as (_ & _ & Hpe).
  assert (HL : (length d - p = length (body m1) + length (record e) + length rest)%nat) by (rewrite <- skipn_length, E, !app_length; lia).
  cbn [start_of_record]. replace (p + (length (body m1) + j) - p)%nat with (length (body m1) + j)%nat by lia.
  destruct (e_peel e) as [pl|] eqn:Ep; [|exfalso; unfold record in Hj; rewrite Ep, app_length in Hj; cbn [length] in Hj; lia].
  assert (ER : record e = (line e ++ [10]) ++ (94 :: hex_text pl) ++ [10]) by (unfold record; rewrite Ep, <- app_assoc; reflexivity).
  assert (E1 : skipn p d = (body m1 ++ line e ++ [10]) ++ (94 :: hex_text pl) ++ ([10] ++ rest)) by (rewrite E, ER; repeat (rewrite <- ?app_assoc; cbn [app]); reflexivity).
  assert (LR : (length (record e) = length (line e) + 1 + S (length (hex_text pl)) + 1)%nat) by (rewrite ER, !app_length; cbn [length]; lia).
  assert (LA : (length (body m1 ++ line e ++ [10%Z]) = length (body m1) + length (line e) + 1)%nat) by (rewrite !app_length; cbn [length]; lia).
  rewrite (memrchr_split _ _ _ _ _ E1) by lia. rewrite rfind_nl_none_app.
  2: { constructor; [lia|]. eapply Forall_impl; [|apply hex_chars2, Hpe]. cbn. tauto. }
  2: { rewrite LA. cbn [length]. lia. }
  replace (body m1 ++ line e ++ [10]) with ((body m1 ++ line e) ++ [10]) by now rewrite <- app_assoc. rewrite (app_length (body m1 ++ line e) [10]) , rfind_nl_app. cbn [rfind_nl length]. unfold NL at 1. cbn [Z.eqb Pos.eqb option_map bindr]. rewrite Nat.add_0_r, app_length.
  set (q := (p + (length (body m1) + length (line e)))%nat).
  assert (E2 : skipn (S q) d = 94 :: hex_text pl ++ [10] ++ rest). { replace (S q) with (p + length (body m1 ++ line e ++ [10%Z]))%nat by (rewrite LA; unfold q; lia). apply skipn_more. rewrite E1. now rewrite <- !app_assoc. }
  rewrite (rd_at _ _ _ _ E2). cbn [bindr]. unfold CARET. cbn [Z.eqb Pos.eqb andb]. replace (p <? q)%nat with true by (symmetry; apply Nat.ltb_lt; unfold q; lia).
  replace (q - 1)%nat with (p + (length (body m1) + (length (line e) - 1)))%nat by (unfold q; lia). apply (start_in_line d p m1 e rest); auto; lia.
Qed.
Definition nocaret (rest : list Z) : Prop := forall c r, rest = c :: r -> c <> 94.
Lemma end_exact d s e j m2 rest : good_ent size e -> skipn s d = record e ++ body m2 ++ rest -> nocaret (body m2 ++ rest) -> (j < length (record e))%nat -> (s + length (record e) + length (body m2) <= length d)%nat -> forall fuel, (1 < fuel)%nat ->
  end_of_record fuel d (s + j) (s + length (record e) + length (body m2)) = Ok (s + length (record e))%nat.
Proof.
  intros HG E Hnc Hj Hd fuel Hf. pose proof HG as (_ & _ & Hpe). set (R := (s + length (record e) + length (body m2))%nat) in *.
  assert (Hend : skipn (s + length (record e)) d = body m2 ++ rest) by now apply skipn_more.
  assert (STOP : forall q, S q = (s + length (record e))%nat -> (if (S q <? R)%nat then do c <- rd d (S q) ;; Ok (c =? CARET) else Ok false) = Ok false).
  { intros q Hq. apply (end_stop d q R (body m2 ++ rest)); [unfold R; lia|now rewrite Hq|exact Hnc|]. intros L C. apply app_eq_nil in C. destruct C as [C _]. unfold R in L. rewrite C in L. cbn in L. lia. }
  assert (TAIL : forall fuel p a, (0 < fuel)%nat -> (p + S (length a) = s + length (record e))%nat -> skipn p d = a ++ 10 :: body m2 ++ rest -> no_nl a -> end_of_record fuel d p R = Ok (s + length (record e))%nat).
  { intros fl p a Hfl Hp Ea Ha. destruct fl as [|fl]; [lia|]. cbn [end_of_record]. rewrite (memchr_at _ _ _ _ _ Ea Ha) by (unfold R; lia). cbn [bindr]. rewrite STOP by lia. cbn [bindr]. f_equal. lia. }
  destruct (e_peel e) as [pl|] eqn:Ep.
  - assert (ER : record e = line e ++ 10 :: 94 :: hex_text pl ++ [10]) by (unfold record; now rewrite Ep).
    assert (Hhx : no_nl (hex_text pl)) by (unfold no_nl; eapply Forall_impl; [|apply hex_chars2, Hpe]; cbn; tauto).
    assert (LR : (length (record e) = length (line e) + 3 + length (hex_text pl))%nat) by (rewrite ER, app_length; cbn [length]; rewrite app_length; cbn [length]; lia).
    destruct (Nat.le_gt_cases j (length (line e))) as [L|L].
    + destruct fuel as [|fuel]; [lia|]. cbn [end_of_record].
      assert (Ej : skipn (s + j) d = skipn j (line e) ++ 10 :: (94 :: hex_text pl ++ [10]) ++ body m2 ++ rest).
      { replace (s + j)%nat with (s + length (firstn j (line e)))%nat by (rewrite firstn_length; lia). apply skipn_more. rewrite E, ER. rewrite <- (firstn_skipn j (line e)) at 1. repeat (rewrite <- ?app_assoc; cbn [app]). reflexivity. }
      rewrite (memchr_at _ _ _ _ _ Ej).
      2: { apply Forall_forall. intros c Hc. pose proof (line_no_nl size e HG) as H. unfold no_nl in H. rewrite Forall_forall in H. apply H. rewrite <- (firstn_skipn j (line e)). apply in_or_app. now right. }
      2,3: rewrite ?skipn_length; unfold R; lia.
      cbn [bindr]. rewrite skipn_length. set (q := (s + j + (length (line e) - j))%nat). assert (Hq : q = (s + length (line e))%nat) by (unfold q; lia).
      assert (Eq : skipn (S q) d = 94 :: hex_text pl ++ 10 :: body m2 ++ rest). { replace (S q) with (s + length (line e ++ [10%Z]))%nat by (rewrite app_length, Hq; cbn; lia). apply skipn_more. rewrite E, ER. repeat (rewrite <- ?app_assoc; cbn [app]). reflexivity. }
      replace (S q <? R)%nat with true by (symmetry; apply Nat.ltb_lt; unfold R; lia). rewrite (rd_at _ _ _ _ Eq). cbn [bindr]. unfold CARET at 1. cbn [Z.eqb Pos.eqb].
      apply (TAIL fuel _ (hex_text pl)); [lia|lia| |exact Hhx]. replace (S (S q)) with (S q + length [94%Z])%nat by (cbn; lia). apply skipn_more. rewrite Eq. reflexivity.
    + set (k := (j - (length (line e) + 1))%nat).
      assert (Hk : (k < length ((94%Z :: hex_text pl) ++ [10%Z]))%nat) by (rewrite app_length; cbn [length]; unfold k; lia).
      apply (TAIL fuel _ (skipn k (94 :: hex_text pl))); [lia| | |].
      * rewrite skipn_length. cbn [length]. rewrite app_length in Hk. cbn [length] in Hk. lia.
      * replace (s + j)%nat with (s + length ((line e ++ [10%Z]) ++ firstn k (94%Z :: hex_text pl)))%nat. 2: { rewrite !app_length, firstn_length. cbn [length]. rewrite app_length in Hk. cbn [length] in Hk. lia. }
        apply skipn_more. rewrite E, ER. replace (line e ++ 10 :: 94 :: hex_text pl ++ [10]) with ((line e ++ [10]) ++ (94 :: hex_text pl) ++ [10]) by (rewrite <- app_assoc; reflexivity). rewrite <- (firstn_skipn k (94 :: hex_text pl)) at 1. rewrite <- !app_assoc. reflexivity.
      * apply Forall_forall. intros c Hc. assert (In c (94 :: hex_text pl)) as Hi by (rewrite <- (firstn_skipn k (94 :: hex_text pl)); apply in_or_app; now right). destruct Hi as [<-|Hi]; [lia|]. unfold no_nl in Hhx. rewrite Forall_forall in Hhx. now apply Hhx.
  - assert (ER : record e = line e ++ [10]) by (unfold record; now rewrite Ep). assert (LR : (length (record e) = length (line e) + 1)%nat) by (rewrite ER, app_length; reflexivity).
    apply (TAIL fuel _ (skipn j (line e))); [lia|rewrite skipn_length; lia| |].
    + replace (s + j)%nat with (s + length (firstn j (line e)))%nat by (rewrite firstn_length; lia). apply skipn_more. rewrite E, ER. rewrite <- (firstn_skipn j (line e)) at 1. rewrite <- !app_assoc. reflexivity.
    + apply Forall_forall. intros c Hc. pose proof (line_no_nl size e HG) as H. unfold no_nl in H. rewrite Forall_forall in H. apply H. rewrite <- (firstn_skipn j (line e)). apply in_or_app. now right.
Qed.
End X.
