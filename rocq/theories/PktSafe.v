From Verif Require Import Base Str CodecModel OidModel OidSpec OidProofs OidProps ReflogProofs PrefsProofs PrefsFind ShortenProofs PktModel PktSpec PktProofs PktMain.

(** *** What errors there are *)
Definition em1 {A} (r : res A) : Prop := match r with Err e => e = -1 | _ => True end.
Lemma em1_bind {A B} (r : res A) (k : A -> res B) : em1 r -> (forall x, em1 (k x)) -> em1 (bindr r k).
Proof. destruct r; cbn; auto. Qed.
Lemma em1_take s n : em1 (take s n).
Proof. unfold take. now destruct (_ <=? _)%nat. Qed.
Lemma em1_rd (s : list Z) n : em1 (rd s n).
Proof. unfold rd. now destruct (nth_error s n). Qed.
Lemma em1_memchr s c n : em1 (memchr s c n).
Proof. apply em1_bind; [apply em1_take|intros; exact I]. Qed.
Lemma em1_prefixn n : forall s p, em1 (prefixn s n p).
Proof. induction n as [|n IH]; intros s p; cbn [prefixn]; [exact I|]. destruct s as [|c r]; [exact I|]. destruct p as [|d q]; [exact I|]. destruct (c =? d); [apply IH|exact I]. Qed.
Lemma em1_prefixc s : forall p, em1 (prefixc s p).
Proof. induction s as [|c r IH]; intros p; cbn [prefixc]; [exact I|]. destruct p as [|d q]; [exact I|]. destruct (c =? d); [apply IH|exact I]. Qed.
Lemma em1_strn p : forall s, em1 (strn_is s p).
Proof. induction p as [|d q IH]; intros s; cbn [strn_is]; [exact I|]. destruct s as [|c r]; [exact I|]. destruct (c =? d); [apply IH|exact I]. Qed.
Lemma em1_strstr p s : em1 (strstr s p).
Proof. induction s as [|c r IH]; cbn [strstr]; [exact I|]. apply em1_bind; [apply em1_strn|]. intros []; [exact I|]. destruct (c =? 0); [exact I|exact IH]. Qed.
Lemma em1_strchr c s : em1 (strchr c s).
Proof. induction s as [|y r IH]; cbn [strchr]; [exact I|]. destruct (y =? c); [exact I|]. destruct (y =? 0); [exact I|]. apply em1_bind; [exact IH|intros; exact I]. Qed.
Lemma em1_fromhex c : em1 (fromhex c).
Proof. unfold fromhex. apply em1_rd. Qed.
Lemma em1_loop n : forall p s id, em1 (parse_loop n p s id).
Proof. induction n as [|n IH]; intros p s id; cbn [parse_loop]; [exact I|]. apply em1_bind; [apply em1_rd|]. intros c. apply em1_bind; [apply em1_fromhex|]. intros v. destruct (v <? 0); [reflexivity|]. apply em1_bind; [apply em1_rd|]. intros. apply IH. Qed.
Lemma em1_oid size s n : em1 (oid_from_prefix size s n).
Proof. unfold oid_from_prefix. destruct (n =? 0)%nat; [reflexivity|]. destruct (2 * size <? n)%nat; [reflexivity|apply em1_loop]. Qed.
Ltac em := repeat (first
  [ exact I | reflexivity | apply em1_take | apply em1_rd | apply em1_memchr | apply em1_prefixn | apply em1_prefixc | apply em1_strn | apply em1_strstr | apply em1_strchr | apply em1_oid
  | apply em1_bind; [|intros ?]
  | match goal with |- em1 (if ?b then _ else _) => destruct b | |- em1 (match ?o with Some _ => _ | None => _ end) => destruct o | |- em1 (match ?o with Ok _ => _ | _ => _ end) => destruct o | |- em1 (let _ := _ in _) => cbv zeta end ]).
Lemma em1_payload exp s len d : em1 (payload exp s len d).
Proof.
  unfold payload, keep, band_pkt, err_pkt, comment_pkt, ok_pkt, ng_pkt, unpack_pkt, shallow_pkt, ack_pkt, ref_pkt, set_data, find_format, format_size, format_end. em.
Qed.
Theorem store_refs_err exp stale e : forall fuel flushes buf d refs chunks l, nonempty chunks -> Forall frameable l -> buf ++ concat chunks = text l -> (2 * length (concat chunks) + length buf < fuel)%nat ->
  expected exp flushes d l refs = Err e -> store_refs fuel exp stale flushes buf d refs chunks = Err e.
Proof.
  induction fuel as [|n IH]; intros flushes buf d refs chunks l Hc Hl E Hf Hx; [lia|]. destruct l as [|i l].
  { cbn [text map concat] in E. apply app_eq_nil in E. destruct E as [-> E]. cbn [store_refs]. change (EBUFS =? EBUFS) with true. cbv iota. cbn in Hx. apply (f_equal (fun r => match r with Err e => e | _ => 0 end)) in Hx. cbn in Hx. subst e. replace (BUFSIZE <=? length (@nil Z))%nat with false by (rewrite BUFSIZE_eq; symmetry; apply Nat.leb_gt; cbn [length]; lia).
    destruct chunks as [|c cs]; [reflexivity|]. apply Forall_inv in Hc. destruct c; [congruence|discriminate]. }
  pose proof (Forall_inv Hl) as Hi. apply Forall_inv_tail in Hl. change (text (i :: l)) with (item_text i ++ text l) in E. cbn [store_refs]. pose proof (item_len i Hi) as Li.
  destruct (app_split _ _ _ _ E) as [(m & -> & Em)|(m & Hm & Em & Ec)].
  - assert (L : (length m + 4 <= length (item_text i ++ m))%nat) by (rewrite app_length; lia).
    assert (M : match item_text i ++ m with [] => Err EBUFS | _ => parse_line exp ((item_text i ++ m) ++ stale n) (length (item_text i ++ m)) d end = parse_line exp ((item_text i ++ m) ++ stale n) (length (item_text i ++ m)) d) by (destruct (item_text i ++ m); [cbn in L; lia|reflexivity]). rewrite M. clear M.
    rewrite <- app_assoc. destruct i as [|pl]; cbn [item_text expected] in *.
    + rewrite parse_line_flush by (rewrite app_length; cbn; lia). cbv iota. change (skipn 4 (bs "0000" ++ m)) with m. destruct (flushes <=? 1)%nat; [discriminate|]. apply IH with (l := l); auto. lia.
    + destruct Hi as (H1 & H2 & H3). assert (NU : payload exp pl (length pl) d <> UB) by (intros K; rewrite K in Hx; discriminate).
      rewrite parse_line_frame by (auto; rewrite app_length; lia). assert (S1 : skipn (length (frame pl)) (frame pl ++ m) = m) by (rewrite skipn_app, Nat.sub_diag, skipn_all; reflexivity).
      pose proof (em1_payload exp pl (length pl) d) as Em1.
      destruct (payload exp pl (length pl) d) as [[p d']|e'| |] eqn:Ep; cbn [bindr] in *; try discriminate.
      * rewrite S1. rewrite frame_len in *. destruct p; try discriminate; try (exfalso; eapply payload_not_flush; eassumption); try (injection Hx as <-; reflexivity); try (apply IH with (l := l); auto; lia).
      * cbn in Em1. subst e'. injection Hx as <-. reflexivity.
  - assert (Lb : (length buf < BUFSIZE)%nat) by (rewrite Em, app_length in Li; lia).
    assert (P : match buf with [] => Err EBUFS | _ => parse_line exp (buf ++ stale n) (length buf) d end = Err EBUFS) by (destruct buf; [reflexivity|]; apply parse_line_short with (i := i) (t := m); auto).
    rewrite P. change (EBUFS =? EBUFS) with true. cbv iota. replace (BUFSIZE <=? length buf)%nat with false by (symmetry; apply Nat.leb_gt; lia).
    destruct chunks as [|c cs]; [cbn in Ec; destruct m; [congruence|discriminate]|]. pose proof (Forall_inv Hc) as Hc0. destruct c as [|c0 c]; [congruence|]. destruct (recv_step buf (c0 :: c) cs Lb Hc0 (Forall_inv_tail Hc)) as (R1 & R2 & R3). cbv zeta in *. apply IH with (l := i :: l); auto; [|lia]. rewrite R1, E. reflexivity.
Qed.

(** *** No byte outside the buffer is read if a NUL is behind the valid ones *)
Definition ok1 {A} (r : res A) : Prop := match r with Ok _ => True | Err e => e = -1 | _ => False end.
Lemma ok1_bind {A B} (r : res A) (k : A -> res B) : ok1 r -> (forall x, r = Ok x -> ok1 (k x)) -> ok1 (bindr r k).
Proof. destruct r; cbn; auto. Qed.
Lemma ok1_prefixn n : forall s p, (n <= length s)%nat -> ok1 (prefixn s n p).
Proof. induction n as [|n IH]; intros s p H; cbn [prefixn]; [exact I|]. destruct s as [|c r]; [cbn in H; lia|]. destruct p as [|d q]; [exact I|]. destruct (c =? d); [apply IH; cbn in H; lia|exact I]. Qed.
Lemma ok1_prefixc s : forall p, In 0 s -> ~ In 0 p -> ok1 (prefixc s p).
Proof.
  induction s as [|c r IH]; intros p H Hp; cbn [prefixc]; [destruct H|]. destruct p as [|d q]; [exact I|]. destruct (c =? d) eqn:E; [|exact I]. apply Z.eqb_eq in E. subst d. apply IH; [destruct H as [-> |H]; [destruct Hp; now left|exact H]|]. intros K. apply Hp. now right.
Qed.
Lemma ok1_strn p : forall s, In 0 s -> ~ In 0 p -> ok1 (strn_is s p).
Proof.
  induction p as [|d q IH]; intros s H Hp; cbn [strn_is]; [exact I|]. destruct s as [|c r]; [destruct H|]. destruct (c =? d) eqn:E; [|exact I]. apply Z.eqb_eq in E. subst d. apply IH; [destruct H as [-> |H]; [destruct Hp; now left|exact H]|]. intros K. apply Hp. now right.
Qed.
Lemma ok1_strstr p s : In 0 s -> ~ In 0 p -> ok1 (strstr s p).
Proof.
  intros H Hp. induction s as [|c r IH]; cbn [strstr]; [destruct H|]. apply ok1_bind; [now apply ok1_strn|]. intros [] _; [exact I|]. destruct (c =? 0) eqn:E; [exact I|]. apply IH. destruct H as [-> |H]; [discriminate|exact H].
Qed.
Lemma ok1_strchr c s : In 0 s -> ok1 (strchr c s).
Proof.
  intros H. induction s as [|y r IH]; cbn [strchr]; [destruct H|]. destruct (y =? c); [exact I|]. destruct (y =? 0) eqn:E; [exact I|]. apply ok1_bind; [|intros; exact I]. apply IH. destruct H as [-> |H]; [discriminate|exact H].
Qed.
Lemma ok1_take s n : (n <= length s)%nat -> ok1 (take s n).
Proof. intros H. unfold take. replace (n <=? length s)%nat with true by (symmetry; now apply Nat.leb_le). exact I. Qed.
Lemma ok1_memchr s c n : (n <= length s)%nat -> ok1 (memchr s c n).
Proof. intros H. apply ok1_bind; [now apply ok1_take|intros; exact I]. Qed.
Lemma ok1_oid size s : bytes s -> (2 * size <= length s)%nat -> ok1 (oid_from_prefix size s (2 * size)).
Proof. intros Hb H. destruct (oid_parse_safe size s (2 * size) Hb (or_introl H)) as [(id & ->) | -> ]; exact I || reflexivity. Qed.
Lemma strstr_in0 p s t : strstr s p = Ok (Some t) -> In 0 s -> In 0 t.
Proof.
  induction s as [|c r IH]; intros H H0; cbn [strstr] in H; [discriminate|]. destruct (strn_is (c :: r) p) as [b| | |]; cbn [bindr] in H; try discriminate. destruct b; [apply Ok_inj in H; injection H as <-; exact H0|].
  destruct (c =? 0) eqn:E; [discriminate|]. destruct H0 as [-> |H0]; [discriminate|]. now apply IH.
Qed.
Lemma in_app_no (p t : list Z) : In 0 (p ++ t) -> ~ In 0 p -> In 0 t.
Proof. intros H Hp. apply in_app_or in H. tauto. Qed.
Ltac no0 := let K := fresh in intros K; cbn in K; repeat (destruct K as [K|K]; [discriminate K|]); exact K.
Lemma ok1_set exp s len d : (len <= length s)%nat -> In 0 (skipn len s) -> ok1 (set_data exp s len d).
Proof.
  intros Hl H0. unfold set_data. apply ok1_bind; [now apply ok1_memchr|]. intros z Hz. apply ok1_bind.
  - unfold find_format. destruct z as [i|]; [|exact I]. destruct (S i <? len)%nat eqn:E; [|exact I]. apply Nat.ltb_lt in E. cbv zeta.
    assert (In 0 (skipn (S i) s)) by (replace len with (len - S i + S i)%nat in H0 by lia; rewrite <- skipn_skipn in H0; rewrite <- (firstn_skipn (len - S i) (skipn (S i) s)); apply in_or_app; now right).
    apply ok1_bind; [apply ok1_strn; [assumption|no0]|]. intros [] _; [exact I|]. apply ok1_bind; [apply ok1_strstr; [assumption|no0]|]. intros. exact I.
  - intros f Hf. apply ok1_bind; [|intros size _; destruct (pd_size d); [|exact I]; destruct (_ =? _)%nat; exact I || reflexivity].
    destruct f as [f|]; [|exact I]. cbn [format_size]. assert (In 0 f).
    { unfold find_format in Hf. destruct z as [i|]; [|discriminate]. destruct (S i <? len)%nat eqn:E; [|discriminate]. apply Nat.ltb_lt in E. cbv zeta in Hf.
      assert (In 0 (skipn (S i) s)) as Hi by (replace len with (len - S i + S i)%nat in H0 by lia; rewrite <- skipn_skipn in H0; rewrite <- (firstn_skipn (len - S i) (skipn (S i) s)); apply in_or_app; now right).
      destruct (strn_is (skipn (S i) s) (bs "object-format=")) as [b| | |] eqn:Eb; cbn [bindr] in Hf; try discriminate. destruct b.
      - apply strn_is_true in Eb. destruct Eb as (t & Et). apply Ok_inj, Some_inj in Hf. subst f. rewrite Et in Hi |- *. apply in_app_no in Hi; [|no0]. exact Hi.
      - destruct (strstr (skipn (S i) s) (bs " object-format=")) as [[t|]| | |] eqn:Es; cbn [bindr option_map] in Hf; try discriminate. apply Ok_inj, Some_inj in Hf. subst f.
        pose proof (strstr_in0 _ _ _ Es Hi) as Ht.
        apply strstr_some in Es. destruct Es as (u & v & _ & ->). apply in_app_no in Ht; [|no0]. exact Ht. }
    apply ok1_bind; [|intros n _; destruct (type_of _ _); exact I || reflexivity]. unfold format_end. apply ok1_bind; [now apply ok1_strchr|]. intros [n|] _; [exact I|]. apply ok1_bind; [now apply ok1_strchr|]. intros [n|] _; exact I || reflexivity.
Qed.

Lemma skipn_nz (s : list Z) n len : (n <= len)%nat -> In 0 (skipn len s) -> In 0 (skipn n s).
Proof. intros Hn H0. replace len with (len - n + n)%nat in H0 by lia. rewrite <- skipn_skipn in H0. rewrite <- (firstn_skipn (len - n) (skipn n s)). apply in_or_app. now right. Qed.
Lemma ok1_ref exp s len d : bytes s -> (len <= length s)%nat -> In 0 (skipn len s) -> ok1 (ref_pkt exp s len d).
Proof.
  intros Hb Hl H0. unfold ref_pkt. apply ok1_bind; [destruct (pd_seen d); [exact I|now apply ok1_set]|]. intros d' _. destruct (pd_size d') as [size|]; [|reflexivity]. destruct (len <? 2 * size)%nat eqn:E; [reflexivity|]. apply Nat.ltb_ge in E.
  apply ok1_bind; [apply ok1_oid; [exact Hb|lia]|]. intros oid _. cbv zeta. assert (L : (len - 2 * size <= length (skipn (2 * size) s))%nat) by (rewrite skipn_length; lia). apply ok1_bind; [apply ok1_prefixn; exact L|]. intros b _. destruct b; cbn [negb]; [|reflexivity].
  destruct (len - 2 * size - 1 =? 0)%nat eqn:E2; [reflexivity|]. apply Nat.eqb_neq in E2. apply ok1_bind; [apply ok1_take; destruct (skipn (2 * size) s); cbn [tl length] in *; lia|]. intros line _. destruct (find_byte 0 (strip_nl line)); [|exact I]. destruct (pd_seen d'); exact I || reflexivity.
Qed.
Lemma prefixn_true_len s n p : prefixn s n p = Ok true -> (length p <= n)%nat.
Proof. intros H. now apply prefixn_true in H. Qed.
Lemma ok1_ack s len d : bytes s -> (len <= length s)%nat -> ok1 (ack_pkt s len d).
Proof.
  intros Hb Hl. unfold ack_pkt. destruct (pd_size d) as [size|]; [|reflexivity]. apply ok1_bind; [now apply ok1_prefixn|]. intros b Hp. destruct b; cbn [negb]; [|reflexivity]. apply prefixn_true_len in Hp. cbn in Hp. cbv zeta. destruct (len - 4 <? 2 * size)%nat eqn:E; [reflexivity|]. apply Nat.ltb_ge in E.
  assert (L : (len - 4 <= length (skipn 4 s))%nat) by (rewrite skipn_length; lia). apply ok1_bind; [apply ok1_oid; [now apply bytes_skipn|lia]|]. intros oid _. set (u := skipn (2 * size) (skipn 4 s)). assert (Lu : (len - 4 - 2 * size <= length u)%nat) by (unfold u; rewrite skipn_length; lia). clearbody u. set (m := (len - 4 - 2 * size)%nat) in *.
  apply ok1_bind; [destruct (m =? 0)%nat eqn:Em; [exact I|]; apply Nat.eqb_neq in Em; apply ok1_bind; [|intros; exact I]; destruct (rd_ok u 0) as (c & -> & _); [lia|exact I]|]. intros [] _; [|exact I].
  assert (Lt : (m - 1 <= length (tl u))%nat) by (destruct u; cbn [tl length] in *; lia).
  apply ok1_bind; [now apply ok1_prefixn|]. intros [] _; [exact I|]. apply ok1_bind; [now apply ok1_prefixn|]. intros [] _; [exact I|]. apply ok1_bind; [now apply ok1_prefixn|]. intros [] _; exact I || reflexivity.
Qed.
Lemma ok1_shallow w k s len d : bytes s -> (len <= length s)%nat -> ok1 (shallow_pkt w k s len d).
Proof.
  intros Hb Hl. unfold shallow_pkt. destruct (pd_size d) as [size|]; [|reflexivity]. apply ok1_bind; [now apply ok1_prefixn|]. intros b Hp. destruct b; cbn [negb]; [|reflexivity]. cbv zeta. destruct (len - length w =? 2 * size)%nat eqn:E; cbn [negb]; [|reflexivity]. apply Nat.eqb_eq in E.
  assert (P : ok1 (oid_from_prefix size (skipn (length w) s) (2 * size))) by (apply ok1_oid; [now apply bytes_skipn|rewrite skipn_length; lia]). destruct (oid_from_prefix size (skipn (length w) s) (2 * size)); exact I || exact P.
Qed.
Lemma ok1_keep {A} d (r : res A) : ok1 r -> ok1 (keep d r).
Proof. intros H. apply ok1_bind; [exact H|intros; exact I]. Qed.
Lemma ok1_payload exp s len d : bytes s -> (1 <= len <= length s)%nat -> In 0 (skipn len s) -> ok1 (payload exp s len d).
Proof.
  intros Hb Hl H0. assert (H0' : In 0 s) by (change s with (skipn 0 s); apply skipn_nz with (len := len); [lia|exact H0]). unfold payload. destruct (rd_ok s 0) as (c & -> & _); [lia|]. cbn [bindr].
  assert (B : forall k, ok1 (keep d (band_pkt k s len))) by (intros k; apply ok1_keep, ok1_bind; [apply ok1_take; destruct s; cbn [tl length] in *; lia|intros; exact I]).
  destruct (c =? 1); [apply B|]. destruct (c =? 2); [apply B|]. destruct (c =? 3); [apply B|]. clear B.
  assert (P : forall p, ok1 (prefixn s len p)) by (intros p; apply ok1_prefixn; lia).
  apply ok1_bind; [apply P|]. intros [] _; [apply ok1_ack; [exact Hb|lia]|].
  apply ok1_bind; [apply P|]. intros [] _; [exact I|].
  apply ok1_bind; [apply P|]. intros [] _; [apply ok1_keep, ok1_bind; [apply P|]; intros [] K; cbn [negb]; [|reflexivity]; apply ok1_bind; [apply ok1_take; rewrite skipn_length; lia|intros; exact I]|].
  destruct (c =? 35); [apply ok1_keep, ok1_bind; [apply ok1_take; lia|intros; exact I]|].
  apply ok1_bind; [apply P|]. intros [] _; [apply ok1_keep, ok1_bind; [apply P|]; intros [] K; cbn [negb]; [|reflexivity]; apply ok1_bind; [apply ok1_take; rewrite skipn_length; lia|intros; exact I]|].
  apply ok1_bind; [apply P|]. intros [] _.
  { apply ok1_keep, ok1_bind; [apply P|]. intros [] K; cbn [negb]; [|reflexivity]. apply prefixn_true_len in K. cbn in K. cbv zeta. assert (L : (len - 3 <= length (skipn 3 s))%nat) by (rewrite skipn_length; lia). apply ok1_bind; [now apply ok1_memchr|]. intros [i|] Hi; [|reflexivity]. apply memchr_len in Hi.
    apply ok1_bind; [apply ok1_take; lia|]. intros ref _. destruct (len - 3 <=? S i)%nat eqn:E; [reflexivity|]. apply Nat.leb_gt in E. apply ok1_bind; [apply ok1_memchr; rewrite (skipn_length (S i)); lia|]. intros [j|] Hj; [|reflexivity]. apply memchr_len in Hj. apply ok1_bind; [apply ok1_take; lia|]. intros. exact I. }
  apply ok1_bind; [apply P|]. intros [] _; [apply ok1_keep, ok1_bind; [apply P|intros; exact I]|].
  apply ok1_bind; [apply ok1_prefixc; [exact H0'|no0]|]. intros [] _; [apply ok1_shallow; [exact Hb|lia]|].
  apply ok1_bind; [apply ok1_prefixc; [exact H0'|no0]|]. intros [] _; [apply ok1_shallow; [exact Hb|lia]|]. apply ok1_ref; [exact Hb|lia|exact H0].
Qed.
Theorem parse_line_safe exp s n d : bytes s -> (n <= length s)%nat -> In 0 (skipn n s) ->
  match parse_line exp s n d with Ok (_, _, k) => (4 <= k <= n)%nat | Err e => e = -1 \/ e = EBUFS | _ => False end.
Proof.
  intros Hb Hn H0. unfold parse_line, parse_len. destruct (n <? 4)%nat eqn:E4; [cbn; auto|]. apply Nat.ltb_ge in E4. unfold take. replace (4 <=? length s)%nat with true by (symmetry; apply Nat.leb_le; lia). cbn [bindr]. destruct (hex_number 0 (firstn 4 s)) as [v|]; [|cbn; auto]. cbn [bindr]. generalize (Z.to_nat v). intros len.
  destruct (n <? len)%nat eqn:E1; [cbn; auto|]. apply Nat.ltb_ge in E1. destruct (negb (len =? 0)%nat && (len <=? 4)%nat) eqn:E2; [cbn; auto|]. destruct (len =? 0)%nat eqn:E3; [lia|]. cbn [negb andb] in E2. apply Nat.leb_gt in E2.
  assert (P : ok1 (payload exp (skipn 4 s) (len - 4) d)).
  { apply ok1_payload; [now apply bytes_skipn|rewrite skipn_length; lia|]. rewrite skipn_skipn. replace (len - 4 + 4)%nat with len by lia. apply skipn_nz with (len := n); [lia|exact H0]. }
  destruct (payload exp (skipn 4 s) (len - 4) d) as [[p d']|e| |]; cbn [bindr]; cbn in P; auto. lia.
Qed.
Theorem store_refs_safe exp stale : (forall n, bytes (stale n) /\ In 0 (stale n)) -> forall fuel flushes buf d refs chunks, bytes buf -> Forall bytes chunks -> (2 * length (concat chunks) + length buf < fuel)%nat ->
  match store_refs fuel exp stale flushes buf d refs chunks with Ok _ | Err _ => True | _ => False end.
Proof.
  intros Hst. induction fuel as [|n IH]; intros flushes buf d refs chunks Hb Hc Hf; [lia|]. cbn [store_refs].
  assert (P : match (match buf with [] => Err EBUFS | _ => parse_line exp (buf ++ stale n) (length buf) d end) with Ok (_, _, k) => (4 <= k <= length buf)%nat | Err e => e = -1 \/ e = EBUFS | _ => False end).
  { destruct (Hst n) as [S1 S2]. pose proof (parse_line_safe exp (buf ++ stale n) (length buf) d) as P. destruct buf as [|x b]; [cbn; auto|]. apply P; [apply Forall_app; auto|rewrite app_length; lia|]. now rewrite skipn_pre. }
  destruct (match buf with [] => Err EBUFS | _ => parse_line exp (buf ++ stale n) (length buf) d end) as [[[p d'] k]|e| |]; [|destruct (e =? EBUFS); [|exact I]|destruct P|destruct P].
  - cbv zeta. assert (L : (length (skipn k buf) + 4 <= length buf)%nat) by (rewrite skipn_length; lia). assert (B : bytes (skipn k buf)) by now apply bytes_skipn.
    destruct p; try exact I; try (apply IH; auto; lia). destruct (flushes <=? 1)%nat; [exact I|]. apply IH; auto. lia.
  - destruct (BUFSIZE <=? length buf)%nat eqn:Eb; [exact I|]. apply Nat.leb_gt in Eb. destruct chunks as [|c cs]; [exact I|]. destruct c as [|c0 c]; [exact I|]. set (r := (BUFSIZE - length buf)%nat). pose proof (Forall_inv Hc) as B1. pose proof (Forall_inv_tail Hc) as B2. apply IH.
    + apply Forall_app. split; [exact Hb|]. apply Forall_forall. intros x Hx. unfold bytes in B1. rewrite Forall_forall in B1. apply B1. rewrite <- (firstn_skipn r (c0 :: c)). apply in_or_app. now left.
    + destruct (length (c0 :: c) <=? r)%nat; [exact B2|]. constructor; [|exact B2]. now apply bytes_skipn.
    + rewrite app_length, firstn_length. assert (1 <= r)%nat by (unfold r; lia). clearbody r. cbn [concat] in Hf. rewrite app_length in Hf. destruct (length (c0 :: c) <=? r)%nat eqn:El; [apply Nat.leb_le in El|apply Nat.leb_gt in El; cbn [concat]; rewrite app_length, skipn_length]; cbn [length] in *; lia.
Qed.
