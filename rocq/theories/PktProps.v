(** C66, C67: the packets of the smart protocol. *)
From Verif Require Import Base Str CodecModel OidModel OidSpec OidProofs OidProps ReflogProofs PrefsProofs PrefsFind ShortenProofs PktModel PktSpec PktProofs PktMain PktSafe PktKinds.

(** C66.  However the stream arrives, the packets read are those it consists of, each by itself, and what
    follows is kept.  Partial: [expected] is not UB only if no packet makes the reader look behind its end. *)
Theorem C66_chunks_partial : forall exp stale flushes l junk ps l' chunks fuel, nonempty chunks -> Forall frameable l -> concat chunks = text l ++ junk -> (2 * length (concat chunks) < fuel)%nat ->
  expected exp flushes (mkpd None false) l [] = Ok (ps, l') ->
  exists b cs, store_refs fuel exp stale flushes [] (mkpd None false) [] chunks = Ok (ps, b, cs) /\ b ++ concat cs = text l' ++ junk.
Proof.
  intros exp stale flushes l junk ps l' chunks fuel H1 H2 H3 H4 H5. destruct (store_refs_ok exp stale ps l' junk fuel flushes [] (mkpd None false) [] chunks l H1 H2 H3) as (b & cs & E & _ & E2); [cbn [length]; lia|exact H5|]. eauto.
Qed.
Print Assumptions C66_chunks_partial.
Theorem C66_errors_partial : forall exp stale flushes l e chunks fuel, nonempty chunks -> Forall frameable l -> concat chunks = text l -> (2 * length (concat chunks) < fuel)%nat ->
  expected exp flushes (mkpd None false) l [] = Err e -> store_refs fuel exp stale flushes [] (mkpd None false) [] chunks = Err e.
Proof. intros exp stale flushes l e chunks fuel H1 H2 H3 H4 H5. apply (store_refs_err exp stale e fuel flushes [] (mkpd None false) [] chunks l); auto. cbn [length]; lia. Qed.
Print Assumptions C66_errors_partial.
(** What the packets mean. *)
Theorem C66_meaning : forall exp d,
  (forall t, payload exp (1 :: t) (length (1 :: t)) d = Ok (KData t, d)) /\ (forall t, payload exp (2 :: t) (length (2 :: t)) d = Ok (KProgress t, d)) /\ (forall t, payload exp (3 :: t) (length (3 :: t)) d = Ok (KErr t, d)) /\
  (forall t, payload exp (bs "NAK" ++ t) (length (bs "NAK" ++ t)) d = Ok (KNak, d)) /\
  (forall t, payload exp (bs "ERR " ++ t) (length (bs "ERR " ++ t)) d = Ok (KErr t, d)) /\
  (forall t, payload exp (bs "#" ++ t) (length (bs "#" ++ t)) d = Ok (KComment (bs "#" ++ t), d)) /\
  (forall name nl, last name 0 <> 10 -> newline_or_not nl -> payload exp (bs "ok " ++ name ++ nl) (length (bs "ok " ++ name ++ nl)) d = Ok (KOk name, d)) /\
  (forall ref msg r, ~ In 32 ref -> ~ In 10 msg -> payload exp (bs "ng " ++ ref ++ 32 :: msg ++ 10 :: r) (length (bs "ng " ++ ref ++ 32 :: msg ++ 10 :: r)) d = Ok (KNg ref msg, d)) /\
  (forall t, exists b, payload exp (bs "unpack " ++ t) (length (bs "unpack " ++ t)) d = Ok (KUnpack b, d) /\ (b = true <-> exists r, t = bs "ok" ++ r)).
Proof.
  intros exp d. split; [|split; [|split]]; try (intros t; rewrite kind_band; reflexivity). split; [intros; apply kind_nak|]. split; [intros; apply kind_err|]. split; [intros; apply kind_comment|]. split; [intros; now apply kind_ok|]. split; [intros; now apply kind_ng|].
  intros t. exists (prefixb (bs "ok") t). split; [apply kind_unpack|]. rewrite prefixb_spec. unfold starts_with. reflexivity.
Qed.
Print Assumptions C66_meaning.
Theorem C66_ids : forall exp size oid b, (0 < size)%nat -> oid_ok size oid ->
  (forall st nl, newline_or_not nl -> let pl := bs "ACK " ++ hex_text oid ++ (match st with ANone => [] | AContinue => bs " continue" | ACommon => bs " common" | AReady => bs " ready" end) ++ nl in payload exp pl (length pl) (mkpd (Some size) b) = Ok (KAck oid st, mkpd (Some size) b)) /\
  (let pl := bs "shallow " ++ hex_text oid in payload exp pl (length pl) (mkpd (Some size) b) = Ok (KShallow (Some oid), mkpd (Some size) b)) /\
  (let pl := bs "unshallow " ++ hex_text oid in payload exp pl (length pl) (mkpd (Some size) b) = Ok (KUnshallow (Some oid), mkpd (Some size) b)) /\
  (forall name nl, name <> [] -> ~ In 0 name -> last name 0 <> 10 -> newline_or_not nl -> let pl := hex_text oid ++ bs " " ++ name ++ nl in payload exp pl (length pl) (mkpd (Some size) true) = Ok (KRef oid name None, mkpd (Some size) true)) /\
  (forall name caps nl, ~ In 0 name -> last caps 0 <> 10 -> newline_or_not nl -> announces exp caps size -> let pl := hex_text oid ++ bs " " ++ name ++ 0 :: caps ++ nl in payload exp pl (length pl) (mkpd None false) = Ok (KRef oid name (Some caps), mkpd (Some size) true)).
Proof.
  intros exp size oid b Hs Ho. split; [intros st nl Hn; exact (kind_ack exp size oid st nl b Hs Ho Hn)|]. split; [exact (kind_shallow exp size oid false b Hs Ho)|]. split; [exact (kind_shallow exp size oid true b Hs Ho)|]. split; [intros; now apply kind_ref|intros; now apply kind_first].
Qed.
Print Assumptions C66_ids.
(** The list of references of a server, end to end. *)
Lemma good_name_facts size r : good_ref size r -> ~ In 0 (snd r) /\ last (snd r) 0 <> 10 /\ bytes (snd r).
Proof.
  intros (_ & Hn & Hc & _). rewrite Forall_forall in Hc. split; [intros K; specialize (Hc _ K); lia|]. split; [|apply Forall_forall; intros c K; specialize (Hc _ K); unfold is_byte; lia].
  intros K. assert (In (last (snd r) 0) (snd r)) as Hi by (destruct (exists_last Hn) as (u & v & ->); rewrite last_last; apply in_or_app; right; now left). specialize (Hc _ Hi). lia.
Qed.
Lemma later_expected exp size r : (0 < size)%nat -> forall rs got, Forall (good_ref size) rs -> expected exp 1 (mkpd (Some size) true) (map (ref_line None) rs ++ Flush :: r) got = Ok (got ++ map (fun r => KRef (fst r) (snd r) None) rs, r).
Proof.
  intros Hs. induction rs as [|x rs IH]; intros got H; cbn [map app expected]; [now rewrite app_nil_r|]. pose proof (Forall_inv H) as Hx. destruct (good_name_facts _ _ Hx) as (F1 & F2 & _). destruct Hx as (Ho & Hn & _).
  pose proof (kind_ref exp size (fst x) (snd x) [10] Hs Ho Hn F1 F2 (or_intror eq_refl)) as K. cbv zeta in K. change (bs " " ++ snd x ++ [10]) with (32 :: snd x ++ [10]) in K. cbn [ref_line]. cbn [app]. rewrite K. rewrite IH by (now inversion H). rewrite <- app_assoc. reflexivity.
Qed.
Lemma ref_frameable size caps r : (0 < size <= 32)%nat -> good_ref size r -> (forall c, caps = Some c -> bytes c /\ Z.of_nat (length c) < 60000) -> frameable (ref_line caps r).
Proof.
  intros Hs Hr Hc. destruct (good_name_facts _ _ Hr) as (_ & _ & F3). destruct Hr as (Ho & Hn & _ & Hl). unfold ref_line, frameable. set (m := match caps with Some c => 0 :: c | None => [] end).
  assert (bytes m /\ Z.of_nat (length m) <= 60000) as [B1 B2]. { unfold m. destruct caps as [c|]; [destruct (Hc c eq_refl) as [H1 H2]; split; [constructor; [unfold is_byte; lia|exact H1]|cbn [length]; lia]|split; [constructor|cbn; lia]]. }
  split; [|split].
  - intros K. apply app_eq_nil in K. destruct K as [_ K]. discriminate.
  - apply Forall_app. split; [eapply Forall_impl; [|apply hex_chars2, Ho]; cbn; tauto|]. constructor; [unfold is_byte; lia|]. apply Forall_app. split; [exact F3|]. apply Forall_app. split; [exact B1|]. constructor; [unfold is_byte; lia|constructor].
  - rewrite !app_length. cbn [length]. rewrite !app_length. rewrite (hex_len size) by exact Ho. cbn [length]. lia.
Qed.
Theorem C66_advertisement : forall exp stale size caps refs junk chunks fuel, announces exp caps size -> bytes caps -> Z.of_nat (length caps) < 60000 -> last caps 0 <> 10 -> refs <> [] -> Forall (good_ref size) refs ->
  nonempty chunks -> concat chunks = text (advert caps refs) ++ junk -> (2 * length (concat chunks) < fuel)%nat ->
  exists b cs, store_refs fuel exp stale 1 [] (mkpd None false) [] chunks = Ok (advertised caps refs, b, cs) /\ b ++ concat cs = junk.
Proof.
  intros exp stale size caps refs junk chunks fuel Ha Hb Hl Hnl Hne Hg Hc Hx Hf. destruct refs as [|r rs]; [congruence|].
  assert (Hs : (0 < size <= 32)%nat) by (destruct Ha as (fmt & post & [[_ ->]|(_ & _ & ->)] & _); lia). pose proof (Forall_inv Hg) as Hr. pose proof (Forall_inv_tail Hg) as Hrs.
  apply (C66_chunks_partial exp stale 1 (advert caps (r :: rs)) junk _ []); auto.
  - cbn [advert]. constructor; [apply (ref_frameable size); auto; intros c [= <-]; auto|]. apply Forall_app. split; [|constructor; [exact I|constructor]]. apply Forall_forall. intros i Hi. apply in_map_iff in Hi. destruct Hi as (x & <- & Hx'). rewrite Forall_forall in Hrs. apply (ref_frameable size); auto. discriminate.
  - cbn [advert expected ref_line]. destruct (good_name_facts _ _ Hr) as (F1 & F2 & _). destruct Hr as (Ho & Hn & _).
    pose proof (kind_first exp size (fst r) (snd r) caps [10] ltac:(lia) Ho F1 Hnl (or_intror eq_refl) Ha) as K. cbv zeta in K. change (bs " " ++ snd r ++ 0 :: caps ++ [10]) with (32 :: snd r ++ 0 :: caps ++ [10]) in K. cbn [app]. rewrite K. apply (later_expected exp size []); [lia|exact Hrs].
Qed.
Print Assumptions C66_advertisement.
(** What is sent. *)
Theorem C66_requests_partial : forall size c refs roots oid, (0 < size <= 32)%nat -> Forall (fun r => oid_ok size (fst r)) refs -> Forall (oid_ok size) roots -> oid_ok size oid -> wanted refs <> [] ->
  buffer_wants size c refs roots = Ok (text (want_lines (if c_common c then Some (caps_text c) else None) (wanted refs) ++ map shallow_line roots ++ [Flush])) /\
  pkt_have size oid = Ok (text [have_line oid]) /\ pkt_flush = text [Flush] /\ pkt_done = text [Line (bs "done" ++ [10])].
Proof.
  intros size c refs roots oid Hs Hr Ho Hoid Hw. split; [|split; [|split; reflexivity]].
  - unfold buffer_wants. assert (E : (if c_common c then wants_first size c refs else wants_rest size refs) = Ok (text (want_lines (if c_common c then Some (caps_text c) else None) (wanted refs)))).
    { destruct (c_common c); [now apply first_text|]. rewrite rest_text by assumption. f_equal. destruct (wanted refs); reflexivity. }
    rewrite E. cbn [bindr]. rewrite shallow_text by assumption. cbn [bindr]. now rewrite !text_app.
  - unfold pkt_have. rewrite fmt_hex by exact Hoid. cbn [bindr]. f_equal. unfold text, have_line. cbn [map concat item_text]. rewrite app_nil_r. apply frame_as; [rewrite !app_length, (hex_len size oid Hoid); cbn [length bs]; cbn; lia|lia].
Qed.
Print Assumptions C66_requests_partial.
(** C67.  No bytes make the parser read outside the buffer or loop, if a NUL is behind those received. *)
Theorem C67_parse_safe_partial : forall exp s n d, bytes s -> (n <= length s)%nat -> In 0 (skipn n s) ->
  match parse_line exp s n d with Ok (_, _, k) => (4 <= k <= n)%nat | Err e => e = -1 \/ e = -6 | _ => False end.
Proof. exact parse_line_safe. Qed.
Print Assumptions C67_parse_safe_partial.
Theorem C67_receive_safe_partial : forall exp stale, (forall n, bytes (stale n) /\ In 0 (stale n)) -> forall flushes chunks fuel, Forall bytes chunks -> (2 * length (concat chunks) < fuel)%nat ->
  match store_refs fuel exp stale flushes [] (mkpd None false) [] chunks with Ok _ | Err _ => True | _ => False end.
Proof. intros exp stale H flushes chunks fuel H1 H2. apply store_refs_safe; auto; [constructor|cbn [length]; lia]. Qed.
Print Assumptions C67_receive_safe_partial.
(** A packet is never taken before all its bytes are there, and one that lacks bytes is waited for. *)
Theorem C67_waits : forall exp i b t x d, frameable i -> b ++ t = item_text i -> t <> [] -> parse_line exp (b ++ x) (length b) d = Err (-6).
Proof. exact parse_line_short. Qed.
Print Assumptions C67_waits.

(** *** Cases *)
Definition id_ (k : Z) : list Z := repeat k 20.
Definition x_caps : list Z := bs "multi_ack thin-pack symref=HEAD:refs/heads/main object-format=sha1 agent=git/2".
Definition x_refs : list (list Z * list Z) := [(id_ 1, bs "HEAD"); (id_ 1, bs "refs/heads/main"); (id_ 2, bs "refs/tags/v1")].
Definition x_rest : list Z := bs "0008NAK" ++ [10].
Definition x_stream : list Z := text (advert x_caps x_refs) ++ x_rest.
Fixpoint cut (n k : nat) (s : list Z) : list (list Z) := match n with O => [] | S n => match s with [] => [] | _ => firstn k s :: cut n k (skipn k s) end end.
Lemma first_at_check pat pre : forallb (fun k => negb (prefixb pat (skipn k (pre ++ pat))) || (k =? length pre)%nat) (seq 0 (S (length pre))) = true -> first_at pat pre.
Proof.
  intros H u v E. rewrite forallb_forall in H. assert (length u <= length pre)%nat as L by (apply (f_equal (@length Z)) in E; rewrite !app_length in E; lia).
  specialize (H (length u) ltac:(apply in_seq; lia)). rewrite E in H. rewrite skipn_app, Nat.sub_diag, skipn_all in H. cbn [app skipn] in H. replace (prefixb pat (pat ++ v)) with true in H by (symmetry; apply prefixb_spec; now exists v). cbn [negb orb] in H. apply Nat.eqb_eq in H.
  assert (firstn (length u) (pre ++ pat) = firstn (length u) (u ++ pat ++ v)) as F by now rewrite E. rewrite H in F at 1. rewrite !firstn_app, !Nat.sub_diag, !firstn_all in F. cbn [firstn] in F. rewrite !app_nil_r in F. now symmetry.
Qed.
Lemma x_announces exp : announces exp x_caps 20.
Proof.
  exists (bs "sha1"), (bs "agent=git/2"). split; [now left|]. right. exists (bs "multi_ack thin-pack symref=HEAD:refs/heads/main"). split; [reflexivity|]. split; [no0|]. split; [apply first_at_check; vm_compute; reflexivity|]. intros v K. discriminate.
Qed.
Lemma x_good : Forall (good_ref 20) x_refs.
Proof.
  repeat first [apply Forall_nil | apply Forall_cons]; (split; [split; [reflexivity|unfold bytes, is_byte; cbn; repeat constructor; lia]|]; split; [discriminate|]; split; [cbn; repeat constructor; lia|cbn; lia]).
Qed.
(** Whether the bytes come one at a time or all at once. *)
Example advertisement_case : announces false x_caps 20 /\ Forall (good_ref 20) x_refs /\
  (exists b cs, store_refs 2000 false (fun _ => []) 1 [] (mkpd None false) [] (cut 400 1 x_stream) = Ok (advertised x_caps x_refs, b, cs) /\ b ++ concat cs = x_rest) /\
  (exists b cs, store_refs 2000 false (fun _ => []) 1 [] (mkpd None false) [] [x_stream] = Ok (advertised x_caps x_refs, b, cs) /\ b = x_rest).
Proof. split; [apply x_announces|]. split; [apply x_good|]. split; eexists; eexists; (split; [vm_compute; reflexivity|vm_compute; reflexivity]). Qed.
Definition x_all : caps := mkcaps true true false true false true true true false.
Example requests_case : buffer_wants 20 x_all [(id_ 1, true); (id_ 2, false); (id_ 3, false)] [id_ 4] =
  Ok (bs "0074want " ++ hex_text (id_ 2) ++ bs " multi_ack_detailed side-band-64k include-tag thin-pack ofs-delta " ++ [10] ++ bs "0032want " ++ hex_text (id_ 3) ++ [10] ++ bs "0035shallow " ++ hex_text (id_ 4) ++ [10] ++ bs "0000").
Proof. vm_compute. reflexivity. Qed.
Example safe_case : parse_line false (bs "0006ac" ++ [0]) 6 (mkpd None false) = Err (-1) /\ parse_line false (bs "zzzz" ++ [0]) 4 (mkpd None false) = Err (-1) /\ parse_line false (bs "0007ac" ++ [0]) 6 (mkpd None false) = Err (-6).
Proof. split; [|split]; vm_compute; reflexivity. Qed.

(** *** What does not hold *)
Definition lone_caps : list Z := bs "thin-pack".
Definition two_refs : list item := [Line (hex_text (id_ 1) ++ bs " HEAD" ++ 0 :: lone_caps ++ [10]); Line (hex_text (id_ 2) ++ bs " refs/heads/a object-format=x " ++ [10]); Flush].
(** A server that does not name the format of ids: the search for it runs on into the next packet if that is
    there already, so the same stream is read or refused depending on how it arrives. *)
Theorem C66_chunk_dependence_refuted : exists chunks1 chunks2 stale r, concat chunks1 = concat chunks2 /\ concat chunks1 = text two_refs /\ (forall n, In 0 (stale n)) /\
  store_refs 2000 false stale 1 [] (mkpd None false) [] chunks1 = Ok r /\ store_refs 2000 false stale 1 [] (mkpd None false) [] chunks2 = Err (-1).
Proof.
  exists [firstn 60 (text two_refs); skipn 60 (text two_refs)], [text two_refs], (fun _ => [0]). eexists. split; [vm_compute; reflexivity|]. split; [vm_compute; reflexivity|]. split; [intros; now left|]. split; vm_compute; reflexivity.
Qed.
Print Assumptions C66_chunk_dependence_refuted.
(** A format the build does not know (in builds without SHA-256, sha256 too) is refused. *)
Theorem C66_unknown_format : forall exp size oid name fmt post, (0 < size)%nat -> oid_ok size oid -> ~ In 0 name -> ~ In 32 fmt -> ~ In 0 fmt ->
  fmt <> bs "sha1" -> (exp = true -> fmt <> bs "sha256") ->
  let pl := hex_text oid ++ bs " " ++ name ++ 0 :: bs "object-format=" ++ fmt ++ 32 :: post in payload exp pl (length pl) (mkpd None false) = Err (-1).
Proof.
  intros exp size oid name fmt post Hs Ho H0 Hf1 Hf2 Hn1 Hn2. cbv zeta. rewrite payload_ref; [|apply hex_first; [intros ->; destruct Ho; cbn in *; lia|apply Ho]|rewrite app_length, (hex_len size oid Ho); lia].
  change (bs " " ++ name ++ 0 :: bs "object-format=" ++ fmt ++ 32 :: post) with (32 :: name ++ 0 :: bs "object-format=" ++ fmt ++ 32 :: post).
  assert (E0 : hex_text oid ++ 32 :: name ++ 0 :: bs "object-format=" ++ fmt ++ 32 :: post = (hex_text oid ++ 32 :: name) ++ 0 :: bs "object-format=" ++ fmt ++ 32 :: post) by now rewrite <- app_assoc.
  rewrite E0. set (pl := (hex_text oid ++ 32 :: name) ++ 0 :: bs "object-format=" ++ fmt ++ 32 :: post).
  assert (SD : set_data exp pl (length pl) (mkpd None false) = Err (-1)).
  { assert (FB : find_byte 0 pl = Some (length (hex_text oid ++ 32 :: name))).
    { unfold pl. apply find_byte_app. intros K. apply in_app_or in K. destruct K as [K|K]; [apply (hex_chars oid) in K; [lia|apply Ho]|]. destruct K as [K|K]; [discriminate|]. now apply H0. }
    unfold set_data. unfold memchr. rewrite take_all by reflexivity. cbn [bindr]. rewrite FB. clear FB.
    unfold find_format. replace (S (length (hex_text oid ++ 32%Z :: name)) <? length pl)%nat with true by (symmetry; apply Nat.ltb_lt; unfold pl; rewrite (app_length (hex_text oid ++ 32 :: name)); cbn [length app bs]; lia).
    cbv zeta. assert (Es : skipn (S (length (hex_text oid ++ 32 :: name))) pl = bs "object-format=" ++ fmt ++ 32 :: post).
    { unfold pl. replace ((hex_text oid ++ 32 :: name) ++ 0 :: bs "object-format=" ++ fmt ++ 32 :: post) with (((hex_text oid ++ 32 :: name) ++ [0]) ++ bs "object-format=" ++ fmt ++ 32 :: post) by (now rewrite <- app_assoc). apply skipn_pre. rewrite !app_length. cbn [length]. lia. }
    rewrite Es. rewrite strn_is_yes. cbn [bindr]. rewrite skipn_pre by reflexivity. cbn [format_size]. unfold format_end. rewrite strchr_at by assumption. cbn [bindr]. rewrite firstn_app, Nat.sub_diag, firstn_all. cbn [firstn]. rewrite app_nil_r.
    unfold type_of. destruct (leqb fmt (bs "sha1")) eqn:E1; [apply leqb_spec in E1; contradiction|]. destruct exp; [|reflexivity].
    cbn [andb]. destruct (leqb fmt (bs "sha256")) eqn:E2; [apply leqb_spec in E2; exfalso; apply Hn2; auto|reflexivity]. }
  unfold ref_pkt. cbn [pd_seen]. rewrite SD. reflexivity.
Qed.
Example unknown_format_case : let pl := hex_text (id_ 1) ++ bs " HEAD" ++ 0 :: bs "object-format=sha256 agent=x" in payload false pl (length pl) (mkpd None false) = Err (-1).
Proof. vm_compute. reflexivity. Qed.
(** The format named by the last capability is not recognised: the newline is taken as part of it. *)
Theorem C66_last_capability_refuted : exists pl, pl = hex_text (id_ 1) ++ bs " HEAD" ++ 0 :: bs "thin-pack object-format=sha1" ++ [10] /\
  parse_line false (frame pl ++ [0]) (length (frame pl)) (mkpd None false) = Err (-1).
Proof. eexists. split; [reflexivity|]. vm_compute. reflexivity. Qed.
Print Assumptions C66_last_capability_refuted.
(** A shallow packet whose id is no id is accepted. *)
Theorem C66_shallow_id_refuted : exists pl, pl = bs "shallow " ++ repeat 122 40 /\ payload false pl (length pl) (mkpd (Some 20%nat) true) = Ok (KShallow None, mkpd (Some 20%nat) true).
Proof. eexists. split; [reflexivity|]. vm_compute. reflexivity. Qed.
Print Assumptions C66_shallow_id_refuted.
(** Without a NUL behind the bytes received the search for the format leaves the buffer. *)
Theorem C67_no_terminator_refuted : exists pl, parse_line false (frame pl) (length (frame pl)) (mkpd None false) = UB.
Proof. exists (hex_text (id_ 1) ++ bs " HEAD" ++ 0 :: lone_caps ++ [10]). vm_compute. reflexivity. Qed.
Print Assumptions C67_no_terminator_refuted.
(** Asking for nothing: the search for the first reference to ask for reads behind the array. *)
Theorem C66_nothing_wanted_refuted : buffer_wants 20 x_all [(id_ 1, true); (id_ 2, true)] [] = UB.
Proof. vm_compute. reflexivity. Qed.
Print Assumptions C66_nothing_wanted_refuted.
