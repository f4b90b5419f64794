From Verif Require Import Base Str CodecModel OidModel OidSpec OidProofs OidProps ReflogProofs PrefsProofs PrefsFind PktModel PktSpec PktProofs.

(** *** Framing *)
Lemma digits_number a b c d : 0 <= a < 16 -> 0 <= b < 16 -> 0 <= c < 16 -> 0 <= d < 16 -> hex_number 0 [digit a; digit b; digit c; digit d] = Some (4096 * a + 256 * b + 16 * c + d).
Proof. intros. cbn [hex_number]. rewrite !hexval_digit by lia. f_equal. lia. Qed.
Lemma frame_digits pl : frame pl = [digit ((Z.of_nat (length pl) + 4) / 256 / 16); digit ((Z.of_nat (length pl) + 4) / 256 mod 16); digit ((Z.of_nat (length pl) + 4) mod 256 / 16); digit ((Z.of_nat (length pl) + 4) mod 256 mod 16)] ++ pl.
Proof. reflexivity. Qed.
Lemma frame_len pl : length (frame pl) = (4 + length pl)%nat.
Proof. reflexivity. Qed.
Lemma parse_len_frame pl x n : Z.of_nat (length pl) + 4 < 65536 -> (4 <= n)%nat -> parse_len (frame pl ++ x) n = Ok (length pl + 4)%nat.
Proof.
  intros H Hn. unfold parse_len. replace (n <? 4)%nat with false by (symmetry; apply Nat.ltb_ge; lia). rewrite frame_digits. unfold take. cbn [app length Nat.leb firstn]. cbn [bindr]. rewrite digits_number by (Z.to_euclidean_division_equations; lia).
  f_equal. apply Nat2Z.inj. rewrite Z2Nat.id by (Z.to_euclidean_division_equations; lia). rewrite Nat2Z.inj_add. Z.to_euclidean_division_equations; lia.
Qed.
Lemma parse_line_frame exp pl x n d : pl <> [] -> Z.of_nat (length pl) + 4 < 65536 -> (length (frame pl) <= n)%nat -> payload exp pl (length pl) d <> UB ->
  parse_line exp (frame pl ++ x) n d = do r <- payload exp pl (length pl) d ;; Ok (r, length (frame pl)).
Proof.
  intros H1 H2 H3 H4. rewrite frame_len in *. unfold parse_line. rewrite parse_len_frame by lia. cbn [bindr]. replace (n <? length pl + 4)%nat with false by (symmetry; apply Nat.ltb_ge; lia).
  assert (length pl <> 0)%nat by (destruct pl; [congruence|discriminate]).
  replace (length pl + 4 =? 0)%nat with false by (symmetry; apply Nat.eqb_neq; lia). replace (length pl + 4 <=? 4)%nat with false by (symmetry; apply Nat.leb_gt; lia). cbn [negb andb].
  rewrite frame_digits. cbn [app skipn]. replace (length pl + 4 - 4)%nat with (length pl) by lia. rewrite (payload_ext exp pl x (length pl) d H4). replace (length pl + 4)%nat with (4 + length pl)%nat by lia. reflexivity.
Qed.
Lemma parse_line_flush exp x n d : (4 <= n)%nat -> parse_line exp (bs "0000" ++ x) n d = Ok (KFlush, d, 4%nat).
Proof. intros H. unfold parse_line, parse_len. replace (n <? 4)%nat with false by (symmetry; apply Nat.ltb_ge; lia). unfold take. cbn [app length Nat.leb firstn bs]. reflexivity. Qed.
Lemma firstn4 (b t a pl : list Z) : length a = 4%nat -> b ++ t = a ++ pl -> (4 <= length b)%nat -> exists b', b = a ++ b'.
Proof.
  intros Ha E H. exists (skipn 4 b). assert (firstn 4 (b ++ t) = firstn 4 (a ++ pl)) by now rewrite E. rewrite firstn_app_le in H0 by exact H. rewrite firstn_app_le in H0 by lia. rewrite (firstn_all2 a) in H0 by lia. rewrite <- H0. now rewrite firstn_skipn.
Qed.
(** An item of which bytes are missing. *)
Lemma parse_line_short exp i b t x d : frameable i -> b ++ t = item_text i -> t <> [] -> parse_line exp (b ++ x) (length b) d = Err EBUFS.
Proof.
  intros Hi E Ht. assert (length b < length (item_text i))%nat as L by (rewrite <- E, app_length; destruct t; [congruence|cbn; lia]).
  destruct (Nat.lt_ge_cases (length b) 4) as [Hb|Hb].
  { unfold parse_line, parse_len. replace (length b <? 4)%nat with true by (symmetry; apply Nat.ltb_lt; lia). reflexivity. }
  destruct i as [|pl]; [cbn in L; lia|]. cbn [item_text frameable] in *. destruct Hi as (H1 & H2 & H3).
  unfold parse_line. assert (P : parse_len (b ++ x) (length b) = Ok (length pl + 4)%nat).
  { rewrite frame_digits in E. match type of E with _ = ?a ++ _ => assert (exists b', b = a ++ b') as (b' & ->) by (apply (firstn4 b t a pl); [reflexivity|exact E|exact Hb]) end. pose proof (parse_len_frame pl [] _ H3 Hb) as P. rewrite frame_digits, app_nil_r in P. revert P. unfold parse_len. cbn [app length]. unfold take. cbn [length Nat.leb firstn]. now destruct (_ <? 4)%nat. }
  rewrite P. cbn [bindr]. rewrite frame_len in L. replace (length b <? length pl + 4)%nat with true by (symmetry; apply Nat.ltb_lt; lia). reflexivity.
Qed.

(** *** The loop *)
Lemma app_split {A} (a b c e : list A) : a ++ b = c ++ e -> (exists m, a = c ++ m /\ e = m ++ b) \/ (exists m, m <> [] /\ c = a ++ m /\ b = m ++ e).
Proof.
  revert c. induction a as [|x a IH]; intros c H; cbn in H.
  - destruct c as [|y c]; [left; exists []; auto|]. right. exists (y :: c). split; [discriminate|]. auto.
  - destruct c as [|y c]; cbn in H; [left; exists (x :: a); split; [reflexivity|now symmetry]|]. injection H as <- H. destruct (IH c H) as [(m & -> & ->)|(m & Hm & -> & ->)]; [left|right]; exists m; auto.
Qed.
Definition nonempty (l : list (list Z)) : Prop := Forall (fun c => c <> []) l.
Lemma BUFSIZE_eq : BUFSIZE = Z.to_nat 65536.
Proof. reflexivity. Qed.
Lemma item_len i : frameable i -> (4 <= length (item_text i) < BUFSIZE)%nat.
Proof. rewrite BUFSIZE_eq. destruct i as [|pl]; cbn [frameable item_text]; [cbn; lia|]. intros (_ & _ & H). rewrite frame_len. lia. Qed.
Opaque BUFSIZE.
(** Receiving: some bytes move from the stream to the buffer. *)
Lemma recv_step buf (c : list Z) cs : (length buf < BUFSIZE)%nat -> c <> [] -> nonempty cs ->
  let room := (BUFSIZE - length buf)%nat in let buf' := buf ++ firstn room c in let cs' := if (length c <=? room)%nat then cs else skipn room c :: cs in
  buf' ++ concat cs' = buf ++ concat (c :: cs) /\ nonempty cs' /\ (2 * length (concat cs') + length buf' < 2 * length (concat (c :: cs)) + length buf)%nat.
Proof.
  intros Hb Hc Hcs. cbv zeta. assert (1 <= length c)%nat by (destruct c; [congruence|cbn; lia]). assert (E : (buf ++ firstn (BUFSIZE - length buf) c) ++ concat (if (length c <=? BUFSIZE - length buf)%nat then cs else skipn (BUFSIZE - length buf) c :: cs) = buf ++ concat (c :: cs)).
  { rewrite <- app_assoc. f_equal. cbn [concat]. destruct (length c <=? BUFSIZE - length buf)%nat eqn:E; [apply Nat.leb_le in E; now rewrite firstn_all2 by lia|]. cbn [concat]. now rewrite app_assoc, firstn_skipn. }
  split; [exact E|]. split.
  - destruct (length c <=? BUFSIZE - length buf)%nat eqn:El; [exact Hcs|]. apply Nat.leb_gt in El. constructor; [|exact Hcs]. intros K. apply (f_equal (@length Z)) in K. rewrite skipn_length in K. cbn in K. lia.
  - apply (f_equal (@length Z)) in E. rewrite !app_length in E. rewrite app_length. rewrite firstn_length in *. lia.
Qed.
Ltac nf := repeat (match goal with
  | H : bindr ?r _ = Ok _ |- _ => destruct r eqn:?; cbn [bindr] in H; try discriminate
  | H : (if ?b then _ else _) = Ok _ |- _ => destruct b; try discriminate
  | H : match ?o with Some _ => _ | None => _ end = Ok _ |- _ => destruct o; try discriminate
  end); try discriminate.
Lemma payload_not_flush exp s len d d' : payload exp s len d <> Ok (KFlush, d').
Proof.
  intros H. unfold payload, keep, band_pkt, err_pkt, comment_pkt, ok_pkt, ng_pkt, unpack_pkt in H. nf.
  all: repeat match goal with H : Ok _ = Ok _ |- _ => apply Ok_inj in H; subst end; try discriminate.
  all: try (match goal with H : _ = Ok ?p, K : (?p, _) = (KFlush, _) |- _ => injection K as -> _; nf end).
  - unfold ack_pkt in H. nf.
  - unfold shallow_pkt in H. nf. destruct (oid_from_prefix _ _ _); discriminate.
  - unfold shallow_pkt in H. nf. destruct (oid_from_prefix _ _ _); discriminate.
  - unfold ref_pkt in H. nf.
Qed.
Theorem store_refs_ok exp stale ps l' junk : forall fuel flushes buf d refs chunks l, nonempty chunks -> Forall frameable l -> buf ++ concat chunks = text l ++ junk -> (2 * length (concat chunks) + length buf < fuel)%nat ->
  expected exp flushes d l refs = Ok (ps, l') -> exists b cs, store_refs fuel exp stale flushes buf d refs chunks = Ok (ps, b, cs) /\ nonempty cs /\ b ++ concat cs = text l' ++ junk.
Proof.
  induction fuel as [|n IH]; intros flushes buf d refs chunks l Hc Hl E Hf Hx; [lia|]. destruct l as [|i l]; [discriminate|]. pose proof (Forall_inv Hl) as Hi. apply Forall_inv_tail in Hl.
  change (text (i :: l)) with (item_text i ++ text l) in E. rewrite <- app_assoc in E. cbn [store_refs]. pose proof (item_len i Hi) as Li.
  destruct (app_split _ _ _ _ E) as [(m & -> & Em)|(m & Hm & Em & Ec)].
  - (* the item is in the buffer *)
    assert (L : (length m + 4 <= length (item_text i ++ m))%nat) by (rewrite app_length; lia).
    assert (M : match item_text i ++ m with [] => Err EBUFS | _ => parse_line exp ((item_text i ++ m) ++ stale n) (length (item_text i ++ m)) d end = parse_line exp ((item_text i ++ m) ++ stale n) (length (item_text i ++ m)) d) by (destruct (item_text i ++ m); [cbn in L; lia|reflexivity]). rewrite M. clear M.
    rewrite <- app_assoc. destruct i as [|pl]; cbn [item_text expected] in *.
    + rewrite parse_line_flush by (rewrite app_length; cbn; lia). cbv iota. change (skipn 4 (bs "0000" ++ m)) with m. cbn [Nat.ltb]. destruct (flushes <=? 1)%nat.
      * apply Ok_inj in Hx. injection Hx as <- <-. exists m, chunks. auto.
      * apply IH with (l := l); auto. lia.
    + destruct Hi as (H1 & H2 & H3). assert (NU : payload exp pl (length pl) d <> UB) by (intros K; rewrite K in Hx; discriminate).
      rewrite parse_line_frame by (auto; rewrite app_length; lia). assert (S1 : skipn (length (frame pl)) (frame pl ++ m) = m) by (rewrite skipn_app, Nat.sub_diag, skipn_all; reflexivity).
      destruct (payload exp pl (length pl) d) as [[p d']|e| |] eqn:Ep; cbn [bindr] in *; try discriminate. rewrite S1. rewrite frame_len in *. destruct p; try discriminate; try (exfalso; eapply payload_not_flush; eassumption); try (apply IH with (l := l); auto; lia).
  - (* it is not *)
    assert (Lb : (length buf < BUFSIZE)%nat) by (rewrite Em, app_length in Li; lia).
    assert (P : match buf with [] => Err EBUFS | _ => parse_line exp (buf ++ stale n) (length buf) d end = Err EBUFS) by (destruct buf; [reflexivity|]; apply parse_line_short with (i := i) (t := m); auto).
    rewrite P. change (EBUFS =? EBUFS) with true. cbv iota. replace (BUFSIZE <=? length buf)%nat with false by (symmetry; apply Nat.leb_gt; lia).
    destruct chunks as [|c cs]; [cbn in Ec; destruct m; [congruence|discriminate]|]. pose proof (Forall_inv Hc) as Hc0. destruct c as [|c0 c]; [congruence|]. destruct (recv_step buf (c0 :: c) cs Lb Hc0 (Forall_inv_tail Hc)) as (R1 & R2 & R3). cbv zeta in *. apply IH with (l := i :: l); auto.
    + rewrite R1, E. change (text (i :: l)) with (item_text i ++ text l). now rewrite <- app_assoc.
    + lia.
Qed.
