From Verif Require Import Base Str OidModel OidSpec OidProofs OidProps SigModel SigSpec SigProofs SigProps ReflogProofs CommitModel CommitSpec.
Local Open Scope Z_scope.

Lemma pfx (h t : list Z) : prefixb h (h ++ t) = true.
Proof. apply prefixb_spec. eexists. reflexivity. Qed.
Lemma hex_app id r : bytes id -> bytes r -> bytes (hex_text id ++ r).
Proof.
  intros B R. apply Forall_app. split; auto. apply Forall_forall. intros c H. apply hex_bytes in H; auto. unfold is_byte. lia.
Qed.
Lemma write_hdr size h id : oid_ok size id -> write_oid_header size h id = Ok (h ++ hex_text id ++ [10]).
Proof. intros Ho. unfold write_oid_header. destruct (oid_format_exact size O id Ho) as (_ & -> & _). reflexivity. Qed.
Lemma parse_hdr size h id r : (1 <= size)%nat -> oid_ok size id -> bytes r ->
  parse_oid_header size (h ++ hex_text id ++ [10] ++ r) h = Ok (Some (id, r)).
Proof.
  intros Hs Ho Hr. unfold parse_oid_header. pose proof (hex_text_length id) as L. destruct Ho as [Hl Hb]. rewrite Hl in L.
  rewrite pfx. cbn [negb]. rewrite !app_length. cbn [length].
  destruct (Nat.ltb_spec (length h + (length (hex_text id) + (1 + length r))) (length h + 2 * size + 1)); [lia|].
  rewrite app_nth2 by lia. rewrite app_nth2 by lia. replace (length h + 2 * size - length h - length (hex_text id))%nat with O by lia.
  cbn [app nth]. rewrite Z.eqb_refl. cbn [negb].
  rewrite skl.
  assert (B : bytes (hex_text id ++ 10 :: r)). { apply hex_app; auto. constructor; auto. unfold is_byte. lia. }
  rewrite (proj2 (from_prefix_iff size _ (2 * size) id B)).
  - do 3 f_equal. rewrite skipn_app. rewrite skipn_all2 by lia. cbn [app].
    rewrite skipn_app, skipn_all2 by lia. cbn [app]. replace (length h + 2 * size + 1 - length h - length (hex_text id))%nat with 1%nat by lia. reflexivity.
  - rewrite app_length. split; [lia|]. split; [lia|]. split; [split; auto|]. exists (nibbles id). split.
    + rewrite <- L, fsl. apply digits_hex_text, Hb.
    + rewrite Nat.sub_diag. cbn. now rewrite app_nil_r.
Qed.
Lemma no_hdr size h buf : prefixb h buf = false -> parse_oid_header size buf h = Ok None.
Proof. intros H. unfold parse_oid_header. rewrite H. destruct (_ <? _)%nat; reflexivity. Qed.

Lemma cstr_bytes s : cstring s -> bytes s.
Proof. apply Forall_impl. intros c H. unfold is_byte. lia. Qed.
Lemma hex_cstr id : bytes id -> cstring (hex_text id).
Proof. intros B. apply Forall_forall. intros c H. apply hex_bytes in H; auto. lia. Qed.
Lemma sig_cstr s h out : storable s -> cstring h -> writebuf h s = Ok out -> cstring out /\ exists r, out = h ++ r.
Proof.
  intros W Bh H. rewrite (SigProps.written s W) in H. apply Ok_inj in H. subst out. split; [|eexists; reflexivity].
  pose proof W as (_ & _ & C1 & C2 & _).
  apply Forall_app. split; [exact Bh|]. apply Forall_app. split; [|repeat constructor; lia].
  apply Forall_app. split; [exact C1|]. apply Forall_app. split; [repeat constructor; lia|]. apply Forall_app. split; [exact C2|].
  apply Forall_app. split; [repeat constructor; lia|]. apply Forall_forall. intros c Hc. apply (SigProps.whenb_bytes s W) in Hc. lia.
Qed.

Definition ids_text (h : list Z) (ps : list (list Z)) : list Z := concat (map (fun p => h ++ hex_text p ++ [10]) ps).
Lemma parents_written size ps : Forall (oid_ok size) ps -> write_parents size ps = Ok (ids_text (bs "parent ") ps).
Proof.
  induction 1 as [|p r Hp H IH]; [reflexivity|]. cbn [write_parents]. rewrite (write_hdr _ _ _ Hp). cbn [bindr]. rewrite IH. cbn [bindr]. reflexivity.
Qed.
Lemma ids_cstr size h ps : cstring h -> Forall (oid_ok size) ps -> cstring (ids_text h ps).
Proof.
  intros Bh. induction 1 as [|p r Hp H IH]; [constructor|]. unfold ids_text. cbn [map concat]. apply Forall_app. split; [|exact IH].
  apply Forall_app. split; [exact Bh|]. apply Forall_app. split; [apply hex_cstr, Hp|]. repeat constructor; lia.
Qed.
Ltac cstr_tac := vm_compute; repeat constructor; discriminate.
Lemma parents_parsed size ps : (1 <= size)%nat -> Forall (oid_ok size) ps -> forall fuel r, bytes r -> prefixb (bs "parent ") r = false ->
  (length ps < fuel)%nat -> parse_parents fuel size (ids_text (bs "parent ") ps ++ r) = Ok (ps, r).
Proof.
  intros Hs. induction 1 as [|p q Hp H IH]; intros [|fuel] r Hr Np Hf; cbn [length] in Hf; try lia; cbn [parse_parents].
  - cbn [ids_text map concat app]. rewrite (no_hdr _ _ _ Np). reflexivity.
  - unfold ids_text. cbn [map concat]. fold (ids_text (bs "parent ") q). rewrite <- !app_assoc. rewrite parse_hdr; auto.
    + cbn [bindr]. rewrite IH by (auto; lia). reflexivity.
    + apply Forall_app. split; [|exact Hr]. apply cstr_bytes, (ids_cstr size); auto. cstr_tac.
Qed.
Lemma ids_len h ps : (0 < length h)%nat -> (length ps <= length (ids_text h ps))%nat.
Proof.
  intros Hh. induction ps as [|p q IH]; [reflexivity|]. unfold ids_text in *. cbn [map concat length]. rewrite !app_length. lia.
Qed.
Lemma prefix_other h h' r : (exists i, (i < length h)%nat /\ (i < length h')%nat /\ nth i h 0 <> nth i h' 0) -> prefixb h (h' ++ r) = false.
Proof.
  intros (i & H1 & H2 & N). destruct (prefixb h (h' ++ r)) eqn:E; [|reflexivity]. apply prefixb_spec in E. destruct E as [t E].
  exfalso. apply N. transitivity (nth i (h ++ t) 0); [now rewrite app_nth1|]. rewrite <- E. now rewrite app_nth1.
Qed.

Lemma cut0_cstr s : cstring s -> cut0 s = s.
Proof. intros H. apply cut0_id. intros N. unfold cstring in H. rewrite Forall_forall in H. apply H in N. lia. Qed.

(** The headers behind the committer. *)
Lemma headers_done fuel m enc : parse_headers (S fuel) (10 :: m) enc = Ok (enc, 10 :: m).
Proof. reflexivity. Qed.
Lemma headers_line fuel l r enc : l <> [] -> ~ In 10 l ->
  parse_headers (S fuel) (l ++ 10 :: r) enc =
  parse_headers fuel r (if prefixb (bs "encoding ") (l ++ 10 :: r) then Some (cut0 (skipn 9 l)) else enc).
Proof.
  intros N H. destruct l as [|c l]; [contradiction|]. cbn [app parse_headers].
  destruct (Z.eqb_spec c 10) as [->|_]; [exfalso; apply H; left; reflexivity|].
  change (c :: l ++ 10 :: r) with ((c :: l) ++ 10 :: r). rewrite memchr_app by exact H.
  rewrite fsl. replace (skipn (length (c :: l) + 1) ((c :: l) ++ 10 :: r)) with r; [reflexivity|].
  rewrite skipn_app, skipn_all2 by lia. replace (length (c :: l) + 1 - length (c :: l))%nat with 1%nat by lia. reflexivity.
Qed.

Lemma memchr_lt s c i : memchr s c = Some i -> (i < length s)%nat /\ nth i s 0 = c /\ ~ In c (firstn i s).
Proof.
  revert i. induction s as [|x s IH]; intros i H; cbn [memchr] in H; [discriminate|]. destruct (Z.eqb_spec x c) as [E|N].
  - injection H as <-. cbn. split; [lia|]. auto.
  - destruct (memchr s c) as [j|]; [|discriminate]. cbn [option_map] in H. injection H as <-. destruct (IH j eq_refl) as (H1 & H2 & H3).
    cbn [length nth firstn In]. split; [lia|]. split; [exact H2|]. intros [E|E]; auto.
Qed.
Lemma memchr_split s c i : memchr s c = Some i -> s = firstn i s ++ c :: skipn (i + 1) s.
Proof.
  intros H. destruct (memchr_lt _ _ _ H) as (H1 & H2 & _).
  rewrite <- (firstn_skipn i s) at 1. f_equal. rewrite <- H2. clear H H2. revert s H1.
  induction i as [|i IH]; intros [|x s] Hl; cbn [length] in Hl; try lia; [reflexivity|]. cbn [skipn nth Nat.add]. apply IH. lia.
Qed.
Lemma memchr_none s c : memchr s c = None -> ~ In c s.
Proof.
  induction s as [|x s IH]; cbn [memchr In]; [auto|]. destruct (Z.eqb_spec x c); [discriminate|]. destruct (memchr s c); [discriminate|]. intros _ [E|E]; auto. apply IH; auto.
Qed.
Lemma sig_parse_inv buf h s r : sig_parse buf (Some h) 10 = Ok (s, r) ->
  prefixb h buf = true /\ (length r < length buf)%nat /\ exists l, buf = l ++ 10 :: r /\ ~ In 10 l /\ (length h < length l)%nat.
Proof.
  unfold sig_parse. cbn [Z.eqb]. destruct (memchr buf 10) as [e|] eqn:E; [|discriminate].
  destruct (memchr_lt _ _ _ E) as (H1 & _ & H3). pose proof (memchr_split _ _ _ E) as Sp.
  destruct (Nat.leb_spec (length (firstn e buf)) (length h)) as [|Hl]; [cbn [orb]; discriminate|]. cbn [orb].
  destruct (prefixb h (firstn e buf)) eqn:P; [|discriminate]. cbn [negb].
  destruct (memrchr _ 60); [|discriminate]. destruct (memrchr _ 62); [|discriminate]. destruct (_ <=? _)%nat; [discriminate|].
  destruct (parse_when _) as [[w sg]| | |]; cbn [bindr]; try discriminate. intros Q. apply Ok_inj in Q. injection Q as _ <-.
  split; [|split; [rewrite skipn_length; lia|exists (firstn e buf); auto]].
  apply prefixb_spec in P. destruct P as [t P]. apply prefixb_spec. exists (t ++ skipn e buf).
  rewrite app_assoc, <- P. symmetry. apply firstn_skipn.
Qed.
Lemma skip_fuel b : forall f f', (length b < f)%nat -> (length b < f')%nat -> skip_authors f b = skip_authors f' b.
Proof.
  assert (HN : exists N, (length b <= N)%nat) by eauto. destruct HN as [N HN]. revert b HN.
  induction N as [|N IH]; intros b HN [|f] [|f'] H1 H2; try lia; cbn [skip_authors].
  - destruct b; [reflexivity|cbn in HN; lia].
  - destruct (prefixb (bs "author ") b); [|reflexivity]. destruct (sig_parse b _ 10) as [[s r]| | |] eqn:E; try reflexivity. cbn [bindr].
    apply sig_parse_inv in E. destruct E as (_ & L & _). apply IH; lia.
Qed.
Lemma skip_total b : forall f, (length b < f)%nat -> (exists r, skip_authors f b = Ok r /\ (length r <= length b)%nat) \/ skip_authors f b = Err EINVALID.
Proof.
  assert (HN : exists N, (length b <= N)%nat) by eauto. destruct HN as [N HN]. revert b HN.
  induction N as [|N IH]; intros b HN [|f] H1; try lia; cbn [skip_authors].
  - destruct b; [|cbn in HN; lia]. left. eexists. split; [reflexivity|lia].
  - destruct (prefixb (bs "author ") b); [|left; eexists; split; [reflexivity|lia]].
    destruct (C32_parse_total b (Some (bs "author ")) 10) as [(s & r & E)|E]; rewrite E; cbn [bindr]; [|auto].
    apply sig_parse_inv in E. destruct E as (_ & L & _). destruct (IH r ltac:(lia) f ltac:(lia)) as [(r' & -> & Q)| ->]; [left; eexists; split; [reflexivity|lia]|auto].
Qed.
Lemma parse_hdr_inv size buf h id r : parse_oid_header size buf h = Ok (Some (id, r)) ->
  prefixb h buf = true /\ r = skipn (length h + 2 * size + 1) buf /\ (length h + 2 * size + 1 <= length buf)%nat.
Proof.
  unfold parse_oid_header. destruct (Nat.ltb_spec (length buf) (length h + 2 * size + 1)); [discriminate|].
  destruct (prefixb h buf); [|discriminate]. cbn [negb]. destruct (_ =? 10); [|discriminate]. cbn [negb].
  destruct (oid_from_prefix _ _ _); try discriminate. intros Q. apply Ok_inj in Q. injection Q as _ <-. auto.
Qed.
Lemma parse_hdr_total size buf h : bytes buf -> parse_oid_header size buf h = Ok None \/ exists id r, parse_oid_header size buf h = Ok (Some (id, r)) /\ (length r < length buf)%nat /\ bytes r.
Proof.
  intros B. unfold parse_oid_header. destruct (Nat.ltb_spec (length buf) (length h + 2 * size + 1)); [auto|].
  destruct (prefixb h buf); [|auto]. cbn [negb]. destruct (_ =? 10); [|auto]. cbn [negb].
  assert (Bs : forall n, bytes (skipn n buf)). { intros n. unfold bytes in *. rewrite Forall_forall in *. intros c Hc. apply B. rewrite <- (firstn_skipn n buf). apply in_or_app. auto. }
  destruct (from_prefix_outcome size (skipn (length h) buf) (2 * size) (Bs _)) as [(id & ->)| ->]; [left; rewrite skipn_length; lia| |auto].
  - right. do 2 eexists. split; [reflexivity|]. split; [rewrite skipn_length; lia|apply Bs].
Qed.
Lemma parents_total size buf : bytes buf -> forall f, (length buf < f)%nat ->
  exists ps r, parse_parents f size buf = Ok (ps, r) /\ (length r <= length buf)%nat /\ bytes r.
Proof.
  assert (HN : exists N, (length buf <= N)%nat) by eauto. destruct HN as [N HN]. revert buf HN.
  induction N as [|N IH]; intros buf HN B [|f] H1; try lia; cbn [parse_parents];
    destruct (parse_hdr_total size buf (bs "parent ") B) as [->|(id & r & -> & L & Br)]; cbn [bindr]; try (do 2 eexists; split; [reflexivity|]; auto; fail); try lia.
  destruct (IH r ltac:(lia) Br f ltac:(lia)) as (ps & r' & -> & Q & B'). cbn [bindr]. do 2 eexists. split; [reflexivity|]. split; [lia|exact B'].
Qed.
Lemma headers_total b : forall enc f, (length b < f)%nat -> exists e r, parse_headers f b enc = Ok (e, r).
Proof.
  assert (HN : exists N, (length b <= N)%nat) by eauto. destruct HN as [N HN]. revert b HN.
  induction N as [|N IH]; intros b HN enc [|f] H1; try lia; cbn [parse_headers]; destruct b as [|c b]; eauto; cbn [length] in *; try lia.
  destruct (c =? 10); eauto. apply IH; rewrite skipn_length; cbn [length]; destruct (memchr _ _) as [i|] eqn:E; lia.
Qed.

Lemma app_cut_line (l b f t : list Z) : l ++ 10 :: b = f ++ t -> ~ In 10 l -> ~ In 10 f -> exists u, l = f ++ u.
Proof.
  revert f. induction l as [|x l IH]; intros [|y f] E N1 N2; try (eexists; reflexivity).
  - cbn in E. injection E as <- _. exfalso. apply N2. left. reflexivity.
  - cbn in E. injection E as <- E. destruct (IH f E) as [u ->]; [intros Q; apply N1; right; exact Q|intros Q; apply N2; right; exact Q|]. exists u. reflexivity.
Qed.
