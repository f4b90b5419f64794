(** C39: line-ending conversion. *)
From Verif Require Import Base Str CrlfModel CrlfSpec CrlfProofs.

(** *** The conversions *)
(** To the repository form: exactly the CRs that stand before an LF go. *)
Theorem C39_crlf_to_lf s : crlf_to_lf s = Ok (unix s).
Proof. exact (crlf_to_lf_eq s). Qed.
(** To the working form: exactly the LFs without a CR get one. *)
Theorem C39_lf_to_crlf s : lf_to_crlf s = Ok (dos 0 s).
Proof. exact (lf_to_crlf_eq s). Qed.

Theorem C39_lf_crlf_lf s : ~ In 13 s -> (do t <- lf_to_crlf s ;; crlf_to_lf t) = Ok s.
Proof. intros H. rewrite lf_to_crlf_eq. cbn [bindr]. rewrite crlf_to_lf_eq, unix_dos by (lia || assumption). reflexivity. Qed.
(** Text in which CR and LF occur only as CR-LF survives the way back too. *)
Theorem C39_crlf_lf_crlf s : pairs s = num 10 s -> pairs s = num 13 s ->
  (do t <- crlf_to_lf s ;; lf_to_crlf t) = Ok s.
Proof. intros H1 H2. rewrite crlf_to_lf_eq. cbn [bindr]. rewrite lf_to_crlf_eq, dos_unix by (lia || assumption). reflexivity. Qed.

(** Repeating the conversion changes nothing unless a CR preceded a CR-LF. *)
Theorem C39_to_lf_idempotent s t : num 13 s = pairs s -> crlf_to_lf s = Ok t -> crlf_to_lf t = Ok t /\ ~ In 13 t.
Proof.
  intros H E. rewrite crlf_to_lf_eq in *. injection E as <-.
  assert (~ In 13 (unix s)) as Hn by (apply num_zero; assert (N := num_unix_cr s); lia).
  split; [|exact Hn]. f_equal. rewrite <- (app_nil_r (unix s)), unix_nocr by assumption. cbn. reflexivity.
Qed.
Theorem C39_to_lf_idempotent_refuted : exists s t u, crlf_to_lf s = Ok t /\ crlf_to_lf t = Ok u /\ t <> u.
Proof. exists [97; 13; 13; 10], [97; 13; 10], [97; 10]. repeat split; discriminate. Qed.
Theorem C39_to_crlf_idempotent s t : lf_to_crlf s = Ok t -> lf_to_crlf t = Ok t.
Proof.
  rewrite !lf_to_crlf_eq. intros E. injection E as <-. f_equal.
  assert (G : forall s p, dos p (dos p s) = dos p s); [|apply G].
  clear. induction s as [|c s IH]; intros p; [reflexivity|]. cbn [dos].
  destruct ((c =? 10) && negb (p =? 13)) eqn:E.
  - cbn [dos]. change (13 =? 10) with false. change (10 =? 10) with true. change (13 =? 13) with true. cbn [andb negb]. rewrite IH. reflexivity.
  - cbn [dos]. rewrite E, IH. reflexivity.
Qed.

(** *** The filter *)
(** Storing a file removes CRs before LF or leaves the file alone; checking it
    out adds CRs before LF or leaves the file alone. *)
Theorem C39_to_odb_cases native cri ca from :
  to_odb native cri ca from = Passthrough \/ to_odb native cri ca from = Failed \/
  to_odb native cri ca from = Replaced (unix from).
Proof.
  unfold to_odb. destruct (ca_action ca) eqn:Ea; auto; destruct from as [|c from0] eqn:Ef; auto; rewrite <- Ef;
  (destruct (_ && _); auto; destruct (safecrlf_refuses _ _ _); auto; destruct (_ =? 0); auto; rewrite crlf_to_lf_eq; auto).
Qed.
Theorem C39_to_workdir_cases native ca from :
  to_workdir native ca from = Passthrough \/ to_workdir native ca from = Replaced (dos 0 from).
Proof.
  unfold to_workdir. destruct from as [|c from0] eqn:Ef; auto; rewrite <- Ef.
  destruct (output_eol native ca); auto. destruct (_ || _); auto. destruct (_ && _); auto. rewrite lf_to_crlf_eq. auto.
Qed.

(** Binary content (in particular content with a NUL) is left alone when the
    decision is automatic, and always under the attribute -text. *)
Theorem C39_binary_untouched native cri ca from : is_auto (ca_action ca) = true -> In 0 from ->
  to_odb native cri ca from = Passthrough /\ to_workdir native ca from = Passthrough.
Proof.
  intros Ha H0. assert (N := gather_nul from H0).
  assert (B : is_binary (gather from) = true).
  { unfold is_binary. destruct (Z.ltb_spec 0 (st_nul (gather from))); [|lia]. rewrite orb_true_r. reflexivity. }
  split.
  - unfold to_odb. destruct (ca_action ca); try discriminate Ha; destruct from; try reflexivity; rewrite B; reflexivity.
  - unfold to_workdir. destruct from; [reflexivity|]. destruct (output_eol native ca); try reflexivity.
    destruct (_ || _); [reflexivity|]. rewrite Ha, B, orb_true_r. reflexivity.
Qed.
Theorem C39_no_text_attribute native unsafe auto safe e acrlf aeol cri from :
  let ca := convert_attrs native unsafe auto safe e (Some (acrlf, aeol, AFalse)) in
  to_odb native cri ca from = Passthrough /\ to_workdir native ca from = Passthrough.
Proof.
  cbv zeta. unfold convert_attrs. cbn [check_crlf]. split; [reflexivity|]. unfold to_workdir. cbn. destruct from; reflexivity.
Qed.

(** Check out and store again: a file stored without CRs comes back unchanged,
    whatever the attributes and the configuration (safecrlf included). *)
Theorem C39_checkout_then_store native ca s : ~ In 13 s ->
  exists w, result s (to_workdir native ca s) = Some w /\ result w (to_odb native false ca w) = Some s.
Proof.
  intros Hn. destruct (gather_spec s) as (Gc & Gl & Gp).
  assert (N13 : num 13 s = 0%nat) by (apply num_zero; assumption).
  assert (P0 : pairs s = 0%nat) by (assert (L := pairs_le_cr s); lia).
  assert (Pass : result s (to_odb native false ca s) = Some s \/ (output_eol native ca = ECrlf /\ num 10 s <> 0%nat /\ (is_auto (ca_action ca) = true -> is_binary (gather s) = false))).
  { unfold to_odb. destruct (ca_action ca) eqn:Ea; try (left; reflexivity); (destruct s as [|c s0] eqn:Es; [left; reflexivity|]); rewrite <- Es in *; cbn [is_auto andb];
      try (destruct (is_binary (gather s)) eqn:B; cbn [orb]; [left; reflexivity|]);
      (destruct (safecrlf_refuses native ca (gather s)) eqn:R;
       [right | left; rewrite Gp, P0; reflexivity]).
    all: unfold safecrlf_refuses in R; rewrite Gp, P0, Gl in R; destruct (ca_safe ca); try discriminate R; destruct (output_eol native ca); try discriminate R;
      (split; [reflexivity|]; split; [destruct (num 10 s); [discriminate R|lia]|intros; auto; discriminate]). }
  unfold to_workdir. destruct s as [|c s0] eqn:Es.
  { exists []. split; [reflexivity|]. unfold to_odb. destruct (ca_action ca); reflexivity. }
  rewrite <- Es in *. 
  destruct (output_eol native ca) eqn:Eo; try (exists s; split; [reflexivity|]; destruct Pass as [Hp|[Hp _]]; [exact Hp|discriminate]).
  rewrite Gl, Gp, Gc, N13, P0.
  destruct (Z.eqb_spec (Z.of_nat (num 10 s)) 0) as [E0|E0]; cbn [orb].
  { exists s. split; [reflexivity|]. destruct Pass as [Hp|(_ & Hp & _)]; [exact Hp|lia]. }
  destruct (Z.eqb_spec (Z.of_nat (num 10 s)) (Z.of_nat 0)) as [E1|_]; [lia|].
  change (0 <? Z.of_nat 0) with false. cbn [orb].
  destruct (is_auto (ca_action ca) && is_binary (gather s)) eqn:Eb.
  { exists s. split; [reflexivity|]. destruct Pass as [Hp|(_ & _ & Hp)]; [exact Hp|].
    apply andb_true_iff in Eb as [Ea Eb]. rewrite (Hp Ea) in Eb. discriminate. }
  rewrite lf_to_crlf_eq. exists (dos 0 s). split; [reflexivity|].
  assert (U : unix (dos 0 s) = s) by (apply unix_dos; [lia|assumption]).
  set (w := dos 0 s) in *.
  destruct (gather_spec w) as (Wc & Wl & Wp).
  assert (W1 := num_unix_cr w). rewrite U, N13 in W1.
  assert (W2 : num 10 w = num 10 s) by (rewrite <- U; symmetry; apply num_unix; lia).
  assert (W3 : pairs w = num 10 w).
  { assert (D := dos_pairs s 0). fold w in D. unfold w in D at 2. rewrite starts_dos in D. change (0 =? 13) with false in D. rewrite andb_false_r in D. lia. }
  assert (Wb : is_binary (gather w) = is_binary (gather s)).
  { assert (O := gather_unix_other w). rewrite U in O. unfold is_binary. rewrite Wc, Wp, Gc, Gp, N13, P0.
    injection O as O1 O2 O3. rewrite O1, O2, O3. f_equal. f_equal.
    destruct (Z.eqb_spec (Z.of_nat (num 13 w)) (Z.of_nat (pairs w))); [reflexivity|lia]. }
  assert (Wne : w <> []) by (intros E; rewrite E in W2; cbn in W2; lia).
  unfold to_odb. destruct (ca_action ca) eqn:Ea; try (unfold output_eol in Eo; rewrite Ea in Eo; discriminate Eo);
    (destruct w as [|cw w0] eqn:Ew; [congruence|]); rewrite <- Ew in *; cbn [is_auto andb] in *; rewrite ?Wb, ?Eb; cbn [orb];
    (assert (safecrlf_refuses native ca (gather w) = false) as ->
      by (unfold safecrlf_refuses; rewrite Eo, Wp, Wl, W3, Z.eqb_refl; destruct (ca_safe ca); reflexivity));
    rewrite Wp; (destruct (Z.eqb_spec (Z.of_nat (pairs w)) 0); [lia|]); rewrite crlf_to_lf_eq, U; reflexivity.
Qed.

(** Store and check out again under core.safecrlf = true: what was accepted
    comes back unchanged, if every CR precedes an LF (always so when the
    decision is automatic, unless the file is binary) and the indexed version
    has no CR. *)
Theorem C39_safecrlf_partial native ca w s : ca_safe ca = SCFail ->
  (is_auto (ca_action ca) = true \/ num 13 w = pairs w) ->
  result w (to_odb native false ca w) = Some s -> result s (to_workdir native ca s) = Some w.
Proof.
  intros Hs Hcr H. destruct (gather_spec w) as (Wc & Wl & Wp).
  destruct w as [|cw w0] eqn:Ew.
  { unfold to_odb in H. destruct (ca_action ca); injection H as <-; reflexivity. }
  rewrite <- Ew in *. assert (Wne : w <> []) by (rewrite Ew; discriminate).
  destruct (ca_action ca) eqn:Ea.
  2:{ unfold to_odb in H. rewrite Ea in H. injection H as <-. unfold to_workdir. rewrite Ew. unfold output_eol. rewrite Ea. reflexivity. }
  all: unfold to_odb in H; rewrite Ea, Ew in H; rewrite <- Ew in H; cbn [is_auto andb orb] in *; rewrite ?orb_false_r in H.
  (* automatic and binary *)
  5-7: destruct (is_binary (gather w)) eqn:B;
    [injection H as <-; unfold to_workdir; rewrite Ew; rewrite <- Ew; destruct (output_eol native ca); try reflexivity;
     destruct (_ || _); [reflexivity|]; rewrite Ea, B, orb_true_r; reflexivity|].
  5-7: assert (Hcr' : num 13 w = pairs w) by (unfold is_binary in B; rewrite Wc, Wp in B; destruct (Z.eqb_spec (Z.of_nat (num 13 w)) (Z.of_nat (pairs w))); [lia|discriminate]); clear Hcr.
  1-4: destruct Hcr as [Hcr|Hcr']; [discriminate|].
  all: destruct (safecrlf_refuses native ca (gather w)) eqn:R; [discriminate|];
    unfold safecrlf_refuses in R; rewrite Hs, Wp, Wl in R;
    assert (Ho : output_eol native ca = ELf \/ output_eol native ca = ECrlf)
      by (unfold output_eol; rewrite Ea; try destruct (text_eol_is_crlf _ _ _); auto);
    destruct Ho as [Ho|Ho]; rewrite Ho in R.
  all: match goal with
       | Hl : output_eol _ _ = ELf |- _ =>
           rewrite Wp in H; destruct (Z.eqb_spec (Z.of_nat (pairs w)) 0); [|discriminate R]; injection H as <-;
           unfold to_workdir; rewrite Ew, Hl; reflexivity
       | Hl : output_eol _ _ = ECrlf |- _ =>
           destruct (Z.eqb_spec (Z.of_nat (pairs w)) (Z.of_nat (num 10 w))) as [Eq|]; [|discriminate R]
       end.
  all: rewrite Wp in H; destruct (Z.eqb_spec (Z.of_nat (pairs w)) 0) as [Z0|NZ].
  all: try (injection H as <-; unfold to_workdir; rewrite Ew; rewrite <- Ew; rewrite Ho, Wl, <- Eq, Z0; reflexivity).
  all: rewrite crlf_to_lf_eq in H; cbn [of_res result] in H; injection H as <-.
  all: destruct (gather_spec (unix w)) as (Uc & Ul & Up);
       assert (U1 := num_unix_cr w); assert (U2 : num 10 (unix w) = num 10 w) by (apply num_unix; lia);
       assert (U3 : num 13 (unix w) = 0%nat) by lia; assert (U4 : pairs (unix w) = 0%nat) by (assert (L := pairs_le_cr (unix w)); lia);
       assert (D : dos 0 (unix w) = w) by (apply dos_unix; lia);
       assert (Une : unix w <> []) by (intros E; rewrite E in U2; cbn in U2; lia);
       unfold to_workdir; (destruct (unix w) as [|cu u0] eqn:Eu; [congruence|]); rewrite <- Eu in *; rewrite Ho, Ul, Up, U4, U2, Uc, U3.
  all: destruct (Z.eqb_spec (Z.of_nat (num 10 w)) 0); [lia|]; destruct (Z.eqb_spec (Z.of_nat (num 10 w)) (Z.of_nat 0)); [lia|]; cbn [orb];
       rewrite Ea; cbn [is_auto andb]; change (0 <? Z.of_nat 0) with false; cbn [orb].
  5-7: (assert (is_binary (gather (unix w)) = false) as ->
     by (assert (O := gather_unix_other w); injection O as O1 O2 O3; unfold is_binary in *; rewrite O1, O2, O3, Uc, Up, U3, U4;
         rewrite Wc, Wp in B; apply orb_false_iff in B as [B B3]; apply orb_false_iff in B as [B1 B2]; rewrite B2, B3; reflexivity)).
  all: rewrite lf_to_crlf_eq, D; reflexivity.
Qed.
(** Under a text attribute a CR before CR-LF is lost although safecrlf
    accepted the file. *)
Theorem C39_safecrlf_lone_cr_refuted : exists ca w s,
  ca_safe ca = SCFail /\ result w (to_odb false false ca w) = Some s /\ result s (to_workdir false ca s) <> Some w.
Proof. exists (mkat TEXT_CRLF ACFalse SCFail EUnset), [97; 13; 13; 10], [97; 13; 10]. repeat split; discriminate. Qed.
(** If the indexed version has a CR the check is skipped altogether: a file
    with bare LFs is stored and comes back with CR-LF. *)
Theorem C39_safecrlf_index_refuted : exists ca w s,
  ca_safe ca = SCFail /\ is_auto (ca_action ca) = true /\ num 13 w = pairs w /\
  result w (to_odb false true ca w) = Some s /\ result s (to_workdir false ca s) <> Some w.
Proof. exists (mkat AUTO_CRLF ACTrue SCFail EUnset), [97; 10], [97; 10]. repeat split; discriminate. Qed.

(** *** Real settings reach these cases *)
Example settings_example :
  convert_attrs false false ACTrue SCFail EUnset None = mkat AUTO_CRLF ACTrue SCFail EUnset /\
  convert_attrs false false ACFalse SCFail EUnset (Some (AUnspec, AStr (bs "crlf"), ATrue)) = mkat TEXT_CRLF ACFalse SCFail EUnset.
Proof. split; reflexivity. Qed.
Example roundtrip_example :
  to_workdir false (mkat AUTO_CRLF ACTrue SCFail EUnset) [97; 10; 98; 10] = Replaced [97; 13; 10; 98; 13; 10] /\
  to_odb false false (mkat AUTO_CRLF ACTrue SCFail EUnset) [97; 13; 10; 98; 13; 10] = Replaced [97; 10; 98; 10].
Proof. split; reflexivity. Qed.

(** *** The settings mean what the documentation says *)
(** core.autocrlf = input or eol=lf: checkout never changes a file, and what is
    stored under eol=lf is the file with every CR-LF turned into LF. *)
Theorem C39_input_never_adds_cr native unsafe safe e from :
  to_workdir native (convert_attrs native unsafe ACInput safe e None) from = Passthrough.
Proof. unfold convert_attrs, to_workdir. destruct from; reflexivity. Qed.
Theorem C39_eol_lf_attribute native unsafe auto safe e acrlf atext from : atext <> AFalse ->
  (check_crlf atext = UNDEFINED -> acrlf <> AFalse) ->
  let ca := convert_attrs native unsafe auto safe e (Some (acrlf, AStr (bs "lf"), atext)) in
  to_workdir native ca from = Passthrough /\
  (is_auto (ca_action ca) = false -> ca_safe ca <> SCFail -> result from (to_odb native false ca from) = Some (unix from)).
Proof.
  intros Ht Hc. cbv zeta.
  set (ca := convert_attrs _ _ _ _ _ _).
  assert (Ho : ca_action ca = TEXT_INPUT \/ ca_action ca = AUTO_INPUT).
  { unfold ca, convert_attrs. cbn [check_eol]. change (leqb (bs "lf") (bs "lf")) with true. cbv iota.
    assert (Hb : forall v, v <> AFalse -> check_crlf v = UNDEFINED \/ check_crlf v = TEXT \/ check_crlf v = TEXT_INPUT \/ check_crlf v = AUTO).
    { intros [| | |s] Hv; cbn [check_crlf]; auto; try congruence. destruct (leqb s (bs "input")); auto. destruct (leqb s (bs "auto")); auto. }
    destruct (Hb atext Ht) as [E|[E|[E|E]]]; rewrite E; cbn [ca_action]; auto.
    destruct (Hb acrlf (Hc E)) as [F|[F|[F|F]]]; rewrite F; cbn [ca_action]; auto. }
  split.
  - unfold to_workdir, output_eol. destruct from; [reflexivity|]. destruct Ho as [-> | ->]; reflexivity.
  - intros Ha Hs. destruct Ho as [Ho|Ho]; rewrite Ho in Ha; [|discriminate].
    unfold to_odb. rewrite Ho. destruct from as [|c r] eqn:Ef; [reflexivity|]. rewrite <- Ef. cbn [is_auto andb].
    assert (safecrlf_refuses native ca (gather from) = false) as -> by (unfold safecrlf_refuses; destruct (ca_safe ca); congruence).
    destruct (gather_spec from) as (_ & _ & Gp). rewrite Gp. destruct (Z.eqb_spec (Z.of_nat (pairs from)) 0) as [E|E].
    + cbn [result]. rewrite unix_nopairs by lia. reflexivity.
    + rewrite crlf_to_lf_eq. reflexivity.
Qed.
(** eol=crlf on a text file: checkout writes CR-LF at every line end. *)
Theorem C39_eol_crlf_attribute native unsafe auto safe e acrlf from :
  let ca := convert_attrs native unsafe auto safe e (Some (acrlf, AStr (bs "crlf"), ATrue)) in
  result from (to_workdir native ca from) = Some (dos 0 from).
Proof.
  cbv zeta. set (ca := convert_attrs _ _ _ _ _ _). assert (Ha : ca_action ca = TEXT_CRLF) by reflexivity.
  unfold to_workdir, output_eol. destruct from as [|c r] eqn:Ef; [reflexivity|]. rewrite <- Ef. rewrite Ha. cbn [is_auto andb].
  destruct (gather_spec from) as (_ & Gl & Gp). rewrite Gl, Gp.
  destruct (_ || _) eqn:E; [|rewrite lf_to_crlf_eq; reflexivity].
  cbn [result]. f_equal. symmetry. apply dos_id. apply orb_true_iff in E as [E|E]; apply Z.eqb_eq in E; [|lia].
  assert (L := pairs_le_lf from). lia.
Qed.
