(** C51: a signed commit gives back the signature and the signed data. *)
From Verif Require Import Base Str OidModel OidSpec OidProofs OidProps SigModel SigSpec SigProofs SigProps ReflogProofs CommitModel CommitSpec CommitProofs CommitProps.
Local Open Scope Z_scope.

Lemma put_app a b : put_lines (a ++ b) = put_lines a ++ put_lines b.
Proof. induction a as [|c a IH]; cbn [app put_lines]; [reflexivity|]. destruct (c =? 10); rewrite IH; reflexivity. Qed.
Lemma put_plain a : ~ In 10 a -> put_lines a = a.
Proof.
  induction a as [|c a IH]; intros H; cbn [put_lines]; [reflexivity|]. destruct (Z.eqb_spec c 10) as [->|]; [exfalso; apply H; left; reflexivity|].
  rewrite IH; [reflexivity|]. intros Q. apply H. right. exact Q.
Qed.
Lemma put_len a : (length a <= length (put_lines a))%nat.
Proof. induction a as [|c a IH]; cbn [put_lines length]; [lia|]. destruct (c =? 10); cbn [app length]; lia. Qed.
(** A text is one line or has a first line. *)
Lemma first_line s : (~ In 10 s) \/ exists a b, s = a ++ 10 :: b /\ ~ In 10 a /\ (length b < length s)%nat.
Proof.
  destruct (memchr s 10) as [i|] eqn:E; [right|left; apply memchr_none; exact E].
  exists (firstn i s), (skipn (i + 1) s). split; [apply memchr_split; exact E|]. destruct (memchr_lt _ _ _ E) as (H1 & _ & H2). split; [exact H2|]. rewrite skipn_length. lia.
Qed.
Lemma skip_line (a : list Z) c r : skipn (length a + 1) (a ++ c :: r) = r.
Proof. rewrite skipn_app, skipn_all2 by lia. replace (_ - _)%nat with 1%nat by lia. reflexivity. Qed.
Definition no_blank_first (r : list Z) : Prop := forall c t, r = c :: t -> c <> 32.
Lemma cont_stop fuel acc r : no_blank_first r -> continuation (S fuel) acc r = Ok (acc, r).
Proof. intros H. cbn [continuation]. destruct r as [|c t]; [reflexivity|]. destruct (Z.eqb_spec c 32); [exfalso; eapply H; eauto|reflexivity]. Qed.
Lemma cont_put s : forall fuel acc r, (length s + 1 < fuel)%nat -> no_blank_first r ->
  continuation fuel acc (32 :: put_lines s ++ 10 :: r) = Ok (acc ++ 10 :: s, r).
Proof.
  assert (HN : exists N, (length s <= N)%nat) by eauto. destruct HN as [N HN]. revert s HN.
  induction N as [|N IH]; intros s HN [|fuel] acc r Hf Hr; try lia; cbn [continuation]; rewrite Z.eqb_refl.
  - destruct s; [|cbn in HN; lia]. cbn [put_lines app memchr]. cbn [Z.eqb Pos.eqb]. cbn [firstn Nat.add skipn]. destruct fuel; [cbn in Hf; lia|]. apply cont_stop. exact Hr.
  - destruct (first_line s) as [P|(a & b & -> & Ha & Hb)].
    + rewrite (put_plain s P), (memchr_app s 10 r P), fsl, skip_line. destruct fuel; [lia|]. apply cont_stop. exact Hr.
    + rewrite put_app, (put_plain a Ha). cbn [put_lines]. rewrite Z.eqb_refl. rewrite <- app_assoc. cbn [app]. rewrite (memchr_app a 10 _ Ha), fsl, skip_line.
      rewrite app_length in *. cbn [length] in *. rewrite (IH b) by (auto; lia). do 2 f_equal. rewrite <- app_assoc. reflexivity.
Qed.
(** The first line and its continuations. *)
Lemma gather s fuel r : (length s + 1 < fuel)%nat -> no_blank_first r ->
  exists eol, memchr (put_lines s ++ 10 :: r) 10 = Some eol /\
  continuation fuel (firstn eol (put_lines s ++ 10 :: r)) (skipn (eol + 1) (put_lines s ++ 10 :: r)) = Ok (s, r).
Proof.
  intros Hf Hr. destruct (first_line s) as [P|(a & b & -> & Ha & Hb)].
  - exists (length s). rewrite (put_plain s P), (memchr_app s 10 r P), fsl, skip_line. split; [reflexivity|]. destruct fuel; [lia|]. apply cont_stop. exact Hr.
  - exists (length a). rewrite put_app, (put_plain a Ha). cbn [put_lines]. rewrite Z.eqb_refl. rewrite <- app_assoc. cbn [app]. rewrite (memchr_app a 10 _ Ha), fsl, skip_line.
    split; [reflexivity|]. rewrite app_length in Hf. cbn [length] in Hf. rewrite cont_put by (auto; lia). reflexivity.
Qed.

(** Header lines that do not begin with the field are copied. *)
Definition other_line (field l : list Z) : Prop := ~ exists u, l = field ++ u.
Lemma extract_lines field lines : header_lines lines -> ~ In 10 field -> (forall l, In l lines -> other_line field l) ->
  forall fuel r sd, r <> [] -> extract_signature (length lines + fuel) field (text lines ++ r) sd = extract_signature fuel field r (sd ++ text lines).
Proof.
  intros H Nf. induction lines as [|l ls IH]; intros Ho fuel r sd Hr.
  - cbn. rewrite app_nil_r. reflexivity.
  - unfold text. cbn [map concat length Nat.add extract_signature]. fold (text ls). rewrite <- !app_assoc. cbn [app].
    destruct (H l (or_introl eq_refl)) as [N1 N2]. rewrite (memchr_app l 10 _ N2).
    assert (P : prefixb field (l ++ 10 :: text ls ++ r) = false).
    { destruct (prefixb _ _) eqn:P; [|reflexivity]. apply prefixb_spec in P. destruct P as [t P]. exfalso.
      apply (Ho l (or_introl eq_refl)). eapply app_cut_line; eauto. }
    rewrite P. cbn [negb]. rewrite app_length. cbn [length]. rewrite app_length.
    assert (0 < length r)%nat by (destruct r; [contradiction|cbn; lia]).
    destruct (Nat.eqb_spec (length l + S (length (text ls) + length r)) (length l + 1)); [lia|].
    rewrite skip_line. replace (firstn (length l + 1) (l ++ 10 :: text ls ++ r)) with (l ++ [10]).
    2: { change (10 :: text ls ++ r) with ([10] ++ text ls ++ r). rewrite app_assoc. rewrite <- fsl with (r := text ls ++ r) at 1. f_equal. rewrite app_length. reflexivity. }
    rewrite IH; [|intros x Hx; apply H; right; exact Hx|intros x Hx; apply Ho; right; exact Hx|exact Hr]. rewrite <- !app_assoc. reflexivity.
Qed.

(** Where the header ends. *)
Lemma strstr_here a r : ~ In 10 a -> strstr_nn (a ++ 10 :: 10 :: r) = Some (length a).
Proof.
  induction a as [|c a IH]; intros H; cbn [app strstr_nn]; [reflexivity|]. destruct (Z.eqb_spec c 10) as [->|]; [exfalso; apply H; left; reflexivity|].
  cbn [andb]. rewrite IH; [reflexivity|]. intros Q. apply H. right. exact Q.
Qed.
Lemma strstr_skip a c r : ~ In 10 a -> c <> 10 -> strstr_nn (a ++ 10 :: c :: r) = option_map (fun i => (length a + 1 + i)%nat) (strstr_nn (c :: r)).
Proof.
  intros H N. induction a as [|x a IH]; cbn [app].
  - cbn [strstr_nn]. rewrite Z.eqb_refl. destruct (Z.eqb_spec c 10); [contradiction|]. cbn [andb length Nat.add]. reflexivity.
  - change (strstr_nn (x :: a ++ 10 :: c :: r)) with (if (x =? 10) && (match a ++ 10 :: c :: r with d :: _ => d =? 10 | [] => false end) then Some O else option_map S (strstr_nn (a ++ 10 :: c :: r))).
    destruct (Z.eqb_spec x 10) as [->|]; [exfalso; apply H; left; reflexivity|]. cbn [andb]. rewrite IH; [|intros Q; apply H; right; exact Q].
    destruct (strstr_nn (c :: r)); reflexivity.
Qed.
Lemma header_end lines : lines <> [] -> header_lines lines -> forall r, exists i, strstr_nn (text lines ++ 10 :: r) = Some i /\ (i + 1)%nat = length (text lines).
Proof.
  induction lines as [|l ls IH]; intros N H r; [contradiction|]. unfold text. cbn [map concat]. fold (text ls). rewrite <- !app_assoc. cbn [app].
  destruct (H l (or_introl eq_refl)) as [N1 N2]. rewrite !app_length. cbn [length].
  destruct ls as [|l2 ls].
  - exists (length l). cbn [text map concat app length]. split; [apply strstr_here; exact N2|lia].
  - destruct (IH ltac:(discriminate) (fun x Hx => H x (or_intror Hx)) r) as (i & Ei & Hi).
    destruct (H l2 (or_intror (or_introl eq_refl))) as [M1 M2]. destruct l2 as [|c l2]; [contradiction|].
    assert (c <> 10) by (intros ->; apply M2; left; reflexivity).
    exists (length l + 1 + i)%nat. split; [|lia].
    unfold text in *. cbn [map concat] in *. rewrite <- !app_assoc in *. cbn [app] in *. rewrite strstr_skip by assumption. rewrite Ei. reflexivity.
Qed.

(** C51: whatever the signature is, it and exactly the signed content come back, provided no header
    line of the content begins with the field's name. *)
Theorem C51_signature_roundtrip_partial size valid lines rest s field out :
  let content := text lines ++ 10 :: rest in
  lines <> [] -> header_lines lines -> cstring content -> cstring s -> cstring field -> one_line field ->
  (forall l, In l lines -> other_line field l) ->
  create_with_signature size valid content (Some s) (Some field) = Ok out ->
  extract (Some field) out = Ok (s, content).
Proof.
  intros content N H Cc Cs Cf Nf Ho E. unfold create_with_signature in E. destruct (commit_parse size content) as [c| | |]; try discriminate.
  destruct (valid c); [|discriminate]. cbn [negb] in E. destruct (header_end lines N H rest) as (i & Ei & Hi). fold content in Ei. rewrite Ei, Hi in E.
  unfold content in E. rewrite fsl, skl in E. apply Ok_inj in E. unfold format_header_field in E. rewrite <- !app_assoc in E. cbn [app] in E.
  apply Forall_app in Cc. destruct Cc as [Cl Cr].
  assert (Co : cstring out).
  { subst out. apply Forall_app. split; [exact Cl|]. apply Forall_app. split; [exact Cf|]. constructor; [lia|]. apply Forall_app. split; [|constructor; [lia|exact Cr]].
    clear - Cs. induction Cs as [|x s Hx H IH]; cbn [put_lines]; [constructor|]. destruct (x =? 10); repeat (constructor; [lia|]); exact IH. }
  unfold extract. rewrite (cut0_cstr out Co).
  set (X := field ++ 32 :: put_lines s ++ 10 :: 10 :: rest) in *.
  assert (LX : (length s + 2 < length X)%nat). { unfold X. rewrite app_length. cbn [length]. rewrite app_length. cbn [length]. pose proof (put_len s). lia. }
  assert (exists f, S (length out) = (length lines + S f)%nat /\ (length X <= f)%nat).
  { exists (length out - length lines)%nat. pose proof (text_len lines). rewrite <- E, app_length. split; lia. }
  destruct H0 as (f & -> & Hfu). rewrite <- E. rewrite extract_lines; auto; [|unfold X; intros Q; destruct field; discriminate]. cbn [app].
  assert (EX : X = (field ++ 32 :: put_lines s) ++ 10 :: 10 :: rest) by (unfold X; rewrite <- app_assoc; reflexivity).
  cbn [extract_signature].
  destruct (memchr X 10) as [j|] eqn:Ej.
  2: { exfalso. apply (memchr_none _ _ Ej). rewrite EX. apply in_or_app. right. left. reflexivity. }
  assert (Lj : (j + 1 < length X)%nat).
  { destruct (memchr_lt _ _ _ Ej) as (_ & _ & Q). rewrite EX, app_length. cbn [length].
    destruct (Nat.le_gt_cases j (length (field ++ 32%Z :: put_lines s))) as [|G]; [lia|]. exfalso. apply Q.
    rewrite EX, firstn_app. apply in_or_app. right. replace (j - length (field ++ 32%Z :: put_lines s))%nat with (S (j - length (field ++ 32%Z :: put_lines s) - 1)) by lia. left. reflexivity. }
  destruct (Nat.eqb_spec (length X) (j + 1)); [lia|]. unfold X at 1. rewrite pfx. cbn [negb].
  unfold X at 1. rewrite skl. change (32 =? 32) with true. cbn [negb].
  destruct (gather s (S (length X)) (10 :: rest)) as (eol & E1 & E2); [lia|intros c' t Q; injection Q as <- _; discriminate|].
  rewrite E1, E2. cbn [bindr]. reflexivity.
Qed.
Print Assumptions C51_signature_roundtrip_partial.

(** The signature's header lines. *)
Lemma format_lines s : forall pre, pre <> [] -> ~ In 10 pre -> exists ls, pre ++ put_lines s ++ [10] = text ls /\ header_lines ls /\
  (forall l, In l ls -> (exists u, l = pre ++ u) \/ exists u, l = 32 :: u) /\ (cstring pre -> cstring s -> forall l, In l ls -> cstring l).
Proof.
  assert (HN : exists N, (length s <= N)%nat) by eauto. destruct HN as [N HN]. revert s HN.
  induction N as [|N IH]; intros s HN pre H1 H2; (destruct (first_line s) as [P|(a & b & -> & Ha & Hb)];
    [exists [pre ++ s]; rewrite (put_plain s P); split; [unfold text; cbn [map concat]; rewrite app_nil_r, <- app_assoc; reflexivity|];
     split; [intros l [<-|[]]; split; [destruct pre; [contradiction|discriminate]|rewrite in_app_iff; intros [Q|Q]; auto]|];
     split; [intros l [<-|[]]; left; eexists; reflexivity|intros C1 C2 l [<-|[]]; apply Forall_app; auto]|]).
  - cbn [length] in HN. rewrite app_length in HN. cbn in HN. lia.
  - rewrite app_length in HN. cbn [length] in HN. destruct (IH b ltac:(lia) [32] ltac:(discriminate)) as (ls & E & Hl & Hp & Hc); [intros [Q|[]]; discriminate|].
    exists ((pre ++ a) :: ls). split.
    + unfold text. cbn [map concat]. fold (text ls). rewrite <- E. rewrite put_app, (put_plain a Ha). cbn [put_lines]. change (10 =? 10) with true. cbn match. rewrite <- !app_assoc. reflexivity.
    + split; [|split].
      * intros l [<-|Q]; [|apply Hl; exact Q]. split; [destruct pre; [contradiction|discriminate]|]. rewrite in_app_iff. intros [Q|Q]; auto.
      * intros l [<-|Q]; [left; eexists; reflexivity|]. right. destruct (Hp l Q) as [[u ->]|[u ->]]; eexists; reflexivity.
      * intros C1 C2 l [<-|Q]; apply Forall_app in C2; [apply Forall_app; split; [exact C1|apply C2]|]. apply Hc; [constructor; [lia|constructor]|destruct C2 as [_ C2]; inversion C2; assumption|exact Q].
Qed.
Lemma sig_line s h out : storable s -> ~ In 10 h -> writebuf h s = Ok out -> exists u, out = (h ++ u) ++ [10] /\ ~ In 10 (h ++ u).
Proof.
  intros W Nh H. rewrite (SigProps.written s W) in H. apply Ok_inj in H. subst out. eexists. split; [symmetry; rewrite <- app_assoc; f_equal|].
  rewrite in_app_iff. intros [Q|Q]; [exact (Nh Q)|exact (SigProps.body_line s W Q)].
Qed.
Lemma text_app a b : text (a ++ b) = text a ++ text b.
Proof. unfold text. rewrite map_app, concat_app. reflexivity. Qed.
Lemma hex_line id : bytes id -> ~ In 10 (hex_text id).
Proof. intros B Q. apply hex_bytes in Q; [lia|exact B]. Qed.
Lemma fold_enc ls : (forall l, In l ls -> prefixb (bs "encoding ") l = false) -> forall e, fold_left enc_step ls e = e.
Proof.
  induction ls as [|l r IH]; intros H e; [reflexivity|]. cbn [fold_left]. unfold enc_step at 2. rewrite (H l (or_introl eq_refl)). apply IH. intros x Hx. apply H. right. exact Hx.
Qed.
Definition starts_with_any (words : list (list Z)) (l : list Z) : Prop := exists w u, In w words /\ l = w ++ u.
Definition field_ok (field : list Z) : Prop :=
  cstring field /\ one_line field /\ ~ In 32 field /\ field <> [] /\ ~ In (hd 0 field) (bs "tpace").

(** Signing a commit made from parts: it still reads as the same parts, and the signature and the
    unsigned commit can be taken out of it. *)
Theorem C51_signed_commit size valid author committer encoding message tree parents buf s field out :
  (1 <= size)%nat -> oid_ok size tree -> Forall (oid_ok size) parents ->
  storable author -> storable committer -> enc_ok encoding -> cstring message ->
  cstring s -> field_ok field ->
  create_buffer size author committer encoding message tree parents = Ok buf ->
  create_with_signature size valid buf (Some s) (Some field) = Ok out ->
  extract (Some field) out = Ok (s, buf) /\
  exists header, commit_parse size out = Ok (mkcommit tree parents author committer encoding header message).
Proof.
  intros Hs Ht Hp Wa Wc He Hm Cs (Cf & Of & Bf & Nf & Ff) Cb Cw.
  assert (L1 : ~ In 10 (bs "author ")) by (intros H; vm_compute in H; repeat destruct H as [H|H]; discriminate || contradiction).
  assert (L2 : ~ In 10 (bs "committer ")) by (intros H; vm_compute in H; repeat destruct H as [H|H]; discriminate || contradiction).
  destruct (sig_written author (bs "author ") Wa L1) as (a & Ea). destruct (sig_written committer (bs "committer ") Wc L2) as (c & Ec).
  destruct (sig_line _ _ _ Wa L1 Ea) as (ua & Ua & Na). destruct (sig_line _ _ _ Wc L2 Ec) as (uc & Uc & Nc).
  destruct (enc_lines_ok encoding He) as (E1 & E2 & E3).
  rewrite (created size author committer encoding message tree parents a c Ht Hp Ea Ec) in Cb. apply Ok_inj in Cb.
  set (lines := (bs "tree " ++ hex_text tree) :: map (fun p => bs "parent " ++ hex_text p) parents ++ (bs "author " ++ ua) :: (bs "committer " ++ uc) :: enc_lines encoding).
  assert (Tl : bs "tree " ++ hex_text tree ++ [10] ++ ids_text (bs "parent ") parents ++ a ++ c ++ text (enc_lines encoding) = text lines).
  { assert (One : forall x ls, text (x :: ls) = x ++ [10] ++ text ls) by (intros; unfold text; cbn [map concat]; rewrite <- app_assoc; reflexivity).
    unfold lines. rewrite One, text_app, !One. rewrite Ua, Uc, <- !app_assoc.
    assert (Ei : ids_text (bs "parent ") parents = text (map (fun p => bs "parent " ++ hex_text p) parents)).
    { unfold ids_text, text. rewrite map_map. f_equal. }
    rewrite Ei. reflexivity. }
  rewrite Tl in Cb.
  assert (Hl : header_lines lines /\ (forall l, In l lines -> starts_with_any [bs "tree "; bs "parent "; bs "author "; bs "committer "; bs "encoding "] l) /\ cstring (text lines)).
  { split; [|split].
    - intros l [<-|H]; [split; [discriminate|]; rewrite in_app_iff; intros [Q|Q]; [vm_compute in Q; repeat destruct Q as [Q|Q]; discriminate || contradiction|apply hex_line in Q; [exact Q|apply Ht]]|].
      apply in_app_or in H. destruct H as [H|[<-|[<-|H]]]; [|split; [discriminate|exact Na]|split; [discriminate|exact Nc]|apply E1; exact H].
      apply in_map_iff in H. destruct H as (p & <- & H). split; [discriminate|]. rewrite in_app_iff. rewrite Forall_forall in Hp.
      intros [Q|Q]; [vm_compute in Q; repeat destruct Q as [Q|Q]; discriminate || contradiction|apply hex_line in Q; [exact Q|apply (Hp p H)]].
    - intros l [<-|H]; [do 2 eexists; split; [left; reflexivity|reflexivity]|].
      apply in_app_or in H. destruct H as [H|[<-|[<-|H]]]; [|do 2 eexists; split; [right; right; left; reflexivity|reflexivity]|do 2 eexists; split; [right; right; right; left; reflexivity|reflexivity]|].
      + apply in_map_iff in H. destruct H as (p & <- & H). do 2 eexists. split; [right; left; reflexivity|reflexivity].
      + destruct encoding as [e|]; [|destruct H]. destruct H as [<-|[]]. do 2 eexists. split; [do 4 right; left; reflexivity|reflexivity].
    - rewrite <- Tl. destruct (sig_cstr author (bs "author ") a Wa) as [Ba _]; [cstr_tac|exact Ea|]. destruct (sig_cstr committer (bs "committer ") c Wc) as [Bc _]; [cstr_tac|exact Ec|].
      apply Forall_app; split; [cstr_tac|]. apply Forall_app; split; [apply hex_cstr, Ht|]. apply Forall_app; split; [cstr_tac|]. apply Forall_app; split; [apply (ids_cstr size); [cstr_tac|exact Hp]|].
      apply Forall_app; split; [exact Ba|]. apply Forall_app; split; [exact Bc|]. apply text_cstr. exact E2. }
  destruct Hl as (Hl & Sw & Cl). subst buf. split.
  - apply C51_signature_roundtrip_partial with (size := size) (valid := valid); auto; [discriminate|apply Forall_app; split; [exact Cl|constructor; [lia|exact Hm]]|].
    intros l H [u E]. destruct (Sw l H) as (w & v & Hw & E'). apply Ff. destruct field as [|f0 f]; [contradiction|]. cbn [hd].
    assert (f0 = hd 0 w). { rewrite E in E'. destruct Hw as [<-|[<-|[<-|[<-|[<-|[]]]]]]; cbn in E'; injection E' as -> _; reflexivity. }
    subst f0. destruct Hw as [<-|[<-|[<-|[<-|[<-|[]]]]]]; vm_compute; tauto.
  - unfold create_with_signature in Cw. destruct (commit_parse size (text lines ++ 10 :: message)) as [c0| | |]; try discriminate. destruct (valid c0); [|discriminate]. cbn [negb] in Cw.
    destruct (header_end lines ltac:(discriminate) Hl message) as (i & Ei & Hi). rewrite Ei, Hi, fsl, skl in Cw. apply Ok_inj in Cw.
    unfold format_header_field in Cw.
    destruct (format_lines s (field ++ [32])) as (ls & Els & H1 & H2 & H3); [destruct field; discriminate|rewrite in_app_iff; intros [Q|[Q|[]]]; [exact (Of Q)|discriminate]|].
    rewrite <- app_assoc in Els. rewrite Els in Cw.
    exists (text lines ++ text ls). rewrite <- Cw, app_assoc.
    assert (Eh : text lines ++ text ls = bs "tree " ++ hex_text tree ++ [10] ++ ids_text (bs "parent ") parents ++ a ++ c ++ text (enc_lines encoding ++ ls)).
    { rewrite text_app, <- Tl, <- !app_assoc. reflexivity. }
    rewrite Eh. rewrite (C49_parse_exact size author committer a c tree parents (enc_lines encoding ++ ls) message); auto.
    + rewrite fold_left_app, E3. rewrite fold_enc; [reflexivity|]. intros l Q. destruct (prefixb (bs "encoding ") l) eqn:P; [|reflexivity]. exfalso.
      apply prefixb_spec in P. destruct P as [t P]. destruct (H2 l Q) as [[u U]|[u U]]; [|rewrite U in P; discriminate].
      apply Ff. destruct field as [|f0 f]; [contradiction|]. rewrite U in P. cbn in P. injection P as -> _. vm_compute. tauto.
    + intros l Q. apply in_app_or in Q. destruct Q as [Q|Q]; [apply E1; exact Q|apply H1; exact Q].
    + intros l Q. apply in_app_or in Q. destruct Q as [Q|Q]; [apply E2; exact Q|apply H3; [apply Forall_app; split; [exact Cf|cstr_tac]|exact Cs|exact Q]].
Qed.
Print Assumptions C51_signed_commit.
