(** C49-C53: commits, commit creation, commit signatures, tags and commit messages. *)
From Verif Require Import Base Str OidModel OidSpec OidProofs OidProps SigModel SigSpec SigProofs SigProps ReflogProofs CommitModel CommitSpec CommitProofs.
Local Open Scope Z_scope.

Definition enc_ok (e : option (list Z)) : Prop := match e with Some e => cstring e /\ one_line e | None => True end.

Lemma tree_ne : (0 < length (bs "parent "))%nat. Proof. cbn. lia. Qed.

(** What the header lines behind the committer say about the encoding: the last one counts. *)
Definition enc_step (e : option (list Z)) (l : list Z) : option (list Z) :=
  if prefixb (bs "encoding ") l then Some (skipn 9 l) else e.
Lemma headers_lines extra : header_lines extra -> (forall l, In l extra -> cstring l) -> forall fuel m enc, (length extra < fuel)%nat ->
  parse_headers fuel (text extra ++ 10 :: m) enc = Ok (fold_left enc_step extra enc, 10 :: m).
Proof.
  induction extra as [|l r IH]; intros H C [|fuel] m enc Hf; cbn [length] in Hf; try lia.
  - reflexivity.
  - unfold text. cbn [map concat fold_left]. fold (text r). rewrite <- !app_assoc. cbn [app].
    destruct (H l (or_introl eq_refl)) as [N1 N2]. rewrite headers_line by assumption.
    rewrite IH; [|intros x Hx; apply H; right; exact Hx|intros x Hx; apply C; right; exact Hx|lia].
    do 3 f_equal. unfold enc_step.
    assert (Ep : prefixb (bs "encoding ") (l ++ 10 :: text r ++ 10 :: m) = prefixb (bs "encoding ") l).
    { apply eq_true_iff_eq. rewrite !prefixb_spec. split; intros [t E].
      - apply app_cut_line in E; [|exact N2|intros Q; vm_compute in Q; repeat destruct Q as [Q|Q]; discriminate || contradiction]. exact E.
      - exists (t ++ 10 :: text r ++ 10 :: m). rewrite E, <- app_assoc. reflexivity. }
    rewrite Ep. destruct (prefixb _ l) eqn:P; [|reflexivity]. f_equal. apply cut0_cstr.
    specialize (C l (or_introl eq_refl)). unfold cstring in *. rewrite Forall_forall in *. intros x Hx. apply C. rewrite <- (firstn_skipn 9 l). apply in_or_app. auto.
Qed.
Lemma text_len ls : (length ls <= length (text ls))%nat.
Proof. induction ls as [|l r IH]; [reflexivity|]. unfold text in *. cbn [map concat length]. rewrite !app_length. cbn. lia. Qed.
Lemma text_cstr ls : (forall l, In l ls -> cstring l) -> cstring (text ls).
Proof.
  induction ls as [|l r IH]; intros H; [constructor|]. unfold text. cbn [map concat]. apply Forall_app. split; [|apply IH; intros x Hx; apply H; right; exact Hx].
  apply Forall_app. split; [apply H; left; reflexivity|cstr_tac].
Qed.

(** A commit made from parts, with further header lines behind the committer. *)
Theorem C49_parse_exact size author committer a c tree parents extra message :
  (1 <= size)%nat -> oid_ok size tree -> Forall (oid_ok size) parents -> storable author -> storable committer ->
  writebuf (bs "author ") author = Ok a -> writebuf (bs "committer ") committer = Ok c ->
  header_lines extra -> (forall l, In l extra -> cstring l) -> cstring message ->
  let header := bs "tree " ++ hex_text tree ++ [10] ++ ids_text (bs "parent ") parents ++ a ++ c ++ text extra in
  commit_parse size (header ++ 10 :: message) =
    Ok (mkcommit tree parents author committer (fold_left enc_step extra None) header message).
Proof.
  intros Hs Ht Hp Wa Wc Ea Ec He1 He2 Hm header.
  set (p := ids_text (bs "parent ") parents) in *. set (e := text extra) in *.
    destruct (sig_cstr author (bs "author ") a Wa) as [Ba (ra & Ra)]; [cstr_tac|exact Ea|].
    destruct (sig_cstr committer (bs "committer ") c Wc) as [Bc (rc & Rc)]; [cstr_tac|exact Ec|].
    assert (Be : cstring e) by (apply text_cstr; exact He2).
    assert (Bp : cstring p) by (apply (ids_cstr size); [cstr_tac|exact Hp]).
    assert (B1 : cstring header).
    { unfold header. apply Forall_app; split; [cstr_tac|]. apply Forall_app; split; [apply hex_cstr, Ht|]. apply Forall_app; split; [cstr_tac|].
      repeat (apply Forall_app; split; [assumption|]); assumption. }
    assert (Bm : bytes (10 :: message)) by (apply cstr_bytes; constructor; [lia|exact Hm]).
    pose proof (cstr_bytes _ Ba) as Ba'. pose proof (cstr_bytes _ Bc) as Bc'. pose proof (cstr_bytes _ Be) as Be'. pose proof (cstr_bytes _ Bp) as Bp'.
    assert (L1 : ~ In 10 (bs "author ")) by (intros H; vm_compute in H; repeat destruct H as [H|H]; discriminate || contradiction).
    assert (L2 : ~ In 10 (bs "committer ")) by (intros H; vm_compute in H; repeat destruct H as [H|H]; discriminate || contradiction).
    set (data := header ++ 10 :: message).
    assert (D : length data = length (bs "tree " ++ hex_text tree ++ [10] ++ p ++ a ++ c ++ e ++ 10 :: message)) by (unfold data, header; rewrite <- !app_assoc; reflexivity).
    assert (P1 : parse_oid_header size data (bs "tree ") = Ok (Some (tree, p ++ a ++ c ++ e ++ 10 :: message))).
    { unfold data, header. rewrite <- !app_assoc. apply parse_hdr; [exact Hs|exact Ht|]. repeat (apply Forall_app; split; [assumption|]); exact Bm. }
    unfold commit_parse. rewrite P1. cbn [bindr].
    rewrite (parents_parsed size parents Hs Hp).
    2: { repeat (apply Forall_app; split; [assumption|]); exact Bm. }
    2: { rewrite Ra, <- app_assoc. apply prefix_other. exists O. vm_compute. split; [lia|split; [lia|discriminate]]. }
    2: { pose proof (ids_len (bs "parent ") parents tree_ne) as Q. fold p in Q. rewrite D, !app_length. lia. }
    cbn [bindr].
    destruct (C32_roundtrip_partial author (bs "author ") (c ++ e ++ 10 :: message) Wa L1) as (a' & Ea' & Pa).
    assert (a' = a) by congruence. subst a'. rewrite Pa. cbn [bindr skip_authors].
    assert (N : prefixb (bs "author ") (c ++ e ++ 10 :: message) = false).
    { rewrite Rc, <- app_assoc. apply prefix_other. exists O. vm_compute. split; [lia|split; [lia|discriminate]]. }
    rewrite N. cbn [bindr].
    destruct (C32_roundtrip_partial committer (bs "committer ") (e ++ 10 :: message) Wc L2) as (c' & Ec' & Pc).
    assert (c' = c) by congruence. subst c'. rewrite Pc. cbn [bindr].
    unfold e at 1. rewrite (headers_lines extra He1 He2).
    2: { pose proof (text_len extra) as Q. fold e in Q. rewrite D, !app_length. lia. }
    cbn [bindr]. f_equal.
    assert (Hl : (length data - length (10%Z :: message))%nat = length header) by (unfold data; rewrite app_length; lia).
    rewrite Hl. unfold data. rewrite fsl. f_equal.
    + apply cut0_cstr. exact B1.
    + rewrite skipn_app, skipn_all2 by lia. replace (_ - _)%nat with 1%nat by lia. apply cut0_cstr. exact Hm.
Qed.

(** C49: what is written from parts is read back as the same parts. *)
Definition enc_lines (e : option (list Z)) : list (list Z) := match e with Some e => [bs "encoding " ++ e] | None => [] end.
Lemma created size author committer encoding message tree parents a c :
  oid_ok size tree -> Forall (oid_ok size) parents ->
  writebuf (bs "author ") author = Ok a -> writebuf (bs "committer ") committer = Ok c ->
  create_buffer size author committer encoding message tree parents =
  Ok ((bs "tree " ++ hex_text tree ++ [10] ++ ids_text (bs "parent ") parents ++ a ++ c ++ text (enc_lines encoding)) ++ 10 :: message).
Proof.
  intros Ht Hp Ea Ec. unfold create_buffer. rewrite (write_hdr _ _ _ Ht). cbn [bindr]. rewrite parents_written by exact Hp. cbn [bindr]. rewrite Ea. cbn [bindr]. rewrite Ec. cbn [bindr].
  f_equal. rewrite <- !app_assoc. do 6 f_equal. destruct encoding as [e|]; [|reflexivity]. unfold text, enc_lines. cbn [map concat]. rewrite app_nil_r, <- !app_assoc. reflexivity.
Qed.
Lemma enc_lines_ok e : enc_ok e -> header_lines (enc_lines e) /\ (forall l, In l (enc_lines e) -> cstring l) /\ fold_left enc_step (enc_lines e) None = e.
Proof.
  destruct e as [e|]; intros H; [|split; [|split]; [intros l []|intros l []|reflexivity]]. destruct H as [H1 H2]. split; [|split].
  - intros l [<-|[]]. split; [discriminate|]. rewrite in_app_iff. intros [Q|Q]; [vm_compute in Q; repeat destruct Q as [Q|Q]; discriminate || contradiction|exact (H2 Q)].
  - intros l [<-|[]]. apply Forall_app. split; [cstr_tac|exact H1].
  - cbn [enc_lines fold_left]. unfold enc_step. rewrite pfx. reflexivity.
Qed.
Lemma sig_written s h : storable s -> ~ In 10 h -> exists out, writebuf h s = Ok out.
Proof. intros W H. destruct (C32_roundtrip_partial s h [] W H) as (out & E & _). eauto. Qed.
Theorem C49_commit_roundtrip_partial size author committer encoding message tree parents :
  (1 <= size)%nat -> oid_ok size tree -> Forall (oid_ok size) parents ->
  storable author -> storable committer -> enc_ok encoding -> cstring message ->
  exists buf header, create_buffer size author committer encoding message tree parents = Ok buf /\
    buf = header ++ 10 :: message /\
    commit_parse size buf = Ok (mkcommit tree parents author committer encoding header message).
Proof.
  intros Hs Ht Hp Wa Wc He Hm.
  destruct (sig_written author (bs "author ") Wa) as (a & Ea); [intros H; vm_compute in H; repeat destruct H as [H|H]; discriminate || contradiction|].
  destruct (sig_written committer (bs "committer ") Wc) as (c & Ec); [intros H; vm_compute in H; repeat destruct H as [H|H]; discriminate || contradiction|].
  destruct (enc_lines_ok encoding He) as (E1 & E2 & E3).
  do 2 eexists. split; [apply created; eauto|]. split; [reflexivity|].
  rewrite (C49_parse_exact size author committer a c tree parents (enc_lines encoding) message) by assumption. rewrite E3. reflexivity.
Qed.
Print Assumptions C49_commit_roundtrip_partial.

(** The short parse used by the history walker gives the same parents and the same time. *)
Theorem C49_quick_agrees size data c :
  commit_parse size data = Ok c -> commit_parse_quick size data = Ok (c_parents c, c_committer c).
Proof.
  unfold commit_parse, commit_parse_quick. destruct (parse_oid_header size data (bs "tree ")) as [[[t b1]|]| | |] eqn:E1; cbn [bindr]; try discriminate.
  apply parse_hdr_inv in E1. destruct E1 as (_ & -> & L1). change (length (bs "tree ")) with 5%nat in *.
  destruct (Nat.ltb_spec (length data) (5 + 2 * size + 1)); [lia|].
  destruct (parse_parents _ _ _) as [[ps b2]| | |] eqn:E2; cbn [bindr]; try discriminate.
  destruct (sig_parse b2 (Some (bs "author ")) 10) as [[a b3]| | |] eqn:E3; cbn [bindr]; try discriminate.
  pose proof (sig_parse_inv _ _ _ _ E3) as (P & L3 & _).
  assert (L2 : (length b2 <= length data)%nat).
  { clear - E2. assert (G : forall f b ps r, parse_parents f size b = Ok (ps, r) -> (length r <= length b)%nat).
    { induction f as [|f IH]; intros b ps0 r0 H; cbn [parse_parents] in H; [discriminate|].
      destruct (parse_oid_header size b (bs "parent ")) as [[[id r1]|]| | |] eqn:E; cbn [bindr] in H; try discriminate.
      - apply parse_hdr_inv in E. destruct E as (_ & -> & L). destruct (parse_parents f size _) as [[ps1 r2]| | |] eqn:E'; cbn [bindr] in H; try discriminate.
        apply Ok_inj in H. injection H as <- <-. apply IH in E'. rewrite skipn_length in E'. lia.
      - apply Ok_inj in H. injection H as <- <-. lia. }
    apply G in E2. rewrite skipn_length in E2. lia. }
  cbn [skip_authors]. rewrite P, E3. cbn [bindr].
  rewrite (skip_fuel b3 (length data) (S (length data))) by lia. cbn [skip_authors].
  destruct (if prefixb (bs "author ") b3 then _ else _) as [b4| | |]; cbn [bindr]; try discriminate.
  destruct (sig_parse b4 _ 10) as [[cm b5]| | |]; cbn [bindr]; try discriminate.
  destruct (parse_headers _ _ _) as [[en b6]| | |]; cbn [bindr]; try discriminate. intros Q. apply Ok_inj in Q. subst c. reflexivity.
Qed.
(** Any bytes give a commit or an error. *)
Theorem C49_parse_total size data : bytes data -> (exists c, commit_parse size data = Ok c) \/ commit_parse size data = Err EINVALID.
Proof.
  intros B. unfold commit_parse. destruct (parse_hdr_total size data (bs "tree ") B) as [->|(t & b1 & -> & L1 & B1)]; cbn [bindr]; [auto|].
  destruct (parents_total size b1 B1 (S (length data)) ltac:(lia)) as (ps & b2 & -> & L2 & B2). cbn [bindr].
  destruct (C32_parse_total b2 (Some (bs "author ")) 10) as [(a & b3 & E3)|E3]; rewrite E3; cbn [bindr]; [|auto].
  apply sig_parse_inv in E3. destruct E3 as (_ & L3 & _).
  destruct (skip_total b3 (S (length data)) ltac:(lia)) as [(b4 & -> & L4)| ->]; cbn [bindr]; [|auto].
  destruct (C32_parse_total b4 (Some (bs "committer ")) 10) as [(a' & b5 & E5)|E5]; rewrite E5; cbn [bindr]; [|auto].
  apply sig_parse_inv in E5. destruct E5 as (_ & L5 & _).
  destruct (headers_total b5 None (S (length data)) ltac:(lia)) as (en & b6 & ->). cbn [bindr]. left. eexists. reflexivity.
Qed.
Print Assumptions C49_quick_agrees.
Print Assumptions C49_parse_total.
