From Coq Require Import Permutation.
From Verif Require Import Base Str CStr CodecModel OidModel OidSpec OidProofs OidProps ReflogProofs PrefsModel PrefsSpec.

(** *** Ids *)
Lemma hex_chars id c : bytes id -> In c (hex_text id) -> 48 <= c <= 57 \/ 97 <= c <= 102.
Proof.
  intros Hb Hc. unfold hex_text in Hc. apply in_map_iff in Hc. destruct Hc as (v & <- & Hv).
  pose proof (proj1 (Forall_forall _ _) (nibbles_range id Hb) v Hv) as HR. cbn beta in HR. unfold digit. destruct (v <? 10) eqn:E; [apply Z.ltb_lt in E|apply Z.ltb_ge in E]; lia.
Qed.
Lemma hex_len size id : oid_ok size id -> length (hex_text id) = (2 * size)%nat.
Proof. intros [H _]. rewrite hex_text_length. lia. Qed.
Lemma parse_hex size id rest : (0 < size)%nat -> oid_ok size id -> bytes rest -> oid_from_prefix size (hex_text id ++ rest) (2 * size) = Ok id.
Proof.
  intros Hs Hok Hr. pose proof (hex_len _ _ Hok) as Hl. apply oid_parse_exact.
  - apply Forall_app. split; [|exact Hr]. apply Forall_forall. intros c Hc. apply (hex_chars id) in Hc; [|apply Hok]. unfold is_byte. lia.
  - split; [lia|]. split; [rewrite app_length; lia|]. split; [exact Hok|]. exists (nibbles id). rewrite Nat.sub_diag. cbn [repeat]. rewrite app_nil_r. split; [|reflexivity].
    rewrite <- Hl, firstn_app, Nat.sub_diag, firstn_O, app_nil_r, firstn_all. apply digits_hex_text, Hok.
Qed.
Lemma fmt_hex size id : oid_ok size id -> oid_fmt size id = Ok (hex_text id).
Proof. intros H. apply (oid_format_exact size 0 id H). Qed.

(** *** Searching for newlines *)
Definition no_nl (l : list Z) : Prop := Forall (fun c => c <> 10) l.
Lemma find_nl_some a r : no_nl a -> forall n, (length a < n)%nat -> find_nl (a ++ 10 :: r) n = Some (length a).
Proof.
  induction 1 as [|c a Hc Ha IH]; intros n Hn; destruct n as [|n]; cbn in Hn; try lia; cbn [app find_nl].
  - reflexivity.
  - unfold NL. destruct (c =? 10) eqn:E; [apply Z.eqb_eq in E; contradiction|]. rewrite IH by lia. reflexivity.
Qed.
Lemma find_nl_bound l n i : find_nl l n = Some i -> (i < n)%nat /\ (i < length l)%nat.
Proof.
  revert n i. induction l as [|c l IH]; intros [|n] i H; cbn in H; try discriminate. destruct (c =? NL); [injection H as <-; cbn; lia|].
  destruct (find_nl l n) as [j|] eqn:E; [|discriminate]. cbn in H. injection H as <-. apply IH in E. cbn. lia.
Qed.
Lemma rfind_nl_bound l n i : rfind_nl l n = Some i -> (i < n)%nat /\ (i < length l)%nat.
Proof.
  revert n i. induction l as [|c l IH]; intros [|n] i H; cbn in H; try discriminate. destruct (rfind_nl l n) as [j|] eqn:E.
  - injection H as <-. apply IH in E. cbn. lia.
  - destruct (c =? NL); [injection H as <-; cbn; lia|discriminate].
Qed.
Lemma rfind_nl_app a b n : rfind_nl (a ++ b) (length a + n) = match rfind_nl b n with Some i => Some (length a + i)%nat | None => rfind_nl a (length a) end.
Proof.
  induction a as [|c a IH]; cbn [app length Nat.add].
  - destruct (rfind_nl b n); reflexivity.
  - cbn [rfind_nl]. rewrite IH. destruct (rfind_nl b n) as [i|]; [reflexivity|]. reflexivity.
Qed.
Lemma rfind_nl_none a n : no_nl a -> rfind_nl a n = None.
Proof. intros H. revert n. induction H as [|c a Hc Ha IH]; intros [|n]; cbn [rfind_nl]; try reflexivity. rewrite IH. unfold NL. destruct (c =? 10) eqn:E; [apply Z.eqb_eq in E; contradiction|reflexivity]. Qed.
Lemma rfind_nl_none_app a b n : no_nl a -> (n <= length a)%nat -> rfind_nl (a ++ b) n = None.
Proof.
  intros H. revert n. induction H as [|c a Hc Ha IH]; intros [|n] Hn; cbn in Hn; try lia; cbn [app rfind_nl]; try reflexivity.
  - destruct b; reflexivity.
  - rewrite IH by lia. unfold NL. destruct (c =? 10) eqn:E; [apply Z.eqb_eq in E; contradiction|reflexivity].
Qed.
Lemma strnl_app a r : Forall (fun c => c <> 10 /\ c <> 0) a -> strnl (a ++ 10 :: r) = Ok (Some (a, r)).
Proof.
  induction 1 as [|c a [H1 H2] Ha IH]; [reflexivity|]. cbn [app strnl]. unfold NL. destruct (c =? 10) eqn:E1; [apply Z.eqb_eq in E1; contradiction|]. destruct (c =? 0) eqn:E2; [apply Z.eqb_eq in E2; contradiction|]. rewrite IH. reflexivity.
Qed.

(** *** Records *)
Section S.
Variable size : nat.
Lemma good_name_chars n : good_name n -> Forall (fun c => c <> 10 /\ c <> 0) n.
Proof. intros [_ H]. eapply Forall_impl; [|exact H]. cbn. intros. lia. Qed.
Lemma hex_chars2 id : bytes id -> Forall (fun c => c <> 10 /\ c <> 0 /\ c <> 94 /\ c <> 35 /\ is_byte c) (hex_text id).
Proof. intros H. apply Forall_forall. intros c Hc. apply (hex_chars id) in Hc; [|exact H]. unfold is_byte. lia. Qed.
Lemma line_no_nl e : good_ent size e -> no_nl (line e).
Proof.
  intros (Hn & Ho & _). unfold no_nl, line. apply Forall_app. split; [|constructor; [lia|]].
  - eapply Forall_impl; [|apply hex_chars2, Ho]. cbn. tauto.
  - eapply Forall_impl; [|apply good_name_chars, Hn]. cbn. tauto.
Qed.
Lemma line_len e : good_ent size e -> length (line e) = (2 * size + 1 + length (e_name e))%nat.
Proof. intros (_ & Ho & _). unfold line. rewrite app_length, (hex_len size) by exact Ho. cbn [length]. lia. Qed.
Lemma name_pos e : good_ent size e -> (0 < length (e_name e))%nat.
Proof. intros ((H & _) & _). destruct (e_name e); [congruence|cbn; lia]. Qed.
Lemma record_bytes e : good_ent size e -> bytes (record e).
Proof.
  intros ((_ & Hn) & Ho & Hp). unfold bytes, record, line. apply Forall_app. split; [apply Forall_app; split|].
  - eapply Forall_impl; [|apply hex_chars2, Ho]. cbn. tauto.
  - constructor; [unfold is_byte; lia|]. eapply Forall_impl; [|exact Hn]. unfold is_byte. cbn. intros. lia.
  - constructor; [unfold is_byte; lia|]. destruct (e_peel e) as [p|]; [|constructor]. constructor; [unfold is_byte; lia|]. apply Forall_app. split; [|constructor; [unfold is_byte; lia|constructor]]. eapply Forall_impl; [|apply hex_chars2, Hp]. cbn. tauto.
Qed.
Lemma body_bytes l : Forall (good_ent size) l -> bytes (body l).
Proof. unfold body. induction 1 as [|e l He Hl IH]; [constructor|]. cbn. apply Forall_app. split; [now apply record_bytes|exact IH]. Qed.
Hypothesis Hsize : (0 < size)%nat.
Lemma line_head e : good_ent size e -> exists c r, line e = c :: r /\ c <> 94 /\ c <> 35.
Proof.
  intros (_ & Ho & _). unfold line. pose proof (hex_len _ _ Ho) as L. pose proof (hex_chars2 (e_oid e) (proj2 Ho)) as H. destruct (hex_text (e_oid e)) as [|c r]; [cbn in L; lia|]. inversion H; subst. exists c, (r ++ 32 :: e_name e). cbn. tauto.
Qed.
Lemma body_head l : Forall (good_ent size) l -> body l = [] /\ l = [] \/ exists c r, body l = c :: r /\ c <> 94 /\ c <> 35.
Proof.
  destruct l as [|e l]; intros H; [left; auto|right]. inversion H; subst. destruct (line_head e H2) as (c & r & E & Hc). unfold body. cbn. unfold record at 1. rewrite E. cbn. eauto.
Qed.
Lemma body_app a b : body (a ++ b) = body a ++ body b.
Proof. unfold body. now rewrite map_app, concat_app. Qed.
Lemma body_end l : body l = [] /\ l = [] \/ exists r, body l = r ++ [10].
Proof.
  induction l as [|e l IH] using rev_ind; [left; auto|right]. rewrite body_app. unfold body at 2. cbn. rewrite app_nil_r. unfold record. destruct (e_peel e) as [p|].
  - exists (body l ++ line e ++ 10 :: 94 :: hex_text p). rewrite <- !app_assoc. reflexivity.
  - exists (body l ++ line e). now rewrite app_assoc.
Qed.

(** *** Reading the file back *)
Definition pref_of (e : ent) : pref := mkpr (e_name e) (e_oid e) (match e_peel e with Some p => p | None => repeat 0 size end) (match e_peel e with Some _ => true | None => false end) (match e_peel e with Some _ => false | None => true end) false.
Definition pref_as (mode : peeling) (e : ent) : pref :=
  mkpr (e_name e) (e_oid e) (match e_peel e with Some p => p | None => repeat 0 size end) (match e_peel e with Some _ => true | None => false end)
    (match e_peel e with Some _ => false | None => match mode with PFull => true | PStandard => prefixb tags_dir (e_name e) | PNone => false end end) false.
Lemma upsert_new l name g : ~ In name (map r_name l) -> upsert size l name g = l ++ [g (mkpr name (repeat 0 size) (repeat 0 size) false false false)].
Proof.
  induction l as [|r l IH]; intros H; [reflexivity|]. cbn in H. cbn [upsert app]. destruct (leqb (r_name r) name) eqn:E; [apply leqb_spec in E; tauto|]. rewrite IH by tauto. reflexivity.
Qed.
Lemma upsert_last l r name g : ~ In name (map r_name l) -> r_name r = name -> upsert size (l ++ [r]) name g = l ++ [g r].
Proof.
  induction l as [|x l IH]; intros H E; cbn [app upsert].
  - rewrite E, leqb_refl. reflexivity.
  - cbn in H. destruct (leqb (r_name x) name) eqn:E1; [apply leqb_spec in E1; tauto|]. rewrite IH by tauto. reflexivity.
Qed.
Lemma strip_cr_id n : good_name n -> strip_cr n = n.
Proof.
  intros [Hne H]. unfold strip_cr. destruct (last n SP =? CR) eqn:E; [|reflexivity]. exfalso. apply Z.eqb_eq in E.
  assert (In (last n SP) n) as Hi by (destruct (exists_last Hne) as (u & v & ->); rewrite last_last; apply in_or_app; right; now left). rewrite Forall_forall in H. specialize (H _ Hi). rewrite E in H. unfold CR in H. lia.
Qed.
Lemma read_refs_gen mode l : Forall (good_ent size) l -> NoDup (map e_name l) -> forall fuel cache, (forall e, In e l -> ~ In (e_name e) (map r_name cache)) -> (length (body l) < fuel)%nat ->
  read_refs size fuel mode (body l ++ [0]) cache = Ok (cache ++ map (pref_as mode) l).
Proof.
  induction l as [|e l IH]; intros HG HA fuel cache Hc Hf.
  - destruct fuel; [lia|]. cbn. now rewrite app_nil_r.
  - apply Forall_cons_iff in HG. destruct HG as [HG HGl]. cbn [map] in HA. apply NoDup_cons_iff in HA. destruct HA as [HA1 HA2]. destruct fuel as [|fuel]; [cbn in Hf; lia|].
    pose proof (Hc e (or_introl eq_refl)) as Hnew. pose proof HG as (Hn & Ho & Hp).
    assert (Hl : length (line e) = (2 * size + 1 + length (e_name e))%nat) by now apply line_len.
    assert (Hb : body (e :: l) ++ [0] = hex_text (e_oid e) ++ 32 :: e_name e ++ 10 :: (match e_peel e with Some p => 94 :: hex_text p ++ [10] | None => [] end) ++ body l ++ [0]).
    { unfold body. cbn [map concat]. unfold record, line. destruct (e_peel e); repeat (rewrite <- ?app_assoc; cbn [app]); reflexivity. }
    assert (Hlen : (length (body (e :: l)) = length (record e) + length (body l))%nat) by (unfold body; cbn; now rewrite app_length).
    assert (HR : (length (record e) > 2 * size)%nat) by (unfold record; rewrite app_length; lia).
    cbn [read_refs]. rewrite app_length, Hlen. cbn [length]. replace (1 <? length (record e) + length (body l) + 1)%nat with true by (symmetry; apply Nat.ltb_lt; lia).
    rewrite Hb. rewrite parse_hex; auto.
    2: { constructor; [unfold is_byte; lia|]. apply Forall_app. split; [eapply Forall_impl; [|apply Hn]; unfold is_byte; cbn; intros; lia|]. constructor; [unfold is_byte; lia|]. apply Forall_app. split.
         - destruct (e_peel e) as [p|]; [|constructor]. constructor; [unfold is_byte; lia|]. apply Forall_app. split; [|constructor; [unfold is_byte; lia|constructor]]. eapply Forall_impl; [|apply hex_chars2, Hp]. cbn. tauto.
         - apply Forall_app. split; [now apply body_bytes|]. constructor; [unfold is_byte; lia|constructor]. }
    cbn [bindr]. rewrite <- (hex_len size (e_oid e)) by exact Ho. rewrite skipn_app, Nat.sub_diag, skipn_all. cbn [app skipn first bindr]. unfold SP at 1. cbn [Z.eqb negb tl Pos.eqb].
    rewrite strnl_app by now apply good_name_chars. cbn [bindr]. rewrite (strip_cr_id _ Hn), (hex_len size) by exact Ho.
    rewrite upsert_new by exact Hnew.
    assert (IHgoal : forall x, r_name x = e_name e -> x = pref_as mode e -> forall fl, (length (body l) < fl)%nat -> read_refs size fl mode (body l ++ [0]) (cache ++ [x]) = Ok (cache ++ map (pref_as mode) (e :: l))).
    { intros x Hx -> fl Hfl. rewrite IH; auto.
      - rewrite <- app_assoc. reflexivity.
      - intros f Hf' Hi. rewrite map_app in Hi. apply in_app_or in Hi. destruct Hi as [Hi|[Hi|[]]]; [apply (Hc f (or_intror Hf') Hi)|]. cbn in Hi. apply HA1. rewrite Hi. now apply in_map. }
    cbn [r_name r_oid r_peel r_has r_cannot r_loose].
    destruct (e_peel e) as [p|] eqn:Ep; [destruct Hp as [Hp Hpz]|].
    + cbn [app first bindr]. unfold CARET at 1. cbn [Z.eqb Pos.eqb tl]. rewrite <- app_assoc. rewrite parse_hex; auto.
      2: { constructor; [unfold is_byte; lia|]. apply Forall_app. split; [now apply body_bytes|]. constructor; [unfold is_byte; lia|constructor]. }
      cbn [bindr skipn]. rewrite <- (hex_len size p) by exact Hp. rewrite skipn_app, Nat.sub_diag, skipn_all. cbn [app skipn].
      replace (1 <? length (10%Z :: body l ++ [0%Z]))%nat with true by (symmetry; apply Nat.ltb_lt; cbn [length]; rewrite app_length; cbn [length]; lia).
      cbn [strnl]. unfold NL at 1. cbn [Z.eqb Pos.eqb bindr]. rewrite upsert_last; [|exact Hnew|reflexivity]. cbn [r_name r_oid r_cannot r_loose]. apply IHgoal; [reflexivity| |lia].
      unfold pref_as. rewrite Ep. reflexivity.
    + cbn [app]. assert (Hfst : exists c, first (body l ++ [0]) = Ok c /\ c <> 94).
      { destruct (body_head l HGl) as [[-> ->]|(c & r & -> & H1 & H2)]; [exists 0; split; [reflexivity|lia]|]. exists c. split; [reflexivity|exact H1]. }
      destruct Hfst as (c & Ec & Hc94). rewrite Ec. cbn [bindr]. unfold CARET. destruct (c =? 94) eqn:E94; [apply Z.eqb_eq in E94; contradiction|].
      destruct (match mode with PFull => true | PStandard => prefixb tags_dir (e_name e) | PNone => false end) eqn:Em.
      * rewrite upsert_last; [|exact Hnew|reflexivity]. cbn [r_name r_oid r_cannot r_loose r_peel r_has]. apply IHgoal; [reflexivity| |lia]. unfold pref_as. rewrite Ep, Em. reflexivity.
      * apply IHgoal; [reflexivity| |lia]. unfold pref_as. rewrite Ep, Em. reflexivity.
Qed.
Lemma ascending_nodup l : ascending l -> NoDup (map e_name l).
Proof.
  induction l as [|e l IH]; intros H; cbn; [constructor|]. destruct H as [H1 H2]. constructor; [|now apply IH]. intros K. apply in_map_iff in K. destruct K as (f & Ef & Hf). rewrite Forall_forall in H1. specialize (H1 f Hf). rewrite Ef, lex_refl in H1. discriminate.
Qed.
Lemma read_refs_body l : Forall (good_ent size) l -> ascending l -> forall fuel cache, (forall e, In e l -> ~ In (e_name e) (map r_name cache)) -> (length (body l) < fuel)%nat ->
  read_refs size fuel PFull (body l ++ [0]) cache = Ok (cache ++ map pref_of l).
Proof. intros HG HA fuel cache Hc Hf. rewrite (read_refs_gen PFull l HG (ascending_nodup l HA) fuel cache Hc Hf). reflexivity. Qed.
Lemma bytes_app a b : bytes (a ++ b) <-> bytes a /\ bytes b.
Proof. apply Forall_app. Qed.
Definition hdr : list Z := bs "# pack-refs with: peeled fully-peeled sorted ".
Lemma peeling_file l b : peeling_mode (file_text l) b = (PFull, true, Some (length hdr + 1)%nat).
Proof.
  unfold file_text. fold hdr. unfold peeling_mode. 
  assert (E : hdr = traits ++ bs " peeled fully-peeled sorted ") by reflexivity.
  assert (P : prefixb traits (hdr ++ 10 :: body l) = true) by (rewrite E, <- app_assoc; apply prefixb_spec; eexists; reflexivity). rewrite P.
  assert (K : skipn (length traits) (hdr ++ 10 :: body l) = bs " peeled fully-peeled sorted " ++ 10 :: body l) by (rewrite E, <- app_assoc, skipn_app, Nat.sub_diag, skipn_all; reflexivity). rewrite K.
  rewrite find_nl_some.
  - rewrite firstn_app, Nat.sub_diag, firstn_all, firstn_O, app_nil_r. vm_compute. reflexivity.
  - repeat constructor; discriminate.
  - rewrite app_length. cbn [length]. lia.
Qed.
Lemma reload_file l b : good_list size l -> reload size (file_text l) b = Ok (map pref_of l, true).
Proof.
  intros [HG HA]. unfold reload. rewrite peeling_file. assert (K : skipn (length hdr + 1) (file_text l ++ [0]) = body l ++ [0]).
  { unfold file_text. fold hdr. rewrite <- app_assoc. cbn [app]. replace (hdr ++ 10 :: body l ++ [0]) with ((hdr ++ [10]) ++ body l ++ [0]) by (rewrite <- app_assoc; reflexivity).
    replace (length hdr + 1)%nat with (length (hdr ++ [10])) by (rewrite app_length; reflexivity). rewrite skipn_app, Nat.sub_diag, skipn_all. reflexivity. }
  rewrite K. assert (SC : skip_comments (S (length (body l ++ [0]))) (body l ++ [0]) = Ok (body l ++ [0])).
  { cbn [skip_comments]. destruct (1 <? length (body l ++ [0%Z]))%nat; [|reflexivity]. destruct (body_head l HG) as [[-> ->]|(c & r & -> & H1 & H2)]; [reflexivity|]. cbn [app first bindr]. unfold HASH. destruct (c =? 35) eqn:E; [apply Z.eqb_eq in E; contradiction|reflexivity]. }
  rewrite SC. cbn [bindr]. rewrite read_refs_body; auto. rewrite app_length. cbn. lia.
Qed.
Definition old_hdr : list Z := bs "# pack-refs with: peeled ".
Lemma reload_old (h : bool) l : Forall (good_ent size) l -> NoDup (map e_name l) -> exists mode, reload size (if h then old_hdr ++ 10 :: body l else body l) false = Ok (map (pref_as mode) l, false).
Proof.
  intros HG HA. assert (SC : skip_comments (S (length (body l ++ [0]))) (body l ++ [0]) = Ok (body l ++ [0])).
  { cbn [skip_comments]. destruct (1 <? length (body l ++ [0%Z]))%nat; [|reflexivity]. destruct (body_head l HG) as [[-> ->]|(c & r & -> & H1 & H2)]; [reflexivity|]. cbn [app first bindr]. unfold HASH. destruct (c =? 35) eqn:E; [apply Z.eqb_eq in E; contradiction|reflexivity]. }
  unfold reload. destruct h.
  - exists PStandard. assert (P : peeling_mode (old_hdr ++ 10 :: body l) false = (PStandard, false, Some (length old_hdr + 1)%nat)).
    { unfold peeling_mode. assert (E : old_hdr = traits ++ bs " peeled ") by reflexivity.
      assert (P : prefixb traits (old_hdr ++ 10 :: body l) = true) by (rewrite E, <- app_assoc; apply prefixb_spec; eexists; reflexivity). rewrite P.
      assert (K : skipn (length traits) (old_hdr ++ 10 :: body l) = bs " peeled " ++ 10 :: body l) by (rewrite E, <- app_assoc, skipn_app, Nat.sub_diag, skipn_all; reflexivity). rewrite K.
      rewrite find_nl_some; [rewrite firstn_app, Nat.sub_diag, firstn_all, firstn_O, app_nil_r; vm_compute; reflexivity|repeat constructor; discriminate|rewrite app_length; cbn [length]; lia]. }
    rewrite P. assert (K : skipn (length old_hdr + 1) ((old_hdr ++ 10 :: body l) ++ [0]) = body l ++ [0]).
    { rewrite <- app_assoc. cbn [app]. replace (old_hdr ++ 10 :: body l ++ [0]) with ((old_hdr ++ [10]) ++ body l ++ [0]) by (rewrite <- app_assoc; reflexivity). replace (length old_hdr + 1)%nat with (length (old_hdr ++ [10])) by (rewrite app_length; reflexivity). rewrite skipn_app, Nat.sub_diag, skipn_all. reflexivity. }
    rewrite K, SC. cbn [bindr]. rewrite read_refs_gen; auto. rewrite app_length. cbn. lia.
  - exists PNone. assert (P : peeling_mode (body l) false = (PNone, false, Some O)).
    { unfold peeling_mode. replace (prefixb traits (body l)) with false; [reflexivity|]. symmetry. destruct (prefixb traits (body l)) eqn:E; [|reflexivity]. exfalso. apply prefixb_spec in E. destruct E as (t & E). destruct (body_head l HG) as [[H _]|(c & r & H & H1 & H2)]; rewrite H in E; [discriminate|]. injection E as -> _. now apply H2. }
    rewrite P. cbn [skipn]. rewrite SC. cbn [bindr]. rewrite read_refs_gen; auto. rewrite app_length. cbn. lia.
Qed.
End S.
