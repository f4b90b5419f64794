From Verif Require Import Base Str IntModel IntSpec IntProofs OidModel OidSpec OidProofs OidProps SigModel SigSpec SigProofs SigProps ReflogModel ReflogSpec.
Local Open Scope Z_scope.

Lemma Ok_inj {A} (x y : A) : Ok x = Ok y -> x = y. Proof. congruence. Qed.
Definition nl2sp (c : Z) : Z := if c =? 10 then 32 else c.

Lemma drop_space_spec s : exists ws, s = ws ++ drop_space s /\ Forall space ws /\ (forall c r, drop_space s = c :: r -> ~ space c).
Proof.
  induction s as [|c s (a & E & Ha & Hn)]; cbn [drop_space].
  - exists []. repeat split; auto. discriminate.
  - destruct (isspc c) eqn:C.
    + exists (c :: a). split; [cbn; congruence|]. split; auto. constructor; auto. apply isspc_spec, C.
    + exists []. repeat split; auto. intros c0 r [= <- <-]. rewrite <- isspc_spec. congruence.
Qed.
Lemma rtrim_spec s : rstripped s (str_rtrim s).
Proof.
  unfold str_rtrim. destruct (drop_space_spec (rev s)) as (ws & E & Hw & Hn). exists (rev ws).
  split; [|split].
  - rewrite <- rev_app_distr, <- E. symmetry. apply rev_involutive.
  - apply Forall_rev, Hw.
  - intros p c H. apply (Hn c (rev p)). apply (f_equal (@rev Z)) in H. rewrite rev_involutive, rev_app_distr in H. exact H.
Qed.
Lemma drop_space_all ws r : Forall space ws -> drop_space (ws ++ r) = drop_space r.
Proof. induction 1 as [|c ws Hc _ IH]; cbn [app drop_space]; auto. apply isspc_spec in Hc. now rewrite Hc. Qed.
Lemma drop_space_id c r : ~ space c -> drop_space (c :: r) = c :: r.
Proof. intros H. cbn. destruct (isspc c) eqn:E; auto. apply isspc_spec in E. contradiction. Qed.
Lemma rtrim_eq s core : rstripped s core -> str_rtrim s = core.
Proof.
  intros (ws & -> & Hw & Hc). unfold str_rtrim. rewrite rev_app_distr, drop_space_all by (apply Forall_rev, Hw).
  rewrite <- (rev_involutive core) at 2. f_equal. destruct (rev core) as [|c r] eqn:E; auto.
  apply drop_space_id. apply (Hc (rev r) c). apply (f_equal (@rev Z)) in E. rewrite rev_involutive in E. exact E.
Qed.
Lemma rstripped_unique s a b : rstripped s a -> rstripped s b -> a = b.
Proof. intros H1 H2. apply rtrim_eq in H1, H2. congruence. Qed.

Lemma space_nl2sp c : space (nl2sp c) <-> space c.
Proof.
  unfold nl2sp. destruct (Z.eqb_spec c 10) as [->|]; [|tauto]. unfold space. split; intros _; [right; lia|]. left. cbn. auto.
Qed.
Lemma rtrim_snoc_space s c : space c -> str_rtrim (s ++ [c]) = str_rtrim s.
Proof. intros H. unfold str_rtrim. rewrite rev_app_distr. cbn [rev app]. f_equal. cbn [drop_space]. apply isspc_spec in H. now rewrite H. Qed.
Lemma rtrim_snoc s c : ~ space c -> str_rtrim (s ++ [c]) = s ++ [c].
Proof. intros H. unfold str_rtrim. rewrite rev_app_distr. cbn [rev app]. rewrite drop_space_id by auto. cbn [rev]. now rewrite rev_involutive. Qed.

Lemma despace_app n a b : ~ In 10 a -> (length a <= n)%nat -> despace n (a ++ b) = a ++ despace (n - length a) b.
Proof.
  revert n. induction a as [|c a IH]; intros n H L; cbn [app length] in *.
  - now rewrite Nat.sub_0_r.
  - destruct n as [|n]; [lia|]. cbn [despace Nat.sub]. destruct (Z.eqb_spec c 10) as [->|]; [exfalso; apply H; left; auto|]. rewrite IH; [reflexivity| |lia]. intros I; apply H; right; auto.
Qed.
Lemma despace_map p r : despace (length p) (p ++ r) = map nl2sp p ++ r.
Proof. induction p as [|c p IH]; cbn [length app despace map]; [destruct r; reflexivity|]. rewrite IH. reflexivity. Qed.
Lemma despace_short n a : ~ In 10 a -> despace n a = a.
Proof.
  revert n. induction a as [|c a IH]; intros n H; destruct n; cbn [despace]; auto.
  destruct (Z.eqb_spec c 10) as [->|]; [exfalso; apply H; left; auto|]. rewrite IH; auto. intros I; apply H; right; auto.
Qed.

Lemma despace_rtrim m : (forall p c, m = p ++ [10; c] -> space c) ->
  str_rtrim (despace (length m - 2) m) = str_rtrim (map nl2sp m).
Proof.
  intros G. destruct (Nat.le_gt_cases 2 (length m)) as [L|L].
  - destruct (rev m) as [|b [|a q]] eqn:E.
    { apply (f_equal (@length Z)) in E. rewrite rev_length in E. cbn in E. lia. }
    { apply (f_equal (@length Z)) in E. rewrite rev_length in E. cbn in E. lia. }
    apply (f_equal (@rev Z)) in E. rewrite rev_involutive in E. cbn [rev] in E. rewrite <- app_assoc in E. cbn [app] in E.
    set (p := rev q) in *. clearbody p. subst m. rewrite app_length. cbn [length]. replace (length p + 2 - 2)%nat with (length p) by lia.
    rewrite despace_map, map_app. cbn [map].
    assert (Sp : forall (l : list Z) u v, l ++ [u; v] = (l ++ [u]) ++ [v]) by (intros; rewrite <- app_assoc; reflexivity).
    rewrite !Sp. destruct (isspc b) eqn:B.
    + apply isspc_spec in B. rewrite (rtrim_snoc_space _ b), (rtrim_snoc_space _ (nl2sp b)) by (auto; apply space_nl2sp; auto).
      destruct (Z.eqb_spec a 10) as [->|N].
      * assert (space 10) by (right; lia). rewrite !rtrim_snoc_space by (auto; apply space_nl2sp; auto). reflexivity.
      * replace (nl2sp a) with a; [reflexivity|]. unfold nl2sp. destruct (Z.eqb_spec a 10); [contradiction|reflexivity].
    + assert (NB : ~ space b) by (rewrite <- isspc_spec; congruence).
      rewrite !rtrim_snoc by (rewrite ?space_nl2sp; auto).
      assert (b <> 10) by (intros ->; apply NB; right; lia).
      assert (a <> 10) by (intros ->; apply NB; eapply G; reflexivity).
      assert (NE : forall x, x <> 10 -> nl2sp x = x) by (intros x Hx; unfold nl2sp; destruct (Z.eqb_spec x 10); [contradiction|reflexivity]).
      rewrite (NE a), (NE b) by auto. reflexivity.
  - replace (length m - 2)%nat with 0%nat by lia. cbn [despace]. destruct m as [|c [|d m]]; cbn [length] in L; try lia; auto.
    cbn [despace map]. change [c] with ([] ++ [c]). change [nl2sp c] with ([] ++ [nl2sp c]).
    destruct (isspc c) eqn:B.
    + apply isspc_spec in B. rewrite !rtrim_snoc_space by (auto; apply space_nl2sp; auto). reflexivity.
    + assert (NB : ~ space c) by (rewrite <- isspc_spec; congruence). rewrite !rtrim_snoc by (rewrite ?space_nl2sp; auto).
      unfold nl2sp. destruct (Z.eqb_spec c 10) as [->|]; auto. exfalso. apply NB. right. lia.
Qed.

(** A signature's line without its newline. *)
Definition sbody (s : sig) : list Z :=
  let off := if s_offset s <? 0 then - s_offset s else s_offset s in
  s_name s ++ [32; 60] ++ s_email s ++ [62; 32] ++
  dec 20 (s_time s) ++ [32; if (s_offset s <? 0) || (s_sign s =? 45) then 45 else 43] ++ pad2 (off / 60) ++ pad2 (off mod 60).

Definition tabfree (s : sig) : Prop := ~ In 9 (s_name s) /\ ~ In 9 (s_email s).

Lemma sbody_written s header : storable s -> writebuf header s = Ok (header ++ sbody s ++ [10]).
Proof. intros W. exact (SigProps.written s W header). Qed.
Lemma sbody_line s : storable s -> ~ In 10 (sbody s).
Proof. intros W. exact (SigProps.body_line s W). Qed.
Lemma sbody_tab s : storable s -> tabfree s -> ~ In 9 (sbody s).
Proof.
  intros W [T1 T2]. unfold sbody. rewrite (in_app_iff (s_name s)). intros [I|I]; auto.
  rewrite in_app_iff in I. destruct I as [I|I]; [cbn in I; lia|]. rewrite in_app_iff in I. destruct I as [I|I]; auto.
  rewrite in_app_iff in I. destruct I as [I|I]; [cbn in I; lia|]. apply (SigProps.whenb_bytes s W) in I. lia.
Qed.
Lemma sbody_end s : storable s -> exists p d, sbody s = p ++ [d] /\ ~ space d.
Proof.
  intros W. destruct (SigProps.off_facts s W) as (O1 & O2 & O3 & _).
  unfold sbody. cbv zeta. set (o := if s_offset s <? 0 then - s_offset s else s_offset s) in *.
  rewrite (pad2_eq (o mod 60)) by lia. rewrite !app_assoc. set (q := _ ++ pad2 _). clearbody q.
  exists (q ++ [48 + o mod 60 / 10]), (48 + (o mod 60) mod 10). split.
  - rewrite <- app_assoc. reflexivity.
  - pose proof (Z.mod_pos_bound (o mod 60) 10). unfold space. intros [I|?]; [|lia]. change (In (48 + (o mod 60) mod 10) [32]) in I. destruct I as [I|[]]. lia.
Qed.
Lemma sbody_parse s : storable s -> sig_parse (32 :: sbody s) None 0 = Ok (s, []).
Proof.
  intros W. destruct (C32_buffer_roundtrip_partial s [32] W) as (out & E & P); [cbn; auto|].
  rewrite (sbody_written s [] W) in E. apply Ok_inj in E. cbn [app] in E. apply app_inj_tail in E as [<- _]. exact P.
Qed.

Lemma cut0_app s r : ~ In 0 s -> cut0 (s ++ 0 :: r) = s.
Proof. induction s as [|c s IH]; cbn [app cut0 In]; intros H; auto. destruct (Z.eqb_spec c 0); [tauto|]. rewrite IH by tauto. reflexivity. Qed.
Lemma hex_bytes id c : bytes id -> In c (hex_text id) -> 48 <= c <= 57 \/ 97 <= c <= 102.
Proof.
  intros B I. unfold hex_text in I. apply in_map_iff in I as (v & <- & Hv).
  pose proof (proj1 (Forall_forall _ _) (nibbles_range id B) v Hv) as HR. cbn beta in HR. unfold OidSpec.digit. destruct (Z.ltb_spec v 10); lia.
Qed.
Lemma id_text_ok size id : (1 <= size <= 32)%nat -> oid_ok size id -> id_text size id = Ok (hex_text id).
Proof.
  intros Hs Ho. unfold id_text. destruct (oid_format_exact size (2 * 32 + 1) id Ho) as (_ & _ & E & _). rewrite E by lia. cbn [bindr].
  rewrite firstn_all2; [|rewrite hex_text_length; destruct Ho as [-> _]; lia].
  rewrite cut0_app; auto. intros I. apply hex_bytes in I; [lia|apply Ho].
Qed.
Lemma advance_ok size id r : (1 <= size)%nat -> oid_ok size id -> bytes r -> advance_oid size (hex_text id ++ r) = Ok (Some (id, r)).
Proof.
  intros Hs Ho Hr. unfold advance_oid. pose proof (hex_text_length id) as L. destruct Ho as [Hl Hb]. rewrite Hl in L.
  rewrite app_length. destruct (Nat.ltb_spec (length (hex_text id) + length r) (2 * size)); [lia|].
  assert (B : bytes (hex_text id ++ r)).
  { apply Forall_app. split; auto. apply Forall_forall. intros c I. apply hex_bytes in I; auto. unfold is_byte. lia. }
  rewrite (proj2 (from_prefix_iff size (hex_text id ++ r) (2 * size) id B)).
  - rewrite <- L. rewrite skl. reflexivity.
  - rewrite app_length. split; [lia|]. split; [lia|]. split; [split; auto|]. exists (nibbles id). split.
    + rewrite <- L, fsl. apply digits_hex_text, Hb.
    + rewrite Nat.sub_diag. cbn. now rewrite app_nil_r.
Qed.
Lemma until_tab_ok a c r : ~ In 9 a -> ~ In 10 a -> c = 9 \/ c = 10 -> until_tab (a ++ c :: r) = (a, c :: r).
Proof.
  intros H1 H2 Hc. induction a as [|x a IH]; cbn [app until_tab].
  - destruct Hc as [->| ->]; reflexivity.
  - cbn [In] in *. destruct (Z.eqb_spec x 9); [tauto|]. destruct (Z.eqb_spec x 10); [tauto|]. cbn [orb]. rewrite IH by tauto. reflexivity.
Qed.

(** The text of one entry. *)
Definition line_of (e : entry) : list Z :=
  hex_text (e_old e) ++ [32] ++ hex_text (e_new e) ++ [32] ++ sbody (e_sig e) ++ match e_msg e with None => [] | Some m => 9 :: m end.

Definition entry_ok (size : nat) (e : entry) : Prop :=
  oid_ok size (e_old e) /\ oid_ok size (e_new e) /\ storable (e_sig e) /\ tabfree (e_sig e) /\ msg_ok (e_msg e).
Definition keeps (e e' : entry) : Prop :=
  e_old e' = e_old e /\ e_new e' = e_new e /\ e_sig e' = e_sig e /\ kept (e_msg e) (e_msg e').

Lemma rstripped_no_nl m core : rstripped (map nl2sp m) core -> ~ In 10 core.
Proof.
  intros (ws & E & _ & _) I. assert (J : In 10 (map nl2sp m)) by (rewrite E; apply in_or_app; auto).
  apply in_map_iff in J as (c & Ec & _). unfold nl2sp in Ec. destruct (Z.eqb_spec c 10); congruence.
Qed.
Lemma rstripped_cstring m core : cstring m -> rstripped (map nl2sp m) core -> cstring core.
Proof.
  intros C (ws & E & _ & _). unfold cstring in *. assert (F : Forall (fun c => 0 < c < 256) (map nl2sp m)).
  { apply Forall_forall. intros c I. apply in_map_iff in I as (d & <- & I). rewrite Forall_forall in C. apply C in I. unfold nl2sp. destruct (Z.eqb_spec d 10); lia. }
  rewrite E in F. apply Forall_app in F. tauto.
Qed.

Lemma serialize_ok size e : (1 <= size <= 32)%nat -> entry_ok size e ->
  exists e', keeps e e' /\ entry_ok size e' /\ (forall m, e_msg e' = Some m -> cstring m /\ ~ In 10 m) /\
    serialize size (e_old e) (e_new e) (e_sig e) (e_msg e) = Ok (line_of e' ++ [10]).
Proof.
  intros Hs (O1 & O2 & W & T & M). unfold serialize. rewrite !id_text_ok by auto. cbn [bindr].
  rewrite sbody_written by auto. cbn [bindr].
  destruct (sbody_end (e_sig e) W) as (p & d & Ep & Hd).
  set (A := hex_text (e_old e) ++ [32] ++ hex_text (e_new e) ++ [32] ++ sbody (e_sig e)).
  assert (EA : exists q, A = q ++ [d]).
  { exists (hex_text (e_old e) ++ [32] ++ hex_text (e_new e) ++ [32] ++ p). subst A. rewrite Ep, <- !app_assoc. reflexivity. }
  destruct EA as [q EA].
  assert (NA : ~ In 10 A).
  { subst A. rewrite !in_app_iff. intros [I|[I|[I|[I|I]]]].
    - apply hex_bytes in I; [lia|apply O1]. - cbn in I. lia. - apply hex_bytes in I; [lia|apply O2]. - cbn in I. lia. - exact (sbody_line _ W I). }
  replace (hex_text (e_old e) ++ [32] ++ hex_text (e_new e) ++ [32] ++ sbody (e_sig e) ++ [10]) with (A ++ [10]) by (subst A; rewrite <- !app_assoc; reflexivity).
  rewrite rtrim_snoc_space by (right; lia).
  assert (RA : str_rtrim A = A) by (rewrite EA; apply rtrim_snoc, Hd). rewrite RA.
  destruct (e_msg e) as [m|] eqn:Em.
  2:{ exists e. split; [unfold keeps; rewrite Em; cbn; auto|]. split; [unfold entry_ok; rewrite Em; auto|]. split; [rewrite Em; discriminate|].
      unfold line_of. rewrite Em. subst A. rewrite ?app_nil_r. reflexivity. }
  cbn [msg_ok] in M. destruct M as [Cm Gm].
  pose proof (rtrim_spec (map nl2sp m)) as R. set (core := str_rtrim (map nl2sp m)) in *.
  assert (X : str_rtrim (despace (length (A ++ [9] ++ m) - 2) (A ++ [9] ++ m)) = A ++ match core with [] => [] | _ => 9 :: core end).
  { replace (A ++ [9] ++ m) with ((A ++ [9]) ++ m) by (rewrite <- app_assoc; reflexivity).
    assert (D : despace (length ((A ++ [9]) ++ m) - 2) ((A ++ [9]) ++ m) = (A ++ [9]) ++ despace (length m - 2) m).
    { destruct (Nat.le_gt_cases 2 (length m)) as [L|L].
      - rewrite despace_app.
        + f_equal. f_equal. rewrite !app_length. lia.
        + rewrite in_app_iff. intros [I|I]; auto. cbn in I. lia.
        + rewrite !app_length. lia.
      - replace (length m - 2)%nat with 0%nat by lia. cbn [despace].
        replace ((A ++ [9]) ++ m) with (A ++ (9 :: m)) by (rewrite <- app_assoc; reflexivity).
        assert (LA : length A = S (length q)) by (rewrite EA, app_length; cbn; lia).
        rewrite app_length. cbn [length]. destruct m as [|c [|c2 m]]; cbn [length] in *; try lia.
        + rewrite despace_short; auto. rewrite in_app_iff. intros [I|I]; auto. cbn in I. lia.
        + rewrite despace_app by (auto; lia). replace (length A + 2 - 2 - length A)%nat with 0%nat by lia. reflexivity. }
    rewrite D. pose proof (despace_rtrim m Gm) as DR. fold core in DR.
    destruct (rtrim_spec (despace (length m - 2) m)) as (ws & Ew & Hw & Hl). rewrite DR in Ew, Hl.
    rewrite Ew. apply rtrim_eq. destruct core as [|c0 core0].
    - exists ([9] ++ ws). split; [rewrite app_nil_r, <- !app_assoc; reflexivity|]. split.
      + apply Forall_app. split; auto. constructor; auto. right. lia.
      + rewrite app_nil_r. intros p0 c E. rewrite EA in E. apply app_inj_tail in E as [_ <-]. exact Hd.
    - exists ws. split; [rewrite <- !app_assoc; reflexivity|]. split; auto. intros p0 c E.
      destruct (exists_last (l := c0 :: core0)) as (l & z & El); [discriminate|]. rewrite El in E.
      replace (A ++ 9 :: l ++ [z]) with ((A ++ 9 :: l) ++ [z]) in E by (rewrite <- app_assoc; reflexivity).
      apply app_inj_tail in E as [_ <-]. eapply Hl. exact El. }
  pose proof (rstripped_no_nl _ _ R) as N1. pose proof (rstripped_cstring _ _ Cm R) as C1.
  exists (mkentry (e_old e) (e_new e) (e_sig e) (match core with [] => None | _ => Some core end)).
  split; [|split; [|split]].
  - unfold keeps. cbn [e_old e_new e_sig e_msg]. repeat (split; [reflexivity|]). rewrite Em. cbn [kept]. exists core. split; auto.
  - unfold entry_ok. cbn [e_old e_new e_sig e_msg]. repeat (split; auto). destruct core; cbn [msg_ok]; auto. split; auto.
    intros p0 c E. exfalso. apply N1. rewrite E. apply in_or_app. right. left. reflexivity.
  - cbn [e_msg]. intros m0 E. destruct core; [discriminate|]. assert (m0 = z :: core) by congruence. subst m0. auto.
  - f_equal. rewrite X. unfold line_of. cbn [e_old e_new e_sig e_msg]. subst A. destruct core; rewrite <- !app_assoc; reflexivity.
Qed.

Lemma cstring_bytes s : cstring s -> bytes s.
Proof. apply Forall_impl. unfold is_byte. intros; lia. Qed.
Lemma hex_is_bytes id : bytes id -> bytes (hex_text id).
Proof. intros H. apply Forall_forall. intros c I. apply hex_bytes in I; auto. unfold is_byte. lia. Qed.
Lemma sbody_bytes s : storable s -> bytes (sbody s).
Proof.
  intros W. apply Forall_forall. intros c I. unfold sbody in I. rewrite (in_app_iff (s_name s)) in I.
  pose proof W as (_ & _ & C1 & C2 & _). unfold cstring in *. rewrite Forall_forall in C1, C2. unfold is_byte.
  destruct I as [I|I]; [apply C1 in I; lia|]. rewrite in_app_iff in I. destruct I as [I|I]; [cbn in I; lia|].
  rewrite in_app_iff in I. destruct I as [I|I]; [apply C2 in I; lia|]. rewrite in_app_iff in I. destruct I as [I|I]; [cbn in I; lia|].
  apply (SigProps.whenb_bytes s W) in I. lia.
Qed.

Lemma parse_line_ok size e : (1 <= size <= 32)%nat -> entry_ok size e -> (forall m, e_msg e = Some m -> cstring m /\ ~ In 10 m) ->
  parse_line size (line_of e ++ [10]) = Ok (Some e).
Proof.
  intros Hs (O1 & O2 & W & T & M) HM. unfold parse_line, line_of.
  set (tl := match e_msg e with None => [] | Some m => 9 :: m end ++ [10]).
  assert (Bt : bytes tl).
  { subst tl. apply Forall_app. split; [|repeat constructor; unfold is_byte; lia]. destruct (e_msg e) as [m|]; [|constructor].
    constructor; [unfold is_byte; lia|]. apply cstring_bytes. apply (HM m eq_refl). }
  replace ((hex_text (e_old e) ++ [32] ++ hex_text (e_new e) ++ [32] ++ sbody (e_sig e) ++ match e_msg e with None => [] | Some m => 9 :: m end) ++ [10])
    with (hex_text (e_old e) ++ 32 :: hex_text (e_new e) ++ 32 :: sbody (e_sig e) ++ tl) by (subst tl; rewrite <- !app_assoc; reflexivity).
  assert (B3 : bytes (32 :: sbody (e_sig e) ++ tl)) by (constructor; [unfold is_byte; lia|]; apply Forall_app; split; [apply sbody_bytes, W|exact Bt]).
  rewrite advance_ok; auto; [|lia|].
  2:{ constructor; [unfold is_byte; lia|]. apply Forall_app. split; auto. apply hex_is_bytes, O2. }
  cbn [bindr]. cbn [Z.eqb Pos.eqb negb]. rewrite advance_ok by (auto; lia). cbn [bindr].
  assert (U : until_tab (32 :: sbody (e_sig e) ++ tl) = (32 :: sbody (e_sig e), tl)).
  { pose proof (sbody_tab _ W T) as NT. pose proof (sbody_line _ W) as NL.
    subst tl. destruct (e_msg e) as [m|]; cbn [app]; rewrite app_comm_cons; apply until_tab_ok; auto; cbn [In]; intros [I|I]; auto; discriminate. }
  rewrite U, sbody_parse by auto. subst tl. destruct (e_msg e) as [m|] eqn:Em; cbn [app].
  - rewrite Z.eqb_refl. rewrite rev_app_distr. cbn [rev app]. rewrite Z.eqb_refl, rev_involutive. destruct (HM m eq_refl) as [Cm _].
    rewrite cut0_id. { rewrite <- Em. destruct e; reflexivity. }
    intros I. unfold cstring in Cm. rewrite Forall_forall in Cm. apply Cm in I. lia.
  - cbn [Z.eqb Pos.eqb]. rewrite <- Em. destruct e; reflexivity.
Qed.
Lemma line_no_nl size e : entry_ok size e -> (forall m, e_msg e = Some m -> cstring m /\ ~ In 10 m) -> ~ In 10 (line_of e).
Proof.
  intros (O1 & O2 & W & T & M) HM I. unfold line_of in I. repeat rewrite in_app_iff in I.
  destruct I as [I|[I|[I|[I|[I|I]]]]].
  - apply hex_bytes in I; [lia|apply O1]. - cbn in I. lia. - apply hex_bytes in I; [lia|apply O2]. - cbn in I. lia.
  - exact (sbody_line _ W I).
  - destruct (e_msg e) as [m|]; [|destruct I]. destruct I as [I|I]; [discriminate|]. exact (proj2 (HM m eq_refl) I).
Qed.

(** The loop reads line by line. *)
Lemma linenlen_line ln r : ~ In 10 ln -> linenlen (ln ++ 10 :: r) = S (length ln).
Proof. intros H. unfold linenlen. rewrite memchr_app by auto. reflexivity. Qed.
Lemma linenlen_pos buf : buf <> [] -> (1 <= linenlen buf <= length buf)%nat.
Proof.
  intros N. unfold linenlen. destruct (memchr buf 10) as [i|] eqn:E.
  - assert (i < length buf)%nat; [|lia]. clear N. revert i E. induction buf as [|c r IH]; cbn [memchr]; intros i E; [discriminate|].
    destruct (c =? 10); [injection E as <-; cbn; lia|]. destruct (memchr r 10) as [j|]; [|discriminate]. injection E as <-. specialize (IH j eq_refl). cbn [length]. lia.
  - destruct buf; [congruence|cbn; lia].
Qed.
Lemma parse_fuel size : forall n buf f, (length buf <= n)%nat -> (length buf <= f)%nat -> reflog_parse f size buf = reflog_parse n size buf.
Proof.
  induction n as [|n IH]; intros buf f L1 L2.
  - destruct buf; [|cbn in L1; lia]. destruct f; reflexivity.
  - destruct buf as [|c r]; [destruct f; reflexivity|]. destruct f as [|f]; [cbn in L2; lia|]. cbn [reflog_parse].
    assert (P := linenlen_pos (c :: r) ltac:(discriminate)). set (k := linenlen (c :: r)) in *.
    assert (SL : length (skipn k (c :: r)) = (length (c :: r) - k)%nat) by apply skipn_length.
    rewrite (IH (skipn k (c :: r)) f) by lia. reflexivity.
Qed.
Lemma read_cons size ln r : ~ In 10 ln ->
  read_log size (ln ++ 10 :: r) = (do e <- parse_line size (ln ++ [10]) ;; do l <- read_log size r ;; Ok (match e with Some x => x :: l | None => l end)).
Proof.
  intros H. unfold read_log. rewrite (parse_fuel size (S (length ln + length r))); [| |lia].
  2:{ rewrite app_length. cbn [length]. lia. }
  assert (E : exists c t, ln ++ 10 :: r = c :: t) by (destruct ln; cbn; eauto). destruct E as (c & t & E). rewrite E.
  cbn [reflog_parse]. rewrite <- E. rewrite linenlen_line by auto.
  replace (ln ++ 10 :: r) with ((ln ++ [10]) ++ r) by (rewrite <- app_assoc; reflexivity).
  replace (S (length ln)) with (length (ln ++ [10])) by (rewrite app_length; cbn; lia).
  rewrite fsl, skl. destruct (parse_line size (ln ++ [10])); cbn [bindr]; auto.
  rewrite (parse_fuel size (length r)) by lia. reflexivity.
Qed.
