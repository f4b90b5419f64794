From Verif Require Import Base Str CodecModel OidModel OidSpec OidProofs OidProps ReflogProofs PrefsProofs PrefsFind ShortenProofs PktModel PktSpec PktProofs PktMain PktSafe.

Lemma take_app a b n : n = length a -> take (a ++ b) n = Ok a.
Proof. intros ->. unfold take. rewrite app_length. replace (length a <=? length a + length b)%nat with true by (symmetry; apply Nat.leb_le; lia). rewrite firstn_app, Nat.sub_diag, firstn_all. cbn. now rewrite app_nil_r. Qed.
Lemma take_all a n : n = length a -> take a n = Ok a.
Proof. intros ->. unfold take. now rewrite Nat.leb_refl, firstn_all. Qed.
Lemma prefixn_yes p : forall s n, (length p + 0 < n)%nat \/ n = length p -> (n <= length (p ++ s))%nat -> prefixn (p ++ s) n p = Ok true.
Proof.
  induction p as [|d q IH]; intros s n H Hn; cbn [app].
  - destruct n as [|n]; [reflexivity|]. cbn [prefixn]. destruct s; [cbn in Hn; lia|reflexivity].
  - destruct n as [|n]; [cbn in H; lia|]. cbn [prefixn]. rewrite Z.eqb_refl. apply IH; cbn in *; lia.
Qed.
Lemma strip_nl_ok t nl : newline_or_not nl -> last t 0 <> 10 -> strip_nl (t ++ nl) = t.
Proof.
  intros [-> | -> ] H; unfold strip_nl; [rewrite app_nil_r; replace (last t 0 =? 10) with false by (symmetry; now apply Z.eqb_neq); reflexivity|]. rewrite last_last. cbn. now rewrite removelast_last.
Qed.
Lemma find_byte_app c a b : ~ In c a -> find_byte c (a ++ c :: b) = Some (length a).
Proof. induction a as [|x a IH]; intros H; cbn; [now rewrite Z.eqb_refl|]. destruct (x =? c) eqn:E; [apply Z.eqb_eq in E; subst; destruct H; now left|]. rewrite IH by (intros K; apply H; now right). reflexivity. Qed.
Lemma find_byte_none c a : ~ In c a -> find_byte c a = None.
Proof. induction a as [|x a IH]; intros H; cbn; [reflexivity|]. destruct (x =? c) eqn:E; [apply Z.eqb_eq in E; subst; destruct H; now left|]. rewrite IH by (intros K; apply H; now right). reflexivity. Qed.
Lemma parse_id size oid x : (0 < size)%nat -> oid_ok size oid -> oid_from_prefix size (hex_text oid ++ x) (2 * size) = Ok oid.
Proof.
  intros Hs Ho. assert (P : oid_from_prefix size (hex_text oid) (2 * size) = Ok oid) by (rewrite <- (app_nil_r (hex_text oid)); apply parse_hex; [exact Hs|exact Ho|constructor]).
  rewrite <- P. apply oid_ext. rewrite P. discriminate.
Qed.
(** The first byte decides. *)
Lemma payload_ref exp s len d : (exists c r, s = c :: r /\ (48 <= c <= 57 \/ 97 <= c <= 102)) -> (1 <= len)%nat -> payload exp s len d = ref_pkt exp s len d.
Proof.
  intros (c & r & -> & H) Hl. destruct len as [|len]; [lia|]. unfold payload. change (rd (c :: r) 0) with (Ok c). cbn [bindr].
  assert (N : forall k, (k < 48 \/ 57 < k < 97 \/ 102 < k) -> (c =? k) = false) by (intros k Hk; apply Z.eqb_neq; lia).
  change (bs "ACK") with [65; 67; 75]. change (bs "NAK") with [78; 65; 75]. change (bs "ERR") with [69; 82; 82]. change (bs "ok") with [111; 107]. change (bs "ng") with [110; 103]. change (bs "unpack") with [117; 110; 112; 97; 99; 107]. change (bs "shallow") with [115; 104; 97; 108; 108; 111; 119]. change (bs "unshallow") with [117; 110; 115; 104; 97; 108; 108; 111; 119].
  cbn [prefixn prefixc]. rewrite !N by lia. cbn [bindr]. reflexivity.
Qed.
Lemma hex_first oid t : oid <> [] -> bytes oid -> exists c r, hex_text oid ++ t = c :: r /\ (48 <= c <= 57 \/ 97 <= c <= 102).
Proof. intros H Hb. destruct oid as [|b oid]; [congruence|]. unfold hex_text. cbn [nibbles map app]. eexists _, _. split; [reflexivity|]. apply (hex_chars (b :: oid)); [exact Hb|]. unfold hex_text. cbn [nibbles map]. now left. Qed.
Lemma len_ltb a b : (a >= b)%nat -> (a <? b)%nat = false.
Proof. intros. apply Nat.ltb_ge. lia. Qed.
(** The part of a reference's line behind the id. *)
Lemma ref_tail exp size d oid line : (0 < size)%nat -> oid_ok size oid -> line <> [] -> pd_size d = Some size ->
  forall s, s = hex_text oid ++ 32 :: line -> (pd_seen d = true \/ set_data exp s (length s) (mkpd None false) = Ok d /\ pd_seen d = false) ->
  ref_pkt exp s (length s) (if pd_seen d then d else mkpd None false) =
  match find_byte 0 (strip_nl line) with
  | None => Ok (KRef oid (strip_nl line) None, mkpd (Some size) true)
  | Some i => if pd_seen d then Err (-1) else Ok (KRef oid (firstn i (strip_nl line)) (Some (skipn (S i) (strip_nl line))), mkpd (Some size) true)
  end.
Proof.
  intros Hs Ho Hl Hd s Es Hseen. unfold ref_pkt. assert (E : (if pd_seen (if pd_seen d then d else mkpd None false) then Ok (if pd_seen d then d else mkpd None false) else set_data exp s (length s) (if pd_seen d then d else mkpd None false)) = Ok d).
  { destruct Hseen as [H|[H1 H2]]; [rewrite H, H; reflexivity|]. rewrite H2. exact H1. }
  rewrite E. cbn [bindr]. rewrite Hd. pose proof (hex_len size oid Ho) as Lh. assert (Ls : length s = (2 * size + 1 + length line)%nat) by (rewrite Es, app_length, Lh; cbn; lia).
  assert (1 <= length line)%nat by (destruct line; [congruence|cbn; lia]).
  rewrite len_ltb by lia. rewrite Es at 1. rewrite parse_id by assumption. cbn [bindr]. rewrite Ls. rewrite Es at 1. rewrite skipn_pre by now symmetry. replace (2 * size + 1 + length line - 2 * size)%nat with (S (length line)) by lia.
  assert (P : prefixn (32 :: line) (S (length line)) [32] = Ok true) by (apply (prefixn_yes [32] line); cbn; lia). rewrite P. cbn [bindr negb]. rewrite Es. rewrite skipn_pre by now symmetry. cbn [tl]. replace (S (length line) - 1)%nat with (length line) by lia. replace (length line =? 0)%nat with false by (symmetry; apply Nat.eqb_neq; lia). rewrite take_all by reflexivity. cbn [bindr]. reflexivity.
Qed.
(** A later reference. *)
Lemma kind_ref exp size oid name nl : (0 < size)%nat -> oid_ok size oid -> name <> [] -> ~ In 0 name -> last name 0 <> 10 -> newline_or_not nl ->
  let pl := hex_text oid ++ bs " " ++ name ++ nl in payload exp pl (length pl) (mkpd (Some size) true) = Ok (KRef oid name None, mkpd (Some size) true).
Proof.
  intros Hs Ho Hn H0 Hl Hnl. cbv zeta. pose proof (ref_tail exp size (mkpd (Some size) true) oid (name ++ nl) Hs Ho) as R. rewrite payload_ref; [|apply hex_first; [intros ->; destruct Ho; cbn in *; lia|apply Ho]|rewrite app_length, (hex_len size oid Ho); lia].
  change (bs " " ++ name ++ nl) with (32 :: name ++ nl). specialize (R ltac:(destruct name; [congruence|discriminate]) eq_refl _ eq_refl (or_introl eq_refl)). cbn [pd_seen] in R. rewrite R. rewrite strip_nl_ok by assumption. now rewrite find_byte_none.
Qed.
(** The first reference, with capabilities. *)
Lemma strn_is_yes p s : strn_is (p ++ s) p = Ok true.
Proof. induction p as [|d q IH]; cbn [strn_is app]; [reflexivity|]. now rewrite Z.eqb_refl. Qed.
Lemma strn_is_dec p : forall s b, strn_is s p = Ok b -> b = true -> exists v, s = p ++ v.
Proof. intros s b H ->. now apply strn_is_true. Qed.
Lemma strn_is_no p s : (length p <= length s)%nat -> (forall v, s <> p ++ v) -> strn_is s p = Ok false.
Proof.
  revert s. induction p as [|d q IH]; intros s L H; [destruct (H s); reflexivity|]. destruct s as [|c r]; [cbn in L; lia|]. cbn [strn_is]. destruct (c =? d) eqn:E; [|reflexivity]. apply Z.eqb_eq in E. subst d. apply IH; [cbn in L; lia|]. intros v ->. now apply (H v).
Qed.
Lemma strstr_first p t : ~ In 0 p -> p <> [] -> forall s, ~ In 0 s -> first_at p s -> strstr (s ++ p ++ t) p = Ok (Some (p ++ t)).
Proof.
  intros Hp Hne. induction s as [|c r IH]; intros H0 H.
  - cbn [app]. destruct p as [|d q] eqn:E; [congruence|]. rewrite <- E in *. assert (exists x y, p ++ t = x :: y) as (x & y & Exy) by (rewrite E; cbn; eauto). rewrite Exy. cbn [strstr]. rewrite <- Exy. rewrite strn_is_yes. reflexivity.
  - cbn [app strstr]. assert (N : strn_is (c :: r ++ p ++ t) p = Ok false).
    { apply strn_is_no; [cbn [length]; rewrite !app_length; lia|]. intros v K. change (c :: r ++ p ++ t) with ((c :: r) ++ p ++ t) in K. rewrite app_assoc in K. apply app_split in K. destruct K as [(m & K & _)|(m & _ & K & _)].
      - specialize (H [] m K). discriminate.
      - apply (f_equal (@length Z)) in K. rewrite !app_length in K. cbn [length] in K. lia. }
    rewrite N. cbn [bindr]. destruct (c =? 0) eqn:E; [apply Z.eqb_eq in E; destruct H0; now left|]. apply IH; [intros K; apply H0; now right|]. intros u v K. specialize (H (c :: u) v). cbn [app] in H. rewrite K in H. specialize (H eq_refl). now injection H.
Qed.
Lemma strstr_none p t : ~ In 0 p -> p <> [] -> forall s, ~ In 0 s -> nowhere p s -> strstr (s ++ 0 :: t) p = Ok None.
Proof.
  intros Hp Hne. induction s as [|c r IH]; intros H0 H.
  - cbn [app strstr]. destruct p as [|d q]; [congruence|]. cbn [strn_is]. destruct (0 =? d) eqn:E; [apply Z.eqb_eq in E; destruct Hp; now left|]. reflexivity.
  - cbn [app strstr]. destruct (strn_is (c :: r ++ 0 :: t) p) as [b| | |] eqn:N.
    + destruct b; cbn [bindr].
      * exfalso. apply strn_is_true in N. destruct N as (v & N). change (c :: r ++ 0 :: t) with ((c :: r) ++ 0 :: t) in N. apply app_split in N. destruct N as [(m & N & _)|(m & Hm & N & K)]; [now apply (H [] m)|]. destruct m as [|m0 m]; [congruence|]. injection K as <- _. apply Hp. rewrite N. apply in_or_app. right. now left.
      * destruct (c =? 0) eqn:E; [apply Z.eqb_eq in E; destruct H0; now left|]. apply IH; [intros K; apply H0; now right|]. intros u v K. apply (H (c :: u) v). cbn. now rewrite K.
    + pose proof (em1_strn p (c :: r ++ 0 :: t)) as K. rewrite N in K. exfalso. assert (O : ok1 (strn_is (c :: r ++ 0 :: t) p)) by (apply ok1_strn; [right; apply in_or_app; right; now left|exact Hp]). clear - N. revert N. generalize (c :: r ++ 0 :: t). induction p as [|d q IH]; intros s N; cbn in N; [discriminate|]. destruct s; [discriminate|]. destruct (z =? d); [eauto|discriminate].
    + exfalso. assert (O : ok1 (strn_is (c :: r ++ 0 :: t) p)) by (apply ok1_strn; [right; apply in_or_app; right; now left|exact Hp]). rewrite N in O. destruct O.
    + exfalso. assert (O : ok1 (strn_is (c :: r ++ 0 :: t) p)) by (apply ok1_strn; [right; apply in_or_app; right; now left|exact Hp]). rewrite N in O. destruct O.
Qed.
Lemma strchr_at c a b : ~ In c a -> ~ In 0 a -> strchr c (a ++ c :: b) = Ok (Some (length a)).
Proof.
  induction a as [|x a IH]; intros H H0; cbn [app strchr]; [now rewrite Z.eqb_refl|]. destruct (x =? c) eqn:E; [apply Z.eqb_eq in E; subst; destruct H; now left|]. destruct (x =? 0) eqn:E0; [apply Z.eqb_eq in E0; subst; destruct H0; now left|].
  rewrite IH by (intros K; ((apply H; now right) || (apply H0; now right))). reflexivity.
Qed.
Lemma format_of_name exp fmt post size : ~ In 32 fmt -> ~ In 0 fmt -> type_of exp fmt = Some size -> format_size exp (Some (fmt ++ 32 :: post)) = Ok size.
Proof.
  intros H1 H2 H3. cbn [format_size]. unfold format_end. rewrite strchr_at by assumption. cbn [bindr]. rewrite firstn_app, Nat.sub_diag, firstn_all. cbn [firstn]. rewrite app_nil_r, H3. reflexivity.
Qed.
Lemma find_format_ok exp caps size z len s x : announces exp caps size -> (S z < len)%nat -> skipn (S z) s = caps ++ x -> exists f, find_format len (Some z) s = Ok f /\ format_size exp f = Ok size.
Proof.
  intros (fmt & post & Hf & H4) Hz Es.
  assert (~ In 32 fmt /\ ~ In 0 fmt /\ type_of exp fmt = Some size) as (H1 & H2 & H3) by (destruct Hf as [[-> ->]|(-> & -> & ->)]; (split; [no0|]; split; [no0|reflexivity])). unfold find_format. replace (S z <? len)%nat with true by (symmetry; now apply Nat.ltb_lt). cbv zeta. rewrite Es. destruct H4 as [-> |(pre & E & H4 & H5 & H6)].
  - rewrite <- app_assoc. rewrite strn_is_yes. cbn [bindr]. eexists. split; [reflexivity|]. rewrite skipn_pre by reflexivity. rewrite <- app_assoc. apply format_of_name; assumption.
  - rewrite strn_is_no; [| |].
    + cbn [bindr]. rewrite E, <- !app_assoc. rewrite strstr_first; [|no0|discriminate|assumption|assumption]. cbn [bindr option_map]. eexists. split; [reflexivity|]. rewrite skipn_pre by reflexivity. cbn [app]. apply format_of_name; assumption.
    + rewrite E, !app_length. cbn. lia.
    + intros v K. apply app_split in K. destruct K as [(m & K & _)|(m & _ & K & _)]; [now apply (H6 m)|]. apply (f_equal (@length Z)) in K. rewrite E, !app_length in K. cbn in K. lia.
Qed.
Lemma kind_first exp size oid name caps nl : (0 < size)%nat -> oid_ok size oid -> ~ In 0 name -> last caps 0 <> 10 -> newline_or_not nl -> announces exp caps size ->
  let pl := hex_text oid ++ bs " " ++ name ++ 0 :: caps ++ nl in payload exp pl (length pl) (mkpd None false) = Ok (KRef oid name (Some caps), mkpd (Some size) true).
Proof.
  intros Hs Ho H0 Hl Hnl Ha. cbv zeta. rewrite payload_ref; [|apply hex_first; [intros ->; destruct Ho; cbn in *; lia|apply Ho]|rewrite app_length, (hex_len size oid Ho); lia].
  change (bs " " ++ name ++ 0 :: caps ++ nl) with (32 :: name ++ 0 :: caps ++ nl). assert (Hc : caps <> []) by (intros ->; destruct Ha as (fmt & post & _ & [K|(pre & K & _)]); [discriminate|]; destruct pre; discriminate).
  assert (E0 : hex_text oid ++ 32 :: name ++ 0 :: caps ++ nl = (hex_text oid ++ 32 :: name) ++ 0 :: caps ++ nl) by now rewrite <- app_assoc.
  assert (SD : set_data exp (hex_text oid ++ 32 :: name ++ 0 :: caps ++ nl) (length (hex_text oid ++ 32 :: name ++ 0 :: caps ++ nl)) (mkpd None false) = Ok (mkpd (Some size) false)).
  { unfold set_data. unfold memchr. rewrite take_all by reflexivity. cbn [bindr]. rewrite E0. rewrite find_byte_app.
    2: { intros K. apply in_app_or in K. destruct K as [K|K]; [apply (hex_chars oid) in K; [lia|apply Ho]|]. destruct K as [K|K]; [discriminate|]. now apply H0. }
    destruct (find_format_ok exp caps size (length (hex_text oid ++ 32 :: name)) (length ((hex_text oid ++ 32 :: name) ++ 0 :: caps ++ nl)) ((hex_text oid ++ 32 :: name) ++ 0 :: caps ++ nl) nl Ha) as (f & -> & Ef).
    - assert (1 <= length caps)%nat by (destruct caps; [congruence|cbn; lia]). rewrite !app_length. cbn [length]. rewrite !app_length. lia.
    - replace ((hex_text oid ++ 32 :: name) ++ 0 :: caps ++ nl) with (((hex_text oid ++ 32 :: name) ++ [0]) ++ caps ++ nl) by (now rewrite <- app_assoc). apply skipn_pre. rewrite !app_length. cbn [length]. lia.
    - cbn [bindr]. rewrite Ef. reflexivity. }
  pose proof (ref_tail exp size (mkpd (Some size) false) oid (name ++ 0 :: caps ++ nl) Hs Ho ltac:(destruct name; discriminate) eq_refl _ eq_refl (or_intror (conj SD eq_refl))) as R. cbn [pd_seen] in R. rewrite R.
  assert (ST : strip_nl (name ++ 0 :: caps ++ nl) = name ++ 0 :: caps).
  { replace (name ++ 0 :: caps ++ nl) with ((name ++ 0 :: caps) ++ nl) by (rewrite <- app_assoc; reflexivity). apply strip_nl_ok; [exact Hnl|]. destruct caps as [|c0 c]; [congruence|]. clear - Hl. induction name as [|x name IH]; [exact Hl|]. destruct name; exact IH || exact Hl. }
  rewrite ST. rewrite find_byte_app by exact H0. rewrite firstn_app, Nat.sub_diag, firstn_all. cbn [firstn]. rewrite app_nil_r. replace (name ++ 0 :: caps) with ((name ++ [0]) ++ caps) by now rewrite <- app_assoc. rewrite skipn_pre by (rewrite app_length; cbn; lia). reflexivity.
Qed.
(** *** The other kinds *)
Lemma kind_nak exp t d : payload exp (bs "NAK" ++ t) (length (bs "NAK" ++ t)) d = Ok (KNak, d).
Proof. unfold payload. destruct t; reflexivity. Qed.
Lemma kind_band exp c t d : payload exp (c :: t) (length (c :: t)) d = (if c =? 1 then Ok (KData t, d) else if c =? 2 then Ok (KProgress t, d) else if c =? 3 then Ok (KErr t, d) else payload exp (c :: t) (length (c :: t)) d).
Proof.
  unfold payload at 1. change (rd (c :: t) 0) with (Ok c). cbn [bindr]. assert (B : forall k, band_pkt k (c :: t) (length (c :: t)) = Ok (k t)) by (intros k; unfold band_pkt; cbn [tl length]; rewrite Nat.sub_succ, Nat.sub_0_r, take_all by reflexivity; reflexivity).
  destruct (c =? 1) eqn:E1; [rewrite B; reflexivity|]. destruct (c =? 2) eqn:E2; [rewrite B; reflexivity|]. destruct (c =? 3) eqn:E3; [rewrite B; reflexivity|].
  unfold payload. change (rd (c :: t) 0) with (Ok c). cbn [bindr]. rewrite E1, E2, E3. reflexivity.
Qed.
Lemma kind_err exp t d : payload exp (bs "ERR " ++ t) (length (bs "ERR " ++ t)) d = Ok (KErr t, d).
Proof.
  unfold payload. cbn [app bs rd nth_error length bindr]. assert (P : prefixn (bs "ERR " ++ t) (length (bs "ERR " ++ t)) (bs "ERR ") = Ok true) by (apply prefixn_yes; rewrite ?app_length; lia).
  transitivity (keep d (err_pkt (bs "ERR " ++ t) (length (bs "ERR " ++ t)))); [destruct t; reflexivity|]. unfold keep, err_pkt. rewrite P. cbn [bindr negb]. rewrite (skipn_pre (bs "ERR ") t 4) by reflexivity. rewrite app_length. replace (length (bs "ERR ") + length t - 4)%nat with (length t) by (cbn; lia). rewrite take_all by reflexivity. reflexivity.
Qed.
Lemma kind_comment exp t d : payload exp (35 :: t) (length (35 :: t)) d = Ok (KComment (35 :: t), d).
Proof. transitivity (keep d (comment_pkt (35 :: t) (length (35 :: t)))); [reflexivity|]. unfold keep, comment_pkt. rewrite take_all by reflexivity. reflexivity. Qed.
Lemma kind_ok exp name nl d : last name 0 <> 10 -> newline_or_not nl -> payload exp (bs "ok " ++ name ++ nl) (length (bs "ok " ++ name ++ nl)) d = Ok (KOk name, d).
Proof.
  intros H1 H2. set (t := name ++ nl). transitivity (keep d (ok_pkt (bs "ok " ++ t) (length (bs "ok " ++ t)))); [reflexivity|]. unfold keep, ok_pkt. rewrite prefixn_yes by (rewrite ?app_length; lia). cbn [bindr negb].
  rewrite (skipn_pre (bs "ok ") t 3) by reflexivity. rewrite app_length. replace (length (bs "ok ") + length t - 3)%nat with (length t) by (cbn; lia). rewrite take_all by reflexivity. cbn [bindr]. unfold t. now rewrite strip_nl_ok.
Qed.
Lemma kind_ng exp ref msg r d : ~ In 32 ref -> ~ In 10 msg -> payload exp (bs "ng " ++ ref ++ 32 :: msg ++ 10 :: r) (length (bs "ng " ++ ref ++ 32 :: msg ++ 10 :: r)) d = Ok (KNg ref msg, d).
Proof.
  intros H1 H2. set (t := ref ++ 32 :: msg ++ 10 :: r). transitivity (keep d (ng_pkt (bs "ng " ++ t) (length (bs "ng " ++ t)))); [reflexivity|]. unfold keep, ng_pkt. rewrite prefixn_yes by (rewrite ?app_length; lia). cbn [bindr negb].
  rewrite (skipn_pre (bs "ng ") t 3) by reflexivity. rewrite app_length. replace (length (bs "ng ") + length t - 3)%nat with (length t) by (cbn; lia). unfold memchr at 1. rewrite take_all by reflexivity. cbn [bindr]. unfold t at 1. rewrite find_byte_app by exact H1. unfold t at 1. rewrite take_app by reflexivity. cbn [bindr].
  assert (Lt : length t = (S (length ref) + length (msg ++ 10%Z :: r))%nat) by (unfold t; rewrite app_length; cbn; lia). assert (1 <= length (msg ++ 10%Z :: r))%nat by (rewrite app_length; cbn; lia). rewrite Lt. replace (S (length ref) + length (msg ++ 10%Z :: r) <=? S (length ref))%nat with false by (symmetry; apply Nat.leb_gt; lia).
  assert (Es : skipn (S (length ref)) t = msg ++ 10 :: r) by (unfold t; replace (ref ++ 32 :: msg ++ 10 :: r) with ((ref ++ [32]) ++ msg ++ 10 :: r) by (now rewrite <- app_assoc); apply skipn_pre; rewrite app_length; cbn; lia). rewrite Es.
  replace (S (length ref) + length (msg ++ 10%Z :: r) - S (length ref))%nat with (length (msg ++ 10%Z :: r)) by lia. unfold memchr. rewrite take_all by reflexivity. cbn [bindr]. rewrite find_byte_app by exact H2. rewrite take_app by reflexivity. reflexivity.
Qed.
Lemma prefixn_prefixb t : forall p, prefixn t (length t) p = Ok (prefixb p t).
Proof.
  induction t as [|c t IH]; intros [|d p]; cbn [prefixn length prefixb]; try reflexivity. destruct (c =? d) eqn:E; [apply Z.eqb_eq in E; subst; rewrite Z.eqb_refl; apply IH|]. rewrite Z.eqb_sym in E. now rewrite E.
Qed.
Lemma kind_unpack exp t d : payload exp (bs "unpack " ++ t) (length (bs "unpack " ++ t)) d = Ok (KUnpack (prefixb (bs "ok") t), d).
Proof.
  transitivity (keep d (unpack_pkt (bs "unpack " ++ t) (length (bs "unpack " ++ t)))); [reflexivity|]. unfold keep, unpack_pkt. change (bs "unpack ok") with (bs "unpack " ++ bs "ok"). 
  assert (P : prefixn (bs "unpack " ++ t) (length (bs "unpack " ++ t)) (bs "unpack " ++ bs "ok") = prefixn t (length t) (bs "ok")) by reflexivity. rewrite P, prefixn_prefixb. reflexivity.
Qed.
Lemma kind_shallow exp size oid (un : bool) b : (0 < size)%nat -> oid_ok size oid ->
  let pl := (if un then bs "unshallow " else bs "shallow ") ++ hex_text oid in payload exp pl (length pl) (mkpd (Some size) b) = Ok ((if un then KUnshallow (Some oid) else KShallow (Some oid)), mkpd (Some size) b).
Proof.
  intros Hs Ho. cbv zeta. pose proof (hex_len size oid Ho) as Lh. pose proof (parse_id size oid [] Hs Ho) as P. rewrite app_nil_r in P. set (h := hex_text oid) in *. clearbody h.
  assert (S1 : forall w k, shallow_pkt w k (w ++ h) (length (w ++ h)) (mkpd (Some size) b) = Ok (k (Some oid), mkpd (Some size) b)).
  { intros w k. unfold shallow_pkt. cbn [pd_size]. rewrite prefixn_yes by (rewrite ?app_length; lia). cbn [bindr negb]. rewrite app_length. replace (length w + length h - length w)%nat with (length h) by lia. rewrite Lh, Nat.eqb_refl. cbn [negb]. rewrite skipn_pre by reflexivity. rewrite P. reflexivity. }
  destruct h as [|c h]; [cbn in Lh; lia|].
  destruct un; [transitivity (shallow_pkt (bs "unshallow ") KUnshallow (bs "unshallow " ++ c :: h) (length (bs "unshallow " ++ c :: h)) (mkpd (Some size) b))|transitivity (shallow_pkt (bs "shallow ") KShallow (bs "shallow " ++ c :: h) (length (bs "shallow " ++ c :: h)) (mkpd (Some size) b))]; try reflexivity; apply S1.
Qed.
Definition word (st : status) : list Z := match st with ANone => [] | AContinue => bs " continue" | ACommon => bs " common" | AReady => bs " ready" end.
Lemma kind_ack exp size oid st nl b : (0 < size)%nat -> oid_ok size oid -> newline_or_not nl ->
  let pl := bs "ACK " ++ hex_text oid ++ word st ++ nl in payload exp pl (length pl) (mkpd (Some size) b) = Ok (KAck oid st, mkpd (Some size) b).
Proof.
  intros Hs Ho Hn. cbv zeta. set (t := hex_text oid ++ word st ++ nl). transitivity (ack_pkt (bs "ACK " ++ t) (length (bs "ACK " ++ t)) (mkpd (Some size) b)); [assert (exists c r, t = c :: r) as (c & r & ->) by (destruct (hex_first oid (word st ++ nl)) as (c & r & E & _); [intros ->; destruct Ho; cbn in *; lia|apply Ho|]; eauto); reflexivity|].
  unfold ack_pkt. cbn [pd_size]. rewrite prefixn_yes by (rewrite ?app_length; lia). cbn [bindr negb]. rewrite (skipn_pre (bs "ACK ") t 4) by reflexivity. pose proof (hex_len size oid Ho) as Lh. assert (Lt : length t = (2 * size + length (word st ++ nl))%nat) by (unfold t; rewrite app_length; lia).
  replace (length (bs "ACK " ++ t) - 4)%nat with (length t) by (rewrite app_length; cbn; lia). rewrite Lt. rewrite len_ltb by lia. unfold t at 1. rewrite parse_id by assumption. cbn [bindr]. unfold t. rewrite skipn_pre by now symmetry. replace (2 * size + length (word st ++ nl) - 2 * size)%nat with (length (word st ++ nl)) by lia.
  destruct Hn as [-> | -> ]; destruct st; reflexivity.
Qed.
(** *** Writing *)
Lemma hex4_ok n : 0 <= n < 65536 -> hex4 n = hex_text [n / 256; n mod 256].
Proof.
  intros H. unfold hex4, hex_text. cbn [nibbles map]. replace (n / 256 / 16) with (n / 4096) by (Z.to_euclidean_division_equations; lia). replace (n mod 256 / 16) with (n / 16 mod 16) by (Z.to_euclidean_division_equations; lia). replace (n mod 256 mod 16) with (n mod 16) by (Z.to_euclidean_division_equations; lia). reflexivity.
Qed.
Lemma frame_as n pl : Z.of_nat (length pl) + 4 = n -> 0 <= n < 65536 -> hex4 n ++ pl = frame pl.
Proof. intros <- H. rewrite hex4_ok by exact H. reflexivity. Qed.
Lemma text_app a b : text (a ++ b) = text a ++ text b.
Proof. unfold text. now rewrite map_app, concat_app. Qed.
Section W.
  Variable size : nat.
  Hypothesis Hsize : (0 < size <= 32)%nat.
  Lemma want_text oid tail : oid_ok size oid -> (length tail < 1000)%nat -> pkt_want size oid tail = Ok (item_text (want_line oid tail)).
  Proof.
    intros Ho Hl. assert (L : length (bs "want " ++ hex_text oid ++ tail ++ [10%Z]) = (5 + 2 * size + length tail + 1)%nat) by (rewrite !app_length, (hex_len size oid Ho); cbn; lia).
    unfold pkt_want. rewrite fmt_hex by exact Ho. cbn [bindr]. f_equal. unfold want_line, item_text. apply frame_as; [rewrite L|]; lia.
  Qed.
  Lemma rest_text refs : Forall (fun r => oid_ok size (fst r)) refs -> wants_rest size refs = Ok (text (map (fun o => want_line o []) (wanted refs))).
  Proof.
    induction refs as [|[oid local] refs IH]; intros H; [reflexivity|]. cbn [wants_rest]. pose proof (Forall_inv H) as Ho. cbn [fst] in Ho. specialize (IH (Forall_inv_tail H)). destruct local; [exact IH|]. rewrite want_text by (auto; cbn; lia). cbn [bindr]. rewrite IH. reflexivity.
  Qed.
  Lemma caps_len c : (length (caps_text c) < 999)%nat.
  Proof. destruct c as [[] [] [] [] [] [] [] [] []]; cbn; lia. Qed.
  Lemma first_text c refs : Forall (fun r => oid_ok size (fst r)) refs -> wanted refs <> [] -> wants_first size c refs = Ok (text (want_lines (Some (caps_text c)) (wanted refs))).
  Proof.
    induction refs as [|[oid local] refs IH]; intros H Hw; [destruct Hw; reflexivity|]. cbn [wants_first]. pose proof (Forall_inv H) as Ho. cbn [fst] in Ho. pose proof (Forall_inv_tail H) as Ht. destruct local; [now apply IH|]. pose proof (caps_len c) as Lc. rewrite want_text by (auto; cbn [length]; lia). cbn [bindr]. rewrite rest_text by exact Ht. reflexivity.
  Qed.
  Lemma shallow_text roots : Forall (oid_ok size) roots -> shallows size roots = Ok (text (map shallow_line roots)).
  Proof.
    induction roots as [|oid roots IH]; intros H; [reflexivity|]. cbn [shallows]. pose proof (Forall_inv H) as Ho. rewrite fmt_hex by exact Ho. cbn [bindr]. rewrite (IH (Forall_inv_tail H)). cbn [bindr map]. f_equal. change (text (shallow_line oid :: map shallow_line roots)) with (frame (bs "shallow " ++ hex_text oid ++ [10]) ++ text (map shallow_line roots)).
    rewrite <- (frame_as (8 + 2 * Z.of_nat size + 1 + 4)); [|rewrite !app_length, (hex_len size oid Ho); cbn [length bs]; cbn; lia|lia]. rewrite <- !app_assoc. reflexivity.
  Qed.
End W.
