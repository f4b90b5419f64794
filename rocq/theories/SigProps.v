(** C32: signatures survive being written and parsed. *)
From Verif Require Import Base Str IntModel IntSpec IntProps SigModel SigSpec SigProofs.
Local Open Scope Z_scope.

(** A signature whose text can be told apart again. *)
Definition storable (s : sig) : Prop :=
  trimmed (s_name s) /\ trimmed (s_email s) /\ cstring (s_name s) /\ cstring (s_email s) /\
  one_line (s_name s) /\ one_line (s_email s) /\ ~ In (ch "<") (s_email s) /\
  time_ok (s_time s) /\ zone_ok (s_offset s) /\ sign_ok (s_offset s) (s_sign s).

Lemma trims_pad s a b : trimmed s -> Forall crud a -> Forall crud b -> trims_to (a ++ s ++ b) s.
Proof. intros (p & q & _ & _ & _ & H1 & H2) Ha Hb. exists a, b. auto. Qed.

Lemma crud32 : crud 32. Proof. left. lia. Qed.
Lemma skl {A} (l r : list A) : skipn (length l) (l ++ r) = r.
Proof. rewrite skipn_app, skipn_all, Nat.sub_diag. reflexivity. Qed.
Lemma fsl {A} (l r : list A) : firstn (length l) (l ++ r) = l.
Proof. rewrite firstn_app, firstn_all, Nat.sub_diag. apply app_nil_r. Qed.
Section Body.
Variables (s : sig).
Hypothesis W : storable s.
Let off := if s_offset s <? 0 then - s_offset s else s_offset s.
Let sg := if (s_offset s <? 0) || (s_sign s =? 45) then 45 else 43.
Let whenb := dec 20 (s_time s) ++ [32; sg] ++ pad2 (off / 60) ++ pad2 (off mod 60).
Let body := s_name s ++ [32; 60] ++ s_email s ++ [62; 32] ++ whenb.

Local Lemma off_facts : 0 <= off <= 899 /\ 0 <= off / 60 <= 14 /\ 0 <= off mod 60 <= 59 /\ off = off / 60 * 60 + off mod 60 /\ (sg = 45 \/ sg = 43) /\ s_sign s = sg
  /\ s_offset s = (if sg =? 45 then - off else off) /\ s_offset s <> -2147483648.
Proof.
  destruct W as (_ & _ & _ & _ & _ & _ & _ & Ht & Ho & S1 & S2 & S3). unfold zone_ok in Ho.
  change (ch "-") with 45 in *. change (ch "+") with 43 in *.
  assert (O : 0 <= off <= 899) by (subst off; destruct (Z.ltb_spec (s_offset s) 0); lia).
  split; auto. pose proof (Z.div_mod off 60). pose proof (Z.mod_pos_bound off 60).
  split; [|split; [lia|split; [lia|]]].
  { split; [apply Z.div_pos; lia|]. assert (off / 60 < 15) by (apply Z.div_lt_upper_bound; lia). lia. }
  subst sg off. destruct (Z.ltb_spec (s_offset s) 0); cbn [orb].
  - rewrite S1 by auto. cbn. repeat split; auto; lia.
  - destruct (Z.eqb_spec (s_sign s) 45) as [E|E].
    + assert (s_offset s = 0) by (destruct (Z.eq_dec (s_offset s) 0); auto; rewrite S2 in E by lia; discriminate). rewrite E. cbn. repeat split; auto; lia.
    + assert (s_sign s = 43). { destruct (Z.eq_dec (s_offset s) 0); [|apply S2; lia]. destruct S3; auto; contradiction. }
      rewrite H2. cbn. repeat split; auto; lia.
Qed.

Local Lemma whenb_bytes c : In c whenb -> c = 32 \/ c = 43 \/ c = 45 \/ 48 <= c <= 57.
Proof.
  destruct off_facts as (_ & H1 & H2 & _ & H3 & _). destruct W as (_ & _ & _ & _ & _ & _ & _ & [Ht _] & _).
  intros H. apply (when_bytes (s_time s) sg (off / 60) (off mod 60)); auto; lia.
Qed.

Local Lemma written header : writebuf header s = Ok (header ++ body ++ [10]).
Proof.
  destruct off_facts as (_ & _ & _ & _ & _ & _ & _ & N). unfold writebuf. destruct (Z.eqb_spec (s_offset s) (-2147483648)); [contradiction|].
  destruct W as (_ & _ & _ & _ & _ & _ & _ & Ht & _). unfold time_ok in Ht. change (2 ^ 32) with two32 in Ht.
  rewrite Z.mod_small by auto. fold off. fold sg. f_equal. subst body whenb. rewrite <- !app_assoc. reflexivity.
Qed.

Local Lemma body_line : ~ In 10 body.
Proof.
  destruct W as (_ & _ & _ & _ & L1 & L2 & _). unfold one_line in *. subst body.
  rewrite !in_app_iff. intros [I|[I|[I|[I|I]]]]; auto; [cbn in I; lia|cbn in I; lia|]. apply whenb_bytes in I. lia.
Qed.

(** The part of the parser after the header. *)
Local Lemma parsed pre (Hp : pre = [] \/ pre = [32]) : forall w,
  w = pre ++ body ->
  memrchr w 60 = Some (length (pre ++ s_name s ++ [32])) /\
  memrchr w 62 = Some (length (pre ++ s_name s ++ [32; 60] ++ s_email s)) /\
  extract_trimmed (firstn (length (pre ++ s_name s ++ [32])) w) = s_name s /\
  firstn (length (s_email s)) (skipn (length (pre ++ s_name s ++ [32; 60])) w) = s_email s /\
  skipn (Nat.add (length (pre ++ s_name s ++ [32; 60] ++ s_email s)) 2%nat) w = whenb.
Proof.
  intros w ->. destruct W as (Tn & Te & _ & _ & L1 & L2 & A & _).
  assert (E1 : pre ++ body = (pre ++ s_name s ++ [32]) ++ 60 :: (s_email s ++ [62; 32] ++ whenb)) by (subst body; rewrite <- !app_assoc; reflexivity).
  assert (E2 : pre ++ body = (pre ++ s_name s ++ [32; 60] ++ s_email s) ++ 62 :: ([32] ++ whenb)) by (subst body; rewrite <- !app_assoc; reflexivity).
  assert (E3 : pre ++ body = (pre ++ s_name s ++ [32; 60]) ++ s_email s ++ ([62; 32] ++ whenb)) by (subst body; rewrite <- !app_assoc; reflexivity).
  assert (E4 : pre ++ body = (pre ++ s_name s ++ [32; 60] ++ s_email s ++ [62; 32]) ++ whenb) by (subst body; rewrite <- !app_assoc; reflexivity).
  split; [|split; [|split; [|split]]].
  - rewrite E1. apply memrchr_app. change (ch "<") with 60 in A. rewrite !in_app_iff. intros [I|[I|I]]; auto; [cbn in I; lia|]. apply whenb_bytes in I; lia.
  - rewrite E2. apply memrchr_app. rewrite in_app_iff. intros [I|I]; [cbn in I; lia|]. apply whenb_bytes in I; lia.
  - rewrite E1, fsl. apply extract_eq. apply trims_pad; auto.
    + destruct Hp as [->| ->]; auto using crud32.
    + auto using crud32.
  - rewrite E3, skl, fsl. reflexivity.
  - rewrite E4. replace (Nat.add (length (pre ++ s_name s ++ [32; 60] ++ s_email s)) 2%nat) with (length (pre ++ s_name s ++ [32; 60] ++ s_email s ++ [62; 32]))
      by (rewrite !app_length; cbn [length]; lia).
    apply skl.
Qed.

Local Lemma parse_rest pre (Hp : pre = [] \/ pre = [32]) e buf header ender :
  (if ender =? 0 then Some (length buf) else memchr buf ender) = Some e ->
  match header with
  | None => firstn e buf = pre ++ body
  | Some h => firstn e buf = h ++ pre ++ body
  end ->
  sig_parse buf header ender = Ok (s, skipn (e + 1) buf).
Proof.
  intros He Hh. unfold sig_parse. rewrite He.
  destruct (parsed pre Hp _ eq_refl) as (P1 & P2 & P3 & P4 & P5).
  assert (X : (match header with None => Some (firstn e buf)
             | Some h => if (length (firstn e buf) <=? length h)%nat || negb (prefixb h (firstn e buf)) then None else Some (skipn (length h) (firstn e buf))
             end) = Some (pre ++ body)).
  { destruct header as [h|]; [|now rewrite Hh]. rewrite Hh.
    assert (prefixb h (h ++ pre ++ body) = true) as -> by (apply prefixb_spec; eexists; reflexivity).
    destruct (Nat.leb_spec (length (h ++ pre ++ body)) (length h)) as [L|L].
    { exfalso. subst body. rewrite !app_length in L. cbn [length] in L. lia. }
    cbn [orb negb]. rewrite skipn_app, skipn_all, Nat.sub_diag. reflexivity. }
  rewrite X. clear X. rewrite P1, P2.
  destruct (Nat.leb_spec (length (pre ++ s_name s ++ [32; 60] ++ s_email s)) (length (pre ++ s_name s ++ [32]))) as [L|L].
  { exfalso. rewrite !app_length in L. cbn [length] in L. lia. }
  rewrite P5.
  replace (Nat.add (length (pre ++ s_name s ++ [32])) 1%nat) with (length (pre ++ s_name s ++ [32; 60])) by (rewrite !app_length; cbn [length]; lia).
  replace (Nat.sub (length (pre ++ s_name s ++ [32; 60] ++ s_email s)) (length (pre ++ s_name s ++ [32; 60]))) with (length (s_email s)) by (rewrite !app_length; cbn [length]; lia).
  rewrite P3, P4. subst whenb. destruct off_facts as (O1 & O2 & O3 & O4 & O5 & O6 & O7 & _).
  destruct W as (Tn & Te & C1 & C2 & _ & _ & _ & Ht & _). unfold time_ok in Ht. change (2 ^ 32) with two32 in Ht.
  rewrite (parse_when_ok (s_time s) (off / 60) (off mod 60) sg Ht O2 O3 O5). cbn [bindr fst snd].
  rewrite <- O4, <- O7, <- O6.
  rewrite (extract_eq _ _ Te).
  assert (NZ : forall l, cstring l -> ~ In 0 l). { intros l F I. unfold cstring in F. rewrite Forall_forall in F. apply F in I. lia. }
  rewrite !cut0_id by auto. destruct s; reflexivity.
Qed.
End Body.

(** Every storable signature, written with any one-line header in front and any bytes
    behind, parses to itself, and the parser stops right behind it. *)
Theorem C32_roundtrip_partial s header rest :
  storable s -> one_line header ->
  exists out, writebuf header s = Ok out /\ sig_parse (out ++ rest) (Some header) 10 = Ok (s, rest).
Proof.
  intros W Hh. eexists. split; [apply (written s W)|].
  set (b := _ ++ [32; 60] ++ _).
  assert (E : (header ++ b ++ [10]) ++ rest = (header ++ b) ++ 10 :: rest) by (rewrite <- !app_assoc; reflexivity).
  rewrite E.
  rewrite (parse_rest s W [] (or_introl eq_refl) (length (header ++ b)) ((header ++ b) ++ 10 :: rest) (Some header) 10).
  - repeat f_equal. rewrite skipn_app, skipn_all2 by lia. replace (length (header ++ b) + 1 - length (header ++ b))%nat with 1%nat by lia. reflexivity.
  - cbn. apply memchr_app. rewrite in_app_iff. intros [I|I]; [exact (Hh I)|exact (body_line s W I)].
  - rewrite firstn_app, Nat.sub_diag, firstn_all. apply app_nil_r.
Qed.

(** The same for git_signature_from_buffer, which is given only the signature (as in a
    reflog line, possibly after the blank that ends the ids). *)
Theorem C32_buffer_roundtrip_partial s blank :
  storable s -> In blank [[]; bs " "] ->
  exists out, writebuf [] s = Ok (out ++ [10]) /\ sig_parse (blank ++ out) None 0 = Ok (s, []).
Proof.
  intros W Hb. eexists. split; [rewrite (written s W); reflexivity|].
  assert (Hp : blank = [] \/ blank = [32]) by (cbn in Hb; intuition).
  erewrite (parse_rest s W blank Hp _ _ None 0); [|reflexivity|].
  - rewrite skipn_all2 by lia. reflexivity.
  - rewrite firstn_all. reflexivity.
Qed.

(** What git_signature_new makes is storable when its texts are single lines, its time
    fits 32 bits and its zone is within 14:59, and it is the texts trimmed. *)
Theorem C32_new_storable name email t o s :
  signature_new name email t o = Ok s ->
  trims_to name (s_name s) /\ trims_to email (s_email s) /\ s_name s <> [] /\ s_email s <> [] /\ s_time s = t /\ s_offset s = o /\
  (cstring name -> cstring email -> one_line name -> one_line email -> time_ok t -> zone_ok o -> storable s).
Proof.
  unfold signature_new. destruct (has_angle name) eqn:A1; [discriminate|]. destruct (has_angle email) eqn:A2; [discriminate|]. cbn [orb].
  pose proof (extract_spec name) as T1. pose proof (extract_spec email) as T2.
  destruct (extract_trimmed name) as [|x n] eqn:En; [discriminate|]. destruct (extract_trimmed email) as [|y e] eqn:Ee; [discriminate|].
  intros Q. apply (f_equal (fun r => match r with Ok v => v | _ => s end)) in Q. cbn in Q. subst s. cbn [s_name s_email s_time s_offset].
  split; auto. split; auto. split; [discriminate|]. split; [discriminate|]. split; auto. split; auto.
  intros C1 C2 L1 L2 Ht Ho.
  assert (Sub : forall l c, trims_to l c -> incl c l). { intros l c (a & b & -> & _) z. rewrite !in_app_iff. auto. }
  assert (Tt : forall l c, trims_to l c -> trimmed c). { intros l c (a & b & _ & _ & _ & H1 & H2). exists [], []. rewrite app_nil_r. auto. }
  unfold storable; cbn [s_name s_email s_time s_offset s_sign].
  split; [eapply Tt; eauto|]. split; [eapply Tt; eauto|].
  split; [unfold cstring in *; rewrite Forall_forall in *; intros z I; apply C1; eapply Sub; eauto|].
  split; [unfold cstring in *; rewrite Forall_forall in *; intros z I; apply C2; eapply Sub; eauto|].
  split; [intros I; apply L1; eapply Sub; eauto|]. split; [intros I; apply L2; eapply Sub; eauto|].
  split. { intros I. apply (Sub _ _ T2) in I. assert (has_angle email = true); [|congruence]. apply existsb_exists. exists 60. auto. }
  split; auto. split; auto. unfold sign_ok. destruct (Z.ltb_spec o 0); repeat split; intros; try lia; auto.
Qed.

(** Together: a created signature survives. *)
Theorem C32_created_roundtrip_partial name email t o s header rest :
  signature_new name email t o = Ok s ->
  cstring name -> cstring email -> one_line name -> one_line email -> time_ok t -> zone_ok o -> one_line header ->
  exists out, writebuf header s = Ok out /\ sig_parse (out ++ rest) (Some header) 10 = Ok (s, rest).
Proof. intros H; intros. apply C32_roundtrip_partial; auto. eapply (proj2 (proj2 (proj2 (proj2 (proj2 (proj2 (C32_new_storable _ _ _ _ _ H))))))); auto. Qed.

(** Parsing is total: an answer or an error, never undefined behaviour, for any bytes. *)
Theorem C32_parse_total buf header ender :
  (exists s rest, sig_parse buf header ender = Ok (s, rest)) \/ sig_parse buf header ender = Err EINVALID.
Proof.
  unfold sig_parse. destruct (if ender =? 0 then Some (length buf) else memchr buf ender) as [e|]; auto.
  destruct (match header with None => _ | Some h => _ end) as [b|]; auto.
  destruct (memrchr b 60) as [i|]; auto. destruct (memrchr b 62) as [j|]; auto. destruct (j <=? i)%nat; auto.
  assert (Q : (exists w, parse_when (skipn (j + 2) b) = Ok w) \/ parse_when (skipn (j + 2) b) = Err EINVALID).
  { unfold parse_when. destruct (skipn (j + 2) b) as [|x t]; eauto.
    destruct (parse64_total (x :: t) 10) as [(v & r & ->)| ->]; auto.
    destruct r as [|y [|tz0 tz1]]; eauto. destruct (_ && _); eauto. }
  destruct Q as [[[w sg] ->]| ->]; cbn [bindr]; eauto.
Qed.

Definition ada := bs "Ada Lovelace".
Definition ada_mail := bs "ada@example.com".
Example C32_ex : exists s, signature_new (bs " Ada Lovelace, ") ada_mail 1700000000 (-570) = Ok s /\ s_name s = ada /\ storable s /\
  writebuf (bs "author ") s = Ok (bs "author Ada Lovelace <ada@example.com> 1700000000 -0930" ++ [10]).
Proof.
  eexists. split; [reflexivity|]. split; [reflexivity|]. split; [|vm_compute; reflexivity].
  eapply (proj2 (proj2 (proj2 (proj2 (proj2 (proj2 (C32_new_storable (bs " Ada Lovelace, ") ada_mail 1700000000 (-570) _ eq_refl)))))));
    try (repeat constructor; fail); try (intros I; vm_compute in I; repeat destruct I as [I|I]; discriminate || contradiction).
  - split; [discriminate|reflexivity].
  - split; discriminate.
Qed.

(** The conditions are needed.  A time at or past 2^32 comes back reduced. *)
Theorem C32_time_refuted : exists s out s', signature_new ada ada_mail 4294967296 0 = Ok s /\
  writebuf (bs "author ") s = Ok out /\ sig_parse out (Some (bs "author ")) 10 = Ok (s', []) /\ s_time s' = 0 /\ s_time s <> s_time s'.
Proof. do 3 eexists. split; [reflexivity|]. split; [vm_compute; reflexivity|]. split; [vm_compute; reflexivity|]. split; [reflexivity|discriminate]. Qed.
(** A time before 1970 comes back in 2106. *)
Theorem C32_negative_time_refuted : exists s out s', signature_new ada ada_mail (-1) 0 = Ok s /\
  writebuf (bs "author ") s = Ok out /\ sig_parse out (Some (bs "author ")) 10 = Ok (s', []) /\ s_time s' = 4294967295.
Proof. do 3 eexists. split; [reflexivity|]. split; [vm_compute; reflexivity|]. split; vm_compute; reflexivity. Qed.
(** A zone of fifteen hours comes back as none. *)
Theorem C32_zone_refuted : exists s out s', signature_new ada ada_mail 1 900 = Ok s /\
  writebuf (bs "author ") s = Ok out /\ sig_parse out (Some (bs "author ")) 10 = Ok (s', []) /\ s_offset s' = 0.
Proof. do 3 eexists. split; [reflexivity|]. split; [vm_compute; reflexivity|]. split; vm_compute; reflexivity. Qed.
(** A name with a newline inside is accepted, and what it writes does not parse; or it
    parses as somebody else. *)
Theorem C32_newline_refuted : exists s out, signature_new (bs "A" ++ [10] ++ bs "B") ada_mail 1 0 = Ok s /\
  writebuf (bs "author ") s = Ok out /\ sig_parse out (Some (bs "author ")) 10 = Err EINVALID.
Proof. do 2 eexists. split; [reflexivity|]. split; [vm_compute; reflexivity|]. vm_compute; reflexivity. Qed.
(** A parsed +-0200 is not what its rewriting parses to. *)
Theorem C32_sign_refuted : exists s s' out, sig_parse (bs "A <b> 1 +-0200") None 0 = Ok (s, []) /\ writebuf [] s = Ok out /\
  sig_parse out None 10 = Ok (s', []) /\ s <> s'.
Proof. do 3 eexists. split; [vm_compute; reflexivity|]. split; [vm_compute; reflexivity|]. split; [vm_compute; reflexivity|discriminate]. Qed.
