(** C33: the text codecs. *)
From Verif Require Import Base Str CodecModel CodecSpec CodecProofs.

(** *** base64 *)
(** The encoder writes standard base64. *)
Theorem C33_base64_encode d : bytes d -> enc64 d = base64 d.
Proof. exact (enc64_base64 d). Qed.

(** Decoding an encoding returns the bytes, followed by one zero byte for each
    padding character. *)
Theorem C33_base64_roundtrip_partial d : bytes d ->
  dec64 (enc64 d) = Ok (d ++ repeat 0 (pad64 (length d))).
Proof.
  intros Hb. rewrite enc64_base64 by assumption. unfold dec64. rewrite base64_len.
  cbn [Nat.eqb]. rewrite dec64_loop_base64 by assumption. reflexivity.
Qed.
Theorem C33_base64_roundtrip_whole_groups d : bytes d -> (length d mod 3 = 0)%nat ->
  dec64 (enc64 d) = Ok d.
Proof.
  intros Hb Hm. rewrite C33_base64_roundtrip_partial by assumption. unfold pad64. rewrite Hm.
  cbn [repeat]. rewrite app_nil_r. reflexivity.
Qed.
(** The exact round trip fails for every other length: the decoder ignores the
    padding and returns extra zero bytes. *)
Theorem C33_base64_roundtrip_refuted d : bytes d -> (length d mod 3 <> 0)%nat ->
  dec64 (enc64 d) <> Ok d.
Proof.
  intros Hb Hm H. rewrite C33_base64_roundtrip_partial in H by assumption. injection H as H.
  apply (f_equal (@length Z)) in H. rewrite app_length, repeat_length in H.
  unfold pad64 in H. assert (length d mod 3 < 3)%nat by (apply Nat.mod_upper_bound; lia).
  destruct (length d mod 3)%nat as [|[|[|n]]]; lia.
Qed.
(** The decoder accepts exactly the texts of whole groups over the alphabet
    and '='; it rejects everything else and never reads outside the text. *)
Theorem C33_base64_decode_total s : bytes s ->
  ((length s mod 4 = 0)%nat /\ Forall (fun c => in_alphabet64 c \/ c = 61) s /\
     exists d, dec64 s = Ok d /\ bytes d /\ length d = (length s / 4 * 3)%nat) \/
  (~ ((length s mod 4 = 0)%nat /\ Forall (fun c => in_alphabet64 c \/ c = 61) s) /\ dec64 s = Err (-1)).
Proof.
  intros Hb. unfold dec64. destruct (Nat.eqb_spec (length s mod 4) 0) as [E|E].
  - destruct (dec64_loop_total s Hb E []) as [[F (d & H)]|[F H]]; [left; split; [assumption|split; [assumption|exists d; exact H]]|right; tauto].
  - right. tauto.
Qed.

(** *** base85 *)
Theorem C33_base85_roundtrip d : bytes d -> dec85 (enc85 d) (length d) = Ok d.
Proof.
  intros Hb. unfold dec85, enc85. rewrite enc85_length by (assumption || lia).
  rewrite (Nat.mul_comm _ 5), (Nat.mul_comm 5), Nat.mod_mul by lia. cbn [Nat.eqb negb orb].
  destruct (Nat.ltb_spec ((length d + 3) / 4 * 5 * 4 / 5) (length d)) as [H|H].
  - exfalso. replace ((length d + 3) / 4 * 5 * 4)%nat with ((length d + 3) / 4 * 4 * 5)%nat in H by lia.
    rewrite Nat.div_mul in H by lia. lia.
  - rewrite dec85_enc by (assumption || lia). reflexivity.
Qed.
(** For every text and every requested length the decoder returns exactly that
    many bytes or an error, without reading outside the text. *)
Theorem C33_base85_decode_total s n :
  dec85 s n = Err (-1) \/ exists d, dec85 s n = Ok d /\ length d = n.
Proof.
  unfold dec85. destruct (Nat.eqb_spec (length s mod 5) 0) as [Hm|Hm]; [|left; reflexivity].
  cbn [negb orb]. destruct (Nat.ltb_spec (length s * 4 / 5) n) as [Hn|Hn]; [left; reflexivity|].
  destruct (dec85_total (S n) s n []) as [E|(d & E & L)].
  - lia.
  - rewrite Nat.mod_eq in Hm by lia.
    assert (length s = length s / 5 * 5)%nat as El by lia.
    rewrite El in Hn. replace (length s / 5 * 5 * 4)%nat with (length s / 5 * 4 * 5)%nat in Hn by lia.
    rewrite Nat.div_mul in Hn by lia.
    rewrite El. apply Nat.mul_le_mono_r.
    transitivity ((length s / 5 * 4 + 3) / 4)%nat; [apply Nat.div_le_mono; lia|].
    rewrite Nat.div_add_l by lia. cbn. lia.
  - left. exact E.
  - right. exists d. split; [exact E|]. exact L.
Qed.

(** *** Percent *)
Theorem C33_percent_decode s d : bytes s -> percent s d -> dec_percent s = d.
Proof. apply dec_percent_spec. Qed.
(** In particular text without '%' is itself, and every byte string is the
    decoding of its fully escaped form. *)
Theorem C33_percent_plain s : bytes s -> ~ In 37 s -> dec_percent s = s.
Proof.
  intros Hb Hn. apply dec_percent_spec; [assumption|]. clear Hb. induction s as [|c s IH]; constructor.
  - intros ->. apply Hn. left. reflexivity.
  - apply IH. intros H. apply Hn. right. assumption.
Qed.

(** *** Quoted paths *)
(** A quoted name read back the way a patch header is (a name that starts with
    a double quote is unquoted, any other is taken literally) is the name. *)
Definition read_name (t : list Z) : res (list Z) :=
  match t with c :: _ => if c =? 34 then str_unquote t else Ok t | [] => Ok t end.

Theorem C33_unquote_exact s : bytes s -> forall t, s = 34 :: t ++ [34] ->
  (forall d, str_unquote s = Ok d <-> quoted t d) /\
  ((exists d, str_unquote s = Ok d) \/ str_unquote s = Err (-1)).
Proof.
  intros Hb t ->.
  assert (Ht : bytes t) by (inversion Hb as [|? ? _ Hb']; subst; apply Forall_app in Hb'; tauto).
  assert (E : str_unquote (34 :: t ++ [34]) = unquote_loop (S (length (t ++ [34]))) ([34] ++ t ++ [34]) (length [34]) []).
  { unfold str_unquote. change (34 :: t ++ [34]) with ((34 :: t) ++ [34]). rewrite rtrim_id by reflexivity.
    cbn [app length]. rewrite app_length. cbn [length].
    destruct (Nat.ltb_spec (S (length t + 1)) 2); [lia|].
    assert (rd (34 :: t ++ [34]) (S (length t + 1) - 1) = Ok 34) as ->.
    { unfold rd. replace (S (length t + 1) - 1)%nat with (S (length t)) by lia. cbn [nth_error].
      rewrite nth_error_app2, Nat.sub_diag by lia. reflexivity. }
    cbn [rd nth_error bindr negb orb]. reflexivity. }
  rewrite E.
  assert (T := unquote_loop_total (S (length (t ++ [34]))) t [34] [] ltac:(rewrite app_length; cbn; lia) Ht).
  split.
  - intros d. split.
    + intros H. destruct T as [T|(d' & T & Q)]; rewrite T in H; [discriminate|]. injection H as <-. exact Q.
    + intros Q. rewrite (unquote_loop_ok t d Q) by (rewrite app_length; cbn; lia). reflexivity.
  - destruct T as [T|(d' & T & Q)]; [right; exact T|left; eauto].
Qed.
Theorem C33_quote_roundtrip s : bytes s -> read_name (str_quote s) = Ok s.
Proof.
  intros Hb. destruct (str_quote_shape s Hb) as [[E Hn]|(t & E & Q)]; rewrite E.
  - unfold read_name. destruct s as [|c r]; [reflexivity|]. destruct (Z.eqb_spec c 34) as [->|]; [|reflexivity].
    exfalso. apply Hn. left. reflexivity.
  - unfold read_name. cbn [app]. change (34 =? 34) with true. cbv iota.
    unfold str_unquote. change (34 :: t ++ [34]) with ((34 :: t) ++ [34]). rewrite rtrim_id by reflexivity.
    cbn [app length]. rewrite app_length. cbn [length].
    destruct (Nat.ltb_spec (S (length t + 1)) 2); [lia|].
    assert (rd (34 :: t ++ [34]) (S (length t + 1) - 1) = Ok 34) as ->.
    { unfold rd. replace (S (length t + 1) - 1)%nat with (S (length t)) by lia. cbn [nth_error].
      rewrite nth_error_app2, Nat.sub_diag by lia. reflexivity. }
    cbn [rd nth_error bindr negb orb].
    apply (unquote_loop_ok t s Q [34] []). lia.
Qed.
(** Unquoting any text returns bytes or an error and never reads outside it. *)
Theorem C33_unquote_total s : bytes s -> (exists d, str_unquote s = Ok d) \/ str_unquote s = Err (-1).
Proof.
  intros Hb. unfold str_unquote.
  assert (Hr : bytes (rtrim s)).
  { clear - Hb. induction Hb as [|c s Hc Hs IH]; cbn [rtrim]; [constructor|].
    destruct (rtrim s); [destruct (isspace c); [constructor|constructor; [assumption|constructor]]|constructor; assumption]. }
  destruct (Nat.ltb_spec (length (rtrim s)) 2) as [H|H]; [right; reflexivity|].
  remember (rtrim s) as b eqn:Eb.
  destruct b as [|c b1]; [cbn in H; lia|].
  destruct (exists_last (l := b1)) as (t & c' & Et); [destruct b1; [cbn in H; lia|discriminate]|]. subst b1.
  assert (rd (c :: t ++ [c']) (length (c :: t ++ [c']) - 1) = Ok c') as ->.
  { unfold rd. cbn [length]. rewrite app_length. cbn [length]. replace (S (length t + 1) - 1)%nat with (S (length t)) by lia. cbn [nth_error].
    rewrite nth_error_app2, Nat.sub_diag by lia. reflexivity. }
  cbn [rd nth_error bindr].
  destruct (Z.eqb_spec c 34) as [->|]; [|right; reflexivity].
  destruct (Z.eqb_spec c' 34) as [->|]; [|right; reflexivity].
  cbn [negb orb].
  assert (Ht : bytes t) by (inversion Hr as [|? ? _ Hb']; subst; apply Forall_app in Hb'; tauto).
  destruct (unquote_loop_total (length (34 :: t ++ [34])) t [34] []) as [E|(d & E & _)].
  - cbn [length]. rewrite app_length. cbn. lia.
  - assumption.
  - right. exact E.
  - left. exists d. exact E.
Qed.

(** *** Backslash escapes *)
Theorem C33_unescape_roundtrip esc s : Forall (fun c => c <> 0) s -> In 92 esc ->
  unescape (puts_escaped esc [92] s) = s.
Proof. apply unescape_escaped. Qed.
(** Without the backslash among the escaped characters the round trip fails. *)
Theorem C33_unescape_needs_backslash_refuted :
  unescape (puts_escaped (bs "*?[") [92] (bs "a\b")) <> bs "a\b".
Proof. vm_compute. discriminate. Qed.

(** *** The hypotheses are met by real inputs *)
Example base64_example : enc64 (bs "hello") = bs "aGVsbG8=" /\ dec64 (bs "aGVsbG8=") = Ok (bs "hello" ++ [0]).
Proof. split; reflexivity. Qed.
Example base85_example : bytes [0; 255; 17; 128; 9] /\
  dec85 (enc85 [0; 255; 17; 128; 9]) 5 = Ok [0; 255; 17; 128; 9] /\ dec85 (bs "~~~~~") 4 = Err (-1).
Proof. split; [repeat constructor; unfold is_byte; lia|split; vm_compute; reflexivity]. Qed.
Example percent_example : percent (bs "a%2Fb%c3") (bs "a/b" ++ [195]).
Proof.
  cbn. apply pct_self; [lia|]. apply (pct_esc 50 70 2 15); [reflexivity|reflexivity|].
  apply pct_self; [lia|]. apply (pct_esc 99 51 12 3); [reflexivity|reflexivity|constructor].
Qed.
Example quote_example : str_quote (bs "t\b" ++ [9; 200; 34]) = bs """t\\b\t\310\""""".
Proof. reflexivity. Qed.
Example quote_plain_example : str_quote (bs "dir/file name") = bs "dir/file name" /\ read_name (bs """\4""") = Err (-1).
Proof. split; reflexivity. Qed.
