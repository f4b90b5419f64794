(** C04: object ids and hexadecimal text. *)
From Verif Require Import Base CStr OidModel OidSpec OidProofs.

(** Parsing a (possibly abbreviated) id succeeds exactly on 1..2*size hex digits of
    either case, and yields the id with those leading nibbles and zeros after. *)
Theorem oid_parse_exact : forall size str len id, bytes str ->
  oid_from_prefix size str len = Ok id <->
  (1 <= len <= 2 * size)%nat /\ (len <= length str)%nat /\ oid_ok size id /\
  exists vs, digits_of (firstn len str) vs /\ nibbles id = vs ++ repeat 0 (2 * size - len).
Proof. exact from_prefix_iff. Qed.
Print Assumptions oid_parse_exact.

(** On any NUL-terminated string, or any buffer of [len] bytes, parsing stays in
    bounds and otherwise reports an error. *)
Theorem oid_parse_safe : forall size str len, bytes str ->
  (len <= length str)%nat \/ In 0 str ->
  (exists id, oid_from_prefix size str len = Ok id) \/ oid_from_prefix size str len = Err (-1).
Proof. exact from_prefix_outcome. Qed.
Print Assumptions oid_parse_safe.

(** Parsing a complete id: exactly 2*size digits followed by the terminator. *)
Theorem oid_from_string_exact : forall size text rest id, (0 < size)%nat ->
  bytes text -> ~ In 0 text -> bytes rest ->
  oid_from_string size (text ++ 0 :: rest) = Ok id <->
  oid_ok size id /\ digits_of text (nibbles id).
Proof.
  intros size text rest id Hsz Ht Hz Hr. unfold oid_from_string.
  assert (Hb : bytes (text ++ 0 :: rest)).
  { apply bytes_app. split; [exact Ht|]. constructor; [unfold is_byte; lia|exact Hr]. }
  assert (HH : forall id, oid_from_prefix size (text ++ 0 :: rest) (2 * size) = Ok id <->
     (2 * size <= length text)%nat /\ oid_ok size id /\ digits_of (firstn (2 * size) text) (nibbles id)).
  { intros i. rewrite from_prefix_iff by exact Hb. rewrite Nat.sub_diag. cbn [repeat].
    split.
    - intros (_ & Hl & Hok & vs & Hv & Hn). rewrite app_nil_r in Hn. subst vs.
      assert (Hle : (2 * size <= length text)%nat).
      { apply Nat.nlt_ge. intros Hlt. rewrite firstn_app in Hv.
        apply Forall2_app_inv_l in Hv. destruct Hv as (v1 & v2 & _ & Hv2 & _).
        destruct (2 * size - length text)%nat eqn:E; [lia|]. cbn in Hv2. inversion Hv2 as [|? ? ? ? H0]; subst. discriminate. }
      split; [exact Hle|]. split; [exact Hok|]. rewrite firstn_app in Hv.
      replace (2 * size - length text)%nat with O in Hv by lia. cbn in Hv. rewrite app_nil_r in Hv. exact Hv.
    - intros (Hle & Hok & Hv). split; [lia|]. split; [rewrite app_length; lia|]. split; [exact Hok|].
      exists (nibbles i). rewrite app_nil_r. split; [|reflexivity]. rewrite firstn_app.
      replace (2 * size - length text)%nat with O by lia. cbn. rewrite app_nil_r. exact Hv. }
  assert (Hlen : oid_ok size id -> digits_of text (nibbles id) -> length text = (2 * size)%nat).
  { intros [Hl _] Hd. apply Forall2_length in Hd. rewrite nibbles_length in Hd. lia. }
  assert (Hchar : (2 * size <= length text)%nat -> exists c, rd (text ++ 0 :: rest) (2 * size) = Ok c /\ (c = 0 <-> length text = (2 * size)%nat)).
  { intros Hle. unfold rd. destruct (Nat.eq_dec (length text) (2 * size)) as [E|N].
    - rewrite nth_error_app2 by lia. rewrite E, Nat.sub_diag. cbn [nth_error]. exists 0. tauto.
    - rewrite nth_error_app1 by lia. destruct (nth_error text (2 * size)) as [c|] eqn:Ec; [|apply nth_error_None in Ec; lia].
      exists c. split; [reflexivity|]. split; [|lia]. intros ->. apply nth_error_In in Ec. contradiction. }
  destruct (oid_from_prefix size (text ++ 0 :: rest) (2 * size)) as [i|e| |] eqn:E; cbn [bindr].
  - clear E. destruct (proj1 (HH i) eq_refl) as (Hle & Hok & Hd). destruct (Hchar Hle) as (c & -> & Hc). cbn [bindr].
    destruct (Z.eqb_spec c 0) as [E0|N0].
    + apply Hc in E0. split.
      * intros [= <-]. split; [exact Hok|]. rewrite firstn_all2 in Hd by lia. exact Hd.
      * intros (Hok2 & Hd2). rewrite firstn_all2 in Hd by lia. f_equal.
        apply nibbles_inj; [apply Hok|apply Hok2|]. eapply digits_fun; eassumption.
    + split; [discriminate|]. intros (Hok2 & Hd2). exfalso. apply N0, Hc. auto.
  - split; [discriminate|]. intros (Hok & Hd). exfalso. pose proof (Hlen Hok Hd).
    assert (G : @Err (list Z) e = Ok id) by (apply HH; repeat split; try lia; [apply Hok|apply Hok|rewrite firstn_all2 by lia; exact Hd]). discriminate.
  - split; [discriminate|]. intros (Hok & Hd). exfalso. pose proof (Hlen Hok Hd).
    assert (G : @UB (list Z) = Ok id) by (apply HH; repeat split; try lia; [apply Hok|apply Hok|rewrite firstn_all2 by lia; exact Hd]). discriminate.
  - split; [discriminate|]. intros (Hok & Hd). exfalso. pose proof (Hlen Hok Hd).
    assert (G : @NoFuel (list Z) = Ok id) by (apply HH; repeat split; try lia; [apply Hok|apply Hok|rewrite firstn_all2 by lia; exact Hd]). discriminate.
Qed.
Print Assumptions oid_from_string_exact.

(** Formatting writes the lower-case text; a shorter buffer gets a prefix, a longer
    one is zero-filled; nothing but [n] characters is written. *)
Theorem oid_format_exact : forall size n id, oid_ok size id ->
  oid_nfmt size n id = Ok (firstn n (hex_text id) ++ repeat 0 (n - 2 * size)) /\
  oid_fmt size id = Ok (hex_text id) /\
  ((0 < n)%nat -> oid_tostr size n id = Ok (firstn (n - 1) (hex_text id) ++ [0])) /\
  ((1 <= size)%nat -> oid_pathfmt size id = Ok (firstn 2 (hex_text id) ++ 47 :: skipn 2 (hex_text id))).
Proof.
  intros size n id Hok. pose proof (hex_text_length id) as Hl. pose proof Hok as [Hs Hb].
  split; [apply nfmt_spec; exact Hok|]. split; [|split].
  - unfold oid_fmt. rewrite nfmt_spec by exact Hok. rewrite Nat.sub_diag, firstn_all2 by lia. cbn. rewrite app_nil_r. reflexivity.
  - intros Hn. unfold oid_tostr. cbv zeta. destruct (Nat.ltb_spec (2 * size + 1) n).
    + rewrite nfmt_spec by exact Hok. cbn [bindr]. replace (2 * size + 1 - 1 - 2 * size)%nat with O by lia.
      cbn [repeat]. rewrite app_nil_r, !firstn_all2 by lia. reflexivity.
    + rewrite nfmt_spec by exact Hok. cbn [bindr]. replace (n - 1 - 2 * size)%nat with O by lia.
      cbn [repeat]. rewrite app_nil_r. reflexivity.
  - intros H1. unfold oid_pathfmt. rewrite !fmt_substr_even by (auto; lia). cbn [bindr]. unfold sub.
    rewrite skipn_O. rewrite (firstn_all2 (n := 2 * size - 2)); [reflexivity|]. rewrite skipn_length. lia.
Qed.
Print Assumptions oid_format_exact.

(** Format then parse gives the id back (and formatting is injective). *)
Theorem oid_hex_roundtrip : forall size id rest, (0 < size)%nat -> bytes rest -> oid_ok size id ->
  exists text, oid_fmt size id = Ok text /\ oid_from_string size (text ++ 0 :: rest) = Ok id.
Proof.
  intros size id rest Hs Hr Hok. destruct (oid_format_exact size O id Hok) as (_ & E & _).
  exists (hex_text id). split; [exact E|]. apply oid_from_string_exact; auto.
  - unfold hex_text. apply Forall_forall. intros c Hc. apply in_map_iff in Hc. destruct Hc as (v & <- & Hv).
    pose proof (proj1 (Forall_forall _ _) (nibbles_range id (proj2 Hok)) v Hv) as HR. cbn beta in HR. unfold is_byte, digit. destruct (v <? 10); lia.
  - unfold hex_text. intros Hc. apply in_map_iff in Hc. destruct Hc as (v & Ev & Hv).
    pose proof (proj1 (Forall_forall _ _) (nibbles_range id (proj2 Hok)) v Hv) as HR. cbn beta in HR. unfold digit in Ev. destruct (v <? 10); lia.
  - split; [exact Hok|]. apply digits_hex_text. apply Hok.
Qed.
Print Assumptions oid_hex_roundtrip.

(** Parse then format gives the text back, in lower case. *)
Theorem oid_parse_format : forall size text id, (0 < size)%nat -> bytes text -> ~ In 0 text ->
  oid_from_string size (text ++ [0]) = Ok id ->
  exists vs, digits_of text vs /\ oid_fmt size id = Ok (map digit vs).
Proof.
  intros size text id Hs Ht Hz E. apply oid_from_string_exact in E; auto; [|constructor].
  destruct E as (Hok & Hd). exists (nibbles id). split; [exact Hd|].
  apply (oid_format_exact size O id Hok).
Qed.
Print Assumptions oid_parse_format.

(** Comparison of ids is comparison of their text, and is zero only for equal ids. *)
Theorem oid_order : forall size a b, oid_ok size a -> oid_ok size b ->
  exists z, oid_cmp size a b = Ok z /\ (z ?= 0) = lex (hex_text a) (hex_text b) /\ (z = 0 <-> a = b).
Proof.
  intros size a b [La Ba] [Lb Bb]. unfold oid_cmp. rewrite <- La.
  destruct (memcmp_lex a b ltac:(congruence)) as (z & -> & Hz). exists z. split; [reflexivity|].
  unfold sgn_cmp in Hz. rewrite lex_hex by assumption. split; [exact Hz|].
  rewrite <- lex_eq, <- Hz. destruct (Z.compare_spec z 0); split; intros; try congruence; lia.
Qed.
Print Assumptions oid_order.

(** Prefix comparison looks at exactly the first [len] hex digits. *)
Theorem oid_prefix_compare : forall size a b len, oid_ok size a -> oid_ok size b ->
  exists r, oid_ncmp size a b len = Ok r /\ (r = 0 <-> firstn len (hex_text a) = firstn len (hex_text b)).
Proof. exact oid_ncmp_spec. Qed.
Print Assumptions oid_prefix_compare.

(** Truncating an id to a prefix keeps exactly its first [len] nibbles. *)
Theorem oid_truncate : forall size out id len, oid_ok size out -> oid_ok size id -> (len <= 2 * size)%nat ->
  exists r, oid_cpy_prefix out id len = Ok r /\ oid_ok size r /\
    firstn len (nibbles r) = firstn len (nibbles id) /\
    (Nat.odd len = true -> nth_error (nibbles r) len = Some 0) /\
    skipn (Nat.div (len + 1) 2) r = skipn (Nat.div (len + 1) 2) out.
Proof. exact cpy_prefix_spec. Qed.
Print Assumptions oid_truncate.

(** Comparing an id with a text is zero exactly when the text's (at most 2*size)
    leading characters are hex digits giving the leading nibbles of the id, a lone
    last digit standing for a byte with low nibble zero. *)
Theorem oid_text_compare : forall a s rest, bytes a -> bytes s -> ~ In 0 s ->
  exists r, oid_strcmp a (s ++ 0 :: rest) = Ok r /\
   (r = 0 <-> exists vs, digits_of (firstn (2 * length a) s) vs /\
                   let vs' := if Nat.odd (length vs) then vs ++ [0] else vs in
                   vs' = firstn (length vs') (nibbles a)).
Proof. exact strcmp_zero. Qed.
Print Assumptions oid_text_compare.

Theorem oid_is_zero_exact : forall id, oid_is_zero id = true <-> id = repeat 0 (length id).
Proof. exact is_zero_spec. Qed.
Print Assumptions oid_is_zero_exact.

Theorem oid_is_hexstr_exact : forall size s rest, bytes s -> ~ In 0 s ->
  exists b, is_hexstr size (s ++ 0 :: rest) 0 = Ok b /\
   (b = true <-> length s = (2 * size)%nat /\ exists vs, digits_of s vs).
Proof. exact (fun size s rest => is_hexstr_spec size s rest 0). Qed.
Print Assumptions oid_is_hexstr_exact.

(** ** Non-vacuity: "ae90f12eea699729ed24555e40b9fd669da12a12" from tests/libgit2/core/oid.c *)
Definition ex_text : list Z :=
  [97;101;57;48;102;49;50;101;101;97;54;57;57;55;50;57;101;100;50;52;53;53;53;101;52;48;98;57;102;100;54;54;57;100;97;49;50;97;49;50].
Definition ex_id : list Z :=
  [174;144;241;46;234;105;151;41;237;36;85;94;64;185;253;102;157;161;42;18].
Example oid_parse_ex : oid_from_string 20 (ex_text ++ [0]) = Ok ex_id.
Proof. vm_compute. reflexivity. Qed.
Example oid_format_ex : oid_fmt 20 ex_id = Ok ex_text.
Proof. vm_compute. reflexivity. Qed.
Example oid_ex_ok : oid_ok 20 ex_id.
Proof. split; [reflexivity|]. unfold ex_id. bytes_tac. Qed.
Example oid_prefix_ex : oid_from_prefix 20 (firstn 18 ex_text) 18 = Ok (firstn 9 ex_id ++ repeat 0 11).
Proof. vm_compute. reflexivity. Qed.
Example oid_too_long_ex : oid_from_prefix 20 (ex_text ++ [84; 72]) 42 = Err (-1).
Proof. vm_compute. reflexivity. Qed.
