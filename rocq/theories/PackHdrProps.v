(** C25: pack entry headers and offset deltas. *)
From Verif Require Import Base VarintModel VarintSpec VarintProofs PackHdrModel PackHdrSpec.

Lemma le128_nonneg l : 0 <= le128 l.
Proof. induction l; cbn [le128]; lia. Qed.
Lemma continued_bytes h : continued h -> bytes h.
Proof. induction 1; constructor; unfold is_byte; try lia; [constructor|assumption]. Qed.

Lemma unpack_spec l : continued l -> forall rest c tl size k used, l = c :: tl -> 0 <= size < 2 ^ (4 + 7 * Z.of_nat k) -> (k <= 9)%nat ->
  unpack_loop (tl ++ rest) c (size mod two64) (4 + 7 * Z.of_nat k) used =
  if (k + length tl <=? 9)%nat then Ok ((used + length tl)%nat, (size + 2 ^ (4 + 7 * Z.of_nat k) * le128 tl) mod two64) else Err (-1).
Proof.
  induction 1 as [b Hb|b l Hb Hl IH]; intros rest c tl size k used E Hs Hk; injection E as <- <-.
  - cbn [app length le128]. rewrite !Nat.add_0_r. destruct (Nat.leb_spec k 9); [|lia]. rewrite Z.mul_0_r, Z.add_0_r.
    destruct rest; cbn [app unpack_loop]; rewrite land_128 by (unfold is_byte; lia); destruct (Z.ltb_spec b 128); try lia; reflexivity.
  - destruct l as [|c tl]; [inversion Hl|]. cbn [app unpack_loop]. rewrite land_128 by (unfold is_byte; lia). destruct (Z.ltb_spec b 128); [lia|].
    destruct (Z.leb_spec 64 (4 + 7 * Z.of_nat k)).
    { destruct (Nat.leb_spec (k + length (c :: tl)) 9); [cbn in *; lia|reflexivity]. }
    rewrite land_127, shiftl_mul by lia. rewrite <- Zplus_mod. 
    replace (4 + 7 * Z.of_nat k + 7) with (4 + 7 * Z.of_nat (S k)) by lia.
    assert (E7 : 2 ^ (4 + 7 * Z.of_nat (S k)) = 128 * 2 ^ (4 + 7 * Z.of_nat k)).
    { replace (4 + 7 * Z.of_nat (S k)) with (7 + (4 + 7 * Z.of_nat k)) by lia. rewrite Z.pow_add_r by lia. reflexivity. }
    rewrite (IH rest c tl (size + c mod 128 * 2 ^ (4 + 7 * Z.of_nat k)) (S k) (S used) eq_refl); [| |lia].
    + cbn [length le128]. replace (S k + length tl)%nat with (k + S (length tl))%nat by lia.
      destruct (k + S (length tl) <=? 9)%nat; [|reflexivity]. f_equal. f_equal; [lia|]. f_equal. rewrite E7. lia.
    + rewrite E7. pose proof (Z.mod_pos_bound c 128 ltac:(lia)). nia.
Qed.

(** Any header followed by anything: the decoder returns the type, the number of
    bytes and the denoted size (truncated to 64 bits); a header of more than ten
    bytes is refused. *)
Theorem C25_header_exact : forall h ty size rest, header_code h ty size ->
  unpack_header1 (h ++ rest) = if (length h <=? 10)%nat then Ok (length h, size mod two64, ty) else Err (-1).
Proof.
  intros h ty size rest (Hc & b & r & -> & -> & ->). cbn [app unpack_header1]. rewrite land_15.
  pose proof (unpack_spec (b :: r) Hc rest b r (b mod 16) 0 1 eq_refl) as U.
  change (4 + 7 * Z.of_nat 0) with 4 in U. specialize (U ltac:(lia) ltac:(lia)).
  rewrite Z.mod_small in U by (unfold two64; lia). rewrite U. cbn [length Nat.add].
  change 7 with (2 ^ 3 - 1). rewrite land_ones by lia. rewrite shiftr_div by lia.
  change (2 ^ 3) with 8. change (2 ^ 4) with 16.
  destruct (Nat.leb_spec (length r) 9), (Nat.leb_spec (S (length r)) 10); try lia; reflexivity.
Qed.

Lemma unpack_inv rest : forall c size shift used r, is_byte c -> bytes rest -> unpack_loop rest c size shift used = Ok r ->
  exists tl post, rest = tl ++ post /\ continued (c :: tl).
Proof.
  induction rest as [|x rest IH]; intros c size shift used r Hc Hr; cbn [unpack_loop]; rewrite land_128 by assumption; unfold is_byte in Hc.
  - destruct (Z.ltb_spec c 128); [|discriminate]. intros _. exists [], []. split; [reflexivity|constructor; lia].
  - inversion_clear Hr. destruct (Z.ltb_spec c 128).
    + intros _. exists [], (x :: rest). split; [reflexivity|constructor; lia].
    + destruct (64 <=? shift); [discriminate|]. intros U. apply IH in U as (tl & post & -> & Ct); [|assumption|assumption].
      exists (x :: tl), post. split; [reflexivity|constructor; [lia|exact Ct]].
Qed.

(** Whatever is decoded was there. *)
Theorem C25_header_sound : forall buf used size ty, bytes buf -> unpack_header1 buf = Ok (used, size, ty) ->
  exists h rest denoted, buf = h ++ rest /\ used = length h /\ header_code h ty denoted /\ size = denoted mod two64.
Proof.
  intros buf used size ty Hb H. destruct buf as [|c rest]; [discriminate|]. inversion_clear Hb as [|? ? Hc Hr].
  pose proof H as H'. cbn [unpack_header1] in H'. destruct (unpack_loop rest c (Z.land c 15) 4 1) as [[u s]| | |] eqn:E; try discriminate. clear H'.
  apply unpack_inv in E as (tl & post & -> & Ct); [|assumption|assumption].
  assert (HC : header_code (c :: tl) ((c / 16) mod 8) (c mod 16 + 16 * le128 tl)) by (split; [exact Ct|]; exists c, tl; auto).
  pose proof (C25_header_exact _ _ _ post HC) as X. change ((c :: tl) ++ post) with (c :: tl ++ post) in X. rewrite H in X.
  destruct (length (c :: tl) <=? 10)%nat; [|discriminate]. injection X as -> -> ->.
  exists (c :: tl), post, (c mod 16 + 16 * le128 tl). auto.
Qed.

(** Decoding never reads past the data available. *)
Theorem C25_header_safe : forall buf, bytes buf -> buf <> [] -> unpack_header1 buf <> UB /\ unpack_header1 buf <> NoFuel.
Proof.
  intros buf _ Hne. destruct buf as [|c rest]; [congruence|]. cbn [unpack_header1].
  assert (G : forall rest c size shift used, unpack_loop rest c size shift used <> UB /\ unpack_loop rest c size shift used <> NoFuel).
  { clear. induction rest as [|x rest IH]; intros c size shift used; cbn [unpack_loop]; destruct (Z.land c 128 =? 0); try (split; discriminate).
    destruct (64 <=? shift); [split; discriminate|apply IH]. }
  destruct (G rest c (Z.land c 15) 4 1%nat) as [A B]. destruct (unpack_loop rest c (Z.land c 15) 4 1) as [[u s]| | |]; try congruence; split; discriminate.
Qed.

(** A header cut short asks for more data. *)
Theorem C25_header_short : forall h more ty size, header_code (h ++ more) ty size -> h <> [] -> more <> [] -> (length h <= 10)%nat ->
  unpack_header1 h = Err (-6).
Proof.
  intros h more ty size (Hc & _) Hh Hm Hl.
  destruct h as [|c tl]; [congruence|]. cbn [unpack_header1].
  assert (G : forall tl c size k used, continued (c :: tl ++ more) -> (k + length tl <= 9)%nat -> unpack_loop tl c size (4 + 7 * Z.of_nat k) used = Err (-6)).
  { clear - Hm. induction tl as [|x tl IH]; intros c size k used Hc Hl; cbn [unpack_loop].
    - inversion Hc as [b Hb E|b l Hb Hl' E]; subst; [congruence|]. rewrite land_128 by (unfold is_byte; lia). destruct (Z.ltb_spec c 128); [lia|reflexivity].
    - inversion Hc as [b Hb E|b l Hb Hl' E]; subst. rewrite land_128 by (unfold is_byte; lia). destruct (Z.ltb_spec c 128); [lia|]. cbn [length] in Hl.
      destruct (Z.leb_spec 64 (4 + 7 * Z.of_nat k)); [lia|]. replace (4 + 7 * Z.of_nat k + 7) with (4 + 7 * Z.of_nat (S k)) by lia. apply IH; [exact Hl'|lia]. }
  pose proof (G tl c (Z.land c 15) 0%nat 1%nat Hc ltac:(cbn in Hl; lia)) as U. change (4 + 7 * Z.of_nat 0) with 4 in U. rewrite U. reflexivity.
Qed.

Lemma header_loop_spec fuel : forall c size, 0 <= c < 128 -> 0 <= size < 128 ^ Z.of_nat fuel ->
  exists tl, header_loop fuel c size = Ok tl /\ continued tl /\ (Z.of_nat (length tl) <= 1 + Z.of_nat fuel) /\
    exists x r, tl = x :: r /\ x mod 128 = c /\ le128 r = size /\ (forall n, size < 128 ^ Z.of_nat n -> (length r <= n)%nat).
Proof.
  induction fuel as [|f IH]; intros c size Hc Hs; cbn [header_loop].
  - assert (size = 0) by (cbn in Hs; lia). subst. exists [c]. repeat split; [constructor; lia|cbn; lia|]. exists c, []. cbn. repeat split; try lia.
  - destruct (Z.eqb_spec size 0) as [->|N].
    { exists [c]. repeat split; [constructor; lia|cbn [length]; lia|]. exists c, []. cbn. repeat split; lia. }
    rewrite land_127, shiftr_div by lia. change (2 ^ 7) with 128.
    rewrite Nat2Z.inj_succ, Z.pow_succ_r in Hs by lia.
    destruct (IH (size mod 128) (size / 128)) as (tl & -> & Ct & Lt & x & r & -> & Ex & Er & En); [lia|split; [lia|apply Z.div_lt_upper_bound; lia]|].
    assert (Ec : Z.lor c 128 = c + 128) by (apply (lor_disjoint c 128 7); [lia|lia|reflexivity]).
    cbn [bindr]. rewrite Ec. exists (c + 128 :: x :: r). repeat split.
    + constructor; [lia|exact Ct].
    + cbn [length] in *. lia.
    + exists (c + 128), (x :: r). repeat split; [lia|cbn [le128]; lia|].
      intros n Hn. destruct n as [|n]; [cbn in Hn; lia|]. cbn [length]. apply le_n_S. apply En. rewrite Nat2Z.inj_succ, Z.pow_succ_r in Hn by lia. apply Z.div_lt_upper_bound; lia.
Qed.

(** What is written denotes the given type and size, in at most ten bytes. *)
Theorem C25_header_written : forall size ty, 0 <= size < two64 -> 1 <= ty <= 7 ->
  exists h, object_header size ty = Ok h /\ header_code h ty size /\ (length h <= 10)%nat.
Proof.
  intros size ty Hs Ht. unfold object_header. destruct (Z.leb_spec 1 ty), (Z.leb_spec ty 7); try lia. cbn [andb negb].
  rewrite land_15, shiftr_div, shiftl_mul by lia. change (2 ^ 4) with 16.
  assert (E : Z.lor (ty * 16) (size mod 16) = ty * 16 + size mod 16).
  { rewrite Z.lor_comm, (lor_disjoint _ _ 4); [lia|lia|change (2 ^ 4) with 16; lia|apply Z.mod_mul; lia]. }
  rewrite E, Z.mod_small by lia.
  destruct (header_loop_spec 64 (ty * 16 + size mod 16) (size / 16)) as (tl & -> & Ct & _ & x & r & -> & Ex & Er & En); [lia| |].
  { unfold two64 in Hs. assert (2 ^ 64 <= 128 ^ Z.of_nat 64) by (vm_compute; congruence). lia. }
  exists (x :: r). split; [reflexivity|]. split.
  - split; [exact Ct|]. exists x, r. split; [reflexivity|]. inversion Ct; subst; lia.
  - cbn [length]. specialize (En 9%nat). cbn [Nat.leb]. enough (length r <= 9)%nat by lia. apply En. unfold two64 in Hs. change (128 ^ Z.of_nat 9) with 9223372036854775808. lia.
Qed.

(** Round trip, with anything after the header. *)
Theorem C25_header_roundtrip : forall size ty h rest, 0 <= size < two64 -> 1 <= ty <= 7 -> object_header size ty = Ok h ->
  unpack_header1 (h ++ rest) = Ok (length h, size, ty).
Proof.
  intros size ty h rest Hs Ht E. destruct (C25_header_written size ty Hs Ht) as (h' & E' & HC & L). assert (h' = h) by congruence. subst.
  rewrite (C25_header_exact _ _ _ rest HC). destruct (Nat.leb_spec (length h) 10); [|lia]. rewrite Z.mod_small by lia. reflexivity.
Qed.

(** Not every accepted header has its denoted size: bits above 64 are dropped. *)
Definition wrap_header : list Z := [144; 128; 128; 128; 128; 128; 128; 128; 128; 16].
Theorem C25_denoted_size_refuted :
  ~ (forall h ty size used got, header_code h ty size -> unpack_header1 h = Ok (used, got, ty) -> got = size).
Proof.
  intros H. specialize (H wrap_header 1 (2 ^ 64) 10%nat 0). assert (0 = 2 ^ 64); [|discriminate]. apply H; [|reflexivity].
  split; [repeat (constructor; [lia|]); constructor; lia|]. eexists _, _. split; [reflexivity|]. split; reflexivity.
Qed.

(** *** Offset deltas *)
Lemma ofs_decode rest : forall c val n v m, (0 < n)%nat -> (decode_loop rest c val n = Ok (v, m) /\ (0 < m)%nat <-> ofs_loop rest c val n = Ok (v, m)).
Proof.
  induction rest as [|x rest IH]; intros c val n v m Hn; cbn [decode_loop ofs_loop].
  - destruct (Z.land c 128 =? 0); [split; [tauto|]; intros [= <- <-]; auto|]. split; [|discriminate]. cbv zeta. destruct ((_ =? 0) || _); [intros [[= <- <-] ?]; lia|intros [? _]; discriminate].
  - destruct (Z.land c 128 =? 0); [split; [tauto|]; intros [= <- <-]; auto|]. cbv zeta. destruct ((_ =? 0) || _); [split; [intros [[= <- <-] ?]; lia|discriminate]|]. apply IH. lia.
Qed.

(** The base of an offset delta is the entry's offset minus the distance encoded in
    the (bijective base-128) code that follows the header; a zero distance or one
    reaching the start of the file is refused. *)
Theorem C25_ofs_exact : forall code dist rest off, varint_code code dist -> dist < two64 -> 0 <= off < 9223372036854775808 ->
  delta_base_ofs (code ++ rest) off = if (0 <? dist) && (dist <? off) then Ok (length code, off - dist) else Err (-1).
Proof.
  intros code dist rest off Hc Hd Ho. pose proof (decode_code code dist rest Hc) as D. pose proof (code_pos _ _ Hc) as [P L].
  destruct (Z.ltb_spec dist two64); [|lia]. destruct code as [|c tl]; [cbn in L; lia|]. cbn [app decode_varint delta_base_ofs] in *.
  assert (E : ofs_loop (tl ++ rest) c (Z.land c 127) 1 = Ok (dist, length (c :: tl))) by (apply ofs_decode; [lia|split; [exact D|cbn; lia]]).
  rewrite E. cbn [bindr]. cbv zeta. rewrite Z.mod_small by (unfold two64; lia).
  destruct (Z.eqb_spec dist 0), (Z.leb_spec off dist), (Z.ltb_spec 0 dist), (Z.ltb_spec dist off), (Z.eqb_spec (off - dist) 0); try lia; reflexivity.
Qed.
Theorem C25_ofs_roundtrip : forall dist size n code rest off, 0 < dist < off -> off < 9223372036854775808 ->
  encode_varint (Some size) dist = Ok (n, code) -> n <> -1 ->
  delta_base_ofs (code ++ rest) off = Ok (length code, off - dist).
Proof.
  intros dist size n code rest off Hd Ho E Hn. destruct (encode_none dist ltac:(unfold two64; lia)) as (c & Hc & _ & Hok & Hko).
  assert (code = c). { destruct (Z.le_gt_cases (Z.of_nat (length c)) size) as [L|L]; [rewrite (Hok size L) in E; congruence|rewrite (Hko size ltac:(lia)) in E; congruence]. }
  subst. rewrite (C25_ofs_exact c dist rest off Hc); try lia; [|unfold two64; lia]. destruct (Z.ltb_spec 0 dist), (Z.ltb_spec dist off); try lia. reflexivity.
Qed.
(** Any bytes: no read past the end, and a base is always a smaller positive offset
    at the encoded distance. *)
Theorem C25_ofs_sound : forall buf off used base, bytes buf -> 0 <= off < 9223372036854775808 -> delta_base_ofs buf off = Ok (used, base) ->
  0 < base < off /\ exists code rest, buf = code ++ rest /\ used = length code /\ varint_code code (off - base).
Proof.
  intros buf off used base Hb Ho H. destruct buf as [|c tl]; [discriminate|]. cbn [delta_base_ofs] in H.
  destruct (ofs_loop tl c (Z.land c 127) 1) as [[v m]| | |] eqn:E; try discriminate. cbn [bindr] in H. cbv zeta in H.
  apply ofs_decode in E as [E M]; [|lia]. rewrite Z.mod_small in H by (unfold two64; lia).
  destruct (Z.eqb_spec v 0), (Z.leb_spec off v); cbn [orb] in H; try discriminate. destruct (Z.eqb_spec (off - v) 0); [discriminate|]. injection H as <- <-.
  change (decode_varint (c :: tl) = Ok (v, m)) in E. destruct (decode_inv (c :: tl) v m Hb E M) as (code & rest & Eb & Em & Hc & _).
  pose proof (code_pos _ _ Hc) as [P _]. split; [lia|]. exists code, rest. replace (off - (off - v)) with v by lia. auto.
Qed.
Theorem C25_ofs_safe : forall buf off, buf <> [] -> delta_base_ofs buf off <> UB /\ delta_base_ofs buf off <> NoFuel.
Proof.
  intros buf off Hne. destruct buf as [|c tl]; [congruence|]. cbn [delta_base_ofs].
  assert (G : forall rest c val n, ofs_loop rest c val n <> UB /\ ofs_loop rest c val n <> NoFuel).
  { clear. induction rest as [|x rest IH]; intros c val n; cbn [ofs_loop]; destruct (Z.land c 128 =? 0); try (split; discriminate).
    cbv zeta. destruct ((_ =? 0) || _); [split; discriminate|apply IH]. }
  destruct (G tl c (Z.land c 127) 1%nat) as [A B]. destruct (ofs_loop tl c (Z.land c 127) 1) as [[v m]| | |]; try congruence; cbn [bindr]; [|split; discriminate].
  cbv zeta. destruct ((v =? 0) || _); [split; discriminate|]. destruct (_ =? 0); split; discriminate.
Qed.
(** A code cut short asks for more data (codes of distances below 2^64). *)
Theorem C25_ofs_short : forall pre more dist off, varint_code (pre ++ more) dist -> dist < two64 -> pre <> [] -> more <> [] -> delta_base_ofs pre off = Err (-6).
Proof.
  intros pre more dist off Hc Hd Hp Hm. pose proof (decode_code (pre ++ more) dist [] Hc) as D. rewrite app_nil_r in D.
  destruct (Z.ltb_spec dist two64); [|lia]. destruct pre as [|c tl]; [congruence|]. cbn [app decode_varint delta_base_ofs] in *. clear Hp.
  assert (G : forall tl c val n w, varint_code (c :: tl ++ more) w -> forall v m, decode_loop (tl ++ more) c val n = Ok (v, m) -> (0 < m)%nat -> ofs_loop tl c val n = Err (-6)).
  { clear - Hm. induction tl as [|x tl IH]; intros c val n w Hc v m; cbn [app].
    - intros _ _. cbn [ofs_loop]. inversion Hc as [b Hb E|b l u Hb Hl E]; subst; [congruence|]. rewrite land_128 by (unfold is_byte; lia). destruct (Z.ltb_spec c 128); [lia|reflexivity].
    - cbn [decode_loop ofs_loop]. inversion Hc as [b Hb E|b l u Hb Hl E]; subst. rewrite land_128 by (unfold is_byte; lia). destruct (Z.ltb_spec c 128); [lia|].
      cbv zeta. destruct ((_ =? 0) || _); [intros [= <- <-]; lia|]. intros D P. exact (IH x _ _ _ Hl v m D P). }
  rewrite (G tl c _ _ dist Hc dist _ D); [reflexivity|cbn; lia].
Qed.

(** Non-vacuity: a size that needs all ten bytes; a two-byte distance. *)
Example C25_ex_header : object_header (two64 - 1) 7 = Ok [255; 255; 255; 255; 255; 255; 255; 255; 255; 15].
Proof. reflexivity. Qed.
Example C25_ex_ofs : varint_code [129; 0] 256 /\ delta_base_ofs [129; 0; 77] 300 = Ok (2%nat, 44) /\ delta_base_ofs [129; 0] 256 = Err (-1).
Proof. split; [|split; reflexivity]. apply (vc_more 129 [0] 0); [lia|]. constructor. lia. Qed.

Print Assumptions C25_header_exact.
Print Assumptions C25_header_sound.
Print Assumptions C25_header_safe.
Print Assumptions C25_header_short.
Print Assumptions C25_header_written.
Print Assumptions C25_header_roundtrip.
Print Assumptions C25_denoted_size_refuted.
Print Assumptions C25_ofs_exact.
Print Assumptions C25_ofs_roundtrip.
Print Assumptions C25_ofs_sound.
Print Assumptions C25_ofs_safe.
Print Assumptions C25_ofs_short.
