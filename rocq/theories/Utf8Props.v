(** C40: scanning UTF-8. *)
From Verif Require Import Base Utf8Model Utf8Spec Utf8Proofs.

(** For every buffer and every positive declared length within it the scanner
    returns a character exactly when the text starts with the encoding of an
    accepted code point, and reports -1 otherwise; it never reads beyond the
    declared length. *)
Theorem C40_iterate_exact mem len : bytes mem -> (0 < len <= length mem)%nat ->
  (forall n u, 0 < n ->
    (iterate mem len = Ok (n, u) <->
     accepted u /\ n = Z.of_nat (length (encode_cp u)) /\ n <= Z.of_nat len /\ firstn (Z.to_nat n) mem = encode_cp u)) /\
  ((exists n u, 0 < n /\ iterate mem len = Ok (n, u)) \/ iterate mem len = Ok (-1, 0)).
Proof.
  intros Hb Hl. destruct (charlen_spec mem len Hb Hl) as [(k & Ec & Hk & Hkl & Hs)|[Ec Hno]].
  - assert (Lk : length (firstn k mem) = k) by (rewrite firstn_length; lia).
    assert (Key : forall u, accepted u -> firstn (length (encode_cp u)) mem = encode_cp u -> encode_cp u = firstn k mem).
    { intros u [Hu _] He. destruct (encode_sequence u (proj1 Hu)) as (S & _ & _).
      apply (sequence_prefix _ _ (skipn (length (encode_cp u)) mem) (skipn k mem) S Hs).
      rewrite <- He at 1. rewrite !firstn_skipn. reflexivity. }
    destruct (iterate_seq mem len k Hb Hl Ec Hkl Hs) as [(A & M & E)|(A & E)].
    + assert (En : encode_cp (value (firstn k mem)) = firstn k mem) by (apply encode_value; [assumption|rewrite Lk; assumption]).
      split; [|left; do 2 eexists; split; [|exact E]; lia].
      intros n u Hn. rewrite E. split.
      * intros H. injection H as <- <-. split; [exact A|]. rewrite En, Lk. split; [reflexivity|]. split; [lia|]. rewrite Nat2Z.id. reflexivity.
      * intros (Au & -> & Hnl & He). rewrite Nat2Z.id in He. assert (K := Key u Au He).
        destruct (encode_sequence u (proj1 (proj1 Au))) as (_ & V & _). rewrite K in V. rewrite V.
        rewrite K, Lk. reflexivity.
    + split; [|right; exact E]. intros n u Hn. rewrite E. split.
      * intros H. injection H as <- <-. lia.
      * intros (Au & -> & Hnl & He). exfalso. rewrite Nat2Z.id in He. assert (K := Key u Au He).
        destruct (encode_sequence u (proj1 (proj1 Au))) as (_ & V & Mn). rewrite K, Lk in Mn. rewrite K in V.
        apply A. rewrite V. split; assumption.
  - assert (E : iterate mem len = Ok (-1, 0)) by (unfold iterate; rewrite Ec; reflexivity).
    split; [|right; exact E]. intros n u Hn. rewrite E. split.
    + intros H. injection H as <- <-. lia.
    + intros (Au & -> & Hnl & He). exfalso. rewrite Nat2Z.id in He.
      apply (Hno (length (encode_cp u))); [lia|]. rewrite He. apply encode_sequence. exact (proj1 (proj1 Au)).
Qed.

(** Only the declared length matters: with a positive length the scanner reads
    nothing at or after it. *)
Theorem C40_iterate_bounded s rest : bytes s -> bytes rest -> s <> [] ->
  iterate (s ++ rest) (length s) = iterate s (length s).
Proof.
  intros Hs Hr Hn.
  assert (0 < length s)%nat by (destruct s; [congruence|cbn; lia]).
  destruct (C40_iterate_exact s (length s) Hs ltac:(lia)) as [P1 T1].
  destruct (C40_iterate_exact (s ++ rest) (length s) ltac:(apply Forall_app; split; assumption) ltac:(rewrite app_length; lia)) as [P2 T2].
  assert (Eq : forall n u, 0 < n -> (iterate (s ++ rest) (length s) = Ok (n, u) <-> iterate s (length s) = Ok (n, u))).
  { intros n u Hpos. rewrite P1, P2 by assumption.
    split; intros (A & L & B & F); (split; [exact A|split; [exact L|split; [exact B|]]]);
      rewrite firstn_app in *; replace (Z.to_nat n - length s)%nat with O in * by lia; cbn [firstn] in *; rewrite app_nil_r in *; exact F. }
  destruct T1 as [(n & u & Hpos & E)|E].
  - rewrite E. apply Eq; assumption.
  - destruct T2 as [(n & u & Hpos & E2)|E2]; [|congruence].
    apply Eq in E2; [|assumption]. rewrite E in E2; injection E2 as <- <-; lia.
Qed.

(** A declared length of zero is taken for "unknown": the scanner reads the
    buffer anyway. *)
Theorem C40_zero_length_refuted :
  iterate [] 0 = UB /\ iterate [240] 0 = UB /\ exists c, iterate [195; 169] 0 = Ok (2, c).
Proof. split; [reflexivity|]. split; [reflexivity|]. exists 233. reflexivity. Qed.

(** *** The valid prefix *)
Lemma valid_loop fuel mem : bytes mem -> forall off len, (off <= len <= length mem)%nat -> (len - off < fuel)%nat ->
  exists k, valid_buf_length fuel mem off len = Ok k /\ (off <= k <= len)%nat /\
    (exists parts, Forall sequence parts /\ concat parts = sub mem off (k - off)) /\
    (forall j parts, (off <= j <= len)%nat -> Forall sequence parts -> concat parts = sub mem off (j - off) -> (j <= k)%nat).
Proof.
  intros Hb. induction fuel as [|f IH]; intros off len Hl Hf; [lia|].
  cbn [valid_buf_length]. destruct (Nat.ltb_spec off len) as [Hlt|Hge].
  2:{ exists off. split; [reflexivity|]. split; [lia|]. split.
      - exists []. split; [constructor|]. rewrite Nat.sub_diag. reflexivity.
      - intros j parts Hj _ _. lia. }
  assert (Hb' : bytes (skipn off mem)) by (rewrite <- (firstn_skipn off mem) in Hb; apply Forall_app in Hb; tauto).
  destruct (charlen_spec (skipn off mem) (len - off) Hb') as [(n & Ec & Hn & Hnl & Hs)|[Ec Hno]]; [rewrite skipn_length; lia| |].
  - rewrite Ec. cbn [bindr]. destruct (Z.ltb_spec (Z.of_nat n) 0); [lia|]. rewrite Nat2Z.id.
    destruct (IH (off + n)%nat len) as (k & Ek & Bk & (parts & Fp & Cp) & Max); [lia|lia|].
    exists k. split; [exact Ek|]. split; [lia|]. split.
    + exists (firstn n (skipn off mem) :: parts). split; [constructor; assumption|]. cbn [concat]. rewrite Cp. unfold sub.
      rewrite <- (firstn_skipn n (firstn (k - off) (skipn off mem))).
      rewrite firstn_firstn. replace (Nat.min n (k - off)) with n by lia. f_equal.
      rewrite skipn_firstn_comm, skipn_skipn. f_equal; [|f_equal]; lia.
    + intros j parts' Hj Fp' Cp'.
      destruct parts' as [|p ps]; cbn [concat] in Cp'.
      * assert (length (sub mem off (j - off)) = 0)%nat by (rewrite <- Cp'; reflexivity).
        unfold sub in *. rewrite firstn_length, skipn_length in *. lia.
      * inversion Fp' as [|? ? Sp Fps]; subst.
        assert (p = firstn n (skipn off mem)) as ->.
        { apply (sequence_prefix _ _ (concat ps ++ skipn (j - off) (skipn off mem)) (skipn n (skipn off mem)) Sp Hs).
          rewrite app_assoc, Cp'. unfold sub. rewrite !firstn_skipn. reflexivity. }
        assert (length (firstn n (skipn off mem)) = n) as Ln by (rewrite firstn_length, skipn_length; lia).
        assert (length (sub mem off (j - off)) = j - off)%nat as Lj by (unfold sub; rewrite firstn_length, skipn_length; lia).
        assert (off + n <= j)%nat by (rewrite <- Cp', app_length in Lj; lia).
        apply (Max j ps); [lia|assumption|].
        unfold sub in *. apply (app_inv_head (firstn n (skipn off mem))). rewrite Cp'.
        rewrite <- (firstn_skipn n (firstn (j - off) (skipn off mem))) at 1.
        rewrite firstn_firstn. replace (Nat.min n (j - off)) with n by lia. f_equal.
        rewrite skipn_firstn_comm, skipn_skipn. f_equal; [|f_equal]; lia.
  - rewrite Ec. cbn [bindr]. change (-1 <? 0) with true. cbv iota. exists off. split; [reflexivity|]. split; [lia|]. split.
    + exists []. split; [constructor|]. rewrite Nat.sub_diag. reflexivity.
    + intros j parts Hj Fp Cp. destruct parts as [|p ps]; cbn [concat] in Cp.
      * assert (length (sub mem off (j - off)) = 0)%nat by (rewrite <- Cp; reflexivity).
        unfold sub in *. rewrite firstn_length, skipn_length in *. lia.
      * exfalso. inversion Fp as [|? ? Sp Fps]; subst.
        assert (length p <= j - off)%nat.
        { assert (length (p ++ concat ps) = length (sub mem off (j - off))) as L by (rewrite Cp; reflexivity).
          unfold sub in L. rewrite app_length, firstn_length in L. lia. }
        apply (Hno (length p)); [lia|].
        assert (firstn (length p) (skipn off mem) = p) as ->; [|assumption].
        transitivity (firstn (length p) (sub mem off (j - off))).
        { unfold sub. rewrite firstn_firstn. f_equal. lia. }
        rewrite <- Cp, firstn_app, Nat.sub_diag, firstn_all. cbn. apply app_nil_r.
Qed.
(** The valid length is the longest prefix made of complete sequences. *)
Theorem C40_valid_buf_length_partial mem len : bytes mem -> (len <= length mem)%nat ->
  exists k, valid_buf_length (S len) mem 0 len = Ok k /\ (k <= len)%nat /\
    (exists parts, Forall sequence parts /\ concat parts = firstn k mem) /\
    (forall j parts, (j <= len)%nat -> Forall sequence parts -> concat parts = firstn j mem -> (j <= k)%nat).
Proof.
  intros Hb Hl. destruct (valid_loop (S len) mem Hb 0 len) as (k & E & B & P & M); [lia|lia|].
  exists k. unfold sub in *. rewrite Nat.sub_0_r in P. cbn [skipn] in *. split; [exact E|]. split; [lia|]. split; [exact P|].
  intros j parts Hj Fp Cp. apply (M j parts); [lia|assumption|]. rewrite Nat.sub_0_r. exact Cp.
Qed.
(** It does not check what the scanner checks: an overlong encoding or a
    surrogate counts as valid although the scanner rejects it. *)
Theorem C40_valid_length_strict_refuted :
  valid_buf_length 3 [192; 128] 0 2 = Ok 2%nat /\ iterate [192; 128] 2 = Ok (-1, 0) /\
  valid_buf_length 4 [237; 160; 128] 0 3 = Ok 3%nat /\ iterate [237; 160; 128] 3 = Ok (-1, 0).
Proof. repeat split; reflexivity. Qed.

(** Counting characters always ends, reads nothing out of bounds and counts
    one per complete sequence. *)
Lemma char_length_total fuel mem : bytes mem -> forall off len c, (len <= length mem)%nat -> (len - off < fuel)%nat ->
  exists k, char_length fuel mem off len c = Ok k /\ (c <= k <= c + (len - off))%nat.
Proof.
  intros Hb. induction fuel as [|f IH]; intros off len c Hl Hf; [lia|].
  cbn [char_length]. destruct (Nat.ltb_spec off len) as [Hlt|Hge]; [|exists c; split; [reflexivity|lia]].
  assert (Hb' : bytes (skipn off mem)) by (rewrite <- (firstn_skipn off mem) in Hb; apply Forall_app in Hb; tauto).
  destruct (charlen_spec (skipn off mem) (len - off) Hb') as [(n & Ec & Hn & Hnl & Hs)|[Ec Hno]]; [rewrite skipn_length; lia| |];
    rewrite Ec; cbn [bindr].
  - destruct (Z.ltb_spec (Z.of_nat n) 0); [lia|]. rewrite Nat2Z.id.
    destruct (IH (off + n)%nat len (S c)) as (k & Ek & Bk); [lia|lia|]. exists k. split; [exact Ek|lia].
  - change (-1 <? 0) with true. cbv iota. change (Z.to_nat 1) with 1%nat.
    destruct (IH (off + 1)%nat len (S c)) as (k & Ek & Bk); [lia|lia|]. exists k. split; [exact Ek|lia].
Qed.
Lemma char_length_parts parts : Forall sequence parts -> forall fuel pre rest c,
  bytes (pre ++ concat parts ++ rest) -> (length (concat parts) < fuel)%nat ->
  char_length fuel (pre ++ concat parts ++ rest) (length pre) (length pre + length (concat parts)) c = Ok (c + length parts)%nat.
Proof.
  induction 1 as [|p ps Sp Sps IH]; intros fuel pre rest c Hb Hf; (destruct fuel as [|f]; [cbn in Hf; lia|]); cbn [char_length].
  - cbn [concat length]. destruct (Nat.ltb_spec (length pre) (length pre + 0)); [lia|]. f_equal. lia.
  - assert (Lp : (1 <= length p)%nat) by (inversion Sp; cbn; lia).
    cbn [concat] in *. rewrite app_length in *.
    destruct (Nat.ltb_spec (length pre) (length pre + (length p + length (concat ps)))); [|lia].
    assert (Esk : skipn (length pre) (pre ++ (p ++ concat ps) ++ rest) = p ++ concat ps ++ rest).
    { rewrite skipn_app, skipn_all, Nat.sub_diag. cbn. rewrite <- app_assoc. reflexivity. }
    rewrite Esk.
    assert (Hb' : bytes (p ++ concat ps ++ rest)) by (apply Forall_app in Hb; rewrite app_assoc; tauto).
    destruct (charlen_spec (p ++ concat ps ++ rest) (length pre + (length p + length (concat ps)) - length pre) Hb') as [(n & Ec & Hn & Hnl & Hs)|[Ec Hno]].
    + rewrite !app_length. lia.
    + rewrite Ec. cbn [bindr]. destruct (Z.ltb_spec (Z.of_nat n) 0); [lia|]. rewrite Nat2Z.id.
      assert (firstn n (p ++ concat ps ++ rest) = p) as Ep.
      { symmetry. apply (sequence_prefix _ _ (concat ps ++ rest) (skipn n (p ++ concat ps ++ rest)) Sp Hs). rewrite firstn_skipn. reflexivity. }
      assert (n = length p) as -> by (rewrite <- Ep, firstn_length; rewrite !app_length in *; lia).
      specialize (IH f (pre ++ p) rest (S c)). rewrite <- !app_assoc, app_length in *.
      rewrite Nat.add_assoc. rewrite IH; [f_equal; cbn [length]; lia|first [assumption | rewrite <- app_assoc in Hb; assumption]|lia].
    + exfalso. apply (Hno (length p)); [lia|]. rewrite firstn_app, Nat.sub_diag, firstn_all. cbn. rewrite app_nil_r. assumption.
Qed.
Theorem C40_char_length mem len : bytes mem -> (len <= length mem)%nat ->
  (exists k, char_length (S len) mem 0 len 0 = Ok k /\ (k <= len)%nat) /\
  (forall parts, Forall sequence parts -> firstn len mem = concat parts ->
     char_length (S len) mem 0 len 0 = Ok (length parts)).
Proof.
  intros Hb Hl. split.
  - destruct (char_length_total (S len) mem Hb 0 len 0) as (k & E & B); [lia|lia|]. exists k. split; [exact E|lia].
  - intros parts F E.
    assert (Ll : length (concat parts) = len) by (rewrite <- E, firstn_length; lia).
    assert (Em : mem = [] ++ concat parts ++ skipn len mem) by (cbn [app]; rewrite <- E, firstn_skipn; reflexivity).
    rewrite Em at 1. rewrite <- Ll at 3.
    apply (char_length_parts parts F (S len) [] (skipn len mem) 0); [rewrite <- Em; assumption|lia].
Qed.

(** *** The hypotheses are met by real texts *)
Example iterate_example : bytes [226; 130; 172; 33] /\ accepted 8364 /\ iterate [226; 130; 172; 33] 4 = Ok (3, 8364).
Proof.
  split; [repeat (constructor; [unfold is_byte; lia|]); constructor|].
  split; [unfold accepted, scalar, noncharacter; lia|reflexivity].
Qed.
Example valid_example : valid_buf_length 6 [97; 195; 169; 226; 130] 0 5 = Ok 3%nat /\ char_length 6 [97; 195; 169; 226; 130] 0 5 0 = Ok 4%nat.
Proof. split; reflexivity. Qed.
