From Verif Require Import Base VarintModel VarintSpec.

Lemma land_128 c : is_byte c -> (Z.land c 128 =? 0) = (c <? 128).
Proof.
  intros H. apply eqb_prop. revert c H. apply byte_sweep. vm_compute. reflexivity.
Qed.

Lemma msb7 v : 0 <= v < two64 -> (Z.land v (Z.shiftl 127 57) =? 0) = (v <? 2 ^ 57).
Proof.
  intros Hv. unfold two64 in Hv.
  assert (E : Z.land v (Z.shiftl 127 57) = (v / 2 ^ 57) * 2 ^ 57).
  { replace (Z.land v (Z.shiftl 127 57)) with (Z.shiftl (Z.land (Z.shiftr v 57) 127) 57).
    2:{ rewrite Z.shiftl_land. apply Z.bits_inj'. intros n Hn.
        rewrite !Z.land_spec. destruct (Z.lt_ge_cases n 57).
        - rewrite !Z.shiftl_spec_low by lia. rewrite !andb_false_r. reflexivity.
        - rewrite !Z.shiftl_spec by lia. rewrite Z.shiftr_spec by lia.
          replace (n - 57 + 57) with n by lia. reflexivity. }
    rewrite shiftl_mul, shiftr_div, land_127 by lia.
    rewrite Z.mod_small; [reflexivity|].
    split; [apply Z.div_pos; lia|]. apply Z.div_lt_upper_bound; lia. }
  rewrite E. destruct (Z.ltb_spec v (2 ^ 57)).
  - rewrite Z.div_small by lia. reflexivity.
  - assert (1 <= v / 2 ^ 57) by (apply Z.div_le_lower_bound; lia). apply Z.eqb_neq. lia.
Qed.

Lemma code_pos l v : varint_code l v -> 0 <= v /\ (1 <= length l)%nat.
Proof.
  induction 1 as [b Hb|b l v Hb Hl IH]; simpl length.
  - lia.
  - assert (0 < 128 ^ Z.of_nat (length l)) by (apply Z.pow_pos_nonneg; lia). nia.
Qed.

(** The generalised decoder statement: [acc] is the value of the digits read
    strictly before the code. *)
Lemma decode_loop_correct l v : varint_code l v -> forall rest acc n,
  0 <= acc ->
  forall c tl, l = c :: tl ->
  acc * 128 + 127 < two64 ->
  decode_loop (tl ++ rest) c (acc * 128 + c mod 128) n =
  if acc * 128 ^ Z.of_nat (length l) + v <? two64
  then Ok (acc * 128 ^ Z.of_nat (length l) + v, (n + length tl)%nat) else Ok (0, O).
Proof.
  induction 1 as [b Hb|b l v Hb Hl IH]; intros rest acc n Hacc c tl E Hsm.
  - injection E as <- <-. cbn [app length decode_loop].
    assert (Hby : is_byte b) by (unfold is_byte; lia).
    destruct rest; cbn [decode_loop]; rewrite land_128 by exact Hby;
      (destruct (Z.ltb_spec b 128); [|lia]);
      replace (128 ^ Z.of_nat 1) with 128 by reflexivity;
      rewrite (Z.mod_small b 128) by lia;
      (destruct (Z.ltb_spec (acc * 128 + b) two64); [|lia]);
      f_equal; f_equal; lia.
  - injection E as <- <-. cbn [length].
    assert (Hby : is_byte b) by (unfold is_byte; lia).
    set (P := 128 ^ Z.of_nat (length l)) in *.
    replace (128 ^ Z.of_nat (S (length l))) with (128 * P)
      by (unfold P; rewrite Nat2Z.inj_succ, Z.pow_succ_r by lia; reflexivity).
    assert (HP : 0 < P) by (apply Z.pow_pos_nonneg; lia).
    destruct (code_pos _ _ Hl) as [Hv Hlen].
    assert (HP128 : 128 <= P).
    { unfold P. replace 128 with (128 ^ 1) at 1 by reflexivity.
      apply Z.pow_le_mono_r; lia. }
    assert (Hmod : b mod 128 = b - 128)
      by (replace b with ((b - 128) + 1 * 128) at 1 by lia;
          rewrite Z.mod_add by lia; apply Z.mod_small; lia).
    rewrite Hmod.
    destruct l as [|c' tl']; [simpl in Hlen; lia|].
    cbn [app decode_loop]. rewrite land_128 by exact Hby.
    destruct (Z.ltb_spec b 128); [lia|].
    set (a := acc * 128 + (b - 128)).
    assert (Ha : 0 <= a < two64) by (unfold a; lia).
    (* bijective value *)
    destruct (Z.eq_dec a (two64 - 1)) as [Ewrap|Hnw].
    { replace ((a + 1) mod two64) with 0 by (rewrite Ewrap; reflexivity).
      cbn [Z.eqb orb].
      destruct (Z.ltb_spec (acc * (128 * P) + ((b - 128 + 1) * P + v)) two64) as [Hlt|]; [|reflexivity].
      exfalso. unfold a in Ewrap. unfold two64 in *. nia. }
    rewrite (Z.mod_small (a + 1)) by lia.
    rewrite msb7 by lia.
    destruct (Z.eqb_spec (a + 1) 0); [lia|]. cbn [orb].
    destruct (Z.ltb_spec (a + 1) (2 ^ 57)) as [Hok|Hov]; cbn [negb].
    + rewrite shiftl_mul, land_127 by lia. change (2 ^ 7) with 128.
      assert (Hm : 0 <= c' mod 128 < 128) by (apply Z.mod_pos_bound; lia).
      rewrite (Z.mod_small ((a + 1) * 128 + c' mod 128)) by (unfold two64; lia).
      rewrite (IH rest (a + 1) (S n) ltac:(lia)) with (c := c') (tl := tl');
        [|reflexivity|unfold two64; lia].
      fold P. unfold a. cbn [length].
      replace ((acc * 128 + (b - 128) + 1) * P + v)
        with (acc * (128 * P) + ((b - 128 + 1) * P + v)) by lia.
      destruct (_ <? two64); [|reflexivity]. do 2 f_equal. lia.
    + destruct (Z.ltb_spec (acc * (128 * P) + ((b - 128 + 1) * P + v)) two64) as [Hlt|]; [|reflexivity].
      exfalso. unfold a in Hov. unfold two64 in *. change (2 ^ 57) with 144115188075855872 in *. nia.
Qed.

Lemma decode_code l v rest : varint_code l v ->
  decode_varint (l ++ rest) =
  if v <? two64 then Ok (v, length l) else Ok (0, O).
Proof.
  intros H. destruct l as [|c tl]; [inversion H|].
  cbn [app decode_varint].
  pose proof (decode_loop_correct _ _ H rest 0 1 ltac:(lia) c tl eq_refl) as D.
  rewrite land_127. change (0 * 128 + c mod 128) with (c mod 128) in D. rewrite D by (vm_compute; reflexivity).
  reflexivity.
Qed.

Lemma code_bounds l v : varint_code l v ->
  128 ^ Z.of_nat (length l) - 128 <= 127 * v < 128 * 128 ^ Z.of_nat (length l) - 128.
Proof.
  induction 1 as [b Hb|b l v0 Hb Hl IH]; cbn [length].
  - change (128 ^ Z.of_nat 1) with 128. lia.
  - rewrite Nat2Z.inj_succ, Z.pow_succ_r by lia.
    set (P := 128 ^ Z.of_nat (length l)) in *. nia.
Qed.

Lemma code_same_length l1 l2 v : varint_code l1 v -> varint_code l2 v -> length l1 = length l2.
Proof.
  intros H1 H2. apply code_bounds in H1. apply code_bounds in H2.
  destruct (Nat.lt_trichotomy (length l1) (length l2)) as [H|[H|H]]; auto; exfalso.
  - assert (128 ^ Z.succ (Z.of_nat (length l1)) <= 128 ^ Z.of_nat (length l2))
      by (apply Z.pow_le_mono_r; lia).
    rewrite Z.pow_succ_r in * by lia. lia.
  - assert (128 ^ Z.succ (Z.of_nat (length l2)) <= 128 ^ Z.of_nat (length l1))
      by (apply Z.pow_le_mono_r; lia).
    rewrite Z.pow_succ_r in * by lia. lia.
Qed.

Lemma code_unique l1 v1 : varint_code l1 v1 -> forall l2, varint_code l2 v1 -> l1 = l2.
Proof.
  induction 1 as [b Hb|b l v Hb Hl IH]; intros l2 H2.
  - inversion H2 as [b2 Hb2 E2 E3|b2 l3 v2 Hb2 Hl2 E2 E3]; subst.
    + reflexivity.
    + pose proof (code_same_length _ _ _ (vc_last _ Hb) H2) as E.
      cbn [length] in E. destruct (code_pos _ _ Hl2). lia.
  - pose proof (code_same_length _ _ _ (vc_more _ _ _ Hb Hl) H2) as E.
    inversion H2 as [b2 Hb2 E2 E3|b2 l3 v2 Hb2 Hl2 E2 E3]; subst.
    + cbn [length] in E. destruct (code_pos _ _ Hl). lia.
    + cbn [length] in E. injection E as E. rewrite <- E in E3.
      pose proof (code_bounds _ _ Hl) as B1. pose proof (code_bounds _ _ Hl2) as B2.
      rewrite <- E in B2. set (P := 128 ^ Z.of_nat (length l)) in *.
      assert (b = b2) by nia. subst b2.
      assert (v = v2) by lia. subst v2. f_equal. now apply IH.
Qed.

Lemma encode_loop_correct room : forall value acc av,
  0 <= value -> value < 128 ^ (Z.of_nat room + 1) ->
  varint_code acc av ->
  forall hi, value = 128 * hi + Z.land value 127 -> 
  exists code, encode_loop room value acc = Ok code /\
    varint_code code (hi * 128 ^ Z.of_nat (length acc) + av) /\
    (length code <= length acc + room)%nat.
Proof.
  induction room as [|room IH]; intros value acc av H0 Hlt Hacc hi Ehi.
  - cbn [encode_loop]. rewrite shiftr_div by lia. change (2 ^ 7) with 128.
    rewrite land_127 in Ehi. change (128 ^ (Z.of_nat 0 + 1)) with 128 in Hlt.
    assert (hi = 0) by lia. subst hi.
    replace (value / 128) with 0 by lia. cbn [Z.eqb].
    exists acc. rewrite Z.mul_0_l, Z.add_0_l. split; [reflexivity|]. split; [exact Hacc|lia].
  - cbn [encode_loop]. rewrite shiftr_div by lia. change (2 ^ 7) with 128.
    rewrite land_127 in Ehi.
    assert (value / 128 = hi) as -> by lia.
    destruct (Z.eqb_spec hi 0) as [->|Hhi].
    + exists acc. rewrite Z.mul_0_l, Z.add_0_l. split; [reflexivity|]. split; [exact Hacc|lia].
    + replace (Z.of_nat (S room) + 1) with (Z.succ (Z.of_nat room + 1)) in Hlt by lia.
      rewrite Z.pow_succ_r in Hlt by lia.
      set (d := Z.land (hi - 1) 127).
      assert (Ed : d = (hi - 1) mod 128) by apply land_127.
      assert (Hd : 0 <= d < 128) by (rewrite Ed; apply Z.mod_pos_bound; lia).
      assert (El : Z.lor 128 d = 128 + d).
      { rewrite Z.lor_comm, (lor_disjoint d 128 7); try lia. }
      set (k := (hi - 1) / 128).
      destruct (IH (hi - 1) (Z.lor 128 d :: acc)
                   ((128 + d - 128 + 1) * 128 ^ Z.of_nat (length acc) + av)
                   ltac:(lia) ltac:(lia)) with (hi := k)
        as (code & Ec & Hc & Hlen).
      { rewrite El. apply vc_more; [lia|exact Hacc]. }
      { fold d. unfold k. lia. }
      exists code. split; [exact Ec|]. split; [|cbn [length] in Hlen; lia].
      cbn [length] in Hc. rewrite Nat2Z.inj_succ, Z.pow_succ_r in Hc by lia.
      replace (hi * 128 ^ Z.of_nat (length acc) + av) with
        (k * (128 * 128 ^ Z.of_nat (length acc)) +
         ((128 + d - 128 + 1) * 128 ^ Z.of_nat (length acc) + av)); [exact Hc|].
      assert (Hk : hi = 128 * k + d + 1) by (unfold k; lia). clearbody k. rewrite Hk. nia.
Qed.

Lemma encode_loop_code value : 0 <= value < two64 ->
  exists code, encode_loop 15 value [Z.land value 127] = Ok code /\ varint_code code value.
Proof.
  intros Hv.
  destruct (encode_loop_correct 15 value [Z.land value 127] (Z.land value 127)) with (hi := value / 128)
    as (code & E & Hc & Hl).
  - lia.
  - unfold two64 in Hv. change (128 ^ (Z.of_nat 15 + 1)) with (2 ^ 112). lia.
  - constructor. rewrite land_127. lia.
  - rewrite land_127. lia.
  - exists code. split; [exact E|].
    change (128 ^ Z.of_nat (length [Z.land value 127])) with 128 in Hc.
    replace value with (value / 128 * 128 + Z.land value 127); [exact Hc|]. rewrite land_127. lia.
Qed.

Lemma code_len_64 l v : varint_code l v -> v < two64 -> (length l <= 10)%nat.
Proof.
  intros H Hv. apply code_bounds in H. destruct (Nat.le_gt_cases (length l) 10) as [|Hg]; [assumption|].
  exfalso. assert (128 ^ 11 <= 128 ^ Z.of_nat (length l)) by (apply Z.pow_le_mono_r; lia).
  unfold two64 in *. change (128 ^ 11) with 151115727451828646838272 in *. lia.
Qed.

(** Either a prefix of the buffer is a code, or all its bytes have the top bit set. *)
Lemma code_prefix_or_open buf : bytes buf ->
  (exists l v rest, buf = l ++ rest /\ varint_code l v) \/ Forall (fun b => 128 <= b < 256) buf.
Proof.
  induction 1 as [|b l Hb Hl IH]; [right; constructor|].
  unfold is_byte in Hb. destruct (Z.lt_ge_cases b 128) as [H|H].
  - left. exists [b], b, l. split; [reflexivity|]. constructor. lia.
  - destruct IH as [(l1 & v & rest & -> & Hc)|Hop].
    + left. eexists (b :: l1), _, rest. split; [reflexivity|]. apply vc_more; [lia|eassumption].
    + right. constructor; [lia|assumption].
Qed.

Lemma open_code_big tl : Forall (fun b => 128 <= b < 256) tl -> forall b, 0 <= b < 128 ->
  exists v, varint_code (tl ++ [b]) v.
Proof.
  induction 1 as [|c tl Hc Ht IH]; intros b Hb.
  - exists b. constructor. exact Hb.
  - destruct (IH b Hb) as [v Hv]. eexists. apply vc_more; eauto.
Qed.

Lemma decode_loop_prefix rest : forall c val n ext,
  decode_loop (rest ++ ext) c val n = Ok (0, O) -> (n > 0)%nat ->
  (decode_loop rest c val n = Ok (0, O) \/ decode_loop rest c val n = UB).
Proof.
  induction rest as [|r rest IH]; intros c val n ext H Hn.
  - destruct ext as [|e ext]; cbn [app] in H; [left; exact H|].
    cbn [decode_loop] in *.
    destruct (Z.land c 128 =? 0).
    + injection H as _ E. lia.
    + destruct (_ || _); auto.
  - cbn [app decode_loop] in *.
    destruct (Z.land c 128 =? 0); [left; exact H|].
    destruct (_ || _); [left; exact H|]. apply IH with (1 := H). lia.
Qed.

Lemma decode_loop_10 rest : forall c val n k,
  0 <= val < two64 ->
  2 ^ 57 <= (val + 1) * 128 ^ Z.of_nat k -> (k <= length rest)%nat ->
  exists r, decode_loop rest c val n = Ok r.
Proof.
  induction rest as [|r rest IH]; intros c val n k Hval Hk Hlen; cbn [decode_loop].
  - cbn [length] in Hlen. assert (k = O) by lia. subst k. change (128 ^ Z.of_nat 0) with 1 in Hk.
    destruct (Z.land c 128 =? 0); [eauto|].
    destruct (Z.eqb_spec ((val + 1) mod two64) 0) as [|Hnz]; cbn [orb]; [eauto|].
    assert (Hs : (val + 1) mod two64 = val + 1).
    { apply Z.mod_small. destruct (Z.eq_dec (val + 1) two64) as [E|]; [|lia].
      rewrite E in Hnz. exfalso. apply Hnz. reflexivity. }
    rewrite Hs. rewrite msb7 by (rewrite <- Hs; apply Z.mod_pos_bound; reflexivity).
    destruct (Z.ltb_spec (val + 1) (2 ^ 57)) as [Hok|]; cbn [negb]; [lia|eauto].
  - destruct (Z.land c 128 =? 0); [eauto|].
    destruct (Z.eqb_spec ((val + 1) mod two64) 0) as [|Hnz]; cbn [orb]; [eauto|].
    assert (Hs : (val + 1) mod two64 = val + 1).
    { apply Z.mod_small. destruct (Z.eq_dec (val + 1) two64) as [E|]; [|lia].
      rewrite E in Hnz. exfalso. apply Hnz. reflexivity. }
    rewrite Hs. rewrite msb7 by (rewrite <- Hs; apply Z.mod_pos_bound; reflexivity).
    destruct (Z.ltb_spec (val + 1) (2 ^ 57)) as [Hok|]; cbn [negb]; [|eauto].
    rewrite shiftl_mul, land_127 by lia. change (2 ^ 7) with 128.
    assert (Hm : 0 <= r mod 128 < 128) by (apply Z.mod_pos_bound; lia).
    rewrite (Z.mod_small ((val + 1) * 128 + r mod 128)) by (unfold two64; lia).
    destruct k as [|k].
    + change (128 ^ Z.of_nat 0) with 1 in Hk. lia.
    + apply IH with (k := k); auto.
      * unfold two64. lia.
      * rewrite Nat2Z.inj_succ, Z.pow_succ_r in Hk by lia.
        assert (0 < 128 ^ Z.of_nat k) by (apply Z.pow_pos_nonneg; lia). nia.
      * cbn [length] in Hlen. lia.
Qed.

Lemma decode_safe_10 buf : (10 <= length buf)%nat -> exists r, decode_varint buf = Ok r.
Proof.
  intros Hl. destruct buf as [|c rest]; [simpl in Hl; lia|].
  cbn [decode_varint]. cbn [length] in Hl. rewrite land_127.
  assert (0 <= c mod 128 < 128) by (apply Z.mod_pos_bound; lia).
  apply decode_loop_10 with (k := 9%nat); [unfold two64; lia| |lia].
  change (128 ^ Z.of_nat 9) with (2 ^ 63). lia.
Qed.

(** A decoder result always comes from a code at the front of the buffer. *)
Lemma decode_loop_open rest : forall c val n, 
  Forall (fun b => 128 <= b < 256) rest -> 128 <= c < 256 ->
  decode_loop rest c val n = Ok (0, O) \/ decode_loop rest c val n = UB.
Proof.
  induction rest as [|r rest IH]; intros c val n Hop Hc; cbn [decode_loop];
    rewrite land_128 by (unfold is_byte; lia); (destruct (Z.ltb_spec c 128); [lia|]);
    destruct (_ || _); auto.
  inversion Hop; subst. apply IH; auto.
Qed.

Lemma decode_inv buf v n : bytes buf -> decode_varint buf = Ok (v, n) -> (0 < n)%nat ->
  exists l rest, buf = l ++ rest /\ n = length l /\ varint_code l v /\ v < two64.
Proof.
  intros Hb Hd Hn. destruct (code_prefix_or_open buf Hb) as [(l & w & rest & -> & Hc)|Hop].
  - rewrite (decode_code l w rest Hc) in Hd. destruct (Z.ltb_spec w two64).
    + injection Hd as <- <-. exists l, rest. auto.
    + injection Hd as <- <-. lia.
  - destruct buf as [|c rest]; [discriminate|]. cbn [decode_varint] in Hd.
    inversion Hop; subst.
    destruct (decode_loop_open rest c (Z.land c 127) 1 ltac:(assumption) ltac:(assumption)) as [E|E];
      rewrite E in Hd; [|discriminate]. injection Hd as <- <-. lia.
Qed.

Lemma encode_none value : 0 <= value < two64 ->
  exists code, varint_code code value /\
    encode_varint None value = Ok (Z.of_nat (length code), []) /\
    (forall size, Z.of_nat (length code) <= size -> encode_varint (Some size) value = Ok (Z.of_nat (length code), code)) /\
    (forall size, size < Z.of_nat (length code) -> encode_varint (Some size) value = Ok (-1, [])).
Proof.
  intros Hv. destruct (encode_loop_code value Hv) as (code & E & Hc).
  exists code. split; [exact Hc|]. unfold encode_varint. rewrite E. cbn [bindr].
  split; [reflexivity|]. split; intros size Hs; destruct (Z.ltb_spec size (Z.of_nat (length code))); try lia; reflexivity.
Qed.
