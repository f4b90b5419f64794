From Verif Require Import Base DeltaTables DeltaModel DeltaSpec.

Lemma land_128_0 c : is_byte c -> (Z.land c 128 =? 0) = (c <? 128).
Proof.
  intros H. apply eqb_prop. revert c H. apply byte_sweep. vm_compute. reflexivity.
Qed.

(** *** Headers *)
Lemma lor_shift r b sh : 0 <= sh <= 32 -> 0 <= r < 2 ^ sh ->
  Z.lor r ((Z.shiftl b sh) mod two32) = r + (b * 2 ^ sh) mod two32.
Proof.
  intros Hs Hr.
  rewrite shiftl_mul by lia. apply lor_disjoint with (n := sh); [lia|exact Hr|].
  change two32 with (2 ^ 32). replace (2 ^ 32) with (2 ^ sh * 2 ^ (32 - sh))
    by (rewrite <- Z.pow_add_r by lia; f_equal; lia).
  rewrite Z.mul_comm, Z.mul_mod_distr_l by (apply Z.pow_nonzero; lia).
  rewrite Z.mul_comm. apply Z.mod_mul. apply Z.pow_nonzero; lia.
Qed.

Definition shift_ok (k : nat) : Z := 7 * Z.of_nat k.

Lemma hdr_sz_code l v : size_code l v -> forall rest r k,
  0 <= r < 128 ^ Z.of_nat k -> r < two32 -> (k + length l <= 5)%nat ->
  hdr_sz (l ++ rest) r (7 * Z.of_nat k) = Ok ((r + 128 ^ Z.of_nat k * v) mod two32, rest).
Proof.
  induction 1 as [b Hb|b l v Hb Hl IH]; intros rest r k Hr Hr2 Hk; cbn [app hdr_sz length] in *.
  - destruct (Z.leb_spec 32 (7 * Z.of_nat k)); [lia|].
    rewrite land_128_0 by (unfold is_byte; lia). destruct (Z.ltb_spec b 128); [|lia].
    rewrite land_127, (Z.mod_small b) by lia.
    assert (E : 2 ^ (7 * Z.of_nat k) = 128 ^ Z.of_nat k) by (rewrite Z.pow_mul_r by lia; reflexivity).
    rewrite lor_shift by (try rewrite E; lia).
    rewrite E. f_equal. f_equal. rewrite (Z.mul_comm b).
    destruct (Nat.eq_dec k 4) as [->|].
    + change (128 ^ Z.of_nat 4) with (2 ^ 28) in *. unfold two32 in *.
      (* truncation of the top bits *)
      lia.
    + assert (128 ^ Z.of_nat k * b < two32).
      { assert (128 ^ Z.of_nat k <= 128 ^ 3) by (apply Z.pow_le_mono_r; lia). unfold two32. nia. }
      assert (128 ^ Z.of_nat k <= 128 ^ 3) by (apply Z.pow_le_mono_r; lia).
      rewrite (Z.mod_small (128 ^ Z.of_nat k * b)) by nia.
      rewrite Z.mod_small; [reflexivity|]. unfold two32 in *. nia.
  - assert (k < 4)%nat by (assert (1 <= length l)%nat by (inversion Hl; simpl; lia); lia).
    destruct (Z.leb_spec 32 (7 * Z.of_nat k)); [lia|].
    rewrite land_128_0 by (unfold is_byte; lia). destruct (Z.ltb_spec b 128); [lia|].
    assert (E : 2 ^ (7 * Z.of_nat k) = 128 ^ Z.of_nat k) by (rewrite Z.pow_mul_r by lia; reflexivity).
    rewrite land_127.
    assert (Hbm : b mod 128 = b - 128) by lia. rewrite Hbm.
    rewrite lor_shift by (try rewrite E; lia).
    rewrite E.
    assert (HP : 128 ^ Z.of_nat k <= 128 ^ 3) by (apply Z.pow_le_mono_r; lia).
    assert (HP0 : 0 < 128 ^ Z.of_nat k) by (apply Z.pow_pos_nonneg; lia).
    change (128 ^ 3) with 2097152 in HP.
    set (P := 128 ^ Z.of_nat k) in *.
    rewrite (Z.mod_small ((b - 128) * P)) by (unfold two32; nia).
    replace (7 * Z.of_nat k + 7) with (7 * Z.of_nat (S k)) by lia.
    rewrite IH; try lia.
    + rewrite Nat2Z.inj_succ, Z.pow_succ_r by lia. fold P. f_equal. f_equal. f_equal. lia.
    + rewrite Nat2Z.inj_succ, Z.pow_succ_r by lia. fold P. nia.
    + unfold two32. nia.
Qed.

Lemma hdr_sz_ub l v : size_code l v -> forall rest r k,
  (5 < k + length l)%nat -> (k <= 5)%nat -> hdr_sz (l ++ rest) r (7 * Z.of_nat k) = UB.
Proof.
  induction 1 as [b Hb|b l v Hb Hl IH]; intros rest r k Hk Hk5; cbn [app hdr_sz length] in *.
  - assert (k = 5)%nat by lia. subst k. reflexivity.
  - destruct (Z.leb_spec 32 (7 * Z.of_nat k)); [reflexivity|].
    rewrite land_128_0 by (unfold is_byte; lia). destruct (Z.ltb_spec b 128); [lia|].
    replace (7 * Z.of_nat k + 7) with (7 * Z.of_nat (S k)) by lia. apply IH; lia.
Qed.

Lemma size_code_or_open buf : bytes buf ->
  (exists l v rest, buf = l ++ rest /\ size_code l v) \/ Forall (fun b => 128 <= b < 256) buf.
Proof.
  induction 1 as [|b l Hb Hl IH]; [right; constructor|].
  unfold is_byte in Hb. destruct (Z.lt_ge_cases b 128) as [H|H].
  - left. exists [b], b, l. split; [reflexivity|]. constructor. lia.
  - destruct IH as [(l1 & v & rest & -> & Hc)|Hop].
    + left. eexists (b :: l1), _, rest. split; [reflexivity|]. apply sc_more; [lia|eassumption].
    + right. constructor; [lia|assumption].
Qed.

Lemma hdr_sz_open buf : Forall (fun b => 128 <= b < 256) buf -> forall r sh,
  hdr_sz buf r sh = Err (-1) \/ hdr_sz buf r sh = UB.
Proof.
  induction 1 as [|b l Hb Hl IH]; intros r sh; cbn [hdr_sz]; auto.
  destruct (32 <=? sh); auto.
  rewrite land_128_0 by (unfold is_byte; lia). destruct (Z.ltb_spec b 128); [lia|]. apply IH.
Qed.

Lemma hdr_sz_open_short buf : Forall (fun b => 128 <= b < 256) buf -> forall r k,
  (length buf + k <= 5)%nat -> hdr_sz buf r (7 * Z.of_nat k) = Err (-1).
Proof.
  induction 1 as [|b l Hb Hl IH]; intros r k Hk; cbn [hdr_sz length] in *; auto.
  destruct (Z.leb_spec 32 (7 * Z.of_nat k)); [lia|].
  rewrite land_128_0 by (unfold is_byte; lia). destruct (Z.ltb_spec b 128); [lia|].
  replace (7 * Z.of_nat k + 7) with (7 * Z.of_nat (S k)) by lia. apply IH. lia.
Qed.

(** *** Copy operands *)
Definition is_none (f : option Z) : bool := match f with None => true | _ => false end.

Lemma add_delta_enc cmd bit sh o f d :
  (Z.land cmd bit =? 0) = is_none f -> opt_ok f -> 0 <= sh <= 24 -> 0 <= o < 2 ^ sh ->
  add_delta cmd bit sh o (opt_bytes f ++ d) = Ok (o + opt_val f * 2 ^ sh, d).
Proof.
  intros Hf Hok Hs Ho. unfold add_delta. rewrite Hf. destruct f as [b|]; cbn [is_none opt_bytes opt_val app].
  - cbn [opt_ok] in Hok. unfold is_byte in Hok.
    rewrite lor_shift by lia.
    assert (2 ^ sh <= 2 ^ 24) by (apply Z.pow_le_mono_r; lia).
    rewrite Z.mod_small; [reflexivity|]. unfold two32. nia.
  - f_equal. f_equal. lia.
Qed.

Lemma add_delta_dec cmd bit sh o d o' d' :
  bytes d -> 0 <= sh <= 24 -> 0 <= o < 2 ^ sh ->
  add_delta cmd bit sh o d = Ok (o', d') ->
  exists f, d = opt_bytes f ++ d' /\ o' = o + opt_val f * 2 ^ sh /\ opt_ok f /\
            (Z.land cmd bit =? 0) = is_none f.
Proof.
  intros Hb Hs Ho. unfold add_delta. destruct (Z.land cmd bit =? 0) eqn:E.
  - intros [= <- <-]. exists None. cbn. repeat split. lia.
  - destruct d as [|b d0]; [discriminate|]. intros [= <- <-]. exists (Some b).
    inversion Hb; subst. cbn. repeat split; try apply H1.
    rewrite lor_shift by lia.
    unfold is_byte in *.
    assert (2 ^ sh <= 2 ^ 24) by (apply Z.pow_le_mono_r; lia).
    rewrite Z.mod_small; [reflexivity|]. unfold two32. nia.
Qed.

Lemma add_delta_cases cmd bit sh o d :
  (exists r, add_delta cmd bit sh o d = Ok r) \/ add_delta cmd bit sh o d = Err (-1).
Proof. unfold add_delta. destruct (_ =? _); eauto. destruct d; eauto. Qed.

Lemma flags_land o0 o1 o2 o3 s0 s1 s2 :
  let cmd := 128 + opt_flag 1 o0 + opt_flag 2 o1 + opt_flag 4 o2 + opt_flag 8 o3
        + opt_flag 16 s0 + opt_flag 32 s1 + opt_flag 64 s2 in
  (Z.land cmd 1 =? 0) = is_none o0 /\ (Z.land cmd 2 =? 0) = is_none o1 /\
  (Z.land cmd 4 =? 0) = is_none o2 /\ (Z.land cmd 8 =? 0) = is_none o3 /\
  (Z.land cmd 16 =? 0) = is_none s0 /\ (Z.land cmd 32 =? 0) = is_none s1 /\
  (Z.land cmd 64 =? 0) = is_none s2 /\ (Z.land cmd 128 =? 0) = false /\ is_byte cmd.
Proof.
  unfold is_byte.
  destruct o0, o1, o2, o3, s0, s1, s2; vm_compute; repeat split; (reflexivity || discriminate).
Qed.

Definition flagz (cmd bit : Z) : Z := if Z.land cmd bit =? 0 then 0 else bit.
Lemma flags_sum cmd : is_byte cmd -> Z.land cmd 128 =? 0 = false ->
  cmd = 128 + flagz cmd 1 + flagz cmd 2 + flagz cmd 4 + flagz cmd 8
        + flagz cmd 16 + flagz cmd 32 + flagz cmd 64.
Proof.
  intros Hb Hh.
  assert (H : (if Z.land cmd 128 =? 0 then true else
    cmd =? 128 + flagz cmd 1 + flagz cmd 2 + flagz cmd 4 + flagz cmd 8
        + flagz cmd 16 + flagz cmd 32 + flagz cmd 64) = true).
  { revert cmd Hb Hh. intros cmd Hb _. revert cmd Hb. apply byte_sweep. vm_compute. reflexivity. }
  rewrite Hh in H. lia.
Qed.
Lemma flagz_opt cmd bit f : (Z.land cmd bit =? 0) = is_none f -> flagz cmd bit = opt_flag bit f.
Proof. unfold flagz. intros ->. destruct f; reflexivity. Qed.

Ltac pows := change (2 ^ 24) with 16777216 in *; change (2 ^ 16) with 65536 in *; change (2 ^ 8) with 256 in *; change (2 ^ 0) with 1 in *.

Lemma read_copy_enc off len cmd bs d : instr_code (Copy off len) (cmd :: bs) ->
  read_copy cmd (bs ++ d) = Ok (off, len, d).
Proof.
  intros H. inversion H as [|o0 o1 o2 o3 s0 s1 s2 K0 K1 K2 K3 K4 K5 K6 E1 E2]; subst; clear H.
  destruct (flags_land o0 o1 o2 o3 s0 s1 s2) as (F0 & F1 & F2 & F3 & F4 & F5 & F6 & _).
  assert (V : forall f, opt_ok f -> 0 <= opt_val f < 256).
  { intros [b|]; cbn; unfold is_byte; lia. }
  pose proof (V _ K0); pose proof (V _ K1); pose proof (V _ K2); pose proof (V _ K3).
  pose proof (V _ K4); pose proof (V _ K5); pose proof (V _ K6).
  unfold read_copy. rewrite <- !app_assoc.
  rewrite (add_delta_enc _ _ _ _ _ _ F0) by (auto; pows; lia). cbn [bindr].
  rewrite (add_delta_enc _ _ _ _ _ _ F1) by (auto; pows; lia). cbn [bindr].
  rewrite (add_delta_enc _ _ _ _ _ _ F2) by (auto; pows; lia). cbn [bindr].
  rewrite (add_delta_enc _ _ _ _ _ _ F3) by (auto; pows; lia). cbn [bindr].
  rewrite (add_delta_enc _ _ _ _ _ _ F4) by (auto; pows; lia). cbn [bindr].
  rewrite (add_delta_enc _ _ _ _ _ _ F5) by (auto; pows; lia). cbn [bindr].
  rewrite (add_delta_enc _ _ _ _ _ _ F6) by (auto; pows; lia). cbn [bindr].
  change (2 ^ 24) with 16777216; change (2 ^ 16) with 65536; change (2 ^ 8) with 256; change (2 ^ 0) with 1.
  cbn zeta.
  replace (0 + opt_val s0 * 1 + opt_val s1 * 256 + opt_val s2 * 65536)
    with (opt_val s0 + 256 * opt_val s1 + 65536 * opt_val s2) by lia.
  replace (0 + opt_val o0 * 1 + opt_val o1 * 256 + opt_val o2 * 65536 + opt_val o3 * 16777216)
    with (opt_val o0 + 256 * opt_val o1 + 65536 * opt_val o2 + 16777216 * opt_val o3) by lia.
  reflexivity.
Qed.

Lemma read_copy_dec cmd d off len d' : is_byte cmd -> Z.land cmd 128 =? 0 = false -> bytes d ->
  read_copy cmd d = Ok (off, len, d') ->
  exists bs, d = bs ++ d' /\ instr_code (Copy off len) (cmd :: bs).
Proof.
  intros Hc Hh Hd. unfold read_copy.
  assert (V : forall f, opt_ok f -> 0 <= opt_val f < 256).
  { intros [b|]; cbn; unfold is_byte; lia. }
  destruct (add_delta cmd 1 0 0 d) as [[v0 e0]| | |] eqn:E0; cbn [bindr]; try discriminate.
  apply add_delta_dec in E0; [|assumption|lia|pows; lia]. destruct E0 as (o0 & -> & -> & K0 & F0).
  apply bytes_app in Hd. destruct Hd as [_ Hd]. pose proof (V _ K0).
  destruct (add_delta cmd 2 8 _ e0) as [[v1 e1]| | |] eqn:E0; cbn [bindr]; try discriminate.
  apply add_delta_dec in E0; [|assumption|lia|pows; lia]. destruct E0 as (o1 & -> & -> & K1 & F1).
  apply bytes_app in Hd. destruct Hd as [_ Hd]. pose proof (V _ K1).
  destruct (add_delta cmd 4 16 _ e1) as [[v2 e2]| | |] eqn:E0; cbn [bindr]; try discriminate.
  change (2 ^ 8) with 256 in *; change (2 ^ 0) with 1 in *.
  apply add_delta_dec in E0; [|assumption|lia|change (2 ^ 16) with 65536; lia]. destruct E0 as (o2 & -> & -> & K2 & F2).
  apply bytes_app in Hd. destruct Hd as [_ Hd]. pose proof (V _ K2).
  destruct (add_delta cmd 8 24 _ e2) as [[v3 e3]| | |] eqn:E0; cbn [bindr]; try discriminate.
  change (2 ^ 16) with 65536 in *.
  apply add_delta_dec in E0; [|assumption|lia|change (2 ^ 24) with 16777216; lia]. destruct E0 as (o3 & -> & -> & K3 & F3).
  apply bytes_app in Hd. destruct Hd as [_ Hd]. pose proof (V _ K3).
  destruct (add_delta cmd 16 0 _ e3) as [[v4 e4]| | |] eqn:E0; cbn [bindr]; try discriminate.
  apply add_delta_dec in E0; [|assumption|lia|pows; lia]. destruct E0 as (s0 & -> & -> & K4 & F4).
  apply bytes_app in Hd. destruct Hd as [_ Hd]. pose proof (V _ K4).
  destruct (add_delta cmd 32 8 _ e4) as [[v5 e5]| | |] eqn:E0; cbn [bindr]; try discriminate.
  apply add_delta_dec in E0; [|assumption|lia|pows; lia]. destruct E0 as (s1 & -> & -> & K5 & F5).
  apply bytes_app in Hd. destruct Hd as [_ Hd]. pose proof (V _ K5).
  destruct (add_delta cmd 64 16 _ e5) as [[v6 e6]| | |] eqn:E0; cbn [bindr]; try discriminate.
  change (2 ^ 8) with 256 in *; change (2 ^ 0) with 1 in *.
  apply add_delta_dec in E0; [|assumption|lia|change (2 ^ 16) with 65536; lia]. destruct E0 as (s2 & -> & -> & K6 & F6).
  change (2 ^ 24) with 16777216; change (2 ^ 16) with 65536.
  intros [= <- <- <-].
  exists (opt_bytes o0 ++ opt_bytes o1 ++ opt_bytes o2 ++ opt_bytes o3
       ++ opt_bytes s0 ++ opt_bytes s1 ++ opt_bytes s2).
  split; [rewrite <- !app_assoc; reflexivity|].
  rewrite (flags_sum cmd Hc Hh).
  rewrite (flagz_opt _ _ _ F0), (flagz_opt _ _ _ F1), (flagz_opt _ _ _ F2), (flagz_opt _ _ _ F3),
    (flagz_opt _ _ _ F4), (flagz_opt _ _ _ F5), (flagz_opt _ _ _ F6).
  replace (0 + opt_val s0 * 1 + opt_val s1 * 256 + opt_val s2 * 65536)
    with (opt_val s0 + 256 * opt_val s1 + 65536 * opt_val s2) by lia.
  replace (0 + opt_val o0 * 1 + opt_val o1 * 256 + opt_val o2 * 65536 + opt_val o3 * 16777216)
    with (opt_val o0 + 256 * opt_val o1 + 65536 * opt_val o2 + 16777216 * opt_val o3) by lia.
  apply ic_copy; assumption.
Qed.

Lemma read_copy_cases cmd d :
  (exists off len d', read_copy cmd d = Ok (off, len, d')) \/ read_copy cmd d = Err (-1).
Proof.
  unfold read_copy.
  repeat match goal with
  | |- context [add_delta ?a ?b ?c ?o ?d] =>
      destruct (add_delta_cases a b c o d) as [[[? ?] ->]| ->]; cbn [bindr]; auto
  end; eauto.
Qed.

Lemma instr_code_copy_bounds off len code : instr_code (Copy off len) code ->
  0 <= off < two32 /\ 0 < len < 16777216 /\ code <> [] /\ bytes code.
Proof.
  intros H. inversion H as [|o0 o1 o2 o3 s0 s1 s2 K0 K1 K2 K3 K4 K5 K6 E1 E2]; subst; clear H.
  assert (V : forall f, opt_ok f -> 0 <= opt_val f < 256).
  { intros [b|]; cbn; unfold is_byte; lia. }
  pose proof (V _ K0); pose proof (V _ K1); pose proof (V _ K2); pose proof (V _ K3).
  pose proof (V _ K4); pose proof (V _ K5); pose proof (V _ K6).
  split; [unfold two32; lia|]. split.
  { cbn zeta. destruct (Z.eqb_spec (opt_val s0 + 256 * opt_val s1 + 65536 * opt_val s2) 0); lia. }
  split; [discriminate|].
  destruct (flags_land o0 o1 o2 o3 s0 s1 s2) as (_ & _ & _ & _ & _ & _ & _ & _ & Hb).
  constructor; [exact Hb|].
  assert (W : forall f, opt_ok f -> bytes (opt_bytes f)).
  { intros [b|]; cbn; intros Hok; repeat constructor; apply Hok. }
  rewrite !bytes_app. repeat split; apply W; assumption.
Qed.

(** *** The instruction loop *)
Lemma sub_is_chunk {A} (pre chunk post : list A) :
  sub (pre ++ chunk ++ post) (length pre) (length chunk) = chunk.
Proof.
  unfold sub. rewrite skipn_app, skipn_all, Nat.sub_diag. cbn.
  rewrite firstn_app, firstn_all, Nat.sub_diag. cbn. apply app_nil_r.
Qed.
Lemma sub_split {A} (l : list A) off len : (off + len <= length l)%nat ->
  l = firstn off l ++ sub l off len ++ skipn (off + len) l.
Proof.
  intros H. unfold sub. rewrite <- (firstn_skipn off l) at 1. f_equal.
  rewrite <- (firstn_skipn len (skipn off l)) at 1. f_equal.
  rewrite skipn_skipn. f_equal. lia.
Qed.

Lemma produces_insert base data chunk : produces base (Insert data) chunk -> chunk = data.
Proof. intros H. inversion H. reflexivity. Qed.
Lemma produces_copy base off len chunk : produces base (Copy off len) chunk ->
  len = Z.of_nat (length chunk) /\ 0 <= off /\ off + len <= Z.of_nat (length base) /\
  chunk = sub base (Z.to_nat off) (Z.to_nat len).
Proof.
  intros H. inversion H; subst. repeat split; try lia.
  - rewrite !app_length. lia.
  - rewrite !Nat2Z.id. symmetry. apply sub_is_chunk.
Qed.

Lemma delta_body_nil_inv base r : delta_body base [] r -> r = [].
Proof.
  intros H. remember [] as d eqn:E. destruct H as [|i code chunk body out Hi Hp Hb]; [reflexivity|].
  destruct code; [inversion Hi|discriminate].
Qed.

Lemma apply_loop_correct base fuel : forall d out room,
  bytes d -> (length d <= fuel)%nat -> 0 <= room < two64 -> Z.of_nat (length base) < two64 ->
  (exists r, delta_body base d r /\ Z.of_nat (length r) = room /\
             apply_loop fuel base d out room = Ok (out ++ r)) \/
  ((forall r, delta_body base d r -> Z.of_nat (length r) <> room) /\
   apply_loop fuel base d out room = Err (-1)).
Proof.
  induction fuel as [|fuel IH]; intros d out room Hd Hf Hroom Hbase.
  - destruct d; [|simpl in Hf; lia]. cbn [apply_loop].
    destruct (Z.eqb_spec room 0) as [->|Hne].
    + left. exists []. rewrite app_nil_r. repeat split; constructor.
    + right. split; [|reflexivity]. intros r Hr. apply delta_body_nil_inv in Hr. subst r. cbn. lia.
  - destruct d as [|cmd d0].
    { cbn [apply_loop].
      destruct (Z.eqb_spec room 0) as [->|Hne].
      + left. exists []. rewrite app_nil_r. repeat split; constructor.
      + right. split; [|reflexivity]. intros r Hr. apply delta_body_nil_inv in Hr. subst r. cbn. lia. }
    inversion Hd as [|? ? Hcmd Hd0]; subst. cbn [length] in Hf.
    assert (Hinv : forall r, delta_body base (cmd :: d0) r ->
      exists i bs body chunk out', d0 = bs ++ body /\ r = chunk ++ out' /\
        instr_code i (cmd :: bs) /\ produces base i chunk /\ delta_body base body out').
    { intros r Hr. inversion Hr as [|i code chunk body out' Hi Hp Hb E1 E2]; subst.
      destruct code as [|c bs]; [inversion Hi|]. injection E1 as Ec Ed. subst c d0. exists i, bs, body, chunk, out'. auto 10. }
    assert (HinsN : forall i bs, instr_code i (cmd :: bs) ->
      (exists data, i = Insert data /\ data = bs /\ cmd = Z.of_nat (length bs) /\ 1 <= cmd <= 127) \/
      (exists off len, i = Copy off len /\ Z.land cmd 128 =? 0 = false)).
    { intros i bs Hi. inversion Hi; subst.
      - left. exists bs. repeat split; lia.
      - right. eexists _, _. split; [reflexivity|].
        destruct (flags_land o0 o1 o2 o3 s0 s1 s2) as (_ & _ & _ & _ & _ & _ & _ & Hx & _). exact Hx. }
    cbn [apply_loop]. rewrite land_128_0 by exact Hcmd.
    destruct (Z.ltb_spec cmd 128) as [Hlo|Hhi]; cbn [negb].
    + (* insert or reserved *)
      destruct (Z.eqb_spec cmd 0) as [->|Hnz]; cbn [negb].
      { right. split; [|reflexivity]. intros r Hr. exfalso.
        apply Hinv in Hr. destruct Hr as (i & bs & body & chunk & out' & _ & _ & Hi & _).
        destruct (HinsN _ _ Hi) as [(data & _ & _ & _ & ?)|(off & len & _ & Hx)]; [lia|discriminate]. }
      assert (Hc1 : 1 <= cmd <= 127) by (unfold is_byte in Hcmd; lia).
      assert (Hnc : Z.land cmd 128 =? 0 = true) by (rewrite land_128_0 by exact Hcmd; lia).
      destruct (Z.ltb_spec (Z.of_nat (length d0)) cmd) as [Hsh|Hlong]; cbn [orb].
      { right. split; [|reflexivity]. intros r Hr. exfalso.
        apply Hinv in Hr. destruct Hr as (i & bs & body & chunk & out' & -> & _ & Hi & _).
        destruct (HinsN _ _ Hi) as [(data & _ & _ & E & ?)|(off & len & _ & Hx)]; [|congruence].
        rewrite app_length in Hsh. lia. }
      destruct (Z.ltb_spec room cmd) as [Hrm|Hrm].
      { right. split; [|reflexivity]. intros r Hr E.
        apply Hinv in Hr. destruct Hr as (i & bs & body & chunk & out' & -> & -> & Hi & Hp & _).
        destruct (HinsN _ _ Hi) as [(data & -> & -> & E' & ?)|(off & len & _ & Hx)]; [|congruence].
        apply produces_insert in Hp. subst chunk. rewrite app_length in E. lia. }
      unfold copy_from.
      destruct (Z.leb_spec 0 0); [|lia]. destruct (Z.leb_spec 0 cmd); [|lia].
      destruct (Z.leb_spec (0 + cmd) (Z.of_nat (length d0))); [|lia]. cbn [andb bindr].
      change (Z.to_nat 0) with O. unfold sub. cbn [skipn].
      set (n := Z.to_nat cmd) in *.
      assert (Hfl : length (firstn n d0) = n) by (rewrite firstn_length; lia).
      unfold put. rewrite Hfl. destruct (Z.leb_spec (Z.of_nat n) room); [|lia]. cbn [bindr].
      destruct (IH (skipn n d0) (out ++ firstn n d0) (room - cmd)) as [(r & Hb & Hl & E)|(Hno & E)].
      { rewrite <- (firstn_skipn n d0) in Hd0. apply bytes_app in Hd0. tauto. }
      { rewrite skipn_length. lia. } { lia. } { lia. }
      * left. exists (firstn n d0 ++ r). repeat split.
        -- replace (cmd :: d0) with ((Z.of_nat (length (firstn n d0)) :: firstn n d0) ++ skipn n d0).
           { eapply db_cons; [apply ic_insert|constructor|exact Hb].
             - lia.
             - rewrite <- (firstn_skipn n d0) in Hd0. apply bytes_app in Hd0. tauto. }
           cbn [app]. rewrite firstn_skipn. f_equal. lia.
        -- rewrite app_length. lia.
        -- rewrite E, <- app_assoc. reflexivity.
      * right. split; [|exact E]. intros r Hr Er.
        apply Hinv in Hr. destruct Hr as (i & bs & body & chunk & out' & -> & -> & Hi & Hp & Hb).
        destruct (HinsN _ _ Hi) as [(data & -> & -> & E' & ?)|(off & len & _ & Hx)]; [|congruence].
        apply produces_insert in Hp. subst chunk. apply (Hno out').
        -- replace n with (length bs) by lia. rewrite skipn_app, skipn_all, Nat.sub_diag. exact Hb.
        -- rewrite app_length in Er. lia.
    + (* copy *)
      assert (Hx : Z.land cmd 128 =? 0 = false) by (rewrite land_128_0 by exact Hcmd; lia).
      destruct (read_copy_cases cmd d0) as [(off & len & d7 & Erc)|Erc]; rewrite Erc; cbn [bindr].
      2:{ right. split; [|reflexivity]. intros r Hr. exfalso.
          apply Hinv in Hr. destruct Hr as (i & bs & body & chunk & out' & -> & _ & Hi & _).
          destruct (HinsN _ _ Hi) as [(data & _ & _ & _ & ?)|(off & len & -> & _)]; [lia|].
          rewrite (read_copy_enc off len cmd bs body Hi) in Erc. discriminate. }
      destruct (read_copy_dec cmd d0 off len d7 Hcmd Hx Hd0 Erc) as (bs & -> & Hic).
      destruct (instr_code_copy_bounds _ _ _ Hic) as (Hoff & Hlen & _ & _).
      assert (Hcp : forall r, delta_body base (cmd :: bs ++ d7) r ->
        exists chunk out', r = chunk ++ out' /\ produces base (Copy off len) chunk /\ delta_body base d7 out').
      { intros r Hr. apply Hinv in Hr. destruct Hr as (i & bs' & body & chunk & out' & Ed & -> & Hi & Hp & Hb).
        destruct (HinsN _ _ Hi) as [(data & _ & _ & _ & ?)|(off' & len' & -> & _)]; [lia|].
        pose proof (read_copy_enc off' len' cmd bs' body Hi) as E2. rewrite <- Ed, Erc in E2.
        injection E2 as <- <- <-. eauto. }
      destruct (Z.leb_spec two64 (off + len)); [unfold two64, two32 in *; lia|]. cbn [orb].
      destruct (Z.ltb_spec (Z.of_nat (length base)) (off + len)) as [Hbig|Hfit]; cbn [orb].
      { right. split; [|reflexivity]. intros r Hr. exfalso.
        destruct (Hcp r Hr) as (chunk & out' & _ & Hp & _). apply produces_copy in Hp. lia. }
      destruct (Z.ltb_spec room len) as [Hrm|Hrm].
      { right. split; [|reflexivity]. intros r Hr E.
        destruct (Hcp r Hr) as (chunk & out' & -> & Hp & _). apply produces_copy in Hp. rewrite app_length in E. lia. }
      unfold copy_from.
      destruct (Z.leb_spec 0 off); [|lia]. destruct (Z.leb_spec 0 len); [|lia].
      destruct (Z.leb_spec (off + len) (Z.of_nat (length base))); [|lia]. cbn [andb bindr].
      assert (Hsl : length (sub base (Z.to_nat off) (Z.to_nat len)) = Z.to_nat len)
        by (apply sub_length; lia).
      unfold put. rewrite Hsl. destruct (Z.leb_spec (Z.of_nat (Z.to_nat len)) room); [|lia]. cbn [bindr].
      destruct (IH d7 (out ++ sub base (Z.to_nat off) (Z.to_nat len)) (room - len)) as [(r & Hb & Hl & E)|(Hno & E)].
      { apply bytes_app in Hd0. tauto. } { rewrite app_length in Hf. lia. } { lia. } { lia. }
      * left. exists (sub base (Z.to_nat off) (Z.to_nat len) ++ r). repeat split.
        -- replace (cmd :: bs ++ d7) with ((cmd :: bs) ++ d7) by reflexivity.
           eapply db_cons; [exact Hic| |exact Hb].
           eapply pr_copy; [apply (sub_split base (Z.to_nat off) (Z.to_nat len)); lia| |lia].
           rewrite firstn_length. lia.
        -- rewrite app_length. lia.
        -- rewrite E, <- app_assoc. reflexivity.
      * right. split; [|exact E]. intros r Hr Er.
        destruct (Hcp r Hr) as (chunk & out' & -> & Hp & Hb).
        apply (Hno out' Hb). apply produces_copy in Hp. rewrite app_length in Er. lia.
Qed.

Lemma bytes_app_l l1 l2 : bytes (l1 ++ l2) -> bytes l1.
Proof. rewrite bytes_app. tauto. Qed.
Lemma bytes_app_r l1 l2 : bytes (l1 ++ l2) -> bytes l2.
Proof. rewrite bytes_app. tauto. Qed.

Lemma hdr_start l v rest : size_code l v -> (length l <= 5)%nat ->
  hdr_sz (l ++ rest) 0 0 = Ok (v mod two32, rest).
Proof.
  intros H Hl.
  pose proof (hdr_sz_code l v H rest 0 0 ltac:(cbn; lia) ltac:(reflexivity) ltac:(lia)) as E.
  change (7 * Z.of_nat 0) with 0 in E. rewrite E. f_equal. f_equal. f_equal.
  change (128 ^ Z.of_nat 0) with 1. lia.
Qed.

Lemma delta_apply_wf base h1 b h2 r body :
  size_code h1 b -> size_code h2 r -> (length h1 <= 5)%nat -> (length h2 <= 5)%nat ->
  bytes body -> Z.of_nat (length base) < two64 ->
  (exists out, delta_apply base (h1 ++ h2 ++ body) = Ok out /\
     b mod two32 = Z.of_nat (length base) /\
     r mod two32 = Z.of_nat (length out) /\ delta_body base body out) \/
  (delta_apply base (h1 ++ h2 ++ body) = Err (-1) /\
   forall out, delta_body base body out ->
     b mod two32 <> Z.of_nat (length base) \/ r mod two32 <> Z.of_nat (length out)).
Proof.
  intros H1 H2 L1 L2 Hb Hbase. unfold delta_apply.
  rewrite (hdr_start _ _ _ H1 L1). cbn [bindr].
  destruct (Z.eqb_spec (b mod two32) (Z.of_nat (length base))) as [Eb|Nb]; cbn [negb].
  2:{ right. auto. }
  rewrite (hdr_start _ _ _ H2 L2). cbn [bindr].
  assert (Hr : 0 <= r mod two32 < two32) by (apply Z.mod_pos_bound; reflexivity).
  destruct (Z.leb_spec two64 (r mod two32 + 1)); [unfold two64, two32 in *; lia|].
  destruct (apply_loop_correct base (length body) body [] (r mod two32)) as [(o & Ho & Hl & E)|(Hno & E)];
    auto; try (unfold two64, two32 in *; lia).
  - left. exists o. cbn [app] in E. auto.
  - right. split; [exact E|]. intros out Ho. right. intros Er. apply (Hno out Ho). auto.
Qed.

Lemma delta_apply_no_fuel_issue base delta : bytes delta -> Z.of_nat (length base) < two64 ->
  delta_apply base delta <> NoFuel /\
  (forall c, delta_apply base delta = Err c -> c = -1).
Proof.
  intros Hd Hbase. unfold delta_apply.
  assert (Hh : forall d r s, hdr_sz d r s <> NoFuel /\ forall c, hdr_sz d r s = Err c -> c = -1).
  { induction d as [|c d IH]; intros r s; cbn [hdr_sz].
    - split; [discriminate|]. intros c [= <-]. reflexivity.
    - destruct (32 <=? s); [split; discriminate|]. destruct (_ =? 0); [split; discriminate|apply IH]. }
  assert (Hsuf : forall d r s v d', hdr_sz d r s = Ok (v, d') -> bytes d -> bytes d').
  { induction d as [|c d IH]; intros r s v d' E B; cbn [hdr_sz] in E; [discriminate|].
    inversion B; subst. destruct (32 <=? s); [discriminate|].
    destruct (_ =? 0); [injection E as <- <-; assumption|eapply IH; eauto]. }
  assert (Hval : forall d r s v d', 0 <= r < two32 -> hdr_sz d r s = Ok (v, d') -> 0 <= v < two32).
  { induction d as [|c d IH]; intros r s v d' Hr E; cbn [hdr_sz] in E; [discriminate|].
    destruct (32 <=? s); [discriminate|].
    set (r' := Z.lor r _) in E.
    assert (0 <= r' < two32).
    { unfold r'. set (m := _ mod two32). assert (0 <= m < two32) by (apply Z.mod_pos_bound; reflexivity).
      change two32 with (2 ^ 32) in *. clearbody m. clear -Hr H.
      split; [apply Z.lor_nonneg; lia|].
      destruct (Z.eq_dec (Z.lor r m) 0) as [->|]; [reflexivity|].
      assert (0 <= Z.lor r m) by (apply Z.lor_nonneg; lia).
      apply Z.log2_lt_pow2; [lia|]. rewrite Z.log2_lor by lia.
      destruct (Z.eq_dec r 0) as [->|], (Z.eq_dec m 0) as [->|]; cbn [Z.log2];
      apply Z.max_lub_lt; try (apply Z.log2_lt_pow2; lia); lia. }
    destruct (_ =? 0); [injection E as <- <-; assumption|eapply IH; [|exact E]; assumption]. }
  destruct (hdr_sz delta 0 0) as [[b d]| c | |] eqn:E1; cbn [bindr].
  - destruct (negb _); [split; [discriminate|intros c [= <-]; reflexivity]|].
    destruct (hdr_sz d 0 0) as [[r d2]| c | |] eqn:E2; cbn [bindr].
    + destruct (two64 <=? r + 1); [split; [discriminate|intros c [= <-]; reflexivity]|].
      assert (Hr : 0 <= r < two32) by (eapply Hval; [|exact E2]; split; [lia|reflexivity]).
      destruct (apply_loop_correct base (length d2) d2 [] r) as [(o & Ho & Hl & E)|(Hno & E)]; auto.
      * eapply Hsuf; [exact E2|]. eapply Hsuf; eauto.
      * unfold two64, two32 in *; lia.
      * rewrite E. split; discriminate.
      * rewrite E. split; [discriminate|intros c [= <-]; reflexivity].
    + split; [discriminate|]. intros c' [= <-]. apply (proj2 (Hh d 0 0) c E2).
    + split; discriminate.
    + exfalso. apply (proj1 (Hh d 0 0) E2).
  - split; [discriminate|]. intros c' [= <-]. apply (proj2 (Hh delta 0 0) c E1).
  - split; discriminate.
  - exfalso. apply (proj1 (Hh delta 0 0) E1).
Qed.

(** Every success has that shape. *)
Lemma hdr_inv d v rest : bytes d -> hdr_sz d 0 0 = Ok (v, rest) ->
  exists l w, d = l ++ rest /\ size_code l w /\ (length l <= 5)%nat /\ v = w mod two32.
Proof.
  intros Hd E. destruct (size_code_or_open d Hd) as [(l & w & rest' & -> & Hc)|Hop].
  - destruct (Nat.le_gt_cases (length l) 5) as [Hl|Hl].
    + rewrite (hdr_start _ _ _ Hc Hl) in E. injection E as <- <-. exists l, w. auto.
    + pose proof (hdr_sz_ub l w Hc rest' 0 0 ltac:(lia) ltac:(lia)) as E2.
      change (7 * Z.of_nat 0) with 0 in E2. congruence.
  - destruct (hdr_sz_open d Hop 0 0); congruence.
Qed.

Lemma delta_apply_ok_inv base delta out :
  bytes delta -> Z.of_nat (length base) < two64 ->
  delta_apply base delta = Ok out ->
  exists h1 b h2 r body,
    delta = h1 ++ h2 ++ body /\ size_code h1 b /\ size_code h2 r /\
    b mod two32 = Z.of_nat (length base) /\ r mod two32 = Z.of_nat (length out) /\
    delta_body base body out.
Proof.
  intros Hd Hbase E. pose proof E as E0. unfold delta_apply in E.
  destruct (hdr_sz delta 0 0) as [[b1 d1]| | |] eqn:E1; cbn [bindr] in E; try discriminate.
  destruct (negb _); [discriminate|].
  destruct (hdr_sz d1 0 0) as [[r1 d2]| | |] eqn:E2; cbn [bindr] in E; try discriminate.
  destruct (hdr_inv _ _ _ Hd E1) as (h1 & b & -> & C1 & L1 & ->).
  apply bytes_app_r in Hd.
  destruct (hdr_inv _ _ _ Hd E2) as (h2 & r & -> & C2 & L2 & ->).
  apply bytes_app_r in Hd.
  destruct (delta_apply_wf base h1 b h2 r d2 C1 C2 L1 L2 Hd Hbase) as [(o & Eo & Hb & Hr & Hbo)|(Eo & _)];
    rewrite E0 in Eo; [|discriminate].
  injection Eo as <-. exists h1, b, h2, r, d2. auto 10.
Qed.

Lemma delta_apply_ub base delta : bytes delta -> Z.of_nat (length base) < two64 ->
  delta_apply base delta = UB ->
  exists pre l rest, delta = pre ++ l ++ rest /\ (5 <= length l)%nat /\
    Forall (fun b => 128 <= b < 256) l /\
    (pre = [] \/ exists b, size_code pre b /\ b mod two32 = Z.of_nat (length base)).
Proof.
  intros Hd Hbase E. pose proof E as E0. unfold delta_apply in E.
  assert (Hub : forall d, bytes d -> hdr_sz d 0 0 = UB ->
     exists l rest, d = l ++ rest /\ (5 <= length l)%nat /\ Forall (fun b => 128 <= b < 256) l).
  { intros d Bd Ed.
    assert (Hgen : forall d r k, bytes d -> (k <= 5)%nat -> hdr_sz d r (7 * Z.of_nat k) = UB ->
      exists l rest, d = l ++ rest /\ (5 <= k + length l)%nat /\ Forall (fun b => 128 <= b < 256) l).
    { clear. induction d as [|c d IH]; intros r k B Hk E; cbn [hdr_sz] in E; [discriminate|].
      inversion B as [|? ? Hc Hd]; subst.
      destruct (Z.leb_spec 32 (7 * Z.of_nat k)).
      - exists [], (c :: d). split; [reflexivity|]. split; [cbn; lia|constructor].
      - rewrite land_128_0 in E by exact Hc. destruct (Z.ltb_spec c 128); [discriminate|].
        replace (7 * Z.of_nat k + 7) with (7 * Z.of_nat (S k)) in E by lia.
        destruct (IH _ (S k) Hd ltac:(lia) E) as (l & rest & -> & Hl & Hf).
        exists (c :: l), rest. split; [reflexivity|]. split; [cbn; lia|].
        constructor; [unfold is_byte in Hc; lia|assumption]. }
    destruct (Hgen d 0 O Bd ltac:(lia) Ed) as (l & rest & -> & Hl & Hf). eauto 6. }
  destruct (hdr_sz delta 0 0) as [[b1 d1]| | |] eqn:E1; cbn [bindr] in E; try discriminate.
  - destruct (Z.eqb_spec b1 (Z.of_nat (length base))) as [Eb|]; cbn [negb] in E; [|discriminate].
    destruct (hdr_inv _ _ _ Hd E1) as (h1 & b & -> & C1 & L1 & ->).
    apply bytes_app_r in Hd.
    destruct (hdr_sz d1 0 0) as [[r1 d2]| | |] eqn:E2; cbn [bindr] in E; try discriminate.
    + exfalso. destruct (hdr_inv _ _ _ Hd E2) as (h2 & r & -> & C2 & L2 & ->).
      apply bytes_app_r in Hd.
      destruct (delta_apply_wf base h1 b h2 r d2 C1 C2 L1 L2 Hd Hbase) as [(o & Eo & _)|(Eo & _)]; congruence.
    + destruct (Hub _ Hd E2) as (l & rest & -> & Hl & Hf). exists h1, l, rest. eauto 8.
  - destruct (Hub _ Hd E1) as (l & rest & -> & Hl & Hf). exists [], l, rest. auto.
Qed.
