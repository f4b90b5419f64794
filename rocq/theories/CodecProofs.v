From Verif Require Import Base Str CodecModel CodecSpec.

Lemma forallb_nat (n : nat) (f : Z -> bool) :
  forallb f (map Z.of_nat (seq 0 n)) = true -> forall v, 0 <= v < Z.of_nat n -> f v = true.
Proof.
  intros H v Hv. rewrite forallb_forall in H. apply H. apply in_map_iff.
  exists (Z.to_nat v). rewrite in_seq. lia.
Qed.

Ltac leq := repeat (reflexivity || lia || match goal with
  | |- _ :: _ = _ :: _ => f_equal
  | |- digit64 _ = digit64 _ => f_equal
  end).

(** *** base64 *)
Lemma b64c_digit v : 0 <= v < 64 -> b64c v = digit64 v.
Proof.
  intros H. apply Z.eqb_eq.
  exact (forallb_nat 64 (fun v => b64c v =? digit64 v) ltac:(vm_compute; reflexivity) v H).
Qed.
Lemma b64v_digit v : 0 <= v < 64 -> b64v (digit64 v) = v.
Proof.
  intros H. apply Z.eqb_eq.
  exact (forallb_nat 64 (fun v => b64v (digit64 v) =? v) ltac:(vm_compute; reflexivity) v H).
Qed.
Lemma b64v_class c : is_byte c ->
  (0 <= b64v c < 64 /\ (in_alphabet64 c \/ c = 61)) \/ (b64v c = -1 /\ ~ (in_alphabet64 c \/ c = 61)).
Proof.
  intros H.
  assert (H1 := byte_sweep (fun c => if ((65 <=? c) && (c <=? 90)) || ((97 <=? c) && (c <=? 122)) || ((48 <=? c) && (c <=? 57)) || (c =? 43) || (c =? 47) || (c =? 61)
     then (0 <=? b64v c) && (b64v c <? 64) else b64v c =? -1) ltac:(vm_compute; reflexivity) c H).
  cbv beta in H1. unfold in_alphabet64.
  destruct (((65 <=? c) && (c <=? 90)) || ((97 <=? c) && (c <=? 122)) || ((48 <=? c) && (c <=? 57)) || (c =? 43) || (c =? 47) || (c =? 61)) eqn:E; [left|right]; lia.
Qed.

Lemma land_3 x : Z.land x 3 = x mod 4.
Proof. exact (land_ones x 2 ltac:(lia)). Qed.
Lemma land_63 x : Z.land x 63 = x mod 64.
Proof. exact (land_ones x 6 ltac:(lia)). Qed.

Lemma sx1 a : is_byte a -> Z.shiftr a 2 = a / 4.
Proof. intros. rewrite shiftr_div by lia. reflexivity. Qed.
Lemma sx2 a b : is_byte a -> is_byte b -> Z.lor (Z.shiftl (Z.land a 3) 4) (Z.shiftr b 4) = a mod 4 * 16 + b / 16.
Proof.
  unfold is_byte. intros. rewrite land_3, shiftl_mul, shiftr_div by lia. change (2^4) with 16.
  rewrite Z.lor_comm, (lor_disjoint _ _ 4); [lia|lia|change (2^4) with 16; lia|].
  change (2^4) with 16. apply Z.mod_mul. lia.
Qed.
Lemma sx3 b c : is_byte b -> is_byte c -> Z.lor (Z.shiftl (Z.land b 15) 2) (Z.shiftr c 6) = b mod 16 * 4 + c / 64.
Proof.
  unfold is_byte. intros. rewrite land_15, shiftl_mul, shiftr_div by lia. change (2^2) with 4. change (2^6) with 64.
  rewrite Z.lor_comm, (lor_disjoint _ _ 2); [lia|lia|change (2^2) with 4; lia|].
  change (2^2) with 4. apply Z.mod_mul. lia.
Qed.

Lemma list3_ind (P : list Z -> Prop) :
  P [] -> (forall a, P [a]) -> (forall a b, P [a; b]) ->
  (forall a b c r, P r -> P (a :: b :: c :: r)) -> forall l, P l.
Proof.
  intros H0 H1 H2 H3.
  assert (forall n l, (length l <= n)%nat -> P l) as H.
  { induction n as [|n IH]; intros l Hl.
    - destruct l; [auto|cbn in Hl; lia].
    - destruct l as [|a [|b [|c r]]]; auto. apply H3, IH. cbn in Hl; lia. }
  intros l. eapply H; eauto.
Qed.

Lemma enc64_base64 d : bytes d -> enc64 d = base64 d.
Proof.
  induction d as [|a|a b|a b c r IH] using list3_ind; intros Hb.
  - reflexivity.
  - inversion Hb as [|? ? Ha]; subst. unfold is_byte in Ha.
    cbn [enc64 base64]. unfold group64. cbn [firstn Nat.sub repeat app].
    rewrite sx1, sx2 by (unfold is_byte; lia).
    rewrite !b64c_digit by lia.
    leq.
  - inversion Hb as [|? ? Ha Hb']; subst. inversion Hb' as [|? ? Hb2]; subst.
    cbn [enc64 base64]. unfold group64. cbn [firstn Nat.sub repeat app].
    rewrite sx1, sx2 by assumption.
    rewrite land_15, shiftl_mul by lia. change (2^2) with 4.
    unfold is_byte in *.
    rewrite !b64c_digit by lia.
    leq.
  - inversion Hb as [|? ? Ha Hb']; subst. inversion Hb' as [|? ? Hb2 Hb'']; subst. inversion Hb'' as [|? ? Hc Hr]; subst.
    cbn [enc64 base64]. unfold group64. cbn [firstn Nat.sub repeat app].
    rewrite sx1, sx2, sx3, land_63 by assumption.
    unfold is_byte in *.
    rewrite !b64c_digit by lia.
    rewrite IH by assumption.
    leq.
Qed.

Lemma dx1 a b : 0 <= a < 64 -> 0 <= b < 64 -> Z.land (Z.lor (Z.shiftl a 2) (Z.shiftr (Z.land b 48) 4)) 255 = a * 4 + b / 16.
Proof.
  intros Ha Hb.
  assert (Z.shiftr (Z.land b 48) 4 = b / 16) as ->.
  { apply Z.eqb_eq. exact (forallb_nat 64 (fun b => Z.shiftr (Z.land b 48) 4 =? b / 16) ltac:(vm_compute; reflexivity) b Hb). }
  rewrite shiftl_mul by lia. change (2^2) with 4.
  rewrite Z.lor_comm, (lor_disjoint _ _ 2); [|lia|change (2^2) with 4; lia|change (2^2) with 4; apply Z.mod_mul; lia].
  rewrite land_255. lia.
Qed.
Lemma dx2 b c : 0 <= b < 64 -> 0 <= c < 64 ->
  Z.land (Z.lor (Z.shiftl (Z.land b 15) 4) (Z.shiftr (Z.land c 60) 2)) 255 = b mod 16 * 16 + c / 4.
Proof.
  intros Hb Hc.
  assert (Z.shiftr (Z.land c 60) 2 = c / 4) as ->.
  { apply Z.eqb_eq. exact (forallb_nat 64 (fun b => Z.shiftr (Z.land b 60) 2 =? b / 4) ltac:(vm_compute; reflexivity) c Hc). }
  rewrite land_15, shiftl_mul by lia. change (2^4) with 16.
  rewrite Z.lor_comm, (lor_disjoint _ _ 4); [|lia|change (2^4) with 16; lia|change (2^4) with 16; apply Z.mod_mul; lia].
  rewrite land_255. lia.
Qed.
Lemma dx3 c d : 0 <= c < 64 -> 0 <= d < 64 ->
  Z.land (Z.lor (Z.shiftl (Z.land c 3) 6) (Z.land d 63)) 255 = c mod 4 * 64 + d.
Proof.
  intros Hc Hd. rewrite land_3, land_63, shiftl_mul by lia. change (2^6) with 64.
  rewrite Z.lor_comm, (lor_disjoint _ _ 6); [|lia|change (2^6) with 64; lia|change (2^6) with 64; apply Z.mod_mul; lia].
  rewrite land_255. lia.
Qed.

Lemma dec64_step x0 x1 x2 x3 r out a b c d :
  b64v x0 = a -> b64v x1 = b -> b64v x2 = c -> b64v x3 = d ->
  0 <= a < 64 -> 0 <= b < 64 -> 0 <= c < 64 -> 0 <= d < 64 ->
  dec64_loop (x0 :: x1 :: x2 :: x3 :: r) out =
  dec64_loop r (out ++ [a * 4 + b / 16; b mod 16 * 16 + c / 4; c mod 4 * 64 + d]).
Proof.
  intros <- <- <- <- Ha Hb Hc Hd.
  cbn [dec64_loop].
  rewrite dx1, dx2, dx3 by assumption.
  destruct ((b64v x0 <? 0) || (b64v x1 <? 0) || (b64v x2 <? 0) || (b64v x3 <? 0)) eqn:E; [lia|reflexivity].
Qed.

Lemma b64v_pad : b64v 61 = 0.
Proof. reflexivity. Qed.

Lemma base64_len d : (length (base64 d) mod 4 = 0)%nat.
Proof.
  induction d as [|a|a b|a b c r IH] using list3_ind; try reflexivity.
  cbn [base64]. rewrite app_length. unfold group64. cbn [firstn Nat.sub repeat app length].
  rewrite <- Nat.add_mod_idemp_r by lia. rewrite IH. reflexivity.
Qed.

Lemma dec64_loop_base64 d : bytes d -> forall out,
  dec64_loop (base64 d) out = Ok (out ++ d ++ repeat 0 (pad64 (length d))).
Proof.
  induction d as [|a|a b|a b c r IH] using list3_ind; intros Hb out.
  - cbn. rewrite app_nil_r. reflexivity.
  - inversion Hb as [|? ? Ha]; subst. unfold is_byte in Ha.
    unfold base64, group64. cbn [firstn Nat.sub repeat app].
    erewrite dec64_step; [|apply b64v_digit|apply b64v_digit|apply b64v_pad|apply b64v_pad|..]; try lia.
    cbn [dec64_loop length]. change (pad64 1) with 2%nat. change (pad64 2) with 1%nat. cbn [repeat app]. f_equal. f_equal. 
    leq.
  - inversion Hb as [|? ? Ha Hb']; subst. inversion Hb' as [|? ? Hb2]; subst. unfold is_byte in *.
    unfold base64, group64. cbn [firstn Nat.sub repeat app].
    erewrite dec64_step; [|apply b64v_digit|apply b64v_digit|apply b64v_digit|apply b64v_pad|..]; try lia.
    cbn [dec64_loop length]. change (pad64 1) with 2%nat. change (pad64 2) with 1%nat. cbn [repeat app]. f_equal. f_equal.
    leq.
  - inversion Hb as [|? ? Ha Hb']; subst. inversion Hb' as [|? ? Hb2 Hb'']; subst. inversion Hb'' as [|? ? Hc Hr]; subst.
    unfold is_byte in *.
    cbn [base64]. unfold group64. cbn [firstn Nat.sub repeat app].
    erewrite dec64_step; [|apply b64v_digit|apply b64v_digit|apply b64v_digit|apply b64v_digit|..]; try lia.
    rewrite IH by assumption. f_equal. rewrite <- app_assoc. f_equal.
    assert (pad64 (length (a :: b :: c :: r)) = pad64 (length r)) as ->.
    { unfold pad64. replace (length (a :: b :: c :: r)) with (length r + 1 * 3)%nat by (cbn; lia).
      rewrite Nat.mod_add by lia. reflexivity. }
    cbn [app]. leq.
Qed.

Lemma list4_ind (P : list Z -> Prop) :
  P [] -> (forall l, l <> [] -> (length l < 4)%nat -> P l) ->
  (forall a b c d r, P r -> P (a :: b :: c :: d :: r)) -> forall l, P l.
Proof.
  intros H0 H1 H3.
  assert (forall n l, (length l <= n)%nat -> P l) as H.
  { induction n as [|n IH]; intros l Hl.
    - destruct l; [auto|cbn in Hl; lia].
    - destruct l as [|a [|b [|c [|d r]]]]; auto; try (apply H1; [discriminate|cbn; lia]). apply H3, IH. cbn in Hl; lia. }
  intros l. eapply H; eauto.
Qed.

Lemma mod4_cons4 {A} (a b c d : A) r : (length (a :: b :: c :: d :: r) mod 4 = length r mod 4)%nat.
Proof. replace (length (a :: b :: c :: d :: r)) with (length r + 1 * 4)%nat by (cbn; lia). apply Nat.mod_add. lia. Qed.

Lemma dec64_loop_total s : bytes s -> (length s mod 4 = 0)%nat -> forall out,
  (Forall (fun c => in_alphabet64 c \/ c = 61) s /\
     exists d, dec64_loop s out = Ok (out ++ d) /\ bytes d /\ length d = (length s / 4 * 3)%nat) \/
  (~ Forall (fun c => in_alphabet64 c \/ c = 61) s /\ dec64_loop s out = Err (-1)).
Proof.
  induction s as [|l Hn Hl|x0 x1 x2 x3 r IH] using list4_ind; intros Hb Hm out.
  - left. split; [constructor|]. exists []. rewrite app_nil_r. repeat split. constructor.
  - exfalso. rewrite Nat.mod_small in Hm by assumption. destruct l; [congruence|discriminate].
  - rewrite mod4_cons4 in Hm.
    inversion Hb as [|? ? B0 Hb1]; subst. inversion Hb1 as [|? ? B1 Hb2]; subst.
    inversion Hb2 as [|? ? B2 Hb3]; subst. inversion Hb3 as [|? ? B3 Hb4]; subst.
    destruct (b64v_class x0 B0) as [[V0 A0]|[V0 A0]];
      [|right; split; [intros F; inversion F; tauto|cbn [dec64_loop]; rewrite V0; reflexivity]].
    destruct (b64v_class x1 B1) as [[V1 A1]|[V1 A1]];
      [|right; split; [intros F; inversion F as [|? ? ? F1]; inversion F1; tauto|cbn [dec64_loop]; rewrite V1, !orb_true_r; reflexivity]].
    destruct (b64v_class x2 B2) as [[V2 A2]|[V2 A2]];
      [|right; split; [intros F; inversion F as [|? ? ? F1]; inversion F1 as [|? ? ? F2]; inversion F2; tauto|cbn [dec64_loop]; rewrite V2, !orb_true_r; reflexivity]].
    destruct (b64v_class x3 B3) as [[V3 A3]|[V3 A3]];
      [|right; split; [intros F; inversion F as [|? ? ? F1]; inversion F1 as [|? ? ? F2]; inversion F2 as [|? ? ? F3]; inversion F3; tauto|cbn [dec64_loop]; rewrite V3, !orb_true_r; reflexivity]].
    erewrite dec64_step by (reflexivity || assumption).
    destruct (IH Hb4 Hm (out ++ [b64v x0 * 4 + b64v x1 / 16; b64v x1 mod 16 * 16 + b64v x2 / 4; b64v x2 mod 4 * 64 + b64v x3]))
      as [[F (d & E & Bd & Ld)]|[F E]].
    + left. split; [do 4 (constructor; [assumption|]); assumption|].
      eexists. split; [rewrite E, <- app_assoc; reflexivity|]. split.
      * apply Forall_app. split; [|assumption]. repeat constructor; unfold is_byte; lia.
      * rewrite app_length, Ld. cbn [length].
        replace (S (S (S (S (length r))))) with (length r + 1 * 4)%nat by lia. rewrite Nat.div_add by lia. lia.
    + right. split; [|assumption]. intros F'. apply F.
      inversion F' as [|? ? ? F1]; inversion F1 as [|? ? ? F2]; inversion F2 as [|? ? ? F3]; inversion F3; assumption.
Qed.

(** *** base85 *)
Lemma b85v_c v : 0 <= v < 85 -> b85v (b85c v) - 1 = v.
Proof.
  intros H. apply Z.eqb_eq.
  exact (forallb_nat 85 (fun v => b85v (b85c v) - 1 =? v) ltac:(vm_compute; reflexivity) v H).
Qed.
Lemma b85v_bound c : -1 <= b85v c <= 85.
Proof.
  unfold b85v. destruct (Z.ltb_spec c 256) as [Hc|Hc].
  - destruct (Z.leb_spec 0 c) as [H0|H0].
    + assert (H1 := byte_sweep (fun c => (-1 <=? nth (Z.to_nat c) b85_table 0) && (nth (Z.to_nat c) b85_table 0 <=? 85)) ltac:(vm_compute; reflexivity) c ltac:(unfold is_byte; lia)).
      cbv beta in H1. lia.
    + replace (Z.to_nat c) with O by lia. cbn. lia.
  - rewrite nth_overflow; [lia|]. unfold b85_table. cbn [length]. lia.
Qed.

Definition num4 (a b c d : Z) := a * 16777216 + b * 65536 + c * 256 + d.
Lemma shl_acc k acc ch i :
  is_byte ch -> 0 <= i -> i = 8 * k -> 0 <= k -> acc mod 2 ^ (i + 8) = 0 -> Z.lor acc (Z.shiftl ch i) = acc + ch * 2 ^ i.
Proof.
  unfold is_byte. intros Hc Hi Hk Hk0 Hm. rewrite shiftl_mul by lia.
  rewrite Z.lor_comm, (lor_disjoint _ _ (i + 8)); [lia|lia| |assumption].
  rewrite Z.pow_add_r by lia. change (2 ^ 8) with 256. assert (0 < 2 ^ i) by (apply Z.pow_pos_nonneg; lia). nia.
Qed.

Definition pad4 (d : list Z) : Z :=
  match d with
  | a :: b :: c :: e :: _ => num4 a b c e
  | [a; b; c] => num4 a b c 0
  | [a; b] => num4 a b 0 0
  | [a] => num4 a 0 0 0
  | [] => 0
  end.
Lemma b85_acc_eq d : bytes d -> b85_acc d 24 0 4 = (pad4 d, skipn 4 d).
Proof.
  intros Hb.
  assert (forall a, is_byte a -> Z.lor 0 (Z.shiftl a 24) = a * 16777216) as S1.
  { intros a Ha. rewrite (shl_acc 3) by (try assumption; try lia; reflexivity). reflexivity. }
  assert (forall a b, is_byte a -> is_byte b -> Z.lor (a * 16777216) (Z.shiftl b 16) = a * 16777216 + b * 65536) as S2.
  { intros a b Ha Hb'. rewrite (shl_acc 2 _ b 16 Hb'); [reflexivity|lia|lia|lia|].
    change (2 ^ (16 + 8)) with 16777216. apply Z.mod_mul. lia. }
  assert (forall a b c, is_byte a -> is_byte b -> is_byte c -> Z.lor (a * 16777216 + b * 65536) (Z.shiftl c 8) = a * 16777216 + b * 65536 + c * 256) as S3.
  { intros a b c Ha Hb' Hc. rewrite (shl_acc 1 _ c 8 Hc); [reflexivity|lia|lia|lia|].
    change (2 ^ (8 + 8)) with 65536. replace (a * 16777216 + b * 65536) with ((a * 256 + b) * 65536) by lia. apply Z.mod_mul. lia. }
  assert (forall a b c e, is_byte a -> is_byte b -> is_byte c -> is_byte e -> Z.lor (a * 16777216 + b * 65536 + c * 256) (Z.shiftl e 0) = num4 a b c e) as S4.
  { intros a b c e Ha Hb' Hc He. rewrite (shl_acc 0 _ e 0 He); [unfold num4; change (2^0) with 1; lia|lia|lia|lia|].
    change (2 ^ (0 + 8)) with 256. replace (a * 16777216 + b * 65536 + c * 256) with ((a * 65536 + b * 256 + c) * 256) by lia. apply Z.mod_mul. lia. }
  destruct d as [|a [|b [|c [|e r]]]]; cbn [b85_acc skipn pad4]; repeat (match goal with H : bytes (_ :: _) |- _ => inversion H; subst; clear H | H : Forall is_byte (_ :: _) |- _ => inversion H; subst; clear H end);
    change (24 - 8) with 16; change (16 - 8) with 8; change (8 - 8) with 0;
    rewrite ?S1, ?S2, ?S3, ?S4 by assumption; unfold num4; try reflexivity; (apply f_equal2; [lia|reflexivity]).
Qed.

Lemma pad4_bound d : bytes d -> 0 <= pad4 d < 4294967296.
Proof.
  intros Hb. destruct d as [|a [|b [|c [|e r]]]]; cbn [pad4]; repeat (match goal with H : bytes (_ :: _) |- _ => inversion H; subst; clear H | H : Forall is_byte (_ :: _) |- _ => inversion H; subst; clear H end);
  unfold num4, is_byte in *; lia.
Qed.

Lemma b85_digits_5 acc : b85_digits 5 acc [] =
  [b85c (acc / 52200625 mod 85); b85c (acc / 614125 mod 85); b85c (acc / 7225 mod 85); b85c (acc / 85 mod 85); b85c (acc mod 85)].
Proof.
  cbn [b85_digits]. rewrite !Z.div_div by lia. reflexivity.
Qed.

Definition group85 (acc : Z) : list Z := b85_digits 5 acc [].

Lemma dec85_group acc : 0 <= acc < 4294967296 -> forall r,
  exists a4, dec85_four 4 (group85 acc ++ r) 0 = Ok (a4, b85c (acc mod 85) :: r) /\
    a4 = acc / 85 /\ 0 <= a4 < 52200625.
Proof.
  intros Ha r. unfold group85. rewrite b85_digits_5. cbn [app dec85_four].
  rewrite !b85v_c by lia.
  destruct (Z.ltb_spec (acc / 52200625 mod 85) 0); [lia|].
  destruct (Z.ltb_spec (acc / 614125 mod 85) 0); [lia|].
  destruct (Z.ltb_spec (acc / 7225 mod 85) 0); [lia|].
  destruct (Z.ltb_spec (acc / 85 mod 85) 0); [lia|].
  eexists. split; [reflexivity|]. unfold two32.
  assert (acc / 52200625 < 85) by lia.
  rewrite (Z.mod_small (0 * 85 + acc / 52200625 mod 85)) by lia.
  rewrite (Z.mod_small (acc / 52200625) 85) by lia.
  set (x := acc / 52200625) in *.
  assert (acc / 614125 = 85 * x + (acc / 614125) mod 85) as E1 by (unfold x; lia).
  set (y := acc / 614125) in *.
  assert (acc / 7225 = 85 * y + (acc / 7225) mod 85) as E2 by (unfold y; lia).
  set (z := acc / 7225) in *.
  assert (acc / 85 = 85 * z + (acc / 85) mod 85) as E3 by (unfold z; lia).
  set (w := acc / 85) in *.
  rewrite (Z.mod_small ((0 * 85 + x) * 85 + y mod 85)) by lia.
  rewrite (Z.mod_small (((0 * 85 + x) * 85 + y mod 85) * 85 + z mod 85)) by lia.
  rewrite (Z.mod_small ((((0 * 85 + x) * 85 + y mod 85) * 85 + z mod 85) * 85 + w mod 85)) by lia.
  lia.
Qed.

Lemma rot8 acc : 0 <= acc < 4294967296 ->
  (Z.lor (Z.shiftl acc 8) (Z.shiftr acc 24)) mod two32 = (acc mod 16777216) * 256 + acc / 16777216.
Proof.
  intros H. rewrite shiftl_mul, shiftr_div by lia. change (2^8) with 256. change (2^24) with 16777216.
  rewrite Z.lor_comm, (lor_disjoint _ _ 8); [|lia|change (2^8) with 256; lia|change (2^8) with 256; apply Z.mod_mul; lia].
  unfold two32. lia.
Qed.
Lemma land_255' x : Z.land x 255 = x mod 256.
Proof. apply land_255. Qed.

Lemma dec85_out_eq a b c e out : is_byte a -> is_byte b -> is_byte c -> is_byte e -> forall n, (n <= 4)%nat ->
  dec85_out n (num4 a b c e) out = out ++ firstn n [a; b; c; e].
Proof.
  unfold is_byte. intros Ha Hb Hc He n Hn.
  assert (R1 : forall a b c e, 0 <= a < 256 -> 0 <= b < 256 -> 0 <= c < 256 -> 0 <= e < 256 ->
     (Z.lor (Z.shiftl (num4 a b c e) 8) (Z.shiftr (num4 a b c e) 24)) mod two32 = num4 b c e a).
  { intros. rewrite rot8; unfold num4 in *; lia. }
  assert (R2 : forall a b c e, 0 <= a < 256 -> 0 <= b < 256 -> 0 <= c < 256 -> 0 <= e < 256 -> Z.land (num4 a b c e) 255 = e).
  { intros. rewrite land_255. unfold num4 in *. lia. }
  destruct n as [|[|[|[|[|n]]]]]; try lia; cbn [dec85_out firstn];
    rewrite ?R1, ?R2 by lia; rewrite <- ?app_assoc, ?app_nil_r; reflexivity.
Qed.

Lemma dec85_enc f d out : bytes d -> forall fe,
  (length d <= fe)%nat -> (length d < f)%nat ->
  dec85_loop f (enc85_loop fe d) (length d) out = Ok (out ++ d).
Proof.
  revert d out. induction f as [|f IH]; intros d out Hb fe Hfe Hf; [lia|].
  destruct d as [|x d0] eqn:Ed.
  - cbn [length dec85_loop]. rewrite app_nil_r. reflexivity.
  - rewrite <- Ed in *. destruct fe as [|fe]; [rewrite Ed in Hfe; cbn in Hfe; lia|].
    assert (Hlen : (1 <= length d)%nat) by (rewrite Ed; cbn; lia).
    assert (En : enc85_loop (S fe) d = group85 (pad4 d) ++ enc85_loop fe (skipn 4 d)).
    { cbn [enc85_loop]. rewrite b85_acc_eq by assumption. rewrite Ed. reflexivity. }
    rewrite En. cbn [dec85_loop].
    destruct (length d) as [|n] eqn:El; [lia|].
    destruct (dec85_group (pad4 d) (pad4_bound d Hb) (enc85_loop fe (skipn 4 d))) as (a4 & E4 & Ea & Ba).
    rewrite E4. cbn [bindr]. rewrite b85v_c by lia.
    assert (Hp := pad4_bound d Hb).
    destruct (Z.ltb_spec (pad4 d mod 85) 0); [lia|].
    change (4294967295 / 85) with 50529027.
    unfold two32. rewrite (Z.mod_small (a4 * 85)) by lia.
    destruct ((50529027 <? a4) || (4294967295 - pad4 d mod 85 <? a4 * 85)) eqn:E; [lia|].
    rewrite (Z.mod_small (a4 * 85 + pad4 d mod 85)) by lia.
    replace (a4 * 85 + pad4 d mod 85) with (pad4 d) by lia.
    rewrite <- El in Hlen, Hfe, Hf |- *.
    assert (exists a b c e, pad4 d = num4 a b c e /\ is_byte a /\ is_byte b /\ is_byte c /\ is_byte e /\
       firstn (Nat.min (length d) 4) [a; b; c; e] = firstn 4 d) as (a & b & c & e & P & Ba' & Bb & Bc & Be & F).
    { clear - Hb Hlen. assert (is_byte 0) by (unfold is_byte; lia).
      destruct d as [|a [|b [|c [|e r]]]]; repeat (match goal with H : bytes (_ :: _) |- _ => inversion H; subst; clear H | H : Forall is_byte (_ :: _) |- _ => inversion H; subst; clear H end).
      - cbn in Hlen; lia.
      - exists a, 0, 0, 0. repeat split; assumption || (unfold is_byte in *; lia).
      - exists a, b, 0, 0. repeat split; assumption || (unfold is_byte in *; lia).
      - exists a, b, c, 0. repeat split; assumption || (unfold is_byte in *; lia).
      - exists a, b, c, e. repeat split; try (assumption || (unfold is_byte in *; lia)).
        replace (Nat.min (length (a :: b :: c :: e :: r)) 4) with 4%nat by (cbn; lia). reflexivity. }
    rewrite P, dec85_out_eq by (assumption || lia). rewrite F.
    replace (length d - Nat.min (length d) 4)%nat with (length (skipn 4 d)) by (rewrite skipn_length; lia).
    rewrite IH.
    + rewrite <- app_assoc, firstn_skipn. reflexivity.
    + rewrite <- (firstn_skipn 4 d) in Hb. apply Forall_app in Hb. tauto.
    + rewrite skipn_length. lia.
    + rewrite skipn_length. lia.
Qed.

Lemma enc85_length fe d : bytes d -> (length d <= fe)%nat -> length (enc85_loop fe d) = ((length d + 3) / 4 * 5)%nat.
Proof.
  revert d. induction fe as [|fe IH]; intros d Hb Hfe.
  - destruct d; [reflexivity|cbn in Hfe; lia].
  - destruct d as [|x d0] eqn:Ed; [reflexivity|]. rewrite <- Ed in *.
    assert (Hlen : (1 <= length d)%nat) by (rewrite Ed; cbn; lia).
    assert (En : enc85_loop (S fe) d = group85 (pad4 d) ++ enc85_loop fe (skipn 4 d)).
    { cbn [enc85_loop]. rewrite b85_acc_eq by assumption. rewrite Ed. reflexivity. }
    rewrite En, app_length, IH.
    + rewrite skipn_length. unfold group85. rewrite b85_digits_5. cbn [length].
      destruct (Nat.ltb_spec (length d) 4) as [H|H].
      * replace (length d - 4)%nat with 0%nat by lia. cbn. destruct (length d) as [|[|[|[|n]]]]; try lia; reflexivity.
      * replace (length d + 3)%nat with (length d - 4 + 3 + 1 * 4)%nat by lia. rewrite Nat.div_add by lia. lia.
    + rewrite <- (firstn_skipn 4 d) in Hb. apply Forall_app in Hb. tauto.
    + rewrite skipn_length. lia.
Qed.

Lemma dec85_four_total n s acc : (n <= length s)%nat ->
  dec85_four n s acc = Err (-1) \/ exists a, dec85_four n s acc = Ok (a, skipn n s) /\ (0 <= acc < two32 -> 0 <= a < two32).
Proof.
  revert s acc. induction n as [|n IH]; intros s acc Hl.
  - right. exists acc. cbn. auto.
  - destruct s as [|c s]; [cbn in Hl; lia|]. cbn [dec85_four].
    destruct (Z.ltb_spec (b85v c - 1) 0) as [H|H]; [left; reflexivity|].
    destruct (IH s ((acc * 85 + (b85v c - 1)) mod two32)) as [E|(a & E & B)]; [cbn in Hl; lia|left; assumption|right].
    exists a. split; [exact E|]. intros _. apply B. unfold two32. lia.
Qed.

Lemma dec85_out_len n acc out : length (dec85_out n acc out) = (length out + n)%nat.
Proof.
  revert acc out. induction n as [|n IH]; intros acc out; cbn [dec85_out]; [lia|].
  rewrite IH, app_length. cbn. lia.
Qed.

Lemma dec85_total f s n out : (n < f)%nat -> ((n + 3) / 4 * 5 <= length s)%nat ->
  dec85_loop f s n out = Err (-1) \/ exists d, dec85_loop f s n out = Ok d /\ length d = (length out + n)%nat.
Proof.
  revert s n out. induction f as [|f IH]; intros s n out Hf Hl; [lia|].
  cbn [dec85_loop]. destruct n as [|n0] eqn:En; [right; exists out; split; [reflexivity|lia]|]. rewrite <- En in *.
  assert (Hn : ((n + 3) / 4 = S ((n - 1) / 4))%nat).
  { replace (n + 3)%nat with (n - 1 + 1 * 4)%nat by lia. rewrite Nat.div_add by lia. lia. }
  assert ((5 <= length s)%nat) by lia.
  destruct (dec85_four_total 4 s 0) as [E|(a & E & B)]; [lia|left; rewrite E; reflexivity|].
  rewrite E. cbn [bindr].
  destruct (skipn 4 s) as [|c s2] eqn:Es; [assert (length (skipn 4 s) = 0%nat) by (rewrite Es; reflexivity); rewrite skipn_length in *; lia|].
  destruct (b85v c - 1 <? 0); [left; reflexivity|].
  destruct ((4294967295 / 85 <? a) || (4294967295 - (b85v c - 1) <? (a * 85) mod two32)); [left; reflexivity|].
  assert (length s2 = length s - 5)%nat.
  { assert (length (skipn 4 s) = S (length s2)) by (rewrite Es; reflexivity). rewrite skipn_length in *. lia. }
  destruct (IH s2 (n - Nat.min n 4)%nat (dec85_out (Nat.min n 4) (((a * 85) mod two32 + (b85v c - 1)) mod two32) out)) as [E2|(d & E2 & Ld)].
  - lia.
  - destruct (Nat.ltb_spec n 4).
    + replace (n - Nat.min n 4)%nat with 0%nat by lia. cbn. lia.
    + replace (Nat.min n 4) with 4%nat by lia. replace (n - 4 + 3)%nat with (n - 1)%nat by lia. lia.
  - left. exact E2.
  - right. exists d. split; [exact E2|]. rewrite dec85_out_len in Ld. lia.
Qed.

(** *** percent *)
Lemma hex_decode_digit c : is_byte c ->
  match hexdigit c with Some v => isxdigit c = true /\ hex_decode c = v /\ 0 <= v < 16 | None => isxdigit c = false end.
Proof.
  intros H.
  assert (H1 := byte_sweep (fun c => match hexdigit c with Some v => isxdigit c && (hex_decode c =? v) && (0 <=? v) && (v <? 16) | None => negb (isxdigit c) end) ltac:(vm_compute; reflexivity) c H).
  cbv beta in H1. destruct (hexdigit c); [rewrite !andb_true_iff in H1; destruct H1 as [[[X Y] U] V]; repeat split; try assumption; lia|apply negb_true_iff; assumption].
Qed.

Lemma dec_percent_spec s d : bytes s -> percent s d -> dec_percent s = d.
Proof.
  intros Hb H. induction H as [|c s d Hc H IH|h l x y s d Hh Hl H IH].
  - reflexivity.
  - inversion Hb; subst. cbn [dec_percent]. destruct (Z.eqb_spec c 37); [contradiction|].
    cbn [andb]. rewrite IH by assumption. destruct s as [|? [|? ?]]; reflexivity.
  - inversion Hb as [|? ? B0 Hb1]; subst. inversion Hb1 as [|? ? B1 Hb2]; subst. inversion Hb2 as [|? ? B2 Hb3]; subst.
    assert (D1 := hex_decode_digit h B1). assert (D2 := hex_decode_digit l B2).
    rewrite Hh in D1. rewrite Hl in D2. destruct D1 as (X1 & V1 & R1). destruct D2 as (X2 & V2 & R2).
    cbn [dec_percent]. rewrite X1, X2, V1, V2. cbn [Z.eqb Pos.eqb andb].
    rewrite IH by assumption. rewrite shiftl_mul by lia. change (2^4) with 16. f_equal. lia.
Qed.

(** *** quoting *)
Lemma quoted_app s1 d1 s2 d2 : quoted s1 d1 -> quoted s2 d2 -> quoted (s1 ++ s2) (d1 ++ d2).
Proof. intros H1 H2. induction H1; cbn [app]; try constructor; assumption. Qed.

Definition quote_byte_ok (b : Z) : bool :=
  match quote_byte b with
  | [c] => (c =? b) && negb (c =? 92)
  | [92; e] => existsb (fun p => (fst p =? e) && (snd p =? b)) [(34, 34); (92, 92); (97, 7); (98, 8); (116, 9); (110, 10); (118, 11); (102, 12); (114, 13)]
  | [92; x; y; z] => (x =? 48 + b / 64) && (y =? 48 + b / 8 mod 8) && (z =? 48 + b mod 8)
  | _ => false
  end.
Lemma quote_byte_quoted b : is_byte b -> quoted (quote_byte b) [b].
Proof.
  intros Hb. unfold quote_byte.
  assert (S : sgn b = if b <? 128 then b else b - 256) by reflexivity.
  unfold is_byte in Hb.
  destruct ((7 <=? sgn b) && (sgn b <=? 13)) eqn:E1.
  { assert (7 <= b <= 13) by (destruct (Z.ltb_spec b 128); lia).
    rewrite S. destruct (Z.ltb_spec b 128); [|lia].
    constructor; [|constructor].
    assert (b = 7 \/ b = 8 \/ b = 9 \/ b = 10 \/ b = 11 \/ b = 12 \/ b = 13) as HH by lia.
    clear - HH. repeat (destruct HH as [->|HH]; [vm_compute; tauto|]). subst b. vm_compute. tauto. }
  destruct ((b =? 34) || (b =? 92)) eqn:E2.
  { constructor; [|constructor]. assert (b = 34 \/ b = 92) as [->| ->] by lia; cbn; tauto. }
  destruct (negb (b =? 32) && ((sgn b <? 33) || (126 <? sgn b))) eqn:E3.
  { unfold octal3. replace [b] with [b / 64 * 64 + b / 8 mod 8 * 8 + b mod 8] by (f_equal; lia).
    apply q_oct; try lia. constructor. }
  constructor; [lia|constructor].
Qed.
Lemma quote_bytes_quoted s : bytes s -> quoted (flat_map quote_byte s) s.
Proof.
  induction 1 as [|b s Hb Hs IH]; [constructor|]. cbn [flat_map].
  change (b :: s) with ([b] ++ s). apply quoted_app; [apply quote_byte_quoted|]; assumption.
Qed.
Lemma quoted_plain s : Forall (fun c => c <> 92) s -> quoted s s.
Proof. induction 1; constructor; assumption. Qed.

Lemma quote_scan_spec s i : match quote_scan s i with
  | None => Forall (fun b => needs_quote b = false) s
  | Some k => (i <= k)%nat /\ Forall (fun b => needs_quote b = false) (firstn (k - i) s)
  end.
Proof.
  revert i. induction s as [|b s IH]; intros i; cbn [quote_scan]; [constructor|].
  destruct (needs_quote b) eqn:E.
  - rewrite Nat.sub_diag. split; [lia|constructor].
  - specialize (IH (S i)). destruct (quote_scan s (S i)) as [k|].
    + destruct IH as [H1 H2]. split; [lia|]. replace (k - i)%nat with (S (k - S i)) by lia. constructor; assumption.
    + constructor; assumption.
Qed.
Lemma needs_quote_false b : needs_quote b = false -> b <> 92 /\ b <> 34.
Proof. unfold needs_quote. lia. Qed.

Lemma str_quote_shape s : bytes s ->
  (str_quote s = s /\ ~ In 34 s) \/ (exists t, str_quote s = 34 :: t ++ [34] /\ quoted t s).
Proof.
  intros Hb. unfold str_quote.
  set (st := match s with c :: _ => if c =? 33 then Some O else quote_scan s 0 | [] => quote_scan s 0 end).
  assert (match st with
          | None => Forall (fun b => needs_quote b = false) s
          | Some k => Forall (fun b => needs_quote b = false) (firstn k s) end) as Hst.
  { assert (HH := quote_scan_spec s 0).
    assert (st = Some O \/ st = quote_scan s 0) as [->| ->].
    { unfold st. destruct s as [|c s']; [right; reflexivity|]. destruct (c =? 33); auto. }
    - constructor.
    - destruct (quote_scan s 0) as [k|]; [|assumption]. destruct HH as [_ HH]. rewrite Nat.sub_0_r in HH. assumption. }
  destruct st as [k|].
  - right. exists (firstn k s ++ flat_map quote_byte (skipn k s)). cbn [app]. rewrite <- app_assoc. split; [reflexivity|].
    rewrite <- (firstn_skipn k s) at 3. apply quoted_app.
    + apply quoted_plain. eapply Forall_impl; [|exact Hst]. cbv beta. intros a Ha. apply needs_quote_false in Ha. tauto.
    + apply quote_bytes_quoted. rewrite <- (firstn_skipn k s) in Hb. apply Forall_app in Hb. tauto.
  - left. split; [reflexivity|]. intros Hin. rewrite Forall_forall in Hst. apply Hst in Hin. apply needs_quote_false in Hin. tauto.
Qed.

Lemma rtrim_id s c : isspace c = false -> rtrim (s ++ [c]) = s ++ [c].
Proof.
  intros Hc. induction s as [|x s IH]; cbn [app rtrim].
  - rewrite Hc. reflexivity.
  - rewrite IH. destruct (s ++ [c]) eqn:E; [destruct s; discriminate|reflexivity].
Qed.

Lemma rd0_app pre c r : rd0 (pre ++ c :: r) (length pre) = Ok c.
Proof.
  unfold rd0, rd. rewrite app_length. cbn [length]. destruct (Nat.eqb_spec (length pre) (length pre + S (length r))); [lia|].
  rewrite nth_error_app2, Nat.sub_diag by lia. reflexivity.
Qed.
Lemma rd0_app' pre c r j : j = length pre -> rd0 (pre ++ c :: r) j = Ok c.
Proof. intros ->. apply rd0_app. Qed.

Lemma unq_char_in e c : In (e, c) [(34, 34); (92, 92); (97, 7); (98, 8); (116, 9); (110, 10); (118, 11); (102, 12); (114, 13)] ->
  unq_char e = Some c.
Proof.
  cbn [In]. intros H. repeat (destruct H as [H|H]; [injection H as <- <-; reflexivity|]). destruct H.
Qed.
Lemma unq_char_inv e c : unq_char e = Some c -> In (e, c) [(34, 34); (92, 92); (97, 7); (98, 8); (116, 9); (110, 10); (118, 11); (102, 12); (114, 13)].
Proof.
  unfold unq_char. intros H.
  destruct ((e =? 34) || (e =? 92)) eqn:E0; [injection H as <-; assert (e = 34 \/ e = 92) as [->| ->] by lia; cbn; tauto|].
  repeat match goal with
  | H : (if ?e =? ?k then Some _ else _) = Some _ |- _ =>
      destruct (Z.eqb_spec e k); [subst; injection H as <-; cbn; tauto|]
  end. discriminate.
Qed.

Lemma octal_val a b e : 0 <= a <= 3 -> 0 <= b <= 7 -> 0 <= e <= 7 ->
  Z.land (Z.lor (Z.lor (Z.shiftl a 6) (Z.shiftl b 3)) e) 255 = a * 64 + b * 8 + e.
Proof.
  intros Ha Hb He. rewrite !shiftl_mul by lia. change (2^6) with 64. change (2^3) with 8.
  rewrite (Z.lor_comm (a * 64)), (lor_disjoint (b * 8) (a * 64) 6); [|lia|change (2^6) with 64; lia|change (2^6) with 64; apply Z.mod_mul; lia].
  rewrite Z.lor_comm, (lor_disjoint _ _ 3); [|lia|change (2^3) with 8; lia|].
  - rewrite land_255. lia.
  - change (2^3) with 8. replace (b * 8 + a * 64) with ((b + a * 8) * 8) by lia. apply Z.mod_mul. lia.
Qed.

(** the loop run at the start of [t] inside pre ++ t ++ (closing quote) *)
Lemma unquote_loop_ok t d : quoted t d -> forall pre out f, (length t < f)%nat ->
  unquote_loop f (pre ++ t ++ [34]) (length pre) out = Ok (out ++ d).
Proof.
  intros H. induction H as [|c s d Hc H IH|e c s d He H IH|a b e s d Ha Hb He H IH]; intros pre out f Hf;
    (destruct f as [|f]; [lia|]); cbn [unquote_loop].
  - cbn [app]. rewrite app_length. cbn [length]. destruct (Nat.ltb_spec (length pre) (length pre + 1 - 1)); [lia|].
    rewrite app_nil_r. reflexivity.
  - cbn [app]. rewrite app_length. cbn [length]. destruct (Nat.ltb_spec (length pre) (length pre + (S (length (s ++ [34]))) - 1)) as [_|Hx]; [|rewrite app_length in Hx; cbn in Hx; lia].
    rewrite rd0_app. cbn [bindr]. destruct (Z.eqb_spec c 92); [contradiction|].
    change (pre ++ c :: s ++ [34]) with (pre ++ [c] ++ s ++ [34]). rewrite app_assoc.
    replace (S (length pre)) with (length (pre ++ [c])) by (rewrite app_length; cbn; lia).
    rewrite IH by (cbn in Hf; lia). rewrite <- app_assoc. reflexivity.
  - cbn [app]. rewrite app_length. cbn [length]. rewrite app_length. cbn [length].
    destruct (Nat.ltb_spec (length pre) (length pre + (S (S (length s + 1))) - 1)) as [_|Hx]; [|lia].
    rewrite rd0_app. cbn [bindr]. change (92 =? 92) with true. cbv iota.
    destruct (Nat.eqb_spec (length pre) (length pre + S (S (length s + 1)) - 2)); [lia|].
    rewrite (rd0_app' (pre ++ [92]) e (s ++ [34])) || (change (pre ++ 92 :: e :: s ++ [34]) with (pre ++ [92] ++ e :: s ++ [34]); rewrite app_assoc, (rd0_app' (pre ++ [92]) e (s ++ [34])) by (rewrite app_length; cbn; lia)).
    cbn [bindr]. rewrite (unq_char_in e c He).
    replace ((pre ++ [92]) ++ e :: s ++ [34]) with ((pre ++ [92; e]) ++ s ++ [34]) by (rewrite <- !app_assoc; reflexivity).
    replace (S (S (length pre))) with (length (pre ++ [92; e])) by (rewrite app_length; cbn; lia).
    rewrite IH by (cbn in Hf; lia). rewrite <- app_assoc. reflexivity.
  - cbn [app]. rewrite app_length. cbn [length]. rewrite app_length. cbn [length].
    destruct (Nat.ltb_spec (length pre) (length pre + (S (S (S (S (length s + 1))))) - 1)) as [_|Hx]; [|lia].
    rewrite rd0_app. cbn [bindr]. change (92 =? 92) with true. cbv iota.
    destruct (Nat.eqb_spec (length pre) (length pre + S (S (S (S (length s + 1)))) - 2)); [lia|].
    assert (R : forall k x, nth_error (92 :: 48 + a :: 48 + b :: 48 + e :: s ++ [34]) k = Some x -> rd0 (pre ++ 92 :: 48 + a :: 48 + b :: 48 + e :: s ++ [34]) (length pre + k) = Ok x).
    { intros k x Hk. unfold rd0, rd. rewrite nth_error_app2 by lia. replace (length pre + k - length pre)%nat with k by lia. rewrite Hk.
      destruct (Nat.eqb_spec (length pre + k) (length (pre ++ 92 :: 48 + a :: 48 + b :: 48 + e :: s ++ [34]))) as [E|]; [|reflexivity].
      assert (Hlt : (k < length ((92 :: 48 + a :: 48 + b :: 48 + e :: s ++ [34])%Z))%nat) by (apply nth_error_Some; congruence).
      rewrite app_length in E. lia. }
    replace (S (length pre)) with (length pre + 1)%nat by lia.
    rewrite (R 1%nat (48 + a)) by reflexivity. cbn [bindr].
    assert (unq_char (48 + a) = None) as ->.
    { destruct (unq_char (48 + a)) eqn:E; [|reflexivity]. apply unq_char_inv in E. cbn [In] in E.
      repeat (destruct E as [E|E]; [injection E as E1 E2; lia|]). destruct E. }
    destruct ((48 <=? 48 + a) && (48 + a <=? 51)) eqn:E; [|lia].
    destruct (Nat.eqb_spec (length pre + 1) (length pre + S (S (S (S (length s + 1)))) - 3)); [lia|].
    replace (length pre + 1 + 1)%nat with (length pre + 2)%nat by lia.
    rewrite (R 2%nat (48 + b)) by reflexivity. cbn [bindr].
    assert (not_octal (48 + b) = false) as -> by (unfold not_octal, sgn; destruct (Z.ltb_spec (48 + b) 128); lia).
    replace (length pre + 1 + 2)%nat with (length pre + 3)%nat by lia.
    rewrite (R 3%nat (48 + e)) by reflexivity. cbn [bindr].
    assert (not_octal (48 + e) = false) as -> by (unfold not_octal, sgn; destruct (Z.ltb_spec (48 + e) 128); lia).
    replace (48 + a - 48) with a by lia. replace (48 + b - 48) with b by lia. replace (48 + e - 48) with e by lia.
    rewrite octal_val by assumption.
    replace (pre ++ 92 :: 48 + a :: 48 + b :: 48 + e :: s ++ [34]) with ((pre ++ [92; 48 + a; 48 + b; 48 + e]) ++ s ++ [34]) by (rewrite <- !app_assoc; reflexivity).
    replace (length pre + 1 + 3)%nat with (length (pre ++ [92; 48 + a; 48 + b; 48 + e])) by (rewrite app_length; cbn; lia).
    rewrite IH by (cbn in Hf; lia). rewrite <- app_assoc. reflexivity.
Qed.

(** Whatever the text, the loop ends with a result the specification explains
    or with an error. *)
Lemma unquote_loop_total f : forall t pre out, (length t < f)%nat -> bytes t ->
  unquote_loop f (pre ++ t ++ [34]) (length pre) out = Err (-1) \/
  exists d, unquote_loop f (pre ++ t ++ [34]) (length pre) out = Ok (out ++ d) /\ quoted t d.
Proof.
  induction f as [|f IH]; intros t pre out Hf Hb; [lia|].
  destruct t as [|c t1].
  { right. exists []. split; [|constructor]. apply (unquote_loop_ok [] []); [constructor|cbn; lia]. }
  inversion Hb as [|? ? Bc Hb1]; subst.
  cbn [unquote_loop]. cbn [app]. rewrite app_length. cbn [length]. rewrite app_length. cbn [length].
  destruct (Nat.ltb_spec (length pre) (length pre + S (length t1 + 1) - 1)) as [_|Hx]; [|lia].
  rewrite rd0_app. cbn [bindr].
  destruct (Z.eqb_spec c 92) as [->|Hc].
  2:{ replace (pre ++ c :: t1 ++ [34]) with ((pre ++ [c]) ++ t1 ++ [34]) by (rewrite <- !app_assoc; reflexivity).
      replace (S (length pre)) with (length (pre ++ [c])) by (rewrite app_length; cbn; lia).
      destruct (IH t1 (pre ++ [c]) (out ++ [c])) as [E|(d & E & Q)]; [cbn in Hf; lia|assumption|left; exact E|right].
      exists (c :: d). split; [rewrite E, <- app_assoc; reflexivity|constructor; assumption]. }
  destruct (Nat.eqb_spec (length pre) (length pre + S (length t1 + 1) - 2)) as [E|E]; [left; reflexivity|].
  destruct t1 as [|e t2]; [cbn in E; lia|].
  inversion Hb1 as [|? ? Be Hb2]; subst.
  assert (R : forall k x, nth_error (92 :: (e :: t2) ++ [34]) k = Some x -> rd0 (pre ++ 92 :: (e :: t2) ++ [34]) (length pre + k) = Ok x).
  { intros k x Hk. unfold rd0, rd. rewrite nth_error_app2 by lia. replace (length pre + k - length pre)%nat with k by lia. rewrite Hk.
    destruct (Nat.eqb_spec (length pre + k) (length (pre ++ 92 :: (e :: t2) ++ [34]))) as [E'|]; [|reflexivity].
    assert (Hlt : (k < length ((92 :: (e :: t2) ++ [34])%Z))%nat) by (apply nth_error_Some; congruence).
    rewrite app_length in E'. lia. }
  replace (S (length pre)) with (length pre + 1)%nat by lia.
  rewrite (R 1%nat e) by reflexivity. cbn [bindr].
  destruct (unq_char e) as [v|] eqn:Ev.
  { apply unq_char_inv in Ev.
    replace (pre ++ 92 :: (e :: t2) ++ [34]) with ((pre ++ [92; e]) ++ t2 ++ [34]) by (rewrite <- !app_assoc; reflexivity).
    replace (S (length pre + 1)) with (length (pre ++ [92; e])) by (rewrite app_length; cbn; lia).
    destruct (IH t2 (pre ++ [92; e]) (out ++ [v])) as [E'|(d & E' & Q)]; [cbn in Hf; lia|assumption|left; exact E'|right].
    exists (v :: d). split; [rewrite E', <- app_assoc; reflexivity|constructor; assumption]. }
  destruct ((48 <=? e) && (e <=? 51)) eqn:Eo; [|left; reflexivity].
  destruct (Nat.eqb_spec (length pre + 1) (length pre + S (length (e :: t2) + 1) - 3)) as [E2|E2]; [left; reflexivity|].
  replace (length pre + 1 + 1)%nat with (length pre + 2)%nat by lia.
  destruct t2 as [|x t3].
  { rewrite (R 2%nat 34) by reflexivity. cbn [bindr]. left. reflexivity. }
  inversion Hb2 as [|? ? Bx Hb3]; subst.
  rewrite (R 2%nat x) by reflexivity. cbn [bindr].
  destruct (not_octal x) eqn:Ex; [left; reflexivity|].
  replace (length pre + 1 + 2)%nat with (length pre + 3)%nat by lia.
  destruct t3 as [|y t4]; [cbn [length] in E2; lia|].
  inversion Hb3 as [|? ? By Hb4]; subst.
  rewrite (R 3%nat y) by reflexivity. cbn [bindr].
  destruct (not_octal y) eqn:Ey; [left; reflexivity|].
  assert (48 <= x <= 55) by (unfold not_octal, sgn, is_byte in *; destruct (Z.ltb_spec x 128); lia).
  assert (48 <= y <= 55) by (unfold not_octal, sgn, is_byte in *; destruct (Z.ltb_spec y 128); lia).
  rewrite octal_val by lia.
  replace (pre ++ 92 :: (e :: x :: y :: t4) ++ [34]) with ((pre ++ [92; e; x; y]) ++ t4 ++ [34]) by (rewrite <- !app_assoc; reflexivity).
  replace (length pre + 1 + 3)%nat with (length (pre ++ [92; e; x; y])) by (rewrite app_length; cbn; lia).
  match goal with |- context[unquote_loop f _ _ (out ++ [?v])] => destruct (IH t4 (pre ++ [92; e; x; y]) (out ++ [v])) as [E'|(d & E' & Q)]; [cbn in Hf; lia|assumption|left; exact E'|right] end.
  eexists. split; [rewrite E', <- app_assoc; reflexivity|].
  replace e with (48 + (e - 48)) at 1 by lia. replace x with (48 + (x - 48)) at 1 by lia. replace y with (48 + (y - 48)) at 1 by lia.
  apply q_oct; try lia. assumption.
Qed.

(** *** backslash escaping *)
Lemma unescape_escaped esc s : Forall (fun c => c <> 0) s -> In 92 esc ->
  unescape (puts_escaped esc [92] s) = s.
Proof.
  intros Hs Hin. induction Hs as [|c s Hc Hs IH]; [reflexivity|].
  cbn [puts_escaped]. destruct (existsb (Z.eqb c) esc) eqn:E.
  - cbn [app unescape]. change (92 =? 92) with true. cbv iota. rewrite IH. reflexivity.
  - assert (c <> 92).
    { intros ->. assert (existsb (Z.eqb 92) esc = true) by (apply existsb_exists; exists 92; split; [assumption|reflexivity]). congruence. }
    cbn [app unescape]. destruct (Z.eqb_spec c 92); [contradiction|]. f_equal. exact IH.
Qed.
