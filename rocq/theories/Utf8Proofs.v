From Verif Require Import Base Utf8Model Utf8Spec CodecProofs.

Definition class_of (b : Z) : Z :=
  if b <? 128 then 1 else if b <? 192 then 0 else if b <? 224 then 2 else if b <? 240 then 3 else if b <? 248 then 4 else 0.
Lemma utf8class_spec b : is_byte b -> nth (Z.to_nat b) utf8class 0 = class_of b.
Proof.
  intros H. apply Z.eqb_eq.
  exact (byte_sweep (fun b => nth (Z.to_nat b) utf8class 0 =? class_of b) ltac:(vm_compute; reflexivity) b H).
Qed.
Lemma cont_spec b : is_byte b -> (Z.land b 192 =? 128) = (128 <=? b) && (b <? 192).
Proof.
  intros H. apply eqb_prop.
  exact (byte_sweep (fun b => Bool.eqb (Z.land b 192 =? 128) ((128 <=? b) && (b <? 192))) ltac:(vm_compute; reflexivity) b H).
Qed.

(** *** charlen *)
Lemma charlen_spec mem len : bytes mem -> (0 < len <= length mem)%nat ->
  (exists n, charlen mem len = Ok (Z.of_nat n) /\ (1 <= n <= 4)%nat /\ (n <= len)%nat /\ sequence (firstn n mem)) \/
  (charlen mem len = Ok (-1) /\ forall n, (n <= len)%nat -> ~ sequence (firstn n mem)).
Proof.
  intros Hb Hl. unfold charlen.
  destruct mem as [|a m]; [cbn in Hl; lia|]. inversion Hb as [|? ? Ba Hm]; subst.
  cbn [rd nth_error bindr]. rewrite utf8class_spec by assumption.
  unfold is_byte in Ba.
  assert (Short : forall n, sequence (firstn n (a :: m)) -> Z.of_nat (length (firstn n (a :: m))) = class_of a).
  { intros n H. remember (firstn n (a :: m)) as q eqn:Eq.
    assert (Hd : forall x t, q = x :: t -> x = a) by (intros x t ->; destruct n; [discriminate|]; cbn [firstn] in Eq; congruence).
    clear Eq. inversion H as [x Hx E|x y Hx Hy E|x y z Hx Hy Hz E|x y z w Hx Hy Hz Hw E]; rewrite <- E in Hd; specialize (Hd _ _ eq_refl); subst x;
      cbn [length]; unfold class_of; repeat match goal with |- context [?u <? ?v] => destruct (Z.ltb_spec u v) end; lia. }
  destruct (Z.eqb_spec (class_of a) 0) as [E0|E0].
  { right. split; [reflexivity|]. intros n Hn H. apply Short in H as H'. inversion H as [x Hx E|x y Hx Hy E|x y z Hx Hy Hz E|x y z w Hx Hy Hz Hw E]; rewrite <- E in H'; cbn in H'; lia. }
  destruct ((0 <? len)%nat && (Z.of_nat len <? class_of a)) eqn:E1.
  { right. split; [reflexivity|]. intros n Hn H. apply Short in H. rewrite firstn_length in H. lia. }
  assert (Hlen : class_of a <= Z.of_nat len) by lia.
  assert (Hc : class_of a = 1 \/ class_of a = 2 \/ class_of a = 3 \/ class_of a = 4).
  { unfold class_of in *. repeat match goal with |- context [?u <? ?v] => destruct (Z.ltb_spec u v) end; lia. }
  assert (Rej : forall k b, nth_error (a :: m) k = Some b -> (1 <= k)%nat -> (Z.of_nat k < class_of a) -> ~ is_cont b -> forall n, (n <= len)%nat -> ~ sequence (firstn n (a :: m))).
  { intros k b Hk H1 H2 Hnc n Hn H. assert (Hlen' := Short n H).
    assert (nth_error (firstn n (a :: m)) k = Some b).
    { rewrite firstn_length in Hlen'.
      rewrite <- Hk. rewrite <- (firstn_skipn n (a :: m)) at 2. rewrite nth_error_app1; [reflexivity|]. rewrite firstn_length. lia. }
    clear - H H0 Hnc H1.
    inversion H as [x Hx E|x y Hx Hy E|x y z Hx Hy Hz E|x y z w Hx Hy Hz Hw E]; rewrite <- E in H0;
      destruct k as [|[|[|[|k]]]]; try lia; cbn in H0; try discriminate; try (injection H0 as <-; contradiction). destruct k; discriminate. }
  destruct Hc as [Hc|[Hc|[Hc|Hc]]]; rewrite Hc in *.
  - cbn [Z.to_nat Pos.to_nat Pos.iter_op Nat.sub cont_loop bindr Nat.add]. left. exists 1%nat. split; [reflexivity|]. split; [lia|]. split; [lia|].
    cbn [firstn]. constructor. unfold class_of in Hc. repeat match goal with H : context [?u <? ?v] |- _ => destruct (Z.ltb_spec u v) end; lia.
  - destruct m as [|b m]; [cbn in Hl; lia|]. inversion Hm as [|? ? Bb Hm1]; subst.
    change (Z.to_nat 2 - 1)%nat with 1%nat. cbn [cont_loop rd nth_error bindr]. rewrite cont_spec by assumption.
    destruct ((128 <=? b) && (b <? 192)) eqn:Eb; cbn [bindr].
    + left. exists 2%nat. split; [reflexivity|]. split; [lia|]. split; [lia|]. cbn [firstn]. constructor; [|unfold is_cont; lia].
      unfold class_of in Hc. repeat match goal with H : context [?u <? ?v] |- _ => destruct (Z.ltb_spec u v) end; lia.
    + right. split; [reflexivity|]. apply (Rej 1%nat b); [reflexivity|lia|lia|unfold is_cont; lia].
  - destruct m as [|b [|c m]]; try (cbn in Hl; lia). inversion Hm as [|? ? Bb Hm1]; subst. inversion Hm1 as [|? ? Bc Hm2]; subst.
    change (Z.to_nat 3 - 1)%nat with 2%nat. cbn [cont_loop rd nth_error bindr]. rewrite !cont_spec by assumption.
    destruct ((128 <=? b) && (b <? 192)) eqn:Eb; cbn [bindr]; [|right; split; [reflexivity|]; apply (Rej 1%nat b); [reflexivity|lia|lia|unfold is_cont; lia]].
    destruct ((128 <=? c) && (c <? 192)) eqn:Ec; cbn [bindr]; [|right; split; [reflexivity|]; apply (Rej 2%nat c); [reflexivity|lia|lia|unfold is_cont; lia]].
    left. exists 3%nat. split; [reflexivity|]. split; [lia|]. split; [lia|]. cbn [firstn]. constructor; try (unfold is_cont; lia).
    unfold class_of in Hc. repeat match goal with H : context [?u <? ?v] |- _ => destruct (Z.ltb_spec u v) end; lia.
  - destruct m as [|b [|c [|d m]]]; try (cbn in Hl; lia). inversion Hm as [|? ? Bb Hm1]; subst. inversion Hm1 as [|? ? Bc Hm2]; subst. inversion Hm2 as [|? ? Bd Hm3]; subst.
    change (Z.to_nat 4 - 1)%nat with 3%nat. cbn [cont_loop rd nth_error bindr]. rewrite !cont_spec by assumption.
    destruct ((128 <=? b) && (b <? 192)) eqn:Eb; cbn [bindr]; [|right; split; [reflexivity|]; apply (Rej 1%nat b); [reflexivity|lia|lia|unfold is_cont; lia]].
    destruct ((128 <=? c) && (c <? 192)) eqn:Ec; cbn [bindr]; [|right; split; [reflexivity|]; apply (Rej 2%nat c); [reflexivity|lia|lia|unfold is_cont; lia]].
    destruct ((128 <=? d) && (d <? 192)) eqn:Ed; cbn [bindr]; [|right; split; [reflexivity|]; apply (Rej 3%nat d); [reflexivity|lia|lia|unfold is_cont; lia]].
    left. exists 4%nat. split; [reflexivity|]. split; [lia|]. split; [lia|]. cbn [firstn]. constructor; try (unfold is_cont; lia).
    unfold class_of in Hc. repeat match goal with H : context [?u <? ?v] |- _ => destruct (Z.ltb_spec u v) end; lia.
Qed.

Lemma land_31 x : Z.land x 31 = x mod 32.
Proof. exact (land_ones x 5 ltac:(lia)). Qed.
Lemma land_7 x : Z.land x 7 = x mod 8.
Proof. exact (land_ones x 3 ltac:(lia)). Qed.
Lemma land_ffff x : Z.land x 65535 = x mod 65536.
Proof. exact (land_ones x 16 ltac:(lia)). Qed.

(** decoded value of a structural sequence *)
Definition value (s : list Z) : Z :=
  match s with
  | [a] => a
  | [a; b] => (a - 192) * 64 + (b - 128)
  | [a; b; c] => (a - 224) * 4096 + (b - 128) * 64 + (c - 128)
  | [a; b; c; d] => (a - 240) * 262144 + (b - 128) * 4096 + (c - 128) * 64 + (d - 128)
  | _ => 0
  end.
Definition min_of (n : nat) : Z := match n with 2%nat => 128 | 3%nat => 2048 | 4%nat => 65536 | _ => 0 end.

Lemma encode_value s : sequence s -> min_of (length s) <= value s -> encode_cp (value s) = s.
Proof.
  intros H. inversion H as [a Ha E|a b Ha Hb E|a b c Ha Hb Hc E|a b c d Ha Hb Hc Hd E]; cbn [length min_of value]; intros Hmin; unfold encode_cp, is_cont in *.
  - destruct (Z.ltb_spec a 128); [reflexivity|lia].
  - destruct (Z.ltb_spec ((a - 192) * 64 + (b - 128)) 128); [lia|].
    destruct (Z.ltb_spec ((a - 192) * 64 + (b - 128)) 2048); [|lia]. leq.
  - set (v := (a - 224) * 4096 + (b - 128) * 64 + (c - 128)) in *.
    destruct (Z.ltb_spec v 128); [lia|]. destruct (Z.ltb_spec v 2048); [lia|]. destruct (Z.ltb_spec v 65536); [|lia].
    unfold v. leq.
  - set (v := (a - 240) * 262144 + (b - 128) * 4096 + (c - 128) * 64 + (d - 128)) in *.
    destruct (Z.ltb_spec v 128); [lia|]. destruct (Z.ltb_spec v 2048); [lia|]. destruct (Z.ltb_spec v 65536); [lia|].
    unfold v. leq.
Qed.

Lemma encode_sequence u : 0 <= u < 1114112 -> sequence (encode_cp u) /\ value (encode_cp u) = u /\ min_of (length (encode_cp u)) <= u.
Proof.
  intros Hu. unfold encode_cp.
  destruct (Z.ltb_spec u 128); [split; [constructor; lia|cbn; lia]|].
  destruct (Z.ltb_spec u 2048); [split; [constructor; unfold is_cont; lia|cbn [length min_of value]; lia]|].
  destruct (Z.ltb_spec u 65536); [split; [constructor; unfold is_cont; lia|cbn [length min_of value]; lia]|].
  split; [constructor; unfold is_cont; lia|cbn [length min_of value]; lia].
Qed.

Lemma sequence_prefix s1 s2 r1 r2 : sequence s1 -> sequence s2 -> s1 ++ r1 = s2 ++ r2 -> s1 = s2.
Proof.
  unfold is_cont.
  intros H1 H2 E. inversion H1; subst; inversion H2; subst; cbn [app] in E; unfold is_cont in *; (reflexivity || (injection E; intros; subst; try reflexivity; lia)).
Qed.

Lemma iterate_seq mem len n : bytes mem -> (0 < len <= length mem)%nat ->
  charlen mem len = Ok (Z.of_nat n) -> (n <= len)%nat -> sequence (firstn n mem) ->
  let u := value (firstn n mem) in
  (accepted u /\ min_of n <= u /\ iterate mem len = Ok (Z.of_nat n, u)) \/
  (~ (accepted u /\ min_of n <= u) /\ iterate mem len = Ok (-1, 0)).
Proof.
  intros Hb Hl Hc Hn Hs u. unfold iterate. rewrite Hc. cbn [bindr].
  destruct (Z.ltb_spec (Z.of_nat n) 0); [lia|].
  assert (Hlen : length (firstn n mem) = n) by (rewrite firstn_length; lia).
  assert (Em : mem = firstn n mem ++ skipn n mem) by (symmetry; apply firstn_skipn).
  remember (firstn n mem) as s eqn:Es. remember (skipn n mem) as r eqn:Er. clear Es Er.
  unfold accepted, scalar, noncharacter.
  inversion Hs as [a Ha E|a b Ha Hb' E|a b c Ha Hb' Hc' E|a b c d Ha Hb' Hc' Hd E]; rewrite <- E in *; cbn [length] in Hlen; subst n; unfold u; rewrite <- E; clear u; cbn [value min_of]; rewrite Em; cbn [app rd nth_error bindr].
  - change (Z.of_nat 1 =? 1) with true. cbv iota. cbn [bindr]. rewrite land_ffff.
    destruct (Z.leb_spec 65534 (a mod 65536)); [lia|]. left. split; [lia|]. split; [lia|]. reflexivity.
  - change (Z.of_nat 2 =? 1) with false. change (Z.of_nat 2 =? 2) with true. cbv iota. cbn [bindr].
    unfold is_cont in *. rewrite land_31, land_63, shiftl_mul by lia. change (2^6) with 64.
    replace (a mod 32 * 64 + b mod 64) with ((a - 192) * 64 + (b - 128)) by lia.
    set (v := (a - 192) * 64 + (b - 128)) in *. destruct (Z.ltb_spec v 128).
    + right. split; [lia|]. rewrite land_ffff. reflexivity.
    + rewrite land_ffff. destruct (Z.leb_spec 65534 (v mod 65536)); [lia|]. left. split; [lia|]. split; [lia|]. reflexivity.
  - change (Z.of_nat 3 =? 1) with false. change (Z.of_nat 3 =? 2) with false. change (Z.of_nat 3 =? 3) with true. cbv iota. cbn [bindr].
    unfold is_cont in *. rewrite land_15, !land_63, !shiftl_mul by lia. change (2^6) with 64. change (2^12) with 4096.
    replace (a mod 16 * 4096 + b mod 64 * 64 + c mod 64) with ((a - 224) * 4096 + (b - 128) * 64 + (c - 128)) by lia.
    assert (Hv : 0 <= (a - 224) * 4096 + (b - 128) * 64 + (c - 128) < 65536) by lia.
    set (v := (a - 224) * 4096 + (b - 128) * 64 + (c - 128)) in *.
    destruct ((v <? 2048) || ((55296 <=? v) && (v <? 57344)) || ((64976 <=? v) && (v <? 65008))) eqn:Ev.
    + right. split; [lia|]. rewrite land_ffff. reflexivity.
    + rewrite land_ffff. destruct (Z.leb_spec 65534 (v mod 65536)).
      * right. split; [lia|]. reflexivity.
      * left. split; [lia|]. split; [lia|]. reflexivity.
  - change (Z.of_nat 4 =? 1) with false. change (Z.of_nat 4 =? 2) with false. change (Z.of_nat 4 =? 3) with false. cbv iota. cbn [bindr].
    unfold is_cont in *. rewrite land_7, !land_63, !shiftl_mul by lia. change (2^6) with 64. change (2^12) with 4096. change (2^18) with 262144.
    replace (a mod 8 * 262144 + b mod 64 * 4096 + c mod 64 * 64 + d mod 64) with ((a - 240) * 262144 + (b - 128) * 4096 + (c - 128) * 64 + (d - 128)) by lia.
    assert (Hv : 0 <= (a - 240) * 262144 + (b - 128) * 4096 + (c - 128) * 64 + (d - 128)) by lia.
    set (v := (a - 240) * 262144 + (b - 128) * 4096 + (c - 128) * 64 + (d - 128)) in *.
    destruct ((v <? 65536) || (1114112 <=? v)) eqn:Ev.
    + right. split; [lia|]. rewrite land_ffff. reflexivity.
    + rewrite land_ffff. destruct (Z.leb_spec 65534 (v mod 65536)).
      * right. split; [lia|]. reflexivity.
      * left. split; [lia|]. split; [lia|]. reflexivity.
Qed.
