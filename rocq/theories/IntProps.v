(** C23: integers in text are read exactly. *)
From Verif Require Import Base Str IntModel IntSpec IntProofs.

Definition body (neg : bool) (base : Z) (p : list Z) : res (Z * list Z) :=
  match p with
  | [] => Err (-1)
  | c :: _ =>
      let x := (2 <? length p)%nat && ((nth 1 p 0 =? 120) || (nth 1 p 0 =? 88)) in
      let base := if base =? 0 then (if negb (c =? 48) then 10 else if x then 16 else 8) else base in
      if (base <? 0) || (36 <? base) then Err (-1)
      else
        let p := if (base =? 16) && x && (c =? 48) then skipn 2 p else p in
        let '(n, ovfl, ndig, rest) := digits_loop neg base p 0 false 0 in
        if (ndig =? 0)%nat then Err (-1)
        else if (ovfl : bool) then Err (-1) else Ok (n, rest)
  end.
Definition numbody (base : Z) (neg : bool) (p : list Z) (v : Z) (rest : list Z) : Prop :=
  exists px ds b m, p = px ++ ds ++ rest /\ base_of base p b px /\ digits b ds m /\
    (forall c r d, rest = c :: r -> ~ digit_is b c d) /\ v = sg neg m.

Lemma fits64_spec v : fits64 v = true <-> int64 v.
Proof. unfold fits64, int64_min, int64_max, int64. change (2 ^ 63) with 9223372036854775808. lia. Qed.
Lemma fits32_spec v : fits32 v = true <-> int32 v.
Proof. unfold fits32, int32. change (2 ^ 31) with 2147483648. lia. Qed.
Lemma px_split b p : p = eff_px b p ++ (if (b =? 16) && xmark p && (hd 0 p =? 48) then skipn 2 p else p).
Proof. unfold eff_px. destruct (_ && _); [symmetry; apply firstn_skipn|reflexivity]. Qed.
Lemma eff_base_nz base p : eff_base base p <> 0.
Proof. unfold eff_base. destruct (Z.eqb_spec base 0); [|assumption]. destruct (negb _); [discriminate|]. destruct (xmark p); discriminate. Qed.

Lemma body_spec neg base p : (exists v rest, body neg base p = Ok (v, rest) /\ numbody base neg p v rest /\ int64 v) \/
   (body neg base p = Err (-1) /\ forall v rest, numbody base neg p v rest -> ~ int64 v).
Proof.
  destruct p as [|c0 p0] eqn:Ep.
  - right. split; [reflexivity|]. intros v rest (px & ds & b & m & E & Hb & Hd & _) _.
    apply base_of_spec in Hb. destruct Hb as (_ & Hb & _). apply digits_eval in Hd; [|exact Hb].
    destruct Hd as [Hne _]. destruct px; [|discriminate]. destruct ds; [congruence|discriminate].
  - rewrite <- Ep. assert (Eb : body neg base p =
      (let b := eff_base base p in
       if (b <? 0) || (36 <? b) then Err (-1) else
       let '(n, ovfl, ndig, rest) := digits_loop neg b (if (b =? 16) && xmark p && (hd 0 p =? 48) then skipn 2 p else p) 0 false 0 in
        if (ndig =? 0)%nat then Err (-1) else if (ovfl : bool) then Err (-1) else Ok (n, rest))) by (rewrite Ep; reflexivity).
    rewrite Eb. clear Eb Ep c0 p0. cbn zeta. set (b := eff_base base p). pose proof (eff_base_nz base p) as Hnz. fold b in Hnz.
    destruct ((b <? 0) || (36 <? b)) eqn:Er.
    + right. split; [reflexivity|]. intros v rest (px & ds & b' & m & E & Hb & _) _. apply base_of_spec in Hb. destruct Hb as (-> & Hb & _). fold b in Hb. lia.
    + assert (Hb36 : 0 < b <= 36) by lia. pose proof (px_split b p) as Hp. set (q := if _ && _ then _ else _) in *.
      destruct (split_digits b q) as (ds & rest & Eq & Ha & Hr).
      assert (F0 : fits64 (sg neg 0) = true) by (destruct neg; reflexivity).
      destruct (digits_loop_spec neg b Hb36 ds rest 0 0%nat Ha Hr ltac:(lia) F0) as (n & o & El & Ho).
      replace (sg neg 0) with 0 in El by (destruct neg; reflexivity). rewrite Eq, El. cbn [Nat.add].
      assert (Huniq : forall v rest', numbody base neg p v rest' -> ds <> [] /\ rest' = rest /\ v = sg neg (evalz b 0 ds)).
      { intros v rest' (px & ds' & b' & m & E & Hb & Hd & Hr' & Hv). apply base_of_spec in Hb. destruct Hb as (Eb & Hb & Epx). fold b in Eb. subst b'.
        apply digits_eval in Hd; [|lia]. destruct Hd as (Hne & Ha' & Em). subst px. rewrite Hp in E at 1. apply app_inv_head in E. rewrite Eq in E.
        destruct (split_digits_unique b ds rest ds' rest' E Ha Ha' Hr) as [E1 E2].
        { intros c r Er'. destruct (Z_lt_le_dec (digit b c) b) as [L|L]; [|exact L]. exfalso. apply (Hr' c r (digit b c) Er'). apply digit_spec; lia. }
        subst ds' rest'. subst m. auto. }
      destruct ds as [|d ds].
      { right. split; [reflexivity|]. intros v rest' Hn. destruct (Huniq _ _ Hn) as [H _]. congruence. }
      destruct (fits64 (sg neg (evalz b 0 (d :: ds)))) eqn:Ef.
      * destruct Ho as [-> ->]. left. exists (sg neg (evalz b 0 (d :: ds))), rest. split; [reflexivity|]. split; [|apply fits64_spec; exact Ef].
        exists (eff_px b p), (d :: ds), b, (evalz b 0 (d :: ds)). rewrite <- Eq. split; [exact Hp|]. split; [apply base_of_spec; auto with zarith|].
        split; [apply digits_eval; [lia|]; split; [discriminate|auto]|]. split; [|reflexivity].
        intros c r dv Er' Hd. apply digit_spec in Hd; [|lia]. specialize (Hr c r Er'). lia.
      * subst o. right. split; [reflexivity|]. intros v rest' Hn. destruct (Huniq _ _ Hn) as (_ & _ & ->). intros H. apply fits64_spec in H. congruence.
Qed.

Lemma numbody_head base neg p v rest : numbody base neg p v rest -> exists c r, p = c :: r /\ ~ space c /\ c <> 43 /\ c <> 45.
Proof.
  intros (px & ds & b & m & E & Hb & Hd & _). apply base_of_spec in Hb. destruct Hb as (_ & Hb & Epx). apply digits_eval in Hd; [|exact Hb].
  destruct Hd as (Hne & Ha & _). destruct px as [|c px].
  - destruct ds as [|d ds]; [congruence|]. inversion Ha as [|? ? Hd ?]; subst. exists d, (ds ++ rest). cbn. split; [reflexivity|].
    split; [eapply space_not_digit; eassumption|eapply digit_not_sign; eassumption].
  - unfold eff_px in Epx. destruct ((b =? 16) && xmark p && (hd 0 p =? 48)) eqn:Ec; [|discriminate].
    exists c, (px ++ ds ++ rest). split; [exact E|]. rewrite E in Ec. cbn [hd app] in Ec. assert (c = 48) by lia. subst c. split; [unfold space; cbn; lia|lia].
Qed.

Lemma strntol64_body s base : strntol64 s base =
  match skip_ws s with [] => Err (-1) | c :: _ => body (c =? 45) base (if (c =? 45) || (c =? 43) then tl (skip_ws s) else skip_ws s) end.
Proof. reflexivity. Qed.

Lemma numeral_body base s v rest : numeral base s v rest <->
  match skip_ws s with [] => False | c :: _ => numbody base (c =? 45) (if (c =? 45) || (c =? 43) then tl (skip_ws s) else skip_ws s) v rest end.
Proof.
  split.
  - intros (ws & sgn & px & ds & b & m & E & Hws & Hs & Hb & Hd & Hr & Hv).
    assert (Hn : numbody base (leqb sgn (bs "-")) (px ++ ds ++ rest) v rest).
    { exists px, ds, b, m. repeat split; auto; try apply Hb. }
    destruct (numbody_head _ _ _ _ _ Hn) as (c & r & Ec & Hc & N1 & N2).
    destruct Hs as [<-|[<-|[<-|[]]]]; cbn [app] in E.
    + rewrite Ec in *. rewrite E, skip_ws_app by (auto; intros ? ? [= <- <-]; exact Hc).
      destruct (Z.eqb_spec c 45); [lia|]. destruct (Z.eqb_spec c 43); [lia|]. cbn [orb]. exact Hn.
    + change (bs "+") with [43] in *. rewrite E, skip_ws_app by (auto; intros ? ? [= <- <-]; unfold space; cbn; lia). exact Hn.
    + change (bs "-") with [45] in *. rewrite E, skip_ws_app by (auto; intros ? ? [= <- <-]; unfold space; cbn; lia). exact Hn.
  - destruct (skip_ws_split s) as (ws & E & Hws & Hsp). destruct (skip_ws s) as [|c r]; [intros []|].
    intros (px & ds & b & m & Ep & Hb & Hd & Hr & Hv).
    destruct (Z.eqb_spec c 45) as [->|N]; [|destruct (Z.eqb_spec c 43) as [->|N']]; cbn [orb tl] in *.
    + exists ws, (bs "-"), px, ds, b, m. rewrite Ep in Hb. split; [rewrite E, Ep; reflexivity|]. repeat split; auto; try apply Hb. cbn; auto.
    + exists ws, (bs "+"), px, ds, b, m. rewrite Ep in Hb. split; [rewrite E, Ep; reflexivity|]. repeat split; auto; try apply Hb. cbn; auto.
    + exists ws, [], px, ds, b, m. rewrite Ep in Hb. split; [rewrite E, Ep; reflexivity|]. repeat split; auto; try apply Hb. cbn; auto.
Qed.

Lemma strntol64_cases s base : (exists v rest, strntol64 s base = Ok (v, rest) /\ numeral base s v rest /\ int64 v) \/
  (strntol64 s base = Err (-1) /\ forall v rest, numeral base s v rest -> ~ int64 v).
Proof.
  rewrite strntol64_body. pose proof (fun v r => proj1 (numeral_body base s v r)) as N1. pose proof (fun v r => proj2 (numeral_body base s v r)) as N2.
  destruct (skip_ws s) as [|c r]; [right; split; [reflexivity|]; intros v r H; destruct (N1 v r H)|].
  destruct (body_spec (c =? 45) base (if (c =? 45) || (c =? 43) then tl (c :: r) else c :: r)) as [(v & rest & E & Hn & Hv)|[E Hn]].
  - left. exists v, rest. auto.
  - right. split; [exact E|]. intros v rest H. apply (Hn v rest). auto.
Qed.

Lemma numeral_unique base s v r v' r' : numeral base s v r -> numeral base s v' r' -> v = v' /\ r = r'.
Proof.
  intros H1 H2. apply numeral_body in H1. apply numeral_body in H2. destruct (skip_ws s) as [|c t]; [contradiction|].
  set (p := if (c =? 45) || (c =? 43) then tl (c :: t) else c :: t) in *. set (neg := c =? 45) in *. clearbody p neg.
  destruct H1 as (px & ds & b & m & E & Hb & Hd & Hr & Hv). destruct H2 as (px' & ds' & b' & m' & E' & Hb' & Hd' & Hr' & Hv').
  apply base_of_spec in Hb. apply base_of_spec in Hb'. destruct Hb as (Eb & Hb & Epx). destruct Hb' as (Eb' & _ & Epx'). rewrite Eb' in Hd', Hr', Epx'. rewrite Eb in Hd, Hr, Epx, Hb.
  set (bb := eff_base base p) in *. apply digits_eval in Hd; [|exact Hb]. apply digits_eval in Hd'; [|exact Hb]. destruct Hd as (_ & Ha & Em). destruct Hd' as (_ & Ha' & Em').
  rewrite Epx in E. rewrite Epx' in E'. rewrite E in E' at 1. apply app_inv_head in E'.
  assert (R : forall rr, (forall (c : Z) (r : list Z) (d : Z), rr = c :: r -> ~ digit_is bb c d) -> forall c r, rr = c :: r -> bb <= digit bb c).
  { intros rr Hrr c0 r0 Er. destruct (Z_lt_le_dec (digit bb c0) bb) as [L|L]; [|exact L]. exfalso. apply (Hrr c0 r0 (digit bb c0) Er). apply digit_spec; lia. }
  destruct (split_digits_unique bb ds r ds' r' E' Ha Ha' (R _ Hr) (R _ Hr')) as [-> ->]. subst. auto.
Qed.

(** The 64-bit reader returns the value of the numeral exactly when it fits, and otherwise
    reports an error; it never computes anything undefined, for any base and any bytes. *)
Theorem parse64_exact s base v rest : strntol64 s base = Ok (v, rest) <-> numeral base s v rest /\ int64 v.
Proof.
  destruct (strntol64_cases s base) as [(v0 & r0 & E & Hn & Hv)|[E Hn]]; rewrite E; split.
  - intros [= <- <-]. auto.
  - intros [H1 H2]. destruct (numeral_unique _ _ _ _ _ _ Hn H1) as [-> ->]. reflexivity.
  - discriminate.
  - intros [H1 H2]. destruct (Hn v rest H1 H2).
Qed.
Theorem parse64_total s base : (exists v rest, strntol64 s base = Ok (v, rest)) \/ strntol64 s base = Err (-1).
Proof. destruct (strntol64_cases s base) as [(v0 & r0 & E & _)|[E _]]; eauto. Qed.

Theorem parse32_exact s base v rest : strntol32 s base = Ok (v, rest) <-> numeral base s v rest /\ int32 v.
Proof.
  unfold strntol32. assert (I : int32 v -> int64 v) by (unfold int32, int64; change (2^31) with 2147483648; change (2^63) with 9223372036854775808; lia).
  destruct (strntol64_cases s base) as [(v0 & r0 & E & Hn & Hv)|[E Hn]]; rewrite E; cbn [bindr].
  - destruct (fits32 v0) eqn:F; split.
    + intros [= <- <-]. split; [exact Hn|]. apply fits32_spec, F.
    + intros [H1 H2]. destruct (numeral_unique _ _ _ _ _ _ Hn H1) as [-> ->]. reflexivity.
    + discriminate.
    + intros [H1 H2]. destruct (numeral_unique _ _ _ _ _ _ Hn H1) as [-> ->]. apply fits32_spec in H2. congruence.
  - split; [discriminate|]. intros [H1 H2]. destruct (Hn v rest H1 (I H2)).
Qed.

(** A configuration integer is a numeral (decimal, 0 octal, 0x hexadecimal) with at most
    one size suffix, and its value is the product. *)
Definition sized (s : list Z) (v : Z) : Prop := exists n rest f, numeral 0 s n rest /\ suffix rest f /\ v = n * f.

Lemma int64_factor n f v : 1 <= f -> v = n * f -> int64 v -> int64 n.
Proof. unfold int64. change (2^63) with 9223372036854775808. intros. nia. Qed.
Lemma suffix_ge1 s f : suffix s f -> 1 <= f.
Proof. intros [[_ ->]|[[_ ->]|[[_ ->]|[_ ->]]]]; lia. Qed.
Lemma mul64_ok n k v : int64 v -> v = n * k -> mul64 n k = Ok v.
Proof. intros H ->. unfold mul64. apply fits64_spec in H. rewrite H. reflexivity. Qed.
Lemma mul64_bad n k : ~ int64 (n * k) -> mul64 n k = UB.
Proof. intros H. unfold mul64. destruct (fits64 (n * k)) eqn:E; [|reflexivity]. apply fits64_spec in E. contradiction. Qed.
Lemma mul64_inv n k v : mul64 n k = Ok v -> v = n * k /\ int64 v.
Proof. unfold mul64. destruct (fits64 (n * k)) eqn:E; [|discriminate]. intros [= <-]. split; [reflexivity|apply fits64_spec; exact E]. Qed.
Lemma mul64_noerr n k e : mul64 n k <> Err e.
Proof. unfold mul64. destruct (fits64 _); discriminate. Qed.

Theorem config_int64_exact s v : config_parse_int64 s = Ok v <-> sized s v /\ int64 v.
Proof.
  unfold config_parse_int64. split.
  - intros H. destruct (strntol64 s 0) as [[n e]| | |] eqn:E; cbn [bindr] in H; try discriminate. apply parse64_exact in E. destruct E as [Hn Hi].
    destruct e as [|c r]; [injection H as <-; split; [|exact Hi]; exists n, [], 1; repeat split; [exact Hn|left; auto|lia]|].
    destruct ((c =? 103) || (c =? 71)) eqn:Eg; [|destruct ((c =? 109) || (c =? 77)) eqn:Em; [|destruct ((c =? 107) || (c =? 75)) eqn:Ek; [|discriminate]]].
    + destruct (mul64 n 1024) as [a| | |] eqn:E1; try discriminate. cbn [bindr] in H. destruct (mul64 a 1024) as [b| | |] eqn:E2; try discriminate. cbn [bindr] in H.
      destruct (mul64 b 1024) as [d| | |] eqn:E3; try discriminate. cbn [bindr] in H. destruct r; [|discriminate]. injection H as <-.
      apply mul64_inv in E1, E2, E3. split; [|apply E3]. exists n, [c], (1024 ^ 3). split; [exact Hn|]. split; [|lia]. right; right; right. split; [|reflexivity]. cbn.
      assert (c = 103 \/ c = 71) as [->| ->] by lia; auto.
    + destruct (mul64 n 1024) as [a| | |] eqn:E1; try discriminate. cbn [bindr] in H. destruct (mul64 a 1024) as [b| | |] eqn:E2; try discriminate. cbn [bindr] in H.
      destruct r; [|discriminate]. injection H as <-.
      apply mul64_inv in E1, E2. split; [|apply E2]. exists n, [c], (1024 ^ 2). split; [exact Hn|]. split; [|lia]. right; right; left. split; [|reflexivity]. cbn.
      assert (c = 109 \/ c = 77) as [->| ->] by lia; auto.
    + destruct (mul64 n 1024) as [a| | |] eqn:E1; try discriminate. cbn [bindr] in H. 
      destruct r; [|discriminate]. injection H as <-.
      apply mul64_inv in E1. split; [|apply E1]. exists n, [c], 1024. split; [exact Hn|]. split; [|lia]. right; left. split; [|reflexivity]. cbn.
      assert (c = 107 \/ c = 75) as [->| ->] by lia; auto.
  - intros [(n & rest & f & Hn & Hs & Ev) Hi]. pose proof (suffix_ge1 _ _ Hs) as Hf.
    assert (Hin : int64 n) by (eapply int64_factor; eassumption). rewrite (proj2 (parse64_exact s 0 n rest) (conj Hn Hin)). cbn [bindr].
    destruct Hs as [[-> ->]|[[Hs ->]|[[Hs ->]|[Hs ->]]]].
    + f_equal. lia.
    + destruct Hs as [<-|[<-|[]]]; cbn -[Z.mul mul64]; rewrite (mul64_ok n 1024 v) by (auto; lia); reflexivity.
    + assert (int64 (n * 1024)) by (apply (int64_factor _ 1024 v); lia || assumption).
      destruct Hs as [<-|[<-|[]]]; cbn -[Z.mul mul64]; rewrite (mul64_ok n 1024 (n * 1024)) by auto; cbn -[Z.mul mul64]; rewrite (mul64_ok _ 1024 v) by (auto; lia); reflexivity.
    + assert (int64 (n * 1024 * 1024)) by (apply (int64_factor _ 1024 v); lia || assumption). assert (int64 (n * 1024)) by (apply (int64_factor _ 1024 (n * 1024 * 1024)); lia || assumption).
      destruct Hs as [<-|[<-|[]]]; cbn -[Z.mul mul64]; rewrite (mul64_ok n 1024 (n * 1024)) by auto; cbn -[Z.mul mul64]; rewrite (mul64_ok _ 1024 (n * 1024 * 1024)) by auto; cbn -[Z.mul mul64]; rewrite (mul64_ok _ 1024 v) by (auto; lia); reflexivity.
Qed.

(** The value, or an error, and never a wrong number: refuted. Out-of-range products are
    not detected but computed with undefined signed overflow. *)
Theorem config_int64_overflow_refuted : exists s v, sized s v /\ ~ int64 v /\ config_parse_int64 s = UB.
Proof.
  exists (bs "9223372036854775807k"), (9223372036854775807 * 1024).
  destruct (strntol64_cases (bs "9223372036854775807k") 0) as [(v & r & E & Hn & _)|[E _]]; [|vm_compute in E; discriminate].
  assert (E' : strntol64 (bs "9223372036854775807k") 0 = Ok (9223372036854775807, bs "k")) by (vm_compute; reflexivity).
  rewrite E' in E. injection E as <- <-. split; [|split].
  - exists 9223372036854775807, (bs "k"), 1024. split; [exact Hn|]. split; [right; left; split; [left|]; reflexivity|reflexivity].
  - unfold int64. change (2^63) with 9223372036854775808. lia.
  - vm_compute. reflexivity.
Qed.
(** That is the only undefined case. *)
Theorem config_int64_defined s : (forall n rest f, numeral 0 s n rest -> int64 n -> suffix (firstn 1 rest) f -> int64 (n * f)) ->
  (exists v, config_parse_int64 s = Ok v) \/ config_parse_int64 s = Err (-1).
Proof.
  intros H. unfold config_parse_int64. destruct (strntol64_cases s 0) as [(n & e & E & Hn & Hi)|[E _]]; rewrite E; cbn [bindr]; [|auto].
  destruct e as [|c r]; [eauto|]. specialize (H n (c :: r)). cbn [firstn] in H.
  destruct ((c =? 103) || (c =? 71)) eqn:Eg; [|destruct ((c =? 109) || (c =? 77)) eqn:Em; [|destruct ((c =? 107) || (c =? 75)) eqn:Ek; [|auto]]].
  - specialize (H (1024 ^ 3) Hn Hi). assert (S : suffix [c] (1024 ^ 3)). { right; right; right. split; [|reflexivity]. cbn. assert (c = 103 \/ c = 71) as [->| ->] by lia; auto. }
    specialize (H S). assert (int64 (n * 1024 * 1024)) by (apply (int64_factor _ 1024 (n * 1024 ^ 3)); lia || assumption). assert (int64 (n * 1024)) by (apply (int64_factor _ 1024 (n * 1024 * 1024)); lia || assumption).
    rewrite (mul64_ok n 1024 (n * 1024)) by auto. cbn [bindr]. rewrite (mul64_ok _ 1024 (n * 1024 * 1024)) by auto. cbn [bindr]. rewrite (mul64_ok _ 1024 (n * 1024 ^ 3)) by (auto; lia). cbn [bindr]. destruct r; eauto.
  - specialize (H (1024 ^ 2) Hn Hi). assert (S : suffix [c] (1024 ^ 2)). { right; right; left. split; [|reflexivity]. cbn. assert (c = 109 \/ c = 77) as [->| ->] by lia; auto. }
    specialize (H S). assert (int64 (n * 1024)) by (apply (int64_factor _ 1024 (n * 1024 ^ 2)); lia || assumption).
    rewrite (mul64_ok n 1024 (n * 1024)) by auto. cbn [bindr]. rewrite (mul64_ok _ 1024 (n * 1024 ^ 2)) by (auto; lia). cbn [bindr]. destruct r; eauto.
  - specialize (H 1024 Hn Hi). assert (S : suffix [c] 1024). { right; left. split; [|reflexivity]. cbn. assert (c = 107 \/ c = 75) as [->| ->] by lia; auto. }
    specialize (H S). rewrite (mul64_ok n 1024 (n * 1024)) by auto. cbn [bindr]. destruct r; eauto.
Qed.
Theorem config_int32_exact s v : config_parse_int32 s = Ok v <-> sized s v /\ int32 v.
Proof.
  unfold config_parse_int32. split.
  - destruct (config_parse_int64 s) as [w| | |] eqn:E; cbn [bindr]; try discriminate. destruct (fits32 w) eqn:F; [|discriminate]. intros [= <-].
    apply config_int64_exact in E. apply fits32_spec in F. tauto.
  - intros [H1 H2]. assert (int64 v) by (revert H2; unfold int32, int64; change (2^31) with 2147483648; change (2^63) with 9223372036854775808; lia).
    rewrite (proj2 (config_int64_exact s v) (conj H1 H)). cbn [bindr]. apply fits32_spec in H2. rewrite H2. reflexivity.
Qed.

(** Booleans: the six words in any letter case, the empty string, a missing value, and
    otherwise a configuration integer of 32 bits. *)
Definition word_is (s : list Z) (w : string) : Prop := map lower s = bs w.
Theorem config_bool_exact v b : config_parse_bool v = Ok b <->
  match v with
  | None => b = true
  | Some s => (b = true /\ (word_is s "true" \/ word_is s "yes" \/ word_is s "on")) \/
              (b = false /\ (word_is s "false" \/ word_is s "no" \/ word_is s "off" \/ s = [])) \/
              (exists n, sized s n /\ int32 n /\ (b = true <-> n <> 0) /\
                 ~ (word_is s "true" \/ word_is s "yes" \/ word_is s "on" \/ word_is s "false" \/ word_is s "no" \/ word_is s "off" \/ s = []))
  end.
Proof.
  destruct v as [s|]; [|cbn; intuition congruence].
  unfold config_parse_bool, parse_bool_word, eqcase, word_is.
  assert (L : forall x y, leqb x y = true <-> x = y) by (intros; apply leqb_spec).
  destruct (leqb (map lower s) (bs "true") || leqb (map lower s) (bs "yes") || leqb (map lower s) (bs "on")) eqn:E1.
  - rewrite !orb_true_iff, !L in E1. split.
    + intros [= <-]. tauto.
    + intros [[-> _]|[[-> H]|(n & _ & _ & _ & H)]]; [reflexivity| |tauto].
      exfalso. destruct E1 as [[E1|E1]|E1]; rewrite E1 in H; (destruct H as [H|[H|[H|H]]]; [discriminate H..|subst s; discriminate E1]).
  - destruct (leqb (map lower s) (bs "false") || leqb (map lower s) (bs "no") || leqb (map lower s) (bs "off") || leqb s []) eqn:E2.
    + rewrite !orb_true_iff, !L in E2. rewrite !orb_false_iff in E1. destruct E1 as [[N1 N2] N3]. split.
      * intros [= <-]. tauto.
      * intros [[-> H]|[[-> H]|(n & _ & _ & _ & H)]]; [|reflexivity|tauto].
        exfalso. destruct H as [H|[H|H]]; apply L in H; congruence.
    + rewrite !orb_false_iff in E1. rewrite !orb_false_iff in E2. destruct E1 as [[N1 N2] N3]. destruct E2 as [[[N4 N5] N6] N7].
      assert (NN : ~ (map lower s = bs "true" \/ map lower s = bs "yes" \/ map lower s = bs "on" \/ map lower s = bs "false" \/ map lower s = bs "no" \/ map lower s = bs "off" \/ s = [])).
      { intros H. repeat destruct H as [H|H]; try (apply L in H; congruence). }
      split.
      * destruct (config_parse_int32 s) as [n| | |] eqn:E; try discriminate. intros [= <-]. right; right. apply config_int32_exact in E. exists n.
        split; [tauto|]. split; [tauto|]. split; [destruct (Z.eqb_spec n 0); cbn; intuition congruence|exact NN].
      * intros [[_ H]|[[_ H]|(n & H1 & H2 & H3 & _)]]; [tauto|tauto|].
        rewrite (proj2 (config_int32_exact s n) (conj H1 H2)). f_equal. destruct (Z.eqb_spec n 0); cbn; destruct b; intuition congruence.
Qed.

Example int_reach1 : strntol64 (bs "  -0x1Fz") 0 = Ok (-31, bs "z"). Proof. vm_compute. reflexivity. Qed.
Example int_reach2 : strntol64 (bs "-9223372036854775808") 10 = Ok (-9223372036854775808, []). Proof. vm_compute. reflexivity. Qed.
Example int_reach3 : strntol64 (bs "9223372036854775808") 10 = Err (-1). Proof. vm_compute. reflexivity. Qed.
Example int_reach4 : config_parse_int64 (bs "2g") = Ok 2147483648. Proof. vm_compute. reflexivity. Qed.
Example int_reach5 : config_parse_bool (Some (bs "YeS")) = Ok true /\ config_parse_bool (Some (bs "0k")) = Ok false. Proof. vm_compute. auto. Qed.
