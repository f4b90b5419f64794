(** Proofs about OidModel. *)
From Verif Require Import Base CStr OidModel OidSpec.

Lemma fromhex_spec c : is_byte c ->
  fromhex c = Ok (match hexval c with Some v => v | None => -1 end).
Proof.
  intros H.
  assert (E : forall b, is_byte b ->
    match fromhex b with Ok v => (v =? match hexval b with Some v => v | None => -1 end) | _ => false end = true).
  { apply byte_sweep. vm_compute. reflexivity. }
  specialize (E c H). destruct (fromhex c) as [v| | |]; try discriminate. f_equal. lia.
Qed.

Lemma hexval_range c v : hexval c = Some v -> 0 <= v < 16.
Proof. unfold hexval. repeat match goal with |- context [if ?b then _ else _] => destruct b eqn:? end; intros [= <-]; lia. Qed.

Lemma hexval_digit v : 0 <= v < 16 -> hexval (digit v) = Some v.
Proof.
  intros H. unfold digit. destruct (Z.ltb_spec v 10); unfold hexval.
  - destruct (Z.leb_spec 48 (48 + v)), (Z.leb_spec (48 + v) 57); cbn [andb]; try lia. f_equal; lia.
  - destruct (Z.leb_spec 48 (87 + v)), (Z.leb_spec (87 + v) 57); cbn [andb]; try lia;
    destruct (Z.leb_spec 97 (87 + v)), (Z.leb_spec (87 + v) 102); cbn [andb]; try lia. f_equal; lia.
Qed.

Lemma hexdig_spec v : 0 <= v < 16 -> hexdig v = Ok (digit v).
Proof.
  intros H. assert (E : v = 0 \/ v = 1 \/ v = 2 \/ v = 3 \/ v = 4 \/ v = 5 \/ v = 6 \/ v = 7 \/ v = 8 \/ v = 9
    \/ v = 10 \/ v = 11 \/ v = 12 \/ v = 13 \/ v = 14 \/ v = 15) by lia.
  repeat destruct E as [->|E]; try reflexivity. subst. reflexivity.
Qed.

Lemma nibbles_length id : length (nibbles id) = (2 * length id)%nat.
Proof. induction id as [|b id IH]; cbn [nibbles length]; lia. Qed.

Lemma nibbles_app a b : nibbles (a ++ b) = nibbles a ++ nibbles b.
Proof. induction a as [|x a IH]; cbn; [reflexivity|]. rewrite IH. reflexivity. Qed.

Lemma nibbles_inj a : forall b, bytes a -> bytes b -> nibbles a = nibbles b -> a = b.
Proof.
  induction a as [|x a IH]; intros [|y b] Ha Hb E; cbn in E; try discriminate; [reflexivity|].
  injection E as E1 E2 E3. inversion Ha; inversion Hb; subst. f_equal; [lia|auto].
Qed.

Lemma nibbles_range id : bytes id -> Forall (fun v => 0 <= v < 16) (nibbles id).
Proof. induction 1 as [|b id Hb H IH]; cbn; constructor; unfold is_byte in Hb; [lia|]. constructor; [lia|exact IH]. Qed.

Lemma nibbles_zero n : nibbles (repeat 0 n) = repeat 0 (2 * n).
Proof. induction n as [|n IH]; [reflexivity|]. replace (2 * S n)%nat with (S (S (2 * n))) by lia. cbn [repeat nibbles]. rewrite IH. reflexivity. Qed.

Lemma nibbles_nth_even id k b : nth_error id k = Some b -> nth_error (nibbles id) (2 * k) = Some (b / 16).
Proof.
  revert k. induction id as [|x id IH]; intros [|k] H; try discriminate.
  - injection H as ->. reflexivity.
  - replace (2 * S k)%nat with (S (S (2 * k))) by lia. cbn [nibbles nth_error]. apply IH. exact H.
Qed.
Lemma nibbles_nth_odd id k b : nth_error id k = Some b -> nth_error (nibbles id) (S (2 * k)) = Some (b mod 16).
Proof.
  revert k. induction id as [|x id IH]; intros [|k] H; try discriminate.
  - injection H as ->. reflexivity.
  - replace (2 * S k)%nat with (S (S (2 * k))) by lia. cbn [nibbles nth_error]. apply IH. exact H.
Qed.

Lemma nibbles_upd id k b : nibbles (upd id k b) = upd (upd (nibbles id) (2 * k) (b / 16)) (S (2 * k)) (b mod 16).
Proof.
  revert k. induction id as [|x id IH]; intros [|k]; try reflexivity.
  replace (2 * S k)%nat with (S (S (2 * k))) by lia. cbn [upd nibbles]. rewrite IH. reflexivity.
Qed.

Lemma upd_same {A} (l : list A) k x : nth_error l k = Some x -> upd l k x = l.
Proof. revert k. induction l as [|a l IH]; intros [|k] H; try discriminate; cbn; [injection H as ->; reflexivity|]. rewrite IH; auto. Qed.

(** One step of the parser on nibbles. *)
Lemma parse_step id p v old : bytes id -> 0 <= v < 16 ->
  nth_error id (Nat.div p 2) = Some old ->
  nth_error (nibbles id) p = Some 0 -> (Nat.odd p = false -> nth_error (nibbles id) (S p) = Some 0) ->
  let w := (Z.shiftl v (if Nat.odd p then 0 else 4)) mod 256 in
  nibbles (upd id (Nat.div p 2) (Z.lor old w)) = upd (nibbles id) p v /\
  is_byte (Z.lor old w).
Proof.
  intros Hb Hv Hold Hp Hp1 w.
  assert (Bo : is_byte old) by (eapply Forall_forall; [exact Hb|]; eapply nth_error_In; exact Hold).
  pose proof (nibbles_nth_even _ _ _ Hold) as He. pose proof (nibbles_nth_odd _ _ _ Hold) as Ho.
  unfold is_byte in Bo.
  destruct (Nat.odd p) eqn:Op.
  - assert (Ep : p = S (2 * (p / 2))%nat).
    { rewrite Nat.div2_odd at 1. rewrite Op, <- Nat.div2_div. cbn. lia. }
    rewrite <- Ep in Ho. rewrite Hp in Ho. injection Ho as Ho.
    assert (Ew : w = v) by (unfold w; rewrite Z.shiftl_0_r; apply Z.mod_small; lia).
    rewrite Ew. assert (El : Z.lor old v = old + v).
    { rewrite Z.lor_comm, (Z.add_comm old). replace old with (old / 16 * 2 ^ 4) at 2 by (change (2^4) with 16; lia).
      replace old with (Z.shiftl (old / 16) 4) at 1 by (rewrite shiftl_mul by lia; change (2^4) with 16; lia).
      rewrite shiftl_mul by lia. rewrite (lor_disjoint _ _ 4); [reflexivity|lia|change (2^4) with 16; lia|lia]. }
    rewrite El. split; [|unfold is_byte; lia].
    rewrite nibbles_upd.
    replace ((old + v) / 16) with (old / 16) by lia. replace ((old + v) mod 16) with v by lia.
    rewrite (upd_same _ (2 * (p / 2))) by exact He. rewrite <- Ep. reflexivity.
  - assert (Ep : p = (2 * (p / 2))%nat).
    { rewrite Nat.div2_odd at 1. rewrite Op, <- Nat.div2_div. cbn. lia. }
    rewrite <- Ep in Ho, He. rewrite Hp in He. rewrite (Hp1 eq_refl) in Ho. injection He as He. injection Ho as Ho.
    assert (old = 0) by lia. subst old. rewrite Z.lor_0_l.
    assert (Ew : w = 16 * v) by (unfold w; rewrite shiftl_mul by lia; change (2^4) with 16; lia).
    rewrite Ew. split; [|unfold is_byte; lia]. rewrite nibbles_upd.
    replace (16 * v / 16) with v by lia. replace (16 * v mod 16) with 0 by lia. rewrite <- Ep.
    apply upd_same. rewrite nth_error_upd. destruct (Nat.eqb_spec p (S p)); [lia|]. apply Hp1. reflexivity.
Qed.

Lemma upd_app_mid {A} (pre : list A) x post y : upd (pre ++ x :: post) (length pre) y = pre ++ y :: post.
Proof. induction pre as [|a pre IH]; cbn; [reflexivity|]. rewrite IH. reflexivity. Qed.

Lemma bytes_upd l k b : bytes l -> is_byte b -> bytes (upd l k b).
Proof.
  intros H Hb. revert k. induction H as [|x l Hx Hl IH]; intros [|k]; cbn; constructor; auto.
  apply IH.
Qed.

Lemma parse_loop_spec size str : bytes str -> forall n p id vs,
  length id = size -> bytes id -> (p + n <= 2 * size)%nat -> length vs = p ->
  nibbles id = vs ++ repeat 0 (2 * size - p) ->
  match parse_loop n p str id with
  | Ok id' => exists ws, digits_of (sub str p n) ws /\ length ws = n /\ length id' = size /\ bytes id' /\
              nibbles id' = vs ++ ws ++ repeat 0 (2 * size - p - n)
  | Err c => c = -1 /\ exists k, (k < n)%nat /\ (exists ws, digits_of (sub str p k) ws /\ length ws = k) /\
             exists ch, nth_error str (p + k) = Some ch /\ hexval ch = None
  | UB => (length str < p + n)%nat /\ exists ws, digits_of (skipn p str) ws
  | NoFuel => False
  end.
Proof.
  intros Hs. induction n as [|n IH]; intros p id vs Hlen Hb Hpn Hvs Hnib; cbn [parse_loop].
  - exists []. cbn. rewrite Nat.sub_0_r. repeat split; auto. constructor.
  - unfold rd at 1. destruct (nth_error str p) as [c|] eqn:Ec; cbn [bindr].
    2:{ apply nth_error_None in Ec. split; [lia|]. exists []. rewrite skipn_all2 by lia. constructor. }
    assert (Bc : is_byte c) by (eapply Forall_forall; [exact Hs|]; eapply nth_error_In; exact Ec).
    rewrite fromhex_spec by exact Bc. cbn [bindr].
    destruct (hexval c) as [v|] eqn:Ev.
    2:{ cbn. split; [reflexivity|]. exists O. split; [lia|]. split; [exists []; cbn; split; [constructor|reflexivity]|].
        exists c. rewrite Nat.add_0_r. auto. }
    pose proof (hexval_range _ _ Ev) as Hv.
    destruct (Z.ltb_spec v 0); [lia|].
    assert (Hdiv : (Nat.div p 2 < length id)%nat) by (apply Nat.div_lt_upper_bound; lia).
    unfold rd. destruct (nth_error id (Nat.div p 2)) as [old|] eqn:Eo; [|apply nth_error_None in Eo; lia].
    cbn [bindr]. cbv zeta.
    assert (HN : nth_error (nibbles id) p = Some 0).
    { rewrite Hnib, nth_error_app2 by lia. rewrite Hvs, Nat.sub_diag.
      destruct (2 * size - p)%nat eqn:E; [lia|]. reflexivity. }
    assert (HN1 : Nat.odd p = false -> nth_error (nibbles id) (S p) = Some 0).
    { intros Op. assert (Hodd : exists k, p = (2 * k)%nat) by (apply Nat.even_spec; rewrite <- Nat.negb_odd, Op; reflexivity).
      rewrite Hnib, nth_error_app2 by lia. rewrite Hvs. replace (S p - p)%nat with 1%nat by lia.
      destruct (2 * size - p)%nat as [|[|k]] eqn:E; [lia| |reflexivity].
      destruct Hodd. lia. }
    destruct (parse_step id p v old Hb Hv Eo HN HN1) as (Hn' & Hby).
    set (b' := Z.lor _ _) in *.
    specialize (IH (S p) (upd id (Nat.div p 2) b') (vs ++ [v])).
    rewrite upd_length, app_length in IH. cbn [length] in IH.
    assert (G : nibbles (upd id (p / 2) b') = (vs ++ [v]) ++ repeat 0 (2 * size - S p)).
    { rewrite Hn', Hnib. replace (2 * size - p)%nat with (S (2 * size - S p)) by lia. cbn [repeat].
      rewrite <- Hvs at 2. rewrite upd_app_mid, <- app_assoc. reflexivity. }
    specialize (IH Hlen (bytes_upd _ _ _ Hb Hby) ltac:(lia) ltac:(lia) G).
    destruct (parse_loop n (S p) str _) as [id'|e| |].
    + destruct IH as (ws & Hw & Hl & Hl' & Hb' & Hn2). exists (v :: ws).
      split. { change (S n) with (1 + n)%nat. rewrite (sub_app_split str p 1 n). replace (p + 1)%nat with (S p) by lia.
        change (v :: ws) with ([v] ++ ws). apply Forall2_app; [|exact Hw].
        replace (sub str p 1) with [c]; [repeat constructor; exact Ev|].
        apply list_ext. intros [|i]; rewrite nth_error_sub; cbn; [rewrite Nat.add_0_r; auto|destruct i; reflexivity]. }
      repeat split; cbn [length]; auto. rewrite Hn2, <- app_assoc. cbn [app]. do 3 f_equal. f_equal. lia.
    + destruct IH as (-> & k & Hk & (ws & Hw & Hl) & ch & Hch & Hno). split; [reflexivity|].
      exists (S k). split; [lia|]. split.
      { exists (v :: ws). split; [|cbn; lia]. change (S k) with (1 + k)%nat. rewrite (sub_app_split str p 1 k). replace (p + 1)%nat with (S p) by lia.
        change (v :: ws) with ([v] ++ ws). apply Forall2_app; [|exact Hw].
        replace (sub str p 1) with [c]; [repeat constructor; exact Ev|].
        apply list_ext. intros [|i]; rewrite nth_error_sub; cbn; [rewrite Nat.add_0_r; auto|destruct i; reflexivity]. }
      exists ch. replace (p + S k)%nat with (S p + k)%nat by lia. auto.
    + destruct IH as (Hl & ws & Hw). split; [lia|]. exists (v :: ws).
      assert (E : skipn p str = c :: skipn (S p) str).
      { clear - Ec. revert p Ec. induction str as [|a str IHs]; intros [|p] E; try discriminate; cbn in *; [congruence|]. apply IHs. exact E. }
      rewrite E. constructor; assumption.
    + contradiction.
Qed.

Lemma digits_fun s v1 : digits_of s v1 -> forall v2, digits_of s v2 -> v1 = v2.
Proof.
  induction 1 as [|c v s vs H Hs IH]; intros v2 H2; inversion H2; subst; [reflexivity|].
  f_equal; [congruence|]. apply IH. assumption.
Qed.

Lemma from_prefix_iff size str len id : bytes str ->
  oid_from_prefix size str len = Ok id <->
  (1 <= len <= 2 * size)%nat /\ (len <= length str)%nat /\ oid_ok size id /\
  exists vs, digits_of (firstn len str) vs /\ nibbles id = vs ++ repeat 0 (2 * size - len).
Proof.
  intros Hs. unfold oid_from_prefix.
  destruct (Nat.eqb_spec len 0) as [E|N].
  { split; [discriminate|]. intros (H & _). lia. }
  destruct (Nat.ltb_spec (2 * size) len).
  { split; [discriminate|]. intros (H' & _). lia. }
  pose proof (parse_loop_spec size str Hs len 0 (repeat 0 size) []) as P.
  rewrite repeat_length, nibbles_zero, Nat.sub_0_r in P. cbn [app] in P.
  assert (Bz : bytes (repeat 0 size)) by (clear; induction size; cbn; constructor; auto; unfold is_byte; lia).
  specialize (P eq_refl Bz ltac:(lia) eq_refl eq_refl).
  destruct (parse_loop len 0 str (repeat 0 size)) as [id'|e| |].
  - destruct P as (ws & Hw & Hl & Hl' & Hb' & Hn). unfold sub in Hw. rewrite skipn_O in Hw.
    split.
    + intros [= <-]. split; [lia|]. split.
      { apply Forall2_length in Hw. rewrite firstn_length in Hw. lia. }
      split; [split; assumption|]. exists ws. auto.
    + intros (_ & _ & (Hi & Hib) & vs & Hv & Hn2). f_equal. apply nibbles_inj; auto.
      rewrite Hn, Hn2. f_equal. eapply digits_fun; eassumption.
  - split; [discriminate|]. destruct P as (_ & k & Hk & _ & ch & Hch & Hno). cbn in Hch.
    intros (_ & Hlen & _ & vs & Hv & _). exfalso.
    assert (E : nth_error (firstn len str) k = Some ch).
    { pose proof (nth_error_sub str 0 len k) as E. unfold sub in E. rewrite skipn_O in E. rewrite E.
      destruct (Nat.ltb_spec k len); [exact Hch|lia]. }
    clear - Hv E Hno. revert k E. induction Hv as [|c v s vs H Hs IH]; intros [|k] E; try discriminate.
    + cbn in E. congruence.
    + cbn in E. eapply IH; eauto.
  - split; [discriminate|]. intros (_ & Hlen & _). destruct P as (P & _). lia.
  - contradiction.
Qed.

Lemma from_prefix_outcome size str len : bytes str ->
  (len <= length str)%nat \/ In 0 str ->
  (exists id, oid_from_prefix size str len = Ok id) \/ oid_from_prefix size str len = Err (-1).
Proof.
  intros Hs Hl. unfold oid_from_prefix.
  destruct (len =? 0)%nat; [auto|]. destruct (Nat.ltb_spec (2 * size) len); [auto|].
  pose proof (parse_loop_spec size str Hs len 0 (repeat 0 size) []) as P.
  rewrite repeat_length, nibbles_zero, Nat.sub_0_r in P. cbn [app] in P.
  assert (Bz : bytes (repeat 0 size)) by (clear; induction size; cbn; constructor; auto; unfold is_byte; lia).
  specialize (P eq_refl Bz ltac:(lia) eq_refl eq_refl).
  destruct (parse_loop len 0 str (repeat 0 size)) as [id'|e| |]; eauto.
  - destruct P as (-> & _). auto.
  - exfalso. destruct P as (Hlt & ws & Hw). destruct Hl as [Hl|Hz]; [lia|]. cbn [skipn] in Hw.
    clear - Hw Hz. induction Hw as [|c v s vs H Hs IH]; [destruct Hz|].
    destruct Hz as [->|Hz]; [discriminate|auto].
  - contradiction.
Qed.

(** Formatting. *)
Lemma fmt_pairs_spec n : forall i id, bytes id -> (i + n <= length id)%nat ->
  fmt_pairs n i id = Ok (sub (hex_text id) (2 * i) (2 * n)).
Proof.
  induction n as [|n IH]; intros i id Hb Hl; cbn [fmt_pairs]; [reflexivity|].
  unfold rd. destruct (nth_error id i) as [b|] eqn:E; [|apply nth_error_None in E; lia]. cbn [bindr].
  assert (Bb : is_byte b) by (eapply Forall_forall; [exact Hb|]; eapply nth_error_In; exact E).
  unfold is_byte in Bb.
  rewrite shiftr_div, land_15 by lia. change (2 ^ 4) with 16.
  rewrite !hexdig_spec by lia. cbn [bindr]. rewrite IH by (auto; lia). cbn [bindr]. f_equal.
  replace (2 * S n)%nat with (2 + 2 * n)%nat by lia. rewrite (sub_app_split _ (2 * i) 2 (2 * n)).
  replace (2 * i + 2)%nat with (2 * S i)%nat by lia.
  replace (sub (hex_text id) (2 * i) 2) with [digit (b / 16); digit (b mod 16)]; [reflexivity|].
  apply list_ext. intros [|[|j]]; rewrite nth_error_sub; unfold hex_text; cbn [Nat.ltb Nat.leb nth_error].
  - rewrite nth_error_map, Nat.add_0_r, (nibbles_nth_even _ _ _ E). reflexivity.
  - rewrite nth_error_map. replace (2 * i + 1)%nat with (S (2 * i)) by lia. rewrite (nibbles_nth_odd _ _ _ E). reflexivity.
  - destruct j; reflexivity.
Qed.

Lemma sub_one {A} (l : list A) k x : nth_error l k = Some x -> sub l k 1 = [x].
Proof.
  intros E. apply list_ext. intros [|j]; rewrite nth_error_sub; cbn; [rewrite Nat.add_0_r; auto|destruct j; reflexivity].
Qed.

Lemma fmt_substr_even id start count : bytes id -> Nat.odd start = false ->
  (start + count <= 2 * length id)%nat ->
  fmt_substr id start count = Ok (sub (hex_text id) start count).
Proof.
  intros Hb Hs Hl. unfold fmt_substr. cbv zeta. rewrite Hs. cbn [bindr].
  assert (Es : start = (2 * (start / 2))%nat).
  { rewrite Nat.div2_odd at 1. rewrite Hs, <- Nat.div2_div. cbn. lia. }
  set (m := (start / 2)%nat) in *. set (e := (start + count)%nat) in *.
  assert (Ee : e = (2 * (e / 2) + if Nat.odd e then 1 else 0)%nat).
  { rewrite Nat.div2_odd at 1. rewrite <- Nat.div2_div. destruct (Nat.odd e); cbn; lia. }
  set (x := (e / 2)%nat) in *.
  assert (Hm : (m <= x)%nat) by (destruct (Nat.odd e); lia).
  rewrite fmt_pairs_spec by (auto; destruct (Nat.odd e); lia). cbn [bindr].
  rewrite Nat.max_r by lia. rewrite <- Es.
  destruct (Nat.odd e) eqn:Oe.
  - unfold rd. destruct (nth_error id x) as [b|] eqn:E; [|apply nth_error_None in E; lia]. cbn [bindr].
    assert (Bb : is_byte b) by (eapply Forall_forall; [exact Hb|]; eapply nth_error_In; exact E).
    unfold is_byte in Bb. rewrite shiftr_div by lia. change (2 ^ 4) with 16.
    rewrite hexdig_spec by lia. cbn [bindr app]. f_equal.
    replace count with (2 * (x - m) + 1)%nat by lia. rewrite sub_app_split. f_equal.
    replace (start + 2 * (x - m))%nat with (2 * x)%nat by lia. symmetry. apply sub_one.
    unfold hex_text. rewrite nth_error_map, (nibbles_nth_even _ _ _ E). reflexivity.
  - cbn [bindr app]. rewrite app_nil_r. do 2 f_equal. lia.
Qed.

Lemma hex_text_length id : length (hex_text id) = (2 * length id)%nat.
Proof. unfold hex_text. rewrite map_length. apply nibbles_length. Qed.

Lemma nfmt_spec size n id : oid_ok size id ->
  oid_nfmt size n id = Ok (firstn n (hex_text id) ++ repeat 0 (n - 2 * size)).
Proof.
  intros [Hl Hb]. unfold oid_nfmt. pose proof (hex_text_length id) as Ht.
  destruct (Nat.ltb_spec (2 * size) n).
  - rewrite fmt_substr_even by (auto; lia). cbn [bindr]. unfold sub. rewrite skipn_O, !firstn_all2 by lia. reflexivity.
  - rewrite fmt_substr_even by (auto; lia). unfold sub. rewrite skipn_O.
    replace (n - 2 * size)%nat with 0%nat by lia. cbn. rewrite app_nil_r. reflexivity.
Qed.

Lemma digits_hex_text id : bytes id -> digits_of (hex_text id) (nibbles id).
Proof.
  intros H. unfold hex_text. pose proof (nibbles_range id H) as R.
  induction R; cbn; constructor; auto. apply hexval_digit. assumption.
Qed.

(** Order. *)
Lemma digit_compare u v : 0 <= u < 16 -> 0 <= v < 16 -> (digit u ?= digit v) = (u ?= v).
Proof. intros. unfold digit. destruct (Z.ltb_spec u 10), (Z.ltb_spec v 10), (Z.compare_spec u v); try (apply Z.compare_eq_iff; lia); try (apply Z.compare_lt_iff; lia); try (apply Z.compare_gt_iff; lia). Qed.

Lemma lex_hex a : forall b, bytes a -> bytes b -> lex (hex_text a) (hex_text b) = lex a b.
Proof.
  induction a as [|x a IH]; intros [|y b] Ha Hb; try reflexivity.
  inversion Ha as [|? ? Hx Ha']; inversion Hb as [|? ? Hy Hb']; subst. unfold is_byte in *.
  unfold hex_text in *. cbn [nibbles map lex]. rewrite !digit_compare by lia. rewrite IH by assumption.
  destruct (Z.compare_spec x y) as [->|L|G].
  - rewrite !Z.compare_refl. reflexivity.
  - destruct (Z.compare_spec (x / 16) (y / 16)) as [E| |]; [|reflexivity|lia].
    destruct (Z.compare_spec (x mod 16) (y mod 16)); [lia|reflexivity|lia].
  - destruct (Z.compare_spec (x / 16) (y / 16)) as [E| |]; [|lia|reflexivity].
    destruct (Z.compare_spec (x mod 16) (y mod 16)); [lia|lia|reflexivity].
Qed.

(** Prefix comparison. *)
Lemma high_nibble x y : is_byte x -> is_byte y -> (Z.land (Z.lxor x y) 240 =? 0) = (x / 16 =? y / 16).
Proof.
  intros Hx Hy. unfold is_byte in *.
  assert (E : Z.land (Z.lxor x y) 240 = Z.lxor (Z.land x 240) (Z.land y 240)).
  { apply Z.bits_inj'. intros n Hn. rewrite Z.land_spec, !Z.lxor_spec, !Z.land_spec.
    destruct (Z.testbit x n), (Z.testbit y n), (Z.testbit 240 n); reflexivity. }
  assert (M : forall z, is_byte z -> (Z.land z 240 =? 16 * (z / 16)) = true).
  { apply byte_sweep. vm_compute. reflexivity. }
  pose proof (M x Hx) as Mx. pose proof (M y Hy) as My.
  rewrite E. replace (Z.land x 240) with (16 * (x / 16)) by lia. replace (Z.land y 240) with (16 * (y / 16)) by lia.
  destruct (Z.eqb_spec (x / 16) (y / 16)) as [->|N].
  - rewrite Z.lxor_nilpotent. reflexivity.
  - destruct (Z.eqb_spec (Z.lxor (16 * (x / 16)) (16 * (y / 16))) 0) as [E0|]; [|reflexivity].
    apply Z.lxor_eq in E0. lia.
Qed.

Lemma ncmp_loop_spec fuel : forall a b len, bytes a -> bytes b -> (len <= fuel)%nat ->
  (len <= 2 * length a)%nat -> (len <= 2 * length b)%nat ->
  exists r, ncmp_loop fuel a b len = Ok r /\ (r = 0 <-> firstn len (nibbles a) = firstn len (nibbles b)).
Proof.
  induction fuel as [|fuel IH]; intros a b len Ha Hb Hf Hla Hlb.
  - assert (len = 0)%nat by lia. subst. cbn. exists 0. tauto.
  - destruct len as [|[|len]]; cbn [ncmp_loop].
    + exists 0. cbn. tauto.
    + destruct a as [|x a]; [cbn in Hla; lia|]. destruct b as [|y b]; [cbn in Hlb; lia|].
      inversion Ha; inversion Hb; subst. cbn [rd nth_error bindr]. rewrite high_nibble by assumption.
      eexists. split; [reflexivity|]. cbn [nibbles firstn].
      destruct (Z.eqb_spec (x / 16) (y / 16)) as [->|N]; split; try reflexivity; try discriminate; intros [=]; congruence.
    + destruct a as [|x a]; [cbn in Hla; lia|]. destruct b as [|y b]; [cbn in Hlb; lia|].
      inversion Ha as [|? ? Hx Ha']; inversion Hb as [|? ? Hy Hb']; subst. cbn [rd nth_error bindr tl nibbles firstn].
      cbn [length] in *. unfold is_byte in Hx, Hy.
      destruct (Z.eqb_spec x y) as [->|N].
      * destruct (IH a b len Ha' Hb' ltac:(lia) ltac:(lia) ltac:(lia)) as (r & -> & Hr). exists r.
        split; [reflexivity|]. rewrite Hr. split; [intros ->; reflexivity|congruence].
      * exists 1. split; [reflexivity|]. split; [discriminate|]. intros [= E1 E2 _]. lia.
Qed.

Lemma oid_ncmp_spec size a b len : oid_ok size a -> oid_ok size b ->
  exists r, oid_ncmp size a b len = Ok r /\ (r = 0 <-> firstn len (hex_text a) = firstn len (hex_text b)).
Proof.
  intros [La Ba] [Lb Bb]. unfold oid_ncmp. cbv zeta. set (len' := if (2 * size <? len)%nat then (2 * size)%nat else len).
  assert (Hl : (len' <= 2 * size)%nat) by (unfold len'; destruct (Nat.ltb_spec (2 * size) len); lia).
  destruct (ncmp_loop_spec len' a b len' Ba Bb) as (r & -> & Hr); try lia.
  exists r. split; [reflexivity|]. rewrite Hr.
  assert (En : forall x, length x = size -> firstn len' (nibbles x) = firstn len (nibbles x)).
  { intros x Hx. unfold len'. destruct (Nat.ltb_spec (2 * size) len); [|reflexivity].
    rewrite !firstn_all2; auto; rewrite nibbles_length; lia. }
  rewrite (En a La), (En b Lb). unfold hex_text. rewrite !firstn_map.
  split; [intros ->; reflexivity|].
  assert (Dinj : forall u v : list Z, Forall (fun w => 0 <= w < 16) u -> Forall (fun w => 0 <= w < 16) v -> map digit u = map digit v -> u = v).
  { clear. induction u as [|x u IH]; intros [|y v] Hu Hv E; try discriminate; [reflexivity|].
    cbn in E. injection E as E1 E2. inversion Hu; inversion Hv; subst. f_equal; [|auto].
    pose proof (hexval_digit x ltac:(assumption)). pose proof (hexval_digit y ltac:(assumption)). congruence. }
  assert (Fn : forall n (l : list Z), Forall (fun v => 0 <= v < 16) l -> Forall (fun v => 0 <= v < 16) (firstn n l)).
  { clear. intros n l H. revert n. induction H; intros [|n]; cbn; constructor; auto. }
  apply Dinj; apply Fn; apply nibbles_range; assumption.
Qed.

(** cpy_prefix *)
Lemma cpy_prefix_spec size out id len : oid_ok size out -> oid_ok size id -> (len <= 2 * size)%nat ->
  exists r, oid_cpy_prefix out id len = Ok r /\ oid_ok size r /\
    firstn len (nibbles r) = firstn len (nibbles id) /\
    (Nat.odd len = true -> nth_error (nibbles r) len = Some 0) /\
    skipn (Nat.div (len + 1) 2) r = skipn (Nat.div (len + 1) 2) out.
Proof.
  intros [Lo Bo] [Li Bi] Hl. unfold oid_cpy_prefix. cbv zeta. set (n := ((len + 1) / 2)%nat).
  assert (Hn : (n <= size)%nat) by (unfold n; apply Nat.lt_succ_r; apply Nat.div_lt_upper_bound; lia).
  rewrite (proj2 (Nat.leb_le n (length out))), (proj2 (Nat.leb_le n (length id))) by lia. cbn [andb].
  set (r := firstn n id ++ skipn n out).
  assert (Lr : length r = size) by (unfold r; rewrite app_length, firstn_length, skipn_length; lia).
  assert (Br : bytes r).
  { unfold r. apply bytes_app. split; [apply Forall_forall|apply Forall_forall]; intros z Hz; eapply Forall_forall.
    - exact Bi. - rewrite <- (firstn_skipn n id). apply in_or_app. auto.
    - exact Bo. - rewrite <- (firstn_skipn n out). apply in_or_app. auto. }
  assert (Nr : nibbles r = nibbles (firstn n id) ++ nibbles (skipn n out)) by (unfold r; apply nibbles_app).
  assert (Ni : nibbles id = nibbles (firstn n id) ++ nibbles (skipn n id)).
  { rewrite <- nibbles_app, firstn_skipn. reflexivity. }
  assert (Lf : length (nibbles (firstn n id)) = (2 * n)%nat).
  { rewrite nibbles_length, firstn_length. lia. }
  assert (F : firstn len (nibbles r) = firstn len (nibbles id)).
  { rewrite Nr, Ni, !firstn_app. assert (len <= 2 * n)%nat.
    { unfold n. rewrite (Nat.div_mod (len + 1) 2) at 1 by lia. pose proof (Nat.mod_upper_bound (len + 1) 2).
      pose proof (Nat.div_mod (len + 1) 2). lia. }
    replace (len - length (nibbles (firstn n id)))%nat with 0%nat by lia. reflexivity. }
  assert (Sr : skipn n r = skipn n out).
  { unfold r. rewrite skipn_app, skipn_all2 by (rewrite firstn_length; lia).
    rewrite firstn_length. replace (n - Nat.min n (length id))%nat with 0%nat by lia. reflexivity. }
  destruct (Nat.odd len) eqn:Ol.
  - assert (Ep : len = S (2 * (len / 2))%nat).
    { rewrite Nat.div2_odd at 1. rewrite Ol, <- Nat.div2_div. cbn. lia. }
    set (k := (len / 2)%nat) in *. assert (En : n = S k) by (unfold n; replace (len + 1)%nat with (S k * 2)%nat by lia; apply Nat.div_mul; lia).
    unfold rd. destruct (nth_error r k) as [b|] eqn:Eb; [|apply nth_error_None in Eb; lia]. cbn [bindr].
    assert (Bb : is_byte b) by (eapply Forall_forall; [exact Br|]; eapply nth_error_In; exact Eb).
    assert (M : forall z, is_byte z -> (Z.land z 240 =? 16 * (z / 16)) = true) by (apply byte_sweep; vm_compute; reflexivity).
    pose proof (M b Bb) as Mb. apply Z.eqb_eq in Mb. rewrite Mb. unfold is_byte in Bb.
    eexists. split; [reflexivity|]. split; [|split; [|split]].
    + split; [rewrite upd_length; exact Lr|]. apply bytes_upd; [exact Br|unfold is_byte; lia].
    + rewrite <- F. rewrite nibbles_upd. replace (16 * (b / 16) / 16) with (b / 16) by lia.
      rewrite (upd_same _ (2 * k)) by (apply nibbles_nth_even; exact Eb). rewrite <- Ep.
      apply list_ext. intros i. pose proof (nth_error_sub (upd (nibbles r) len (16 * (b / 16) mod 16)) 0 len i) as G1.
      pose proof (nth_error_sub (nibbles r) 0 len i) as G2. unfold sub in G1, G2. rewrite skipn_O in G1, G2. rewrite G1, G2.
      destruct (Nat.ltb_spec i len); [|reflexivity]. rewrite nth_error_upd. destruct (Nat.eqb_spec len (0 + i)); [lia|reflexivity].
    + intros _. rewrite nibbles_upd. rewrite <- Ep, nth_error_upd, Nat.eqb_refl, !upd_length, nibbles_length.
      destruct (Nat.ltb_spec len (2 * length r)).
      * f_equal. lia.
      * lia.
    + rewrite <- Sr. apply list_ext. intros i. clear - En. subst n. rewrite En.
      assert (G : forall (l : list Z) j, nth_error (skipn j l) i = nth_error l (j + i)).
      { clear. induction l as [|a l IH]; intros [|j]; cbn; auto. - destruct i; reflexivity. }
      rewrite !G, nth_error_upd. destruct (Nat.eqb_spec k (S k + i)); [lia|reflexivity].
  - exists r. repeat split; auto. discriminate.
Qed.

(** strcmp *)
Lemma strcmp_zero a : forall s rest, bytes a -> bytes s -> ~ In 0 s ->
  (exists r, oid_strcmp a (s ++ 0 :: rest) = Ok r /\
   (r = 0 <-> exists vs, digits_of (firstn (2 * length a) s) vs /\
                   let vs' := if Nat.odd (length vs) then vs ++ [0] else vs in
                   vs' = firstn (length vs') (nibbles a))).
Proof.
  induction a as [|x a IH]; intros s rest Ha Hs Hz; cbn [oid_strcmp].
  - exists 0. split; [reflexivity|]. split; [intros _|reflexivity]. exists []. split; [constructor|reflexivity].
  - inversion Ha as [|? ? Hx Ha']; subst. unfold is_byte in Hx.
    destruct s as [|c s].
    { cbn [app]. exists 0. split; [reflexivity|]. split; [intros _|reflexivity]. exists []. split; [rewrite firstn_nil; constructor|reflexivity]. }
    cbn [app]. inversion Hs as [|? ? Hc Hs']; subst.
    assert (c <> 0) by (intros ->; apply Hz; left; reflexivity).
    destruct (Z.eqb_spec c 0); [contradiction|]. rewrite fromhex_spec by exact Hc. cbn [bindr].
    replace (2 * length (x :: a))%nat with (S (S (2 * length a))) by (cbn; lia). cbn [firstn].
    destruct (hexval c) as [h|] eqn:Eh; cbn match.
    2:{ exists (-1). split; [reflexivity|]. split; [discriminate|]. intros (vs & Hv & _). inversion Hv; subst. congruence. }
    pose proof (hexval_range _ _ Eh). destruct (Z.ltb_spec h 0); [lia|]. cbv zeta.
    assert (Ew : Z.shiftl h 4 mod 256 = 16 * h) by (rewrite shiftl_mul by lia; change (2^4) with 16; lia).
    rewrite Ew.
    destruct s as [|c2 s]; cbn [app].
    + destruct (Z.eqb_spec 0 0); [|congruence]. destruct (Z.eqb_spec x (16 * h)) as [->|N].
      * destruct a as [|y a]; cbn [oid_strcmp].
        -- exists 0. split; [reflexivity|]. split; [intros _|reflexivity]. exists [h]. split; [repeat constructor; exact Eh|].
           cbn. f_equal; [lia|f_equal; lia].
        -- destruct (Z.eqb_spec 0 0); [|congruence]. exists 0. split; [reflexivity|]. split; [intros _|reflexivity].
           exists [h]. split; [repeat constructor; exact Eh|]. cbn. f_equal; [lia|f_equal; lia].
      * exists (x - 16 * h). split; [reflexivity|]. split; [lia|]. intros (vs & Hv & E).
        inversion Hv as [|? h' ? vs' E1 E2]; subst. inversion E2; subst. rewrite Eh in E1. injection E1 as <-.
        cbn in E. injection E as E3 E4. lia.
    + assert (c2 <> 0) by (intros ->; apply Hz; right; left; reflexivity).
      destruct (Z.eqb_spec c2 0); [contradiction|]. inversion Hs' as [|? ? Hc2 Hs'']; subst.
      rewrite fromhex_spec by exact Hc2. cbn [bindr].
      destruct (hexval c2) as [h2|] eqn:Eh2; cbn match.
      2:{ exists (-1). split; [reflexivity|]. split; [discriminate|]. intros (vs & Hv & _). inversion Hv as [|? ? ? ? ? HH2]; subst. inversion HH2; subst. congruence. }
      pose proof (hexval_range _ _ Eh2). destruct (Z.ltb_spec h2 0); [lia|].
      assert (El : Z.lor (16 * h) h2 = 16 * h + h2).
      { rewrite Z.lor_comm. replace (16 * h) with (Z.shiftl h 4) by (rewrite shiftl_mul by lia; change (2^4) with 16; lia).
        rewrite shiftl_mul by lia. rewrite (lor_disjoint _ _ 4); change (2^4) with 16; lia. }
      rewrite El.
      destruct (Z.eqb_spec x (16 * h + h2)) as [->|N].
      * destruct (IH s rest Ha' Hs'' ltac:(intros Hi; apply Hz; right; right; exact Hi)) as (r & -> & Hr).
        exists r. split; [reflexivity|]. rewrite Hr. clear Hr. cbn [nibbles].
        replace ((16 * h + h2) / 16) with h by lia. replace ((16 * h + h2) mod 16) with h2 by lia.
        split.
        -- intros (vs & Hv & E). exists (h :: h2 :: vs). split; [repeat constructor; assumption|].
           cbn zeta in *. cbn [length]. change (Nat.odd (S (S (length vs)))) with (Nat.odd (length vs)).
           destruct (Nat.odd (length vs)); cbn [app length firstn]; rewrite <- E; reflexivity.
        -- intros (vs & Hv & E). inversion Hv as [|? h' ? vs1 E1 Hv1]; subst. inversion Hv1 as [|? h2' ? vs2 E2 Hv2]; subst.
           exists vs2. split; [exact Hv2|]. cbn zeta in *. cbn [length] in E. change (Nat.odd (S (S (length vs2)))) with (Nat.odd (length vs2)) in E.
           destruct (Nat.odd (length vs2)); cbn [app length firstn] in E; injection E as _ _ E; exact E.
      * exists (x - (16 * h + h2)). split; [reflexivity|]. split; [lia|]. intros (vs & Hv & E).
        inversion Hv as [|? h' ? vs1 E1 Hv1]; subst. inversion Hv1 as [|? h2' ? vs2 E2 Hv2]; subst.
        rewrite Eh in E1; injection E1 as <-. rewrite Eh2 in E2; injection E2 as <-.
        exfalso. cbn zeta in E. cbn [length] in E. change (Nat.odd (S (S (length vs2)))) with (Nat.odd (length vs2)) in E.
        destruct (Nat.odd (length vs2)); cbn [app length firstn nibbles] in E; injection E as E3 E4 _; lia.
Qed.

Lemma is_zero_spec id : oid_is_zero id = true <-> id = repeat 0 (length id).
Proof.
  induction id as [|b id IH]; cbn; [tauto|]. destruct (Z.eqb_spec b 0) as [->|N]; cbn.
  - rewrite IH. split; [intros E; f_equal; exact E|intros [= E]; exact E].
  - split; [discriminate|]. intros [= E _]. contradiction.
Qed.

Lemma is_hexstr_spec size s rest : forall i, bytes s -> ~ In 0 s ->
  exists b, is_hexstr size (s ++ 0 :: rest) i = Ok b /\
   (b = true <-> (i + length s = 2 * size)%nat /\ exists vs, digits_of s vs).
Proof.
  induction s as [|c s IH]; intros i Hs Hz; cbn [app is_hexstr].
  - destruct (Z.eqb_spec 0 0); [|congruence]. eexists. split; [reflexivity|]. rewrite Nat.eqb_eq. cbn [length]. rewrite Nat.add_0_r.
    split; [intros ->; split; [reflexivity|exists []; constructor]|tauto].
  - inversion Hs as [|? ? Hc Hs']; subst. destruct (Z.eqb_spec c 0) as [->|]; [exfalso; apply Hz; left; reflexivity|].
    rewrite fromhex_spec by exact Hc. cbn [bindr].
    destruct (hexval c) as [v|] eqn:E; cbn match.
    + pose proof (hexval_range _ _ E). destruct (Z.ltb_spec v 0); [lia|].
      destruct (IH (S i) Hs' ltac:(intros Hi; apply Hz; right; exact Hi)) as (b & -> & Hb). exists b. split; [reflexivity|].
      rewrite Hb. cbn [length]. split; intros (H1 & vs & H2); (split; [lia|]).
      * exists (v :: vs). constructor; assumption.
      * inversion H2; subst. eauto.
    + exists false. split; [reflexivity|]. split; [discriminate|]. intros (_ & vs & H2). inversion H2; subst. congruence.
Qed.
