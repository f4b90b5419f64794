From Verif Require Import Base Str IntModel IntSpec IntProps SigModel SigProofs TreeModel TreeProofs WtreeModel IxextModel IxextSpec.

Fixpoint tc_ind (P : tcache -> Prop) (H : forall n c o ks, Forall P ks -> P (TC n c o ks)) (t : tcache) : P t :=
  match t with
  | TC n c o ks => H n c o ks ((fix go (l : list tcache) : Forall P l := match l with [] => Forall_nil _ | k :: r => Forall_cons k (tc_ind P H k) (go r) end) ks)
  end.

(** *** Numbers *)
Lemma numeral_b b sg ds n rest : b = 10 \/ b = 8 -> In sg [[]; bs "-"] -> digits b ds n -> (forall c r d, rest = c :: r -> ~ digit_is b c d) ->
  numeral b (sg ++ ds ++ rest) (if leqb sg (bs "-") then - n else n) rest.
Proof.
  intros Hb Hs Hd Hr. exists [], sg, [], ds, b, n. cbn [app]. split; [reflexivity|]. split; [constructor|].
  split; [cbn in *; tauto|]. split; [|split; [exact Hd|split; [exact Hr|reflexivity]]].
  unfold base_of. repeat split; try lia. right. split; [lia|reflexivity].
Qed.
Lemma read_dec n x rest : 0 <= n < 2 ^ 31 -> x = 32 \/ x = 10 -> strntol32 (dec 20 n ++ x :: rest) 10 = Ok (n, x :: rest).
Proof.
  intros Hn Hx. apply parse32_exact. split; [|unfold int32; lia].
  apply (numeral_b 10 [] (dec 20 n) n (x :: rest)); [auto|cbn; auto|apply (dec_digits 19); lia|].
  intros c r d [= <- _] (_ & D). change (ch "0") with 48 in D. change (ch "9") with 57 in D. change (ch "a") with 97 in D. change (ch "A") with 65 in D. lia.
Qed.
Lemma read_signed n x rest : - 2 ^ 31 <= n < 2 ^ 31 -> x = 32 \/ x = 10 -> strntol32 (dec_signed n ++ x :: rest) 10 = Ok (n, x :: rest).
Proof.
  intros Hn Hx. unfold dec_signed. destruct (Z.ltb_spec n 0) as [L|L].
  - apply parse32_exact. split; [|unfold int32; lia].
    assert (G : numeral 10 (bs "-" ++ dec 20 (Z.abs n) ++ x :: rest) (- Z.abs n) (x :: rest)).
    { apply (numeral_b 10 (bs "-") (dec 20 (Z.abs n)) (Z.abs n) (x :: rest)); [auto|cbn; auto|apply (dec_digits 19); lia|].
      intros c r d [= <- _] (_ & D). change (ch "0") with 48 in D. change (ch "9") with 57 in D. change (ch "a") with 97 in D. change (ch "A") with 65 in D. lia. }
    replace (- Z.abs n) with n in G by lia. exact G.
  - cbn [app]. rewrite Z.abs_eq by lia. apply read_dec; auto. lia.
Qed.
Lemma read_oct m rest : 0 <= m < 2 ^ 32 -> strntol64 (oct_loop 11 m [] ++ 0 :: rest) 8 = Ok (m, 0 :: rest).
Proof.
  intros Hm. destruct (oct_loop_spec 11 m []) as (t & -> & D & _); [change (8 ^ Z.of_nat 11) with 8589934592; lia|lia|]. rewrite app_nil_r.
  apply parse64_exact. split; [|unfold int64; lia].
  apply (numeral_b 8 [] t m (0 :: rest)); [auto|cbn; auto|exact D|].
  intros c r d [= <- _] (_ & E). change (ch "0") with 48 in E. change (ch "9") with 57 in E. change (ch "a") with 97 in E. change (ch "A") with 65 in E. lia.
Qed.
Lemma cut_nul_app n rest : nonul n -> cut_nul (n ++ 0 :: rest) = Some (n, rest).
Proof.
  unfold nonul. induction n as [|c n IH]; cbn [app cut_nul In]; intros H; [reflexivity|].
  destruct (Z.eqb_spec c 0); [tauto|]. rewrite IH by tauto. reflexivity.
Qed.
Lemma cut_nul_inv s n rest : cut_nul s = Some (n, rest) -> s = n ++ 0 :: rest /\ nonul n.
Proof.
  unfold nonul. revert n rest. induction s as [|c s IH]; cbn [cut_nul]; intros n rest H; [discriminate|]. destruct (Z.eqb_spec c 0).
  - injection H as <- <-. subst c. cbn. auto.
  - destruct (cut_nul s) as [[a b]|]; [|discriminate]. injection H as <- <-. destruct (IH a b eq_refl) as [-> N]. cbn. split; [reflexivity|]. intros [E|I]; [congruence|auto].
Qed.

(** *** TREE *)
Fixpoint blank (osz : nat) (t : tcache) : tcache :=
  let '(TC n c o ks) := t in TC n c (if 0 <=? c then o else repeat 0 osz) (map (blank osz) ks).
Lemma blank_same osz t : same_cache t (blank osz t).
Proof.
  induction t as [n c o ks IH] using tc_ind. cbn [blank]. constructor.
  - intros H. destruct (Z.leb_spec 0 c); [reflexivity|lia].
  - induction IH; cbn [map]; constructor; auto.
Qed.

Notation kids_rd := read_kids.
Lemma kids_S rd k i s : kids_rd rd (S k) i s = if i <=? 0 then Ok ([], s) else do p <- rd s ;; do q <- kids_rd rd k (i - 1) (snd p) ;; Ok (fst p :: fst q, snd q).
Proof. reflexivity. Qed.
Lemma kids_O rd i s : kids_rd rd 0 i s = if i <=? 0 then Ok ([], s) else NoFuel.
Proof. reflexivity. Qed.
Lemma tree_read_in_eq f osz aft s : tree_read_in (S f) osz aft s = read_dir osz aft (tree_read_in f osz aft) f s.
Proof. reflexivity. Qed.
Lemma concat_write_len ks t : In t ks -> (length (tree_write t) <= length (concat (map tree_write ks)))%nat.
Proof.
  induction ks as [|k ks IH]; cbn [In map concat]; [tauto|]. rewrite app_length. intros [<-|I]; [lia|]. specialize (IH I). lia.
Qed.
Lemma dec_len f n : (1 <= length (dec (S f) n))%nat.
Proof. cbn [dec]. destruct (n <? 10); cbn [length]; [lia|]. rewrite app_length. cbn [length]. lia. Qed.
Lemma write_len n c o ks : length (tree_write (TC n c o ks)) =
  (length n + 1 + length (dec_signed c) + 1 + length (dec 20 (Z.of_nat (length ks))) + 1 + length (if (c =? -1)%Z then [] else o) + length (concat (map tree_write ks)))%nat.
Proof. cbn [tree_write]. rewrite !app_length. cbn [length]. lia. Qed.
Lemma cache_inv lo osz n c o ks : cache_from lo osz (TC n c o ks) -> nonul n /\ lo <= c < 2 ^ 31 /\ length o = osz /\ Z.of_nat (length ks) < 2 ^ 31 /\ Forall (cache_from lo osz) ks.
Proof. intros H. inversion H; subst. auto. Qed.
Lemma kids_len ks : (length ks <= length (concat (map tree_write ks)))%nat.
Proof.
  induction ks as [|[n c o l] ks IH]; cbn [map concat length]; [lia|]. rewrite app_length, write_len. lia.
Qed.

Lemma tree_read_write osz aft t : forall f rest, cache_ok osz t -> (length (tree_write t) <= f)%nat ->
  tree_read_in f osz aft (tree_write t ++ rest) = Ok (blank osz t, rest).
Proof.
  induction t as [n c o ks IH] using tc_ind. intros f rest Hok Hf. apply cache_inv in Hok. destruct Hok as (Hn & Hc & Ho & Hk & Hks). subst osz.
  rewrite write_len in Hf. destruct f as [|f]; [lia|]. rewrite tree_read_in_eq. unfold read_dir. cbn [tree_write blank]. rewrite <- !app_assoc. cbn [app].
  rewrite cut_nul_app by exact Hn. set (tail := (if c =? -1 then [] else o) ++ concat (map tree_write ks) ++ rest).
  assert (E1 : strntol32 (dec_signed c ++ 32 :: dec 20 (Z.of_nat (length ks)) ++ 10 :: tail) 10 = Ok (c, 32 :: dec 20 (Z.of_nat (length ks)) ++ 10 :: tail)) by (apply read_signed; [lia|auto]).
  destruct (dec_signed c ++ 32 :: dec 20 (Z.of_nat (length ks)) ++ 10 :: tail) as [|z zs] eqn:Ez; [destruct (dec_signed c); discriminate|].
  rewrite E1. cbn [bindr deref app]. replace (negb (32 =? 32)) with false by reflexivity. cbn [length tl].
  destruct (Nat.leb_spec (S (length (dec 20 (Z.of_nat (length ks)) ++ 10 :: tail))) 1) as [L|_]; [rewrite app_length in L; cbn [length] in L; lia|].
  rewrite read_dec by (auto; lia). cbn [bindr deref app]. destruct (Z.ltb_spec (Z.of_nat (length ks)) 0); [lia|]. replace (negb (10 =? 10)) with false by reflexivity. cbn [length tl].
  change (S (length tail) <? 1)%nat with false. cbv zeta.
  assert (Et : (if 0 <=? c then skipn (length o) tail else tail) = concat (map tree_write ks) ++ rest /\ (0 <=? c) && (length tail <? length o)%nat = false /\
    (if 0 <=? c then firstn (length o) tail else repeat 0 (length o)) = (if 0 <=? c then o else repeat 0 (length o))).
  { unfold tail. destruct (Z.leb_spec 0 c); destruct (Z.eqb_spec c (-1)); try lia.
    - rewrite skipn_app, skipn_all, Nat.sub_diag, firstn_app, firstn_all, Nat.sub_diag. cbn [skipn firstn app]. rewrite app_nil_r. split; [reflexivity|]. split; [|reflexivity].
      cbn [andb]. apply Nat.ltb_ge. rewrite app_length. lia.
    - cbn [app andb]. auto. }
  destruct Et as (-> & -> & ->).
  assert (K : forall l k, Forall (fun t => forall f rest, cache_ok (length o) t -> (length (tree_write t) <= f)%nat -> tree_read_in f (length o) aft (tree_write t ++ rest) = Ok (blank (length o) t, rest)) l ->
    Forall (cache_ok (length o)) l -> (length (concat (map tree_write l)) <= f)%nat -> (length l <= k)%nat ->
    kids_rd (tree_read_in f (length o) aft) k (Z.of_nat (length l)) (concat (map tree_write l) ++ rest) = Ok (map (blank (length o)) l, rest)).
  { clear. induction l as [|t l IHl]; intros k HI HG HL HK.
    - cbn. destruct k; reflexivity.
    - destruct k as [|k]; [cbn in HK; lia|]. rewrite kids_S. destruct (Z.leb_spec (Z.of_nat (length (t :: l))) 0) as [L|_]; [cbn [length] in L; lia|].
      inversion HI as [|? ? P1 P2]; subst. inversion HG as [|? ? Q1 Q2]; subst. cbn [map concat] in HL |- *. rewrite app_length in HL. rewrite <- app_assoc.
      rewrite (P1 f _ Q1) by lia. cbn [bindr snd fst]. replace (Z.of_nat (length (t :: l)) - 1) with (Z.of_nat (length l)) by (cbn [length]; lia).
      rewrite IHl by (auto; cbn [length] in HK; lia). reflexivity. }
  rewrite K by (auto; pose proof (kids_len ks); lia). reflexivity.
Qed.

(** *** Reading any bytes *)
Lemma digits_not_nil b s v : digits b s v -> s <> [].
Proof. intros H. inversion H; [discriminate|]. destruct s0; discriminate. Qed.
Lemma tol64_safe s b : (exists v rest, strntol64 s b = Ok (v, rest) /\ (exists pre, s = pre ++ rest /\ pre <> [])) \/ strntol64 s b = Err (-1).
Proof.
  destruct (strntol64_cases s b) as [(v & rest & -> & N & _)|[-> _]]; [|auto]. left. exists v, rest. split; [reflexivity|].
  destruct N as (ws & sg & px & ds & b' & m & E & _ & _ & _ & D & _). exists (ws ++ sg ++ px ++ ds). rewrite E, <- !app_assoc. split; [reflexivity|].
  apply digits_not_nil in D. intros H. apply app_eq_nil in H. destruct H as [_ H]. apply app_eq_nil in H. destruct H as [_ H]. apply app_eq_nil in H. tauto.
Qed.
Lemma tol32_safe s b : (exists v rest, strntol32 s b = Ok (v, rest) /\ - 2 ^ 31 <= v < 2 ^ 31 /\ (exists pre, s = pre ++ rest /\ pre <> [])) \/ strntol32 s b = Err (-1).
Proof.
  unfold strntol32. destruct (tol64_safe s b) as [(v & rest & -> & H)| ->]; cbn [bindr]; [|auto]. destruct (fits32 v) eqn:F; [|auto]. left. exists v, rest.
  split; [reflexivity|]. split; [|exact H]. unfold fits32 in F. lia.
Qed.
Lemma deref_ok s aft : aft <> [] -> exists c, deref s aft = Ok c.
Proof. intros H. unfold deref. destruct s as [|c s]; cbn [app]; [destruct aft; [congruence|eauto]|eauto]. Qed.

Lemma bindr_bad {A B} (r : res A) (k : A -> res B) : r = Err (-1) -> bindr r k = Err (-1).
Proof. intros ->. reflexivity. Qed.
Definition tsafe (osz : nat) (s : list Z) (r : res (tcache * list Z)) : Prop :=
  (exists t s', r = Ok (t, s') /\ (exists pre, s = pre ++ s') /\ (5 * dirs t + length s' <= length s)%nat /\ cache_from (- 2 ^ 31) osz t) \/ r = Err (-1).
Lemma kids_safe osz rd : (forall s, tsafe osz s (rd s)) -> forall k i s, i < 2 ^ 31 -> (length s < k)%nat ->
  (exists l s', kids_rd rd k i s = Ok (l, s') /\ (exists pre, s = pre ++ s') /\ (5 * list_sum (map dirs l) + length s' <= length s)%nat /\
     Z.of_nat (length l) = Z.max 0 i /\ Forall (cache_from (- 2 ^ 31) osz) l) \/ kids_rd rd k i s = Err (-1).
Proof.
  intros Hrd. induction k as [|k IH]; intros i s Hi Hk; [lia|]. rewrite kids_S. destruct (Z.leb_spec i 0).
  { left. exists [], s. split; [reflexivity|]. split; [exists []; reflexivity|]. split; [cbn [map list_sum fold_right]; lia|]. split; [cbn [length]; lia|constructor]. }
  destruct (Hrd s) as [(t & s' & -> & [pre Hp] & Hs & Ht)| ->]; cbn [bindr fst snd]; [|right; reflexivity].
  assert (D : (1 <= dirs t)%nat) by (destruct t; cbn [dirs]; lia).
  destruct (IH (i - 1) s' ltac:(lia) ltac:(lia)) as [(l & s2 & E & [pre2 Hp2] & Hl & Hn & Hg)|E]; rewrite E; cbn [bindr fst snd]; [|right; reflexivity].
  left. exists (t :: l), s2. split; [reflexivity|]. split; [exists (pre ++ pre2); rewrite Hp, Hp2, <- app_assoc; reflexivity|].
  split; [cbn [map]; change (list_sum (dirs t :: map dirs l)) with (dirs t + list_sum (map dirs l))%nat; lia|]. split; [cbn [length]; lia|constructor; auto].
Qed.
Lemma tree_in_safe osz aft : aft <> [] -> forall f s, (length s < f)%nat -> tsafe osz s (tree_read_in f osz aft s).
Proof.
  intros Ha. induction f as [|f IH]; intros s Hs; [lia|]. rewrite tree_read_in_eq. unfold read_dir.
  destruct (cut_nul s) as [[name s1]|] eqn:C; [|right; reflexivity]. apply cut_nul_inv in C. destruct C as [E1 Hn].
  destruct s1 as [|z s1]; [right; reflexivity|]. remember (z :: s1) as s2 eqn:E2. clear E2 z s1.
  destruct (tol32_safe s2 10) as [(c & s3 & -> & Hc & (p3 & E3 & N3))| ->]; cbn [bindr]; [|right; reflexivity].
  destruct (deref_ok s3 aft Ha) as [c3 ->]. cbn [bindr]. destruct (negb (c3 =? 32)); [right; reflexivity|].
  destruct (Nat.leb_spec (length s3) 1); [right; reflexivity|]. destruct s3 as [|z3 s4]; [cbn [length] in *; lia|]. cbn [tl].
  destruct (tol32_safe s4 10) as [(n & s5 & -> & Hn5 & (p5 & E5 & N5))| ->]; cbn [bindr]; [|right; reflexivity].
  destruct (Z.ltb_spec n 0); [right; reflexivity|]. destruct (deref_ok s5 aft Ha) as [c5 ->]. cbn [bindr]. destruct (negb (c5 =? 10)); [right; reflexivity|].
  destruct (Nat.ltb_spec (length s5) 1); [right; reflexivity|]. destruct s5 as [|z5 s6]; [cbn [length] in *; lia|]. cbn [tl]. cbv zeta.
  destruct ((0 <=? c) && (length s6 <? osz)%nat) eqn:B; [right; reflexivity|].
  assert (L : (length s6 + 5 <= length s)%nat).
  { rewrite E1, E3, E5. repeat (rewrite app_length || cbn [length]). destruct p3; [congruence|]. destruct p5; [congruence|]. cbn [length]. lia. }
  set (s7 := if 0 <=? c then skipn osz s6 else s6). set (oid := if 0 <=? c then firstn osz s6 else repeat 0 osz).
  assert (P7 : exists pre, s6 = pre ++ s7) by (unfold s7; destruct (0 <=? c); [exists (firstn osz s6); symmetry; apply firstn_skipn|exists []; reflexivity]).
  assert (O7 : length oid = osz) by (unfold oid; destruct (Z.leb_spec 0 c); [cbn [andb] in B; apply Nat.ltb_ge in B; rewrite firstn_length; lia|apply repeat_length]).
  destruct P7 as [p7 E7]. assert (L7 : (length s7 <= length s6)%nat) by (rewrite E7, app_length; lia). clearbody s7 oid.
  assert (Q : forall k i s', (length s' < f)%nat -> kids_rd (tree_read_in f osz aft) k i s' = kids_rd (fun s => if (length s <? f)%nat then tree_read_in f osz aft s else Err (-1)) k i s').
  { clear - IH. induction k as [|k IHk]; intros i s' Hs'; [reflexivity|]. rewrite !kids_S. destruct (i <=? 0); [reflexivity|].
    destruct (Nat.ltb_spec (length s') f) as [_|]; [|lia]. destruct (IH s' Hs') as [(t & s2 & -> & _ & H2 & _)| ->]; cbn [bindr fst snd]; [|reflexivity].
    assert (D : (1 <= dirs t)%nat) by (destruct t; cbn [dirs]; lia). rewrite IHk by lia. reflexivity. }
  rewrite Q by lia. clear Q.
  assert (R : forall s', tsafe osz s' (if (length s' <? f)%nat then tree_read_in f osz aft s' else Err (-1))).
  { intros s'. destruct (Nat.ltb_spec (length s') f); [apply IH; lia|right; reflexivity]. }
  destruct (kids_safe osz _ R f n s7 ltac:(lia) ltac:(lia)) as [(l & s8 & -> & [p8 E8] & Hl & Hll & Hg)| ->]; cbn [bindr fst snd]; [|right; reflexivity].
  left. exists (TC name c oid l), s8. split; [reflexivity|]. split.
  { exists (name ++ [0] ++ p3 ++ [z3] ++ p5 ++ [z5] ++ p7 ++ p8). rewrite E1, E3, E5, E7, E8. rewrite <- !app_assoc. reflexivity. }
  split; [cbn [dirs]; lia|]. constructor; auto; lia.
Qed.
Lemma nesting_dirs t : (nesting t <= dirs t)%nat.
Proof.
  induction t as [n c o ks IH] using tc_ind. cbn [nesting dirs]. apply le_n_S. induction IH as [|k ks Hk _ IHk]; [reflexivity|]. cbn [map].
  change (list_max (nesting k :: map nesting ks)) with (Nat.max (nesting k) (list_max (map nesting ks))). change (list_sum (dirs k :: map dirs ks)) with (dirs k + list_sum (map dirs ks))%nat. lia.
Qed.
(** What comes after the extension does not matter. *)
Lemma kids_ext rd rd' : (forall s, rd s = rd' s) -> forall k i s, kids_rd rd k i s = kids_rd rd' k i s.
Proof.
  intros H. induction k as [|k IH]; intros i s; [reflexivity|]. rewrite !kids_S. destruct (i <=? 0); [reflexivity|]. rewrite H. destruct (rd' s) as [[t s2]| | |]; cbn [bindr fst snd]; try reflexivity.
  specialize (IH (i - 1) s2). rewrite IH. reflexivity.
Qed.
Lemma tree_in_after osz a a' : a <> [] -> a' <> [] -> forall f s, tree_read_in f osz a s = tree_read_in f osz a' s.
Proof.
  intros Ha Ha'. induction f as [|f IH]; intros s; [reflexivity|]. rewrite !tree_read_in_eq. unfold read_dir. destruct (cut_nul s) as [[name s1]|]; [|reflexivity]. destruct s1 as [|z s1]; [reflexivity|].
  destruct (strntol32 (z :: s1) 10) as [[c s3]| | |]; cbn [bindr]; try reflexivity. destruct s3 as [|z3 s4].
  { destruct (deref_ok [] a Ha) as [x ->]. destruct (deref_ok [] a' Ha') as [y ->]. cbn [bindr length]. destruct (negb (x =? 32)), (negb (y =? 32)); reflexivity. }
  cbn [deref app bindr tl]. destruct (negb (z3 =? 32)); [reflexivity|]. destruct (length (z3 :: s4) <=? 1)%nat; [reflexivity|].
  destruct (strntol32 s4 10) as [[n s5]| | |]; cbn [bindr]; try reflexivity. destruct (n <? 0); [reflexivity|]. destruct s5 as [|z5 s6].
  { destruct (deref_ok [] a Ha) as [x ->]. destruct (deref_ok [] a' Ha') as [y ->]. cbn [bindr length]. destruct (negb (x =? 10)), (negb (y =? 10)); reflexivity. }
  cbn [deref app bindr tl]. rewrite (kids_ext _ _ IH). reflexivity.
Qed.
Lemma tree_after osz a a' s : a <> [] -> a' <> [] -> tree_read osz a s = tree_read osz a' s.
Proof. intros. unfold tree_read. rewrite (tree_in_after osz a a') by assumption. reflexivity. Qed.
