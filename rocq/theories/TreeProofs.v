From Verif Require Import Base Str CStr Arr IntModel IntSpec IntProofs IntProps TsortModel TsortSpec TsortMap VectorModel VectorSpec VectorProofs TreeModel TreeSpec.

(** *** Order *)
Definition good (e : tentry) : Prop := cstr (te_name e) /\ ~ In 47 (te_name e) /\ Z.of_nat (length (te_name e)) <= 65535.
Definition ekey (e : tentry) : list Z := sort_key (te_attr e) (te_name e).

Lemma len16_id n : Z.of_nat n <= 65535 -> len16 n = n.
Proof. intros H. unfold len16. rewrite Z.mod_small by lia. lia. Qed.

Definition csgn (c : comparison) : Z := match c with Lt => -1 | Eq => 0 | Gt => 1 end.

Lemma path_cmp_lex n1 : forall n2 d1 d2, cstr n1 -> cstr n2 -> ~ In 47 n1 -> ~ In 47 n2 ->
  Z.sgn (fs_path_cmp n1 (length n1) d1 n2 (length n2) d2 strncmp) =
  csgn (lex (n1 ++ (if d1 then [47] else [])) (n2 ++ (if d2 then [47] else []))).
Proof.
  induction n1 as [|x a IH]; intros [|y b] d1 d2 C1 C2 N1 N2.
  - destruct d1, d2; reflexivity.
  - inversion C2 as [|? ? Hy _]; subst. assert (y <> 47) by (intros ->; apply N2; left; reflexivity).
    unfold fs_path_cmp. cbn [length Nat.ltb Nat.leb strncmp nth].
    replace (negb (0 =? 0)) with false by reflexivity. replace (y =? 0) with false by lia. cbn [andb]. replace ((0 =? 0) && d1) with d1 by reflexivity.
    destruct d1; cbn [app lex].
    + destruct (Z.compare_spec 47 y); [lia| |]; destruct (Z.ltb_spec 47 y); destruct (Z.ltb_spec y 47); try lia; reflexivity.
    + destruct (Z.ltb_spec 0 y); [reflexivity|lia].
  - inversion C1 as [|? ? Hx _]; subst. assert (x <> 47) by (intros ->; apply N1; left; reflexivity).
    unfold fs_path_cmp. cbn [length Nat.ltb Nat.leb strncmp nth].
    replace (negb (0 =? 0)) with false by reflexivity. replace (x =? 0) with false by lia. cbn [andb]. replace ((0 =? 0) && d2) with d2 by reflexivity.
    destruct d2; cbn [app lex].
    + destruct (Z.compare_spec x 47); [lia| |]; destruct (Z.ltb_spec 47 x); destruct (Z.ltb_spec x 47); try lia; reflexivity.
    + destruct (Z.ltb_spec x 0); [lia|]. destruct (Z.ltb_spec 0 x); [reflexivity|lia].
  - inversion C1 as [|? ? Hx C1']; subst. inversion C2 as [|? ? Hy C2']; subst. cbn [app lex].
    destruct (Z.compare_spec x y) as [->|L|L].
    + rewrite <- (IH b d1 d2) by (auto; intros Hin; (apply N1; right; exact Hin) || (apply N2; right; exact Hin)). f_equal.
      unfold fs_path_cmp. cbn [length]. change (S (length a) <? S (length b))%nat with (length a <? length b)%nat.
      destruct (length a <? length b)%nat; cbn [strncmp nth]; rewrite Z.eqb_refl; reflexivity.
    + unfold fs_path_cmp. cbn [length]. assert (E : forall n, strncmp (x :: a) (y :: b) (S n) = x - y) by (intros n; cbn; destruct (Z.eqb_spec x y); [lia|reflexivity]).
      destruct (S (length a) <? S (length b))%nat; rewrite E; destruct (Z.eqb_spec (x - y) 0); cbn [negb csgn]; lia.
    + unfold fs_path_cmp. cbn [length]. assert (E : forall n, strncmp (x :: a) (y :: b) (S n) = x - y) by (intros n; cbn; destruct (Z.eqb_spec x y); [lia|reflexivity]).
      destruct (S (length a) <? S (length b))%nat; rewrite E; destruct (Z.eqb_spec (x - y) 0); cbn [negb csgn]; lia.
Qed.
Lemma is_tree_isdirb e : is_tree e = isdirb (te_attr e).
Proof. reflexivity. Qed.
Lemma entry_cmp_lex a b : good a -> good b -> Z.sgn (entry_sort_cmp a b) = csgn (lex (ekey a) (ekey b)).
Proof.
  intros (C1 & N1 & L1) (C2 & N2 & L2). unfold entry_sort_cmp, flen. rewrite !len16_id by assumption. rewrite path_cmp_lex by assumption. reflexivity.
Qed.
Lemma entry_cmp_le a b : good a -> good b -> (entry_sort_cmp a b <= 0 <-> lex (ekey a) (ekey b) <> Gt).
Proof. intros Ha Hb. pose proof (entry_cmp_lex a b Ha Hb) as E. destruct (lex (ekey a) (ekey b)); cbn in E; intuition (try congruence; lia). Qed.
Lemma lex_le_trans a b c : lex a b <> Gt -> lex b c <> Gt -> lex a c <> Gt.
Proof.
  intros H1 H2 H3. destruct (lex a b) eqn:E1; [|destruct (lex b c) eqn:E2|]; try congruence.
  - apply lex_eq in E1. subst. congruence.
  - apply lex_eq in E2. subst. congruence.
  - rewrite (lex_lt_trans a b c E1 E2) in H3. discriminate.
Qed.
Lemma entry_cmp_ok : cmp_ok_on good entry_sort_cmp.
Proof.
  constructor.
  - intros a b Ha Hb. rewrite !entry_cmp_lex by assumption. rewrite (lex_antisym (ekey a) (ekey b)). destruct (lex _ _); reflexivity.
  - intros a b c Ha Hb Hc. rewrite !entry_cmp_le by assumption. apply lex_le_trans.
Qed.

(** *** Octal text *)
Lemma digit8 d : 0 <= d < 8 -> digit_is 8 (48 + d) d.
Proof. intros H. split; [lia|]. left. change (ch "0") with 48. change (ch "9") with 57. lia. Qed.
Lemma oct_loop_spec f : forall n acc, 0 <= n < 8 ^ Z.of_nat f -> (0 < f)%nat ->
  exists t, oct_loop f n acc = t ++ acc /\ digits 8 t n /\ (hd 0 t <> 48 \/ (t = [48] /\ n = 0)).
Proof.
  induction f as [|f IH]; intros n acc Hn Hf; [lia|]. cbn [oct_loop]. destruct (Z.eqb_spec (n / 8) 0) as [E|N].
  - exists [48 + n mod 8]. split; [reflexivity|]. assert (n mod 8 = n) as -> by lia. split; [apply D1, digit8; lia|]. cbn [hd].
    destruct (Z.eq_dec n 0) as [->|]; [right; auto|left; lia].
  - assert (Hf' : (0 < f)%nat) by (destruct f; [cbn in Hn; lia|lia]).
    replace (Z.of_nat (S f)) with (Z.of_nat f + 1) in Hn by lia. rewrite Z.pow_add_r in Hn by lia.
    destruct (IH (n / 8) ((48 + n mod 8) :: acc)) as (t & E & D & Z0); [split; [lia|]; change (8 ^ 1) with 8 in Hn; apply Z.div_lt_upper_bound; lia|exact Hf'|].
    exists (t ++ [48 + n mod 8]). split; [rewrite E, <- app_assoc; reflexivity|]. split.
    + replace n with (n / 8 * 8 + n mod 8) at 2 by lia. apply DS; [exact D|apply digit8; lia].
    + destruct Z0 as [Z0|[-> Z1]]; [left|lia]. destruct t; [apply digits_eval in D; [|lia]; destruct D; congruence|exact Z0].
Qed.
Lemma octal_spec n : 0 <= n <= 65535 -> octal_text n (octal n).
Proof.
  intros H. destruct (oct_loop_spec 6 n []) as (t & E & D & Z0); [change (8 ^ Z.of_nat 6) with 262144; lia|lia|].
  unfold octal. rewrite E, app_nil_r. split; [exact D|]. change (ch "0") with 48. change (bs "0") with [48]. tauto.
Qed.
Lemma put_entry_bytes e : 0 <= te_attr e <= 65535 -> Z.of_nat (length (te_name e)) <= 65535 -> entry_bytes (te_attr e) (te_name e) (te_oid e) (put_entry e).
Proof.
  intros H1 H2. exists (octal (te_attr e)). split; [apply octal_spec; exact H1|]. unfold put_entry, flen. rewrite len16_id by exact H2.
  rewrite (firstn_all2 (n := length (te_name e) + 1)) by (rewrite app_length; cbn; lia). change (bs " ") with [32]. rewrite <- !app_assoc. reflexivity.
Qed.

(** *** The parser *)
Definition stop8 (r : list Z) : Prop := forall c t d, r = c :: t -> ~ digit_is 8 c d.
Lemma numeral8 s v rest : numeral 8 s v rest <->
  exists ws sgn ds m, s = ws ++ sgn ++ ds ++ rest /\ Forall space ws /\ In sgn [[]; bs "+"; bs "-"] /\ digits 8 ds m /\ stop8 rest /\ v = if leqb sgn (bs "-") then - m else m.
Proof.
  split.
  - intros (ws & sgn & px & ds & b & m & E & Hw & Hs & (B1 & B2 & B3 & B4) & Hd & Hr & Hv). assert (b = 8) by (apply B1; lia). subst b.
    destruct B4 as [[? _]|[_ ->]]; [discriminate|]. exists ws, sgn, ds, m. cbn [app] in E. repeat split; auto.
  - intros (ws & sgn & ds & m & E & Hw & Hs & Hd & Hr & Hv). exists ws, sgn, [], ds, 8, m. cbn [app]. repeat split; auto; try lia.
    right. split; [lia|reflexivity].
Qed.
Lemma space_stop8 x : stop8 (32 :: x).
Proof. intros c t d [= <- <-] [_ H]. change (ch "0") with 48 in H. change (ch "9") with 57 in H. change (ch "a") with 97 in H. change (ch "A") with 65 in H. change (ch "z") with 122 in H. change (ch "Z") with 90 in H. lia. Qed.
Lemma digits_no32 b ds m : 0 <= b <= 36 -> digits b ds m -> Forall (fun c => c <> 32) ds.
Proof.
  intros Hb H. apply digits_eval in H; [|exact Hb]. destruct H as (_ & Ha & _). eapply Forall_impl; [|exact Ha].
  intros c Hc ->. cbn in Hc. change (digit b 32) with b in Hc. lia.
Qed.

(** The mode text: no space inside. *)
Lemma mode_text_shape t m : numeral 8 (t ++ [32]) m [32] -> (exists c r, t = c :: r /\ ~ space c) ->
  exists sgn ds mm, t = sgn ++ ds /\ In sgn [[]; bs "+"; bs "-"] /\ digits 8 ds mm /\ m = (if leqb sgn (bs "-") then - mm else mm) /\ Forall (fun c => c <> 32) t.
Proof.
  intros H (c & r & Et & Hc). apply numeral8 in H. destruct H as (ws & sgn & ds & mm & E & Hw & Hs & Hd & _ & Hv).
  destruct ws as [|w ws].
  - cbn [app] in E. rewrite app_assoc in E. apply app_inj_tail in E. destruct E as [E _]. exists sgn, ds, mm. repeat split; auto.
    rewrite E. apply Forall_app. split; [|apply (digits_no32 8 ds mm); [lia|exact Hd]]. destruct Hs as [<-|[<-|[<-|[]]]]; repeat constructor; discriminate.
  - rewrite Et in E. cbn [app] in E. injection E as <- _. inversion Hw; contradiction.
Qed.

Lemma cut_nul_spec s : (exists a b, cut_nul s = Some (a, b) /\ s = a ++ 0 :: b /\ ~ In 0 a) \/ (cut_nul s = None /\ ~ In 0 s).
Proof.
  induction s as [|c s IH]; [right; split; [reflexivity|auto]|]. cbn. destruct (Z.eqb_spec c 0) as [->|N].
  - left. exists [], s. auto.
  - destruct IH as [(a & b & -> & -> & Ha)|[-> Hn]].
    + left. exists (c :: a), b. split; [reflexivity|]. split; [reflexivity|]. intros [->|H]; [congruence|auto].
    + right. split; [reflexivity|]. intros [->|H]; [congruence|auto].
Qed.
Lemma cut_nul_app a b : ~ In 0 a -> cut_nul (a ++ 0 :: b) = Some (a, b).
Proof.
  induction a as [|c a IH]; intros H; cbn; [reflexivity|]. destruct (Z.eqb_spec c 0) as [->|N]; [exfalso; apply H; left; reflexivity|].
  rewrite IH; [reflexivity|]. intros Hin. apply H. right. exact Hin.
Qed.

Lemma parse_mode_cases s : (exists v rest, parse_mode s = Ok (v, rest)) \/ parse_mode s = Err (-1).
Proof.
  unfold parse_mode. destruct s as [|c s]; [auto|]. destruct (isspc c); [auto|]. unfold strntol32.
  destruct (parse64_total (c :: s) 8) as [(v & r & ->)| ->]; cbn [bindr]; [|auto]. destruct (fits32 v); cbn [bindr]; [|auto]. destruct (_ || _); [auto|eauto].
Qed.
Lemma parse_mode_spec s v rest : parse_mode s = Ok (v, rest) <-> (exists c r, s = c :: r /\ ~ space c) /\ numeral 8 s v rest /\ 0 <= v <= 65535.
Proof.
  unfold parse_mode. destruct s as [|c s]; [split; [discriminate|intros ((? & ? & ? & _) & _); discriminate]|].
  destruct (isspc c) eqn:Es.
  - split; [discriminate|]. intros ((? & ? & [= <- <-] & H) & _). apply isspc_spec in Es. contradiction.
  - assert (Hns : ~ space c) by (intros H; apply isspc_spec in H; congruence). split.
    + destruct (strntol32 (c :: s) 8) as [[m r]| | |] eqn:E; cbn [bindr]; try discriminate. destruct ((m <? 0) || (65535 <? m)) eqn:Er; [discriminate|]. intros [= <- <-].
      apply parse32_exact in E. split; [eauto|]. split; [tauto|lia].
    + intros (_ & H1 & H2). assert (int32 v) by (unfold int32; change (2^31) with 2147483648; lia).
      rewrite (proj2 (parse32_exact (c :: s) 8 v rest) (conj H1 H)). cbn [bindr]. destruct (Z.ltb_spec v 0); [lia|]. destruct (Z.ltb_spec 65535 v); [lia|]. reflexivity.
Qed.

Lemma parse_entry_spec sz s e r : parse_entry sz s = Ok (e, r) <-> exists b, s = b ++ r /\ entry_text sz b (te_attr e) (te_name e) (te_oid e).
Proof.
  split.
  - unfold parse_entry. intros H. destruct (parse_mode s) as [[m rest]| | |] eqn:Em; try discriminate. apply parse_mode_spec in Em. destruct Em as (Hc & Hn & Hm).
    assert (Hr : exists s1, rest = 32 :: s1 /\ match cut_nul s1 with None => Err EINVALID | Some (name, s0) => if (length name =? 0)%nat || (65535 <? Z.of_nat (length name)) then Err EINVALID
        else if (length s0 <? sz)%nat then Err EINVALID else Ok (mkte m name (firstn sz s0), skipn sz s0) end = Ok (e, r)).
    { destruct rest as [|x rest]; [discriminate|]. assert (x = 32 \/ x <> 32) as [->|N] by lia; [eauto|].
      exfalso. revert H. destruct x as [|p|p]; try discriminate. do 6 (destruct p as [p|p|]; try discriminate). congruence. }
    destruct Hr as (s1 & -> & H'). clear H. destruct (cut_nul_spec s1) as [(name & s2 & E & -> & Hnn)|[E _]]; rewrite E in H'; [|discriminate].
    destruct ((length name =? 0)%nat || (65535 <? Z.of_nat (length name))) eqn:El; [discriminate|]. destruct (Nat.ltb_spec (length s2) sz) as [|Ho]; [discriminate|].
    injection H' as <- <-. cbn [te_attr te_name te_oid]. destruct (numeral8 s m (32 :: name ++ 0 :: s2)) as [N1 _].
    destruct (N1 Hn) as (ws & sgn & ds & mm & Es & Hw & Hs & Hd & _ & Hv).
    destruct ws as [|w ws]; [|destruct Hc as (c & q & Ec & Hc); rewrite Ec in Es; cbn in Es; injection Es as -> _; inversion Hw; contradiction]. cbn [app] in Es.
    exists ((sgn ++ ds) ++ bs " " ++ name ++ [0] ++ firstn sz s2). split.
    + rewrite Es. change (bs " ") with [32]. rewrite <- !app_assoc. cbn [app]. rewrite ?firstn_skipn. reflexivity.
    + exists (sgn ++ ds). split; [reflexivity|]. split; [|split; [|repeat split; auto; try lia; apply firstn_length_le; lia]].
      * destruct Hc as (c & q & Ec & Hc). rewrite Ec, app_assoc in Es. destruct (sgn ++ ds) as [|c' q'] eqn:Ed.
        { apply app_eq_nil in Ed. destruct Ed as [_ ->]. apply digits_eval in Hd; [|lia]. destruct Hd as [Hd _]. congruence. }
        cbn in Es. injection Es as <- _. eauto.
      * apply numeral8. exists [], sgn, ds, mm. cbn [app]. change (bs " ") with [32]. rewrite <- app_assoc. repeat split; auto. apply space_stop8.
  - intros (b & -> & t & -> & Hc & Hn & Hm & Hnn & Hl & Ho).
    destruct (mode_text_shape _ _ Hn Hc) as (sgn & ds & mm & Et & Hs & Hd & Hv & _). change (bs " ") with [32].
    assert (Em : parse_mode ((t ++ [32] ++ te_name e ++ [0] ++ te_oid e) ++ r) = Ok (te_attr e, 32 :: te_name e ++ 0 :: te_oid e ++ r)).
    { apply parse_mode_spec. split; [|split; [|exact Hm]].
      - destruct Hc as (c & q & -> & Hc). cbn. eauto.
      - apply numeral8. exists [], sgn, ds, mm. rewrite Et. cbn [app]. repeat (rewrite <- app_assoc; cbn [app]). repeat split; auto. apply space_stop8. }
    unfold parse_entry. rewrite Em. rewrite cut_nul_app by exact Hnn.
    replace ((length (te_name e) =? 0)%nat || (65535 <? Z.of_nat (length (te_name e)))) with false by lia.
    replace (length (te_oid e ++ r) <? sz)%nat with false by (rewrite app_length; lia).
    rewrite <- Ho, firstn_app, Nat.sub_diag, firstn_all, skipn_app, Nat.sub_diag, skipn_all. cbn. rewrite app_nil_r. destruct e; reflexivity.
Qed.
Lemma parse_entry_cases sz s : (exists e r, parse_entry sz s = Ok (e, r)) \/ parse_entry sz s = Err EINVALID.
Proof.
  unfold parse_entry. destruct (parse_mode_cases s) as [(v & rest & ->)| ->]; [|auto].
  destruct rest as [|x rest]; [auto|]. destruct x as [|p|p]; auto. do 6 (destruct p as [p|p|]; auto).
  destruct (cut_nul rest) as [[a b]|]; auto. destruct (_ || _); auto. destruct (_ <? _)%nat; eauto.
Qed.
Lemma entry_text_len sz b m n o : entry_text sz b m n o -> (2 < length b)%nat.
Proof. intros (t & -> & (c & r & -> & _) & _ & _ & _ & Hl & _). cbn. rewrite app_length. cbn. rewrite app_length. cbn. lia. Qed.

(** Bytes of a tree as the parser understands them. *)
Inductive tree_text (sz : nat) : list Z -> list tentry -> Prop :=
| TT0 : tree_text sz [] []
| TT1 b e r es : entry_text sz b (te_attr e) (te_name e) (te_oid e) -> tree_text sz r es -> tree_text sz (b ++ r) (e :: es).

Lemma parse_loop_spec sz : forall f s acc, (length s <= f)%nat ->
  (forall es, parse_loop f sz s acc = Ok es <-> exists es', es = rev acc ++ es' /\ tree_text sz s es') /\
  ((exists es, parse_loop f sz s acc = Ok es) \/ parse_loop f sz s acc = Err EINVALID).
Proof.
  induction f as [|f IH]; intros s acc Hf.
  - destruct s; [|cbn in Hf; lia]. cbn. split; [|eauto]. intros es. split.
    + intros [= <-]. exists []. rewrite app_nil_r. split; [reflexivity|constructor].
    + intros (es' & -> & H). inversion H as [|b e r es0 Hb Hr Eb]; [rewrite app_nil_r; reflexivity|].
      apply app_eq_nil in Eb. destruct Eb as [-> _]. apply entry_text_len in Hb. cbn in Hb. lia.
  - destruct s as [|c s].
    + cbn. split; [|eauto]. intros es. split.
      * intros [= <-]. exists []. rewrite app_nil_r. split; [reflexivity|constructor].
      * intros (es' & -> & H). inversion H as [|b e r es0 Hb Hr Eb]; [rewrite app_nil_r; reflexivity|].
        apply app_eq_nil in Eb. destruct Eb as [-> _]. apply entry_text_len in Hb. cbn in Hb. lia.
    + set (t := c :: s) in *. assert (Ht : parse_loop (S f) sz t acc = do (e, r) <- parse_entry sz t ;; parse_loop f sz r (e :: acc)) by reflexivity.
      rewrite Ht. destruct (parse_entry_cases sz t) as [(e & r & E)|E]; rewrite E; cbn [bindr].
      * pose proof (proj1 (parse_entry_spec sz t e r) E) as (b & Eb & Hb). pose proof (entry_text_len _ _ _ _ _ Hb) as Hlb.
        assert (Hr : (length r <= f)%nat) by (rewrite Eb, app_length in Hf; lia). destruct (IH r (e :: acc) Hr) as [I1 I2]. split; [|exact I2].
        intros es. rewrite I1. cbn [rev]. split.
        -- intros (es' & -> & H). exists (e :: es'). rewrite <- app_assoc. split; [reflexivity|]. rewrite Eb. constructor; assumption.
        -- intros (es' & -> & H). inversion H as [Eb0|b' e' r' es0 Hb' Hr' Eb'].
           assert (E' : parse_entry sz t = Ok (e', r')) by (apply parse_entry_spec; exists b'; subst t; auto). rewrite E in E'. injection E' as -> ->. exists es0. rewrite <- app_assoc. auto.
      * split; [|auto]. intros es. split; [discriminate|]. intros (es' & _ & H). inversion H as [|b' e' r' es0 Hb' Hr' Eb'].
        assert (E' : parse_entry sz t = Ok (e', r')) by (apply parse_entry_spec; exists b'; auto). congruence.
Qed.
