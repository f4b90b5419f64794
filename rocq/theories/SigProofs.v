From Verif Require Import Base Str IntModel IntSpec IntProps SigModel SigSpec.
Local Open Scope Z_scope.

Lemma is_crud_spec c : is_crud c = true <-> crud c.
Proof.
  unfold is_crud, crud. rewrite !orb_true_iff, Z.leb_le, !Z.eqb_eq.
  change (In c (bs ",:;<>\'")) with (44 = c \/ 58 = c \/ 59 = c \/ 60 = c \/ 62 = c \/ 92 = c \/ 39 = c \/ False). lia.
Qed.
Lemma is_crud_false c : is_crud c = false <-> ~ crud c.
Proof. rewrite <- is_crud_spec. destruct (is_crud c); split; congruence. Qed.

Lemma ltrim_spec s : exists a, s = a ++ ltrim s /\ Forall crud a /\ (forall c r, ltrim s = c :: r -> ~ crud c).
Proof.
  induction s as [|c s (a & E & Ha & Hn)]; cbn [ltrim].
  - exists []. repeat split; auto. discriminate.
  - destruct (is_crud c) eqn:C.
    + exists (c :: a). split; [cbn; congruence|]. split; auto. constructor; auto. apply is_crud_spec, C.
    + exists []. repeat split; auto. intros c0 r [= <- <-]. apply is_crud_false, C.
Qed.

Lemma extract_spec s : trims_to s (extract_trimmed s).
Proof.
  unfold extract_trimmed, rtrim. destruct (ltrim_spec s) as (a & E & Ha & Hn).
  destruct (ltrim_spec (rev (ltrim s))) as (b & E2 & Hb & Hn2).
  apply (f_equal (@rev Z)) in E2. rewrite rev_involutive, rev_app_distr in E2.
  exists a, (rev b). split; [congruence|]. split; auto. split; [apply Forall_rev, Hb|]. split.
  - intros c r H. apply (Hn c (r ++ rev b)). rewrite E2, H. reflexivity.
  - intros c r H. apply (Hn2 c (rev r)). apply (f_equal (@rev Z)) in H. rewrite rev_involutive, rev_app_distr in H. exact H.
Qed.

Lemma trims_unique s u v : trims_to s u -> trims_to s v -> u = v.
Proof.
  assert (W : forall s u v, trims_to s u -> trims_to s v -> u <> [] -> u = v).
  { clear. intros s u v (a & b & E & Ha & Hb & H1 & H2) (a' & b' & E' & Ha' & Hb' & H1' & H2') N.
    assert (L : forall a1 x1 a2 x2 : list Z, Forall crud a1 -> Forall crud a2 -> (forall c r, x1 = c :: r -> ~ crud c) -> (forall c r, x2 = c :: r -> ~ crud c) ->
              x1 <> [] -> x2 <> [] -> a1 ++ x1 = a2 ++ x2 -> x1 = x2).
    { clear. induction a1 as [|c a1 IH]; intros x1 a2 x2 F1 F2 H1 H2 N1 N2 E.
      - destruct a2 as [|d a2]; [exact E|]. cbn in E. exfalso. eapply H1; [exact E|]. now inversion F2.
      - destruct a2 as [|d a2]; cbn in E.
        + exfalso. eapply H2; [symmetry; exact E|]. now inversion F1.
        + injection E as -> E. inversion F1; inversion F2; subst. eauto. }
    assert (Nv : v <> []).
    { intros ->. cbn in E'. assert (F : Forall crud s) by (rewrite E'; apply Forall_app; auto).
      destruct u as [|c u]; [congruence|]. apply (H1 c u eq_refl). rewrite E in F. apply Forall_app in F as [_ F]. now inversion F. }
    assert (X : u ++ b = v ++ b').
    { apply (L a (u ++ b) a' (v ++ b')); auto.
      - intros c r Q. destruct u; [congruence|]. cbn in Q. injection Q as -> _. eauto.
      - intros c r Q. destruct v; [congruence|]. cbn in Q. injection Q as -> _. eauto.
      - destruct u; [congruence|discriminate].
      - destruct v; [congruence|discriminate].
      - congruence. }
    apply (f_equal (@rev Z)) in X. rewrite !rev_app_distr in X.
    rewrite <- (rev_involutive u), <- (rev_involutive v). f_equal.
    assert (Q : forall w : list Z, (forall c r, w = r ++ [c] -> ~ crud c) -> forall c r, rev w = c :: r -> ~ crud c).
    { clear. intros w H c r E. apply (H c (rev r)). apply (f_equal (@rev Z)) in E. rewrite rev_involutive in E. exact E. }
    apply (L (rev b) (rev u) (rev b') (rev v)); auto using Forall_rev.
    + apply (Q u H2). + apply (Q v H2').
    + intros W. apply (f_equal (@rev Z)) in W. rewrite rev_involutive in W. contradiction.
    + intros W. apply (f_equal (@rev Z)) in W. rewrite rev_involutive in W. contradiction. }
  intros Hu Hv. destruct u as [|c u]; [|apply (W s); auto; discriminate].
  destruct v as [|c v]; auto. symmetry. apply (W s); auto; discriminate.
Qed.

Lemma extract_eq s core : trims_to s core -> extract_trimmed s = core.
Proof. intros H. apply (trims_unique s); auto. apply extract_spec. Qed.

Lemma memchr_app s c r : ~ In c s -> memchr (s ++ c :: r) c = Some (length s).
Proof.
  induction s as [|x s IH]; cbn [app memchr length In]; intros H.
  - now rewrite Z.eqb_refl.
  - destruct (Z.eqb_spec x c); [tauto|]. rewrite IH by tauto. reflexivity.
Qed.
Lemma memrchr_none s c : ~ In c s -> memrchr s c = None.
Proof.
  induction s as [|x s IH]; cbn [memrchr In]; intros H; auto. rewrite IH by tauto. destruct (Z.eqb_spec x c); tauto.
Qed.
Lemma memrchr_app s c r : ~ In c r -> memrchr (s ++ c :: r) c = Some (length s).
Proof.
  intros H. induction s as [|x s IH]; cbn [app memrchr length].
  - rewrite memrchr_none by auto. now rewrite Z.eqb_refl.
  - now rewrite IH.
Qed.
Lemma cut0_id s : ~ In 0 s -> cut0 s = s.
Proof.
  induction s as [|c s IH]; cbn [cut0 In]; intros H; auto. destruct (Z.eqb_spec c 0); [tauto|]. rewrite IH by tauto. reflexivity.
Qed.

Lemma digit10 v : 0 <= v < 10 -> digit_is 10 (48 + v) v.
Proof. intros H. split; [lia|]. left. change (ch "0") with 48. change (ch "9") with 57. lia. Qed.
Lemma dec_digits f n : 0 <= n < 10 ^ Z.of_nat (S f) -> digits 10 (dec (S f) n) n.
Proof.
  revert n. induction f as [|f IH]; intros n H; cbn [dec]; destruct (Z.ltb_spec n 10).
  - constructor. apply digit10. lia.
  - cbn in H. lia.
  - constructor. apply digit10. lia.
  - rewrite (Nat2Z.inj_succ (S f)), Z.pow_succ_r in H by lia.
    change (digits 10 (dec (S f) (n / 10) ++ [48 + n mod 10]) n).
    assert (D : digits 10 (dec (S f) (n / 10) ++ [48 + n mod 10]) (n / 10 * 10 + n mod 10)).
    { apply DS; [apply IH | apply digit10; apply Z.mod_pos_bound; lia].
      split; [apply Z.div_pos; lia|]. apply Z.div_lt_upper_bound; lia. }
    pose proof (Z.div_mod n 10). replace (n / 10 * 10 + n mod 10) with n in D by lia. exact D.
Qed.
Lemma dec_bytes f n c : 0 <= n -> In c (dec f n) -> 48 <= c <= 57.
Proof.
  revert n. induction f as [|f IH]; intros n H; cbn [dec In]; [tauto|]. destruct (Z.ltb_spec n 10).
  - cbn [In]. lia.
  - rewrite in_app_iff. intros [I|[<-|[]]].
    + apply (IH (n / 10)); auto. apply Z.div_pos; lia.
    + pose proof (Z.mod_pos_bound n 10). lia.
Qed.
Lemma pad2_eq n : 0 <= n < 100 -> pad2 n = [48 + n / 10; 48 + n mod 10].
Proof.
  intros H. unfold pad2. destruct (Z.ltb_spec n 10).
  - rewrite Z.div_small, Z.mod_small by lia. reflexivity.
  - change (dec 20 n) with (if n <? 10 then [48 + n] else dec 19 (n / 10) ++ [48 + n mod 10]).
    destruct (Z.ltb_spec n 10); [lia|]. change (dec 19 (n / 10)) with (if n / 10 <? 10 then [48 + n / 10] else dec 18 (n / 10 / 10) ++ [48 + (n / 10) mod 10]).
    destruct (Z.ltb_spec (n / 10) 10) as [|Q]; [reflexivity|]. exfalso.
    assert (n / 10 < 10) by (apply Z.div_lt_upper_bound; lia). lia.
Qed.
Lemma digits_nil b v : ~ digits b [] v.
Proof. intros H. inversion H. destruct s; discriminate. Qed.

Lemma numeral10 ds n rest : digits 10 ds n -> (forall c r d, rest = c :: r -> ~ digit_is 10 c d) -> numeral 10 (ds ++ rest) n rest.
Proof.
  intros H R. exists [], [], [], ds, 10, n. cbn [app].
  split; auto. split; auto. split; [cbn; auto|]. split.
  { unfold base_of. split; [lia|]. split; [lia|]. split; [lia|]. right. split; [lia|auto]. }
  split; auto.
Qed.

Lemma not_digit c d : (c < 48 \/ 57 < c < 65) -> ~ digit_is 10 c d.
Proof.
  intros H [_ D]. change (ch "0") with 48 in D. change (ch "9") with 57 in D. change (ch "a") with 97 in D. change (ch "z") with 122 in D.
  change (ch "A") with 65 in D. change (ch "Z") with 90 in D. lia.
Qed.

(** The text after the address, and what it parses to. *)
Lemma parse_when_ok t h m sg : 0 <= t < two32 -> 0 <= h <= 14 -> 0 <= m <= 59 -> (sg = 45 \/ sg = 43) ->
  parse_when (dec 20 t ++ [32; sg] ++ pad2 h ++ pad2 m) = Ok (t, (if sg =? 45 then - (h * 60 + m) else h * 60 + m), sg).
Proof.
  intros Ht Hh Hm Hs. unfold parse_when.
  assert (D : digits 10 (dec 20 t) t).
  { apply (dec_digits 19). split; [lia|]. eapply Z.lt_trans; [apply Ht|]. reflexivity. }
  assert (E : strntol64 (dec 20 t ++ [32; sg] ++ pad2 h ++ pad2 m) 10 = Ok (t, [32; sg] ++ pad2 h ++ pad2 m)).
  { apply parse64_exact. split.
    - apply numeral10; auto. intros c r d [= <- _]. apply not_digit. lia.
    - unfold int64. unfold two32 in Ht. split; [lia|]. eapply Z.lt_trans; [apply Ht|]. reflexivity. }
  rewrite E. destruct (dec 20 t ++ [32; sg] ++ pad2 h ++ pad2 m) eqn:N.
  { destruct (dec 20 t); [now destruct (digits_nil _ _ D)|discriminate]. }
  clear N. cbn [app].
  assert (T : (sg =? 45) || (sg =? 43) = true) by (destruct Hs as [->| ->]; reflexivity). rewrite T.
  assert (E2 : strntol32 (pad2 h ++ pad2 m) 10 = Ok (h * 100 + m, [])).
  { apply parse32_exact. split.
    - rewrite <- (app_nil_r (pad2 h ++ pad2 m)). apply numeral10; [|discriminate].
      rewrite !pad2_eq by lia. cbn [app].
      assert (B : forall x, 0 <= x < 100 -> 0 <= x / 10 < 10 /\ 0 <= x mod 10 < 10).
      { intros x Hx. split; [|apply Z.mod_pos_bound; lia]. split; [apply Z.div_pos; lia|apply Z.div_lt_upper_bound; lia]. }
      destruct (B h) as [B1 B2]; [lia|]. destruct (B m) as [B3 B4]; [lia|].
      pose proof (D1 10 _ _ (digit10 _ B1)) as P1. pose proof (DS _ _ _ _ _ P1 (digit10 _ B2)) as P2.
      pose proof (DS _ _ _ _ _ P2 (digit10 _ B3)) as P3. pose proof (DS _ _ _ _ _ P3 (digit10 _ B4)) as P4.
      cbn [app] in P4. pose proof (Z.div_mod h 10). pose proof (Z.div_mod m 10).
      replace (h * 100 + m) with (((h / 10 * 10 + h mod 10) * 10 + m / 10) * 10 + m mod 10) by lia. exact P4.
    - unfold int32. split; [lia|]. apply Z.lt_trans with 2000; [lia|reflexivity]. }
  rewrite E2.
  assert (Q : Z.quot (h * 100 + m) 100 = h). { rewrite Z.quot_div_nonneg by lia. symmetry. apply Z.div_unique with m; lia. }
  assert (R : Z.rem (h * 100 + m) 100 = m). { rewrite Z.rem_mod_nonneg by lia. symmetry. apply Z.mod_unique with h; lia. }
  rewrite Q, R. destruct (Z.leb_spec h 14); [|lia]. destruct (Z.leb_spec m 59); [|lia]. reflexivity.
Qed.

Lemma when_bytes t sg h m c : 0 <= t -> 0 <= h < 100 -> 0 <= m < 100 -> (sg = 45 \/ sg = 43) ->
  In c (dec 20 t ++ [32; sg] ++ pad2 h ++ pad2 m) -> c = 32 \/ c = 43 \/ c = 45 \/ 48 <= c <= 57.
Proof.
  intros Ht Hh Hm Hs. rewrite !pad2_eq by auto.
  assert (B : forall x, 0 <= x < 100 -> 0 <= x / 10 < 10 /\ 0 <= x mod 10 < 10).
  { intros x Hx. split; [|apply Z.mod_pos_bound; lia]. split; [apply Z.div_pos; lia|apply Z.div_lt_upper_bound; lia]. }
  destruct (B h Hh), (B m Hm).
  rewrite in_app_iff. intros [I|I]. { apply dec_bytes in I; auto. }
  cbn [app In] in I. lia.
Qed.
