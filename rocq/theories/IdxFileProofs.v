(** Proofs about the index file (lemmas). *)
From Verif Require Import Base Arr VectorModel VectorProofs WildModel IndexModel VarintModel VarintSpec VarintProofs IdxFileModel IdxFileSpec.

(** *** Big-endian numbers, slices *)
Lemma be_length k : forall v, length (be k v) = k.
Proof. induction k; intros v; cbn [be]; [reflexivity|]. rewrite app_length, IHk. cbn. lia. Qed.
Lemma unbe_app l b : unbe (l ++ [b]) = unbe l * 256 + b.
Proof. unfold unbe. rewrite fold_left_app. reflexivity. Qed.
Lemma unbe_be k : forall v, 0 <= v < 256 ^ Z.of_nat k -> unbe (be k v) = v.
Proof.
  induction k; intros v Hv; cbn [be].
  - cbn in *. lia.
  - rewrite unbe_app. rewrite Nat2Z.inj_succ, Z.pow_succ_r in Hv by lia. rewrite IHk by lia. lia.
Qed.
Lemma unbe_range l : bytes l -> 0 <= unbe l < 256 ^ Z.of_nat (length l).
Proof.
  induction l as [|x l IH] using rev_ind; intros H; [cbn; lia|]. apply Forall_app in H as [H1 H2]. specialize (IH H1). inversion_clear H2. unfold is_byte in *.
  rewrite unbe_app, app_length. cbn [length]. rewrite Nat.add_1_r, Nat2Z.inj_succ, Z.pow_succ_r by lia. lia.
Qed.
Lemma be_bytes k : forall v, bytes (be k v).
Proof. induction k; intros v; cbn [be]; [constructor|]. apply Forall_app. split; [apply IHk|]. constructor; [unfold is_byte; lia|constructor]. Qed.
Lemma sub_app_l {A} (a b : list A) : sub (a ++ b) 0 (length a) = a.
Proof. unfold sub. rewrite skipn_O, firstn_app, firstn_all, Nat.sub_diag. cbn. apply app_nil_r. Qed.
Lemma sub_app_r {A} (a b : list A) i n : sub (a ++ b) (length a + i) n = sub b i n.
Proof. unfold sub. rewrite skipn_app. rewrite skipn_all2 by lia. cbn. replace (length a + i - length a)%nat with i by lia. reflexivity. Qed.
Lemma sub_mid {A} (a b c : list A) i n : length a = i -> length b = n -> sub (a ++ b ++ c) i n = b.
Proof. intros <- <-. replace (length a) with (length a + 0)%nat by lia. rewrite sub_app_r. apply sub_app_l. Qed.
Lemma sub_sub {A} (l : list A) n i k : (i + k <= n)%nat -> sub (sub l 0 n) i k = sub l i k.
Proof. intros H. unfold sub. rewrite skipn_O, skipn_firstn_comm, firstn_firstn. f_equal. lia. Qed.
Lemma sub_length {A} (l : list A) i n : (i + n <= length l)%nat -> length (sub l i n) = n.
Proof. intros H. unfold sub. rewrite firstn_length, skipn_length. lia. Qed.
Lemma sub_bytes l i n : bytes l -> bytes (sub l i n).
Proof. intros H. unfold sub. apply Forall_forall. intros x Hx. unfold bytes in H. rewrite Forall_forall in H. apply H.
  rewrite <- (firstn_skipn i l). apply in_or_app. right. rewrite <- (firstn_skipn n (skipn i l)). apply in_or_app. left. exact Hx. Qed.
Lemma rdn_ok mem off n : (off + n <= length mem)%nat -> rdn mem off n = Ok (sub mem off n).
Proof. intros H. unfold rdn. destruct (Nat.leb_spec (off + n) (length mem)); [reflexivity|lia]. Qed.

Lemma stats_sub f l : forall k t, (k < length l)%nat -> sub (concat (map (fun v => be 4 (f v)) l) ++ t) (4 * k) 4 = be 4 (f (nth k l 0)).
Proof.
  induction l as [|v l IH]; intros [|k] t Hk; try (cbn in Hk; lia); cbn [map concat nth].
  - rewrite <- app_assoc. apply (sub_mid [] (be 4 (f v))); reflexivity.
  - rewrite <- app_assoc. replace (4 * S k)%nat with (length (be 4 (f v)) + 4 * k)%nat by (rewrite be_length; lia). rewrite sub_app_r. apply IH. cbn in Hk. lia.
Qed.
Lemma stats_length f (l : list Z) : length (concat (map (fun v => be 4 (f v)) l)) = (4 * length l)%nat.
Proof. induction l; cbn [map concat]; [reflexivity|]. rewrite app_length, be_length, IHl. cbn [length]. lia. Qed.

(** *** Bits *)
Lemma ldiff7 v : 0 <= v -> Z.ldiff v 7 = 8 * (v / 8).
Proof. intros H. change 7 with (Z.ones 3). rewrite Z.ldiff_ones_r by lia. rewrite Z.shiftl_mul_pow2, Z.shiftr_div_pow2 by lia. change (2 ^ 3) with 8. lia. Qed.
Lemma entry_size_plain osz plen flags : 0 <= plen -> Z.of_nat (path_offset osz flags) + plen + 8 < two64 ->
  entry_size osz plen 0 flags = 8 * ((Z.of_nat (path_offset osz flags) + plen + 8) / 8).
Proof.
  intros H1 H2. unfold entry_size. change (negb (0 =? 0)) with false. cbv iota zeta.
  destruct (Z.leb_spec two64 (Z.of_nat (path_offset osz flags) + plen)); [lia|]. destruct (Z.leb_spec two64 (Z.of_nat (path_offset osz flags) + plen + 8)); [lia|]. cbn [orb].
  apply ldiff7. lia.
Qed.
Lemma entry_size_comp osz plen vlen flags : 0 <= plen -> 0 < vlen -> Z.of_nat (path_offset osz flags) + plen + 1 + vlen < two64 ->
  entry_size osz plen vlen flags = Z.of_nat (path_offset osz flags) + plen + 1 + vlen.
Proof.
  intros H1 H2 H3. unfold entry_size. destruct (Z.eqb_spec vlen 0); [lia|]. cbn [negb]. cbv zeta.
  destruct (Z.leb_spec two64 (Z.of_nat (path_offset osz flags) + plen)); [lia|]. destruct (Z.leb_spec two64 (Z.of_nat (path_offset osz flags) + plen + 1)); [lia|].
  destruct (Z.leb_spec two64 (Z.of_nat (path_offset osz flags) + plen + 1 + vlen)); [lia|]. reflexivity.
Qed.

(** *** The fixed part of an entry *)
  Lemma stat10 l : stat_ok l -> exists a b c d e f g h i j, l = [a;b;c;d;e;f;g;h;i;j] /\ int32 a /\ uint32 b /\ int32 c /\ uint32 d /\ uint32 e /\ uint32 f /\ uint32 g /\ uint32 h /\ uint32 i /\ uint32 j.
  Proof.
    intros (a & b & c & d & r & -> & Ha & Hb & Hc & Hd & L & F).
    destruct r as [|e [|f [|g [|h [|i [|j [|]]]]]]]; try discriminate L.
    inversion_clear F as [|? ? X1 F1]. inversion_clear F1 as [|? ? X2 F2]. inversion_clear F2 as [|? ? X3 F3]. inversion_clear F3 as [|? ? X4 F4].
    inversion_clear F4 as [|? ? X5 F5]. inversion_clear F5 as [|? ? X6 _]. repeat eexists; eauto; try apply Ha; try apply Hb; try apply Hc; try apply Hd; try apply X1; try apply X2; try apply X3; try apply X4; try apply X5; try apply X6.
  Qed.
  Lemma ondisk_length osz e : length (d_stat e) = 10%nat -> length (d_id e) = osz -> length (ondisk e) = path_offset osz (d_flags e).
  Proof.
    intros H1 H2. unfold ondisk, path_offset. rewrite !app_length. rewrite (stats_length (fun v => v mod two32)), H1, H2, be_length. destruct (extended (d_flags e)); [rewrite be_length|]; cbn; lia.
  Qed.
  Lemma field_ok l k t : (k < length l)%nat -> read_field (concat (map (fun v => be 4 (v mod two32)) l) ++ t) k = nth k l 0 mod two32.
  Proof.
    intros H. unfold read_field. rewrite (stats_sub (fun v => v mod two32) l k t H). apply unbe_be.
    change (256 ^ Z.of_nat 4) with two32. unfold two32. lia.
  Qed.
  Lemma read_stat_sub m n : (40 <= n)%nat -> read_stat (sub m 0 n) = read_stat m.
  Proof. intros H. unfold read_stat, read_field. rewrite !sub_sub by lia. reflexivity. Qed.
  Lemma stat_roundtrip e t : stat_ok (d_stat e) -> read_stat (ondisk e ++ t) = d_stat e.
  Proof.
    intros H. destruct (stat10 _ H) as (a & b & c & d & e' & f & g & h & i & j & E & Ha & Hb & Hc & Hd & He & Hf & Hg & Hh & Hi & Hj).
    unfold ondisk, read_stat. rewrite <- !app_assoc. rewrite !field_ok by (rewrite E; cbn; lia). rewrite E. cbn [nth].
    unfold int32, uint32, to_int32, two32 in *.
    rewrite (Z.mod_small b), (Z.mod_small d), (Z.mod_small e'), (Z.mod_small f), (Z.mod_small g), (Z.mod_small h), (Z.mod_small i), (Z.mod_small j) by lia.
    f_equal; [destruct (Z.ltb_spec (a mod 4294967296) 2147483648); lia|]. f_equal. f_equal. destruct (Z.ltb_spec (c mod 4294967296) 2147483648); lia.
  Qed.
  Lemma flags_roundtrip osz e t : length (d_stat e) = 10%nat -> length (d_id e) = osz -> 0 <= d_flags e < 65536 ->
    unbe (sub (ondisk e ++ t) (40 + osz) 2) = d_flags e.
  Proof.
    intros H1 H2 H3. unfold ondisk. rewrite <- !app_assoc. rewrite app_assoc.
    rewrite (sub_mid (concat (map (fun v => be 4 (v mod two32)) (d_stat e)) ++ d_id e) (be 2 (d_flags e))).
    - apply unbe_be. cbn. lia.
    - rewrite app_length, (stats_length (fun v => v mod two32)), H1, H2. lia.
    - apply be_length.
  Qed.
  Lemma id_roundtrip osz e t : length (d_stat e) = 10%nat -> length (d_id e) = osz -> sub (ondisk e ++ t) 40 osz = d_id e.
  Proof.
    intros H1 H2. unfold ondisk. rewrite <- !app_assoc. apply sub_mid; [|exact H2]. rewrite (stats_length (fun v => v mod two32)), H1. reflexivity.
  Qed.
  Lemma ext_roundtrip osz e t : length (d_stat e) = 10%nat -> length (d_id e) = osz -> 0 <= d_ext e < 65536 -> extended (d_flags e) = true ->
    unbe (sub (ondisk e ++ t) (42 + osz) 2) = Z.land (d_ext e) EXT_FLAGS.
  Proof.
    intros H1 H2 H3 H4. unfold ondisk. rewrite H4. rewrite <- !app_assoc. rewrite app_assoc, (app_assoc _ (be 2 (d_flags e))).
    rewrite (sub_mid _ (be 2 (Z.land (d_ext e) EXT_FLAGS))).
    - apply unbe_be. change (256 ^ Z.of_nat 2) with 65536.
      assert (0 <= Z.land (d_ext e) EXT_FLAGS) by (apply Z.land_nonneg; left; lia).
      assert (Z.land (d_ext e) EXT_FLAGS <= EXT_FLAGS). { unfold EXT_FLAGS in *. 
        assert (Q : 24576 = Z.land (d_ext e) 24576 + Z.ldiff 24576 (d_ext e)).
        { rewrite (Z.land_comm (d_ext e)). assert (D : Z.land (Z.land 24576 (d_ext e)) (Z.ldiff 24576 (d_ext e)) = 0).
          { apply Z.bits_inj'. intros n Hn. rewrite !Z.land_spec, Z.ldiff_spec, Z.bits_0. destruct (Z.testbit 24576 n), (Z.testbit (d_ext e) n); reflexivity. }
          rewrite Z.add_nocarry_lxor by exact D. apply Z.bits_inj'. intros n Hn. rewrite Z.lxor_spec, Z.land_spec, Z.ldiff_spec. destruct (Z.testbit 24576 n), (Z.testbit (d_ext e) n); reflexivity. }
        assert (0 <= Z.ldiff 24576 (d_ext e)) by (apply Z.ldiff_nonneg; left; lia). lia. }
      unfold EXT_FLAGS in *. lia.
    - rewrite !app_length, (stats_length (fun v => v mod two32)), H1, H2, be_length. lia.
    - apply be_length.
  Qed.

(** *** Strings in memory *)
Lemma strz_app p t : Forall (fun c => 0 < c < 256) p -> strz (p ++ 0 :: t) = Ok p.
Proof.
  induction 1 as [|c p Hc Hp IH]; cbn [app strz]; [reflexivity|]. destruct (Z.eqb_spec c 0); [lia|]. rewrite IH. reflexivity.
Qed.
Lemma memchr0_app p t : Forall (fun c => 0 < c < 256) p -> forall n, (length p < n)%nat -> memchr0 (p ++ 0 :: t) n = Ok (Some (length p)).
Proof.
  induction 1 as [|c p Hc Hp IH]; intros [|n] Hn; cbn [length] in *; try lia; cbn [app memchr0]; [reflexivity|].
  destruct (Z.eqb_spec c 0); [lia|]. rewrite IH by lia. reflexivity.
Qed.
Lemma strz_safe b t : exists s, strz (b ++ 0 :: t) = Ok s /\ (length s <= length b)%nat.
Proof.
  induction b as [|c b (s & IH & L)]; cbn [app strz]; [eexists; split; [reflexivity|cbn; lia]|]. destruct (c =? 0); [eexists; split; [reflexivity|cbn; lia]|].
  rewrite IH. cbn [bindr]. eexists. split; [reflexivity|]. cbn. lia.
Qed.
Lemma memchr0_safe b t : forall n, exists o, memchr0 (b ++ 0 :: t) n = Ok o.
Proof.
  induction b as [|c b IH]; intros [|n]; cbn [app memchr0]; try (eexists; reflexivity). destruct (c =? 0); [eexists; reflexivity|].
  destruct (IH n) as [o ->]. eexists; reflexivity.
Qed.
Lemma same_len_le a : forall b, (same_len a b <= length a)%nat /\ (same_len a b <= length b)%nat.
Proof. induction a as [|x a IH]; intros [|y b]; cbn; try lia. destruct (x =? y); [|lia]. specialize (IH b). lia. Qed.
Lemma same_len_firstn a : forall b, firstn (same_len a b) a = firstn (same_len a b) b.
Proof. induction a as [|x a IH]; intros [|y b]; cbn; try reflexivity. destruct (Z.eqb_spec x y); cbn; [subst; f_equal; apply IH|reflexivity]. Qed.
