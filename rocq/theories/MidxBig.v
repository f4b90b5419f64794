(** A multi-pack-index with more than 2^29 objects: the position is multiplied by 8 as an int. *)
From Verif Require Import Base Arr CStr Str OidModel OidSpec OidProofs IdxFileModel IdxFileProofs PackIdxModel PackIdxSpec PackIdxProofs PackIdxMain CgModel CgSpec CgWrite MidxModel MidxSpec MidxLay MidxSort MidxTab MidxMain.

Lemma memcmp_prefix d : firstn 20 d = repeat 0 20 -> memcmp d (repeat 0 20) (Z.to_nat 20) = Ok 0.
Proof. intros S. rewrite <- (firstn_skipn 20 d). rewrite S. generalize (skipn 20 d). intros w. destruct w; reflexivity. Qed.
Lemma lookup_hit fuel data base stride lo hi oid osz m : (lo <? hi) = true -> (lo + hi) mod two32 / 2 = m ->
  memcmp (skipn (Z.to_nat (base + m * stride)) data) oid (Z.to_nat osz) = Ok 0 -> lookup_id (S fuel) data base stride lo hi oid osz = Ok (to_int32 m).
Proof. intros H1 H2 H3. cbn [lookup_id]. rewrite H1, H2. cbv zeta. rewrite H3. reflexivity. Qed.
Lemma middle_overflows f q : m_osz f = 20 -> rd q 0 = Ok 0 -> rd32 (m_data f) (m_fan f + 4 * 0) = Ok 536870914 ->
  memcmp (skipn (Z.to_nat (m_lookup f + 268435457 * 20)) (m_data f)) q (Z.to_nat 20) = Ok 0 -> mx_find f q 40 = UB.
Proof.
  intros Eo Er R M. unfold mx_find, mx_locate. rewrite Eo, Er. cbn [bindr]. rewrite R. cbn [bindr Z.eqb]. rewrite (lookup_hit _ _ _ _ 0 536870914 _ _ 268435457 eq_refl eq_refl M). cbn [bindr]. change (to_int32 268435457) with 268435457. change (0 <=? 268435457) with true. cbv iota. cbn [bindr andb negb]. change (Z.of_nat 40 =? 2 * 20) with true. cbn [andb negb bindr].
  unfold mx_entry. change (2147483647 <? 268435457 * 8) with true. reflexivity.
Qed.

Section Big.
  Context (n : nat).
  Hypothesis Hn : Z.of_nat n = 536870914.
  Let zid := repeat 0 20.
  Let objs : list pobj := repeat (zid, 0) n.
  Let P := padded (concat (map name_row [bs "a"])).
  Let ids := concat (repeat zid n).
  Let offs := repeat 0 (8 * n).
  Let names := map idx_name [bs "a"].
  Definition big_file : list Z := mx_body 1 P (fan_table objs) ids offs [] ++ repeat 0 20.
  Let f := lay_file names P (fan_table objs) ids offs [] (repeat 0 20) n 0.

  Lemma big_len : length objs = n. Proof. apply repeat_length. Qed.
  Lemma big_count b : 0 <= b -> count_upto objs b = Z.of_nat n.
  Proof.
    intros Hb. unfold count_upto. rewrite keep_all; [f_equal; apply big_len|]. intros o Ho. apply repeat_spec in Ho. subst o. apply Z.leb_le. exact Hb.
  Qed.
  Lemma big_names t : names_loop (length names) (P ++ t) (length P) None = Ok names.
  Proof. unfold P, padded. rewrite <- app_assoc. apply (names_read [bs "a"]); [|exact I|exact I|rewrite app_length; lia]. constructor; [|constructor]. split; [discriminate|]. cbn. intuition discriminate. Qed.
  Lemma big_fan pre t : fan_check (pre ++ fan_table objs ++ t) (Z.of_nat (length pre)) 256 0 = Ok (Z.of_nat n).
  Proof.
    pose proof (fan_check_ok (pre ++ fan_table objs ++ t) (Z.of_nat (length pre)) (count_upto objs)) as F.
    assert (R : forall b, 0 <= b < 256 -> rd32 (pre ++ fan_table objs ++ t) (Z.of_nat (length pre) + 4 * b) = Ok (count_upto objs b)).
    { intros b Hb. apply fan_read; [exact Hb|]. rewrite big_len. unfold two32. lia. }
    specialize (F R (count_mono objs) 256%nat 0 0 ltac:(lia) ltac:(lia) ltac:(lia)). replace (Z.of_nat (length pre) + 4 * 0) with (Z.of_nat (length pre)) in F by lia. rewrite F; [|apply (count_le objs 0)].
    rewrite big_count by lia. reflexivity.
  Qed.
  Lemma big_ids_len k : length (concat (repeat zid k)) = (20 * k)%nat.
  Proof. induction k as [|k IH]; [reflexivity|]. cbn [repeat concat]. rewrite app_length, IH. change (length zid) with 20%nat. lia. Qed.
  Lemma big_ids_zero k : concat (repeat zid k) = repeat 0 (20 * k).
  Proof. induction k as [|k IH]; [reflexivity|]. cbn [repeat concat]. rewrite IH. unfold zid. rewrite <- repeat_app. f_equal. lia. Qed.
  Lemma big_zero k i m : (i + m <= k)%nat -> sub (repeat 0 k) i m = repeat 0 m.
  Proof.
    intros H. replace k with (i + (m + (k - i - m)))%nat by lia. rewrite !repeat_app. unfold sub. rewrite skipn_app, skipn_all2 by (rewrite repeat_length; lia). rewrite repeat_length, Nat.sub_diag. cbn [app skipn].
    rewrite firstn_app, firstn_all2 by (rewrite repeat_length; lia). rewrite repeat_length, Nat.sub_diag. cbn [firstn]. apply app_nil_r.
  Qed.
  Lemma big_parse : mx_parse 20 big_file = Ok f.
  Proof.
    unfold big_file, f. refine (lay_parse names P (fan_table objs) ids offs [] (repeat 0 20) n 0 _ big_names _ _ _ big_fan _ _ eq_refl eq_refl _ _).
    - discriminate.
    - reflexivity.
    - reflexivity.
    - apply fan_table_length.
    - apply big_ids_len.
    - apply repeat_length.
    - lia.
    - lia.
  Qed.
  Lemma big_find : mx_find f zid 40 = UB.
  Proof.
    assert (Lo : length offs = (8 * n)%nat) by apply repeat_length.
    apply middle_overflows; [reflexivity|reflexivity| |].
    - rewrite <- Hn, <- (big_count 0 ltac:(lia)). exact (lay_fan_read names P (fan_table objs) ids offs [] (repeat 0 20) n 0 big_names (fan_table_length objs) big_fan (big_ids_len n) Lo eq_refl eq_refl ltac:(lia) objs 0 eq_refl big_len ltac:(lia)).
    - assert (E : exists k, Z.of_nat k = 268435457) by (exists (Z.to_nat 268435457); apply Z2Nat.id; lia). destruct E as (k & Ek). rewrite <- Ek.
      pose proof (lay_ids names P (fan_table objs) ids offs [] (repeat 0 20) n 0 big_names (fan_table_length objs) big_fan (big_ids_len n) Lo eq_refl eq_refl k ltac:(lia)) as S.
      assert (T : sub ids (20 * k) 20 = repeat 0 20) by (unfold ids; rewrite big_ids_zero; apply big_zero; lia). rewrite T in S.
      apply memcmp_prefix. rewrite <- S. reflexivity.
  Qed.
  Lemma big_bytes : bytes big_file.
  Proof.
    unfold big_file. change 1 with (Z.of_nat (length names)). rewrite (lay_data names P (fan_table objs) ids offs [] (repeat 0 20) n 0 big_names (fan_table_length objs) big_fan (big_ids_len n) (repeat_length 0 (8 * n)) eq_refl eq_refl).
    assert (Z0 : forall k, bytes (repeat 0 k)) by (intros k; unfold bytes; rewrite Forall_forall; intros x Hx; apply repeat_spec in Hx; subst x; unfold is_byte; lia).
    apply Forall_app. split; [apply concat_bytes; intros; apply be_bytes|]. apply Forall_app. split; [unfold P; cbv; repeat (constructor; [split; congruence|]); constructor|].
    apply Forall_app. split; [apply concat_bytes; intros; apply (be_bytes 4)|]. apply Forall_app. split; [unfold ids; rewrite big_ids_zero; apply Z0|]. apply Forall_app. split; [apply Z0|]. apply (Z0 20%nat).
  Qed.
End Big.
Lemma big_exists : exists data f q, bytes data /\ mx_parse 20 data = Ok f /\ oid_ok 20 q /\ mx_find f q 40 = UB.
Proof.
  assert (Hn : Z.of_nat (Z.to_nat 536870914) = 536870914) by (apply Z2Nat.id; lia). revert Hn. generalize (Z.to_nat 536870914). intros n Hn.
  eexists. eexists. exists (repeat 0 20). split; [apply (big_bytes n Hn)|]. split; [apply (big_parse n Hn)|]. split; [|apply (big_find n Hn)].
  split; [reflexivity|]. cbn [repeat]. repeat (constructor; [unfold is_byte; lia|]). constructor.
Qed.
