(** Pack index files: layouts, safety, the writer. *)
From Verif Require Import Base CStr OidModel OidSpec OidProofs IdxFileModel IdxFileProofs PackIdxModel PackIdxSpec PackIdxProofs.

Lemma rd32_sub data off v : 0 <= v < two32 -> sub data (Z.to_nat off) 4 = be 4 v -> rd32 data off = Ok v.
Proof.
  intros Hv E. unfold rd32. assert (L : length (sub data (Z.to_nat off) 4) = 4%nat) by (rewrite E; apply be_length).
  unfold sub in L. rewrite firstn_length, skipn_length in L. rewrite rdn_ok by lia. cbn [bindr]. rewrite E. rewrite unbe_be; [reflexivity|]. exact Hv.
Qed.
Lemma rd32_range data off v : bytes data -> rd32 data off = Ok v -> 0 <= v < two32 /\ (Z.to_nat off + 4 <= length data)%nat.
Proof.
  intros B. unfold rd32, rdn. destruct (Nat.leb_spec (Z.to_nat off + 4) (length data)); [|discriminate]. cbn [bindr]. intros [= <-]. split; [|lia].
  pose proof (unbe_range (sub data (Z.to_nat off) 4) (sub_bytes _ _ _ B)) as R. rewrite sub_length in R by lia. exact R.
Qed.
Lemma rd32_some data off : bytes data -> 0 <= off -> off + 4 <= Z.of_nat (length data) -> exists v, rd32 data off = Ok v /\ 0 <= v < two32.
Proof.
  intros B Ho H. unfold rd32. rewrite rdn_ok by lia. cbn [bindr]. eexists. split; [reflexivity|].
  pose proof (unbe_range (sub data (Z.to_nat off) 4) (sub_bytes _ _ _ B)) as R. rewrite sub_length in R by lia. exact R.
Qed.
Lemma concat_length {A} (f : A -> list Z) w l : (forall x, In x l -> length (f x) = w) -> length (concat (map f l)) = (w * length l)%nat.
Proof.
  induction l as [|a l IH]; intros H; cbn [map concat length]; [lia|]. rewrite app_length, (H a) by (cbn; auto).
  rewrite IH by (intros; apply H; cbn; auto). lia.
Qed.
Lemma sub_concat {A} (f : A -> list Z) w l t : (forall x, In x l -> length (f x) = w) -> forall i x, nth_error l i = Some x -> sub (concat (map f l) ++ t) (w * i) w = f x.
Proof.
  induction l as [|a l IH]; intros H i x Hi; [destruct i; discriminate|]. cbn [map concat]. rewrite <- app_assoc. destruct i as [|i].
  - injection Hi as <-. rewrite Nat.mul_0_r. rewrite <- (H a) at 1 by (cbn; auto). apply sub_app_l.
  - replace (w * S i)%nat with (length (f a) + w * i)%nat by (rewrite (H a) by (cbn; auto); lia). rewrite sub_app_r. apply IH; [intros; apply H; cbn; auto|exact Hi].
Qed.
Lemma sub_concat_at {A} (f : A -> list Z) w l pre t : (forall x, In x l -> length (f x) = w) -> forall i x off, nth_error l i = Some x -> off = (length pre + w * i)%nat ->
  sub (pre ++ concat (map f l) ++ t) off w = f x.
Proof. intros H i x off Hi ->. rewrite sub_app_r. apply sub_concat; auto. Qed.
Lemma sub_sub_at {A} (l : list A) i n j m : (j + m <= n)%nat -> sub (sub l i n) j m = sub l (i + j) m.
Proof. intros H. unfold sub. rewrite skipn_firstn_comm, firstn_firstn, skipn_skipn. f_equal; [lia|]. f_equal. lia. Qed.

Lemma fan_check_ok data base (f : Z -> Z) : (forall b, 0 <= b < 256 -> rd32 data (base + 4 * b) = Ok (f b)) -> (forall b c, b <= c -> f b <= f c) ->
  forall i k nr, 0 <= k -> k + Z.of_nat i = 256 -> (0 < i)%nat -> nr <= f k -> fan_check data (base + 4 * k) i nr = Ok (f 255).
Proof.
  intros Hr Hm. induction i as [|i IH]; intros k nr Hk Hki Hi Hn; [lia|]. cbn [fan_check]. rewrite Hr by lia. cbn [bindr].
  destruct (Z.ltb_spec (f k) nr); [lia|]. destruct i as [|i].
  - cbn. f_equal. f_equal. lia.
  - replace (base + 4 * k + 4) with (base + 4 * (k + 1)) by lia. apply IH; try lia. apply Hm. lia.
Qed.
Lemma fan_table_length objs : length (fan_table objs) = 1024%nat.
Proof. unfold fan_table. rewrite (concat_length _ 4); [reflexivity|]. intros. apply (be_length 4). Qed.
Lemma fan_read objs pre t b : 0 <= b < 256 -> Z.of_nat (length objs) < two32 -> rd32 (pre ++ fan_table objs ++ t) (Z.of_nat (length pre) + 4 * b) = Ok (count_upto objs b).
Proof.
  intros Hb Hn. pose proof (count_le objs b). apply rd32_sub; [lia|]. unfold fan_table.
  rewrite (sub_concat_at _ 4 _ pre t ltac:(intros; apply (be_length 4)) (Z.to_nat b) (Z.to_nat b)); [rewrite Z2Nat.id by lia; reflexivity| |lia].
  rewrite nth_error_nth' with (d := 0%nat) by (rewrite seq_length; lia). rewrite seq_nth by lia. reflexivity.
Qed.

Lemma ids_bytes osz objs : objs_ok osz objs -> bytes (concat (map fst objs)) /\ length (concat (map fst objs)) = (osz * length objs)%nat.
Proof.
  intros [F _]. split.
  - induction F as [|o l [_ B] _ IH]; cbn; [constructor|]. apply Forall_app. auto.
  - apply concat_length. rewrite Forall_forall in F. intros x Hx. apply (F x Hx).
Qed.
Lemma concat_bytes {A} (f : A -> list Z) l : (forall x, In x l -> bytes (f x)) -> bytes (concat (map f l)).
Proof. induction l as [|a l IH]; intros H; cbn; [constructor|]. apply Forall_app. split; [apply H; cbn; auto|]. apply IH. intros; apply H; cbn; auto. Qed.

(** *** Version 1 *)
Lemma version1_open osz objs data : (0 < osz)%nat -> version1 osz objs data -> Z.of_nat (length objs) * (Z.of_nat osz + 4) < two32 ->
  exists p, index_open (Z.of_nat osz) data = Ok p /\ p_data p = data /\ p_osz p = Z.of_nat osz /\ layout p objs /\ bytes data.
Proof.
  intros Hosz (Hok & Hoffs & sums & Ls & Bs & Ed) Hbig.
  assert (Hn : Z.of_nat (length objs) < IDX_SIG) by (unfold two32, IDX_SIG in *; nia).
  assert (Hf : forall o, In o objs -> length (be 4 (snd o) ++ fst o) = (osz + 4)%nat).
  { intros o Ho. rewrite app_length, be_length. destruct Hok as [F _]. rewrite Forall_forall in F. destruct (F o Ho). lia. }
  assert (Lt : length (concat (map (fun o : pobj => be 4 (snd o) ++ fst o) objs)) = ((osz + 4) * length objs)%nat) by (apply concat_length; exact Hf).
  change (data = fan_table objs ++ concat (map (fun o : pobj => be 4 (snd o) ++ fst o) objs) ++ sums) in Ed.
  set (tab := concat (map (fun o : pobj => be 4 (snd o) ++ fst o) objs)) in *.
  assert (Hfan : forall b, 0 <= b < 256 -> rd32 data (0 + 4 * b) = Ok (count_upto objs b)).
  { intros b Hb. rewrite Ed. apply (fan_read objs [] (tab ++ sums) b Hb). unfold two32, IDX_SIG in *. lia. }
  assert (Hlen : Z.of_nat (length data) = 1024 + Z.of_nat (length objs) * (Z.of_nat osz + 4) + 2 * Z.of_nat osz).
  { rewrite Ed, !app_length, fan_table_length, Lt, Ls. lia. }
  assert (Bd : bytes data).
  { rewrite Ed. apply Forall_app. split; [|apply Forall_app; split; [|exact Bs]].
    - apply concat_bytes. intros. apply (be_bytes 4).
    - apply concat_bytes. intros o Ho. apply Forall_app. split; [apply be_bytes|]. destruct Hok as [F _]. rewrite Forall_forall in F. apply (F o Ho). }
  exists {| p_data := data; p_version := 1; p_nr := Z.of_nat (length objs); p_osz := Z.of_nat osz |}.
  assert (Eo : index_open (Z.of_nat osz) data = Ok {| p_data := data; p_version := 1; p_nr := Z.of_nat (length objs); p_osz := Z.of_nat osz |}).
  { unfold index_open, index_check. destruct (Z.ltb_spec (Z.of_nat (length data)) (1024 + Z.of_nat osz * 2)); [lia|].
    pose proof (Hfan 0 ltac:(lia)) as R0. change (0 + 4 * 0) with 0 in R0. rewrite R0. cbn [bindr].
    pose proof (count_le objs 0). destruct (Z.eqb_spec (count_upto objs 0) IDX_SIG); [lia|]. cbn [bindr].
    change (1 <? 1) with false. cbv iota.
    pose proof (fan_check_ok data 0 (count_upto objs) Hfan (fun b c => count_mono objs b c) 256 0 0) as FC.
    change (0 + 4 * 0) with 0 in FC. rewrite FC by (try lia; apply count_le). cbn [bindr].
    rewrite (count_all osz objs Hosz Hok). change (1 =? 1) with true. cbv iota.
    destruct (Z.eqb_spec (Z.of_nat (length data)) (1024 + Z.of_nat (length objs) * (Z.of_nat osz + 4) + Z.of_nat osz * 2)); [|lia]. reflexivity. }
  split; [exact Eo|]. split; [reflexivity|]. split; [reflexivity|]. split; [|exact Bd].
  unfold layout. cbn [p_data p_version p_nr p_osz]. change (1 <? 1) with false. cbv iota zeta.
  assert (Hrow : forall i o, nth_error objs i = Some o -> sub data (1024 + (osz + 4) * i) (osz + 4) = be 4 (snd o) ++ fst o).
  { intros i o Ho. rewrite Ed. unfold tab. apply (sub_concat_at (fun o : pobj => be 4 (snd o) ++ fst o) (osz + 4) objs (fan_table objs) sums Hf i o); [exact Ho|]. rewrite fan_table_length. reflexivity. }
  assert (Hoid : forall i o, nth_error objs i = Some o -> length (fst o) = osz).
  { intros i o Ho. destruct Hok as [F _]. rewrite Forall_forall in F. apply (F o (nth_error_In _ _ Ho)). }
  repeat split.
  - exact Hbig.
  - exact Hfan.
  - intros Hne. lia.
  - intros i o Ho. pose proof (Hrow i o Ho) as R. apply (f_equal (fun l => sub l 4 osz)) in R. rewrite sub_sub_at in R by lia.
    replace (Z.to_nat (0 + 1024 + 4 + Z.of_nat i * (Z.of_nat osz + 4))) with (1024 + (osz + 4) * i + 4)%nat by lia. rewrite Nat2Z.id. rewrite R.
    rewrite <- (app_nil_r (be 4 (snd o) ++ fst o)), <- app_assoc. apply sub_mid; [apply be_length|apply (Hoid i o Ho)].
  - unfold nth_offset. cbn [p_data p_version p_nr p_osz]. change (1 =? 1) with true. cbv iota.
    assert (Ro : 0 <= snd o < two32) by (rewrite Forall_forall in Hoffs; apply Hoffs; eapply nth_error_In; eauto).
    apply rd32_sub; [exact Ro|]. replace (Z.to_nat (1024 + (Z.of_nat osz + 4) * Z.of_nat i)) with (1024 + (osz + 4) * i + 0)%nat by lia.
    rewrite <- (sub_sub_at data (1024 + (osz + 4) * i) (osz + 4) 0 4) by lia. rewrite (Hrow i o) by assumption. rewrite <- (be_length 4 (snd o)) at 2. apply sub_app_l.
  - rewrite Forall_forall in Hoffs. apply Hoffs. eapply nth_error_In; eauto.
Qed.

(** *** Version 2 *)
Lemma forall2_nth {A B} (R : A -> B -> Prop) a b : Forall2 R a b -> forall i x, nth_error a i = Some x -> exists y, nth_error b i = Some y /\ R x y.
Proof. induction 1; intros [|i] z Hi; try discriminate; cbn in *; [injection Hi as <-; eauto|eauto]. Qed.
Lemma be8_split v : be 8 v = be 4 (v / 4294967296) ++ be 4 v.
Proof. cbn [be app]. repeat rewrite Z.div_div by lia. reflexivity. Qed.
Lemma version2_open osz objs data : (0 < osz)%nat -> version2 osz objs data -> Z.of_nat (length objs) * (Z.of_nat osz + 8) < two32 ->
  exists p, index_open (Z.of_nat osz) data = Ok p /\ p_data p = data /\ p_osz p = Z.of_nat osz /\ layout p objs /\ bytes data.
Proof.
  intros Hosz (Hok & crcs & words & longs & sums & Lc & Bc & Fw & Hlong & Ls & Bs & Ed) Hbig.
  assert (Hn : Z.of_nat (length objs) * 8 < two32) by nia.
  destruct (ids_bytes osz objs Hok) as [Bi Li]. assert (Lw : length objs = length words) by (clear -Fw; induction Fw; cbn; congruence).
  set (ids := concat (map fst objs)) in *.
  change (data = [255; 116; 79; 99] ++ [0; 0; 0; 2] ++ fan_table objs ++ ids ++ crcs ++ concat (map (be 4) words) ++ concat (map (be 8) longs) ++ sums) in Ed.
  assert (Lws : length (concat (map (be 4) words)) = (4 * length objs)%nat) by (rewrite (concat_length _ 4); [lia|intros; apply be_length]).
  assert (Lls : length (concat (map (be 8) longs)) = (8 * length longs)%nat) by (apply concat_length; intros; apply be_length).
  assert (Hfan : forall b, 0 <= b < 256 -> rd32 data (8 + 4 * b) = Ok (count_upto objs b)).
  { intros b Hb. rewrite Ed. apply (fan_read objs [255; 116; 79; 99; 0; 0; 0; 2] (ids ++ crcs ++ concat (map (be 4) words) ++ concat (map (be 8) longs) ++ sums) b Hb). lia. }
  assert (Hlen : Z.of_nat (length data) = 1032 + Z.of_nat (length objs) * (Z.of_nat osz + 8) + 8 * Z.of_nat (length longs) + 2 * Z.of_nat osz).
  { rewrite Ed, !app_length, fan_table_length, Li, Lc, Lws, Lls, Ls. cbn [length]. lia. }
  assert (Bd : bytes data).
  { rewrite Ed. assert (Bf : bytes (fan_table objs)) by (unfold fan_table; apply concat_bytes; intros; apply (be_bytes 4)).
    assert (B4 : bytes (concat (map (be 4) words))) by (apply concat_bytes; intros; apply be_bytes). assert (B8 : bytes (concat (map (be 8) longs))) by (apply concat_bytes; intros; apply be_bytes).
    assert (Bh : bytes [255; 116; 79; 99] /\ bytes [0; 0; 0; 2]) by (split; repeat constructor; unfold is_byte; lia). destruct Bh as [Bh1 Bh2].
    apply Forall_app; split; [exact Bh1|]. apply Forall_app; split; [exact Bh2|]. apply Forall_app; split; [exact Bf|]. apply Forall_app; split; [assumption|].
    apply Forall_app; split; [exact Bc|]. apply Forall_app; split; [exact B4|]. apply Forall_app; split; [exact B8|exact Bs]. }
  exists {| p_data := data; p_version := 2; p_nr := Z.of_nat (length objs); p_osz := Z.of_nat osz |}.
  assert (Eo : index_open (Z.of_nat osz) data = Ok {| p_data := data; p_version := 2; p_nr := Z.of_nat (length objs); p_osz := Z.of_nat osz |}).
  { unfold index_open, index_check. destruct (Z.ltb_spec (Z.of_nat (length data)) (1024 + Z.of_nat osz * 2)); [lia|].
    assert (R0 : rd32 data 0 = Ok IDX_SIG) by (apply rd32_sub; [unfold IDX_SIG, two32; lia|rewrite Ed; reflexivity]).
    assert (R4 : rd32 data 4 = Ok 2) by (apply rd32_sub; [unfold two32; lia|rewrite Ed; reflexivity]).
    rewrite R0. cbn [bindr]. rewrite Z.eqb_refl. rewrite R4. cbn [bindr]. change ((2 <? 2) || (2 <? 2)) with false. cbv iota. cbn [bindr].
    change (1 <? 2) with true. cbv iota.
    pose proof (fan_check_ok data 8 (count_upto objs) Hfan (fun b c => count_mono objs b c) 256 0 0) as FC.
    change (8 + 4 * 0) with 8 in FC. rewrite FC by (try lia; apply count_le). cbn [bindr].
    rewrite (count_all osz objs Hosz Hok). change (2 =? 1) with false. cbv iota zeta.
    match goal with |- context [if ?c then _ else _] => assert (Ec : c = false) end.
    { destruct (Z.eqb_spec (Z.of_nat (length objs)) 0).
      - destruct longs; [|cbn in Hlong; lia]. cbn [length] in Hlen. lia.
      - rewrite Z.mod_small by lia. lia. }
    rewrite Ec. reflexivity. }
  split; [exact Eo|]. split; [reflexivity|]. split; [reflexivity|]. split; [|exact Bd].
  unfold layout. cbn [p_data p_version p_nr p_osz]. change (1 <? 2) with true. cbv iota zeta.
  assert (Hoid : forall o, In o objs -> length (fst o) = osz).
  { intros o Ho. destruct Hok as [F _]. rewrite Forall_forall in F. apply (F o Ho). }
  repeat split.
  - nia.
  - exact Hfan.
  - intros Hne. lia.
  - intros i o Ho. rewrite Nat2Z.id. rewrite Ed. unfold ids.
    replace ([255; 116; 79; 99] ++ [0; 0; 0; 2] ++ fan_table objs ++ concat (map fst objs) ++ crcs ++ concat (map (be 4) words) ++ concat (map (be 8) longs) ++ sums)
      with ((([255; 116; 79; 99] ++ [0; 0; 0; 2]) ++ fan_table objs) ++ concat (map fst objs) ++ (crcs ++ concat (map (be 4) words) ++ concat (map (be 8) longs) ++ sums)) by (rewrite <- ?app_assoc; reflexivity).
    apply (sub_concat_at fst osz objs (([255; 116; 79; 99] ++ [0; 0; 0; 2]) ++ fan_table objs) _ Hoid i o _ Ho).
    rewrite app_length, fan_table_length. cbn [app length]. lia.
  - destruct (forall2_nth _ _ _ Fw i o H) as (w & Hw & Wo). unfold nth_offset. cbn [p_data p_version p_nr p_osz]. change (2 =? 1) with false. cbv iota zeta.
    assert (Hi : (i < length objs)%nat) by (apply nth_error_Some; congruence).
    assert (Wr : 0 <= w < two32).
    { destruct Wo as [[-> ?]|(k & -> & Hk & _)]; unfold two32 in *; [lia|]. assert (k < length longs)%nat by (apply nth_error_Some; congruence). lia. }
    rewrite (Z.mod_small (4 * Z.of_nat i)) by lia.
    assert (Rw : rd32 data (1024 + 8 + Z.of_nat (length objs) * (Z.of_nat osz + 4) + 4 * Z.of_nat i) = Ok w).
    { apply rd32_sub; [exact Wr|]. rewrite Ed.
      replace ([255; 116; 79; 99] ++ [0; 0; 0; 2] ++ fan_table objs ++ ids ++ crcs ++ concat (map (be 4) words) ++ concat (map (be 8) longs) ++ sums)
        with (([255; 116; 79; 99] ++ [0; 0; 0; 2] ++ fan_table objs ++ ids ++ crcs) ++ concat (map (be 4) words) ++ concat (map (be 8) longs) ++ sums) by (rewrite <- ?app_assoc; reflexivity).
      apply (sub_concat_at (be 4) 4 words _ _ ltac:(intros; apply be_length) i w _ Hw). rewrite !app_length, fan_table_length, Li, Lc. cbn [length]. lia. }
    rewrite Rw. cbn [bindr]. change 2147483648 with (2 ^ 31) at 1. rewrite <- (Z.shiftl_1_l 31) at 1. 
    destruct Wo as [[-> Ro]|(k & -> & Hk & Ro)].
    + replace (Z.land (snd o) (Z.shiftl 1 31)) with 0; [reflexivity|]. symmetry. rewrite Z.land_comm. apply Z.bits_inj'. intros m Hm. rewrite Z.land_spec, Z.bits_0.
      destruct (Z.eq_dec m 31) as [->|]; [|rewrite Z.shiftl_1_l, Z.pow2_bits_false by lia; reflexivity].
      assert (T : Z.testbit (snd o) 31 = false) by (apply Z.testbit_false; [lia|]; rewrite Z.div_small by lia; reflexivity). rewrite T, andb_false_r. reflexivity.
    + assert (Hkl : (k < length longs)%nat) by (apply nth_error_Some; congruence).
      assert (E1 : (Z.land (2147483648 + Z.of_nat k) (Z.shiftl 1 31) =? 0) = false).
      { apply Z.eqb_neq. intros E. assert (T : Z.testbit (Z.land (2147483648 + Z.of_nat k) (Z.shiftl 1 31)) 31 = true); [|rewrite E, Z.bits_0 in T; discriminate].
        rewrite Z.land_spec, Z.shiftl_1_l, Z.pow2_bits_true by lia. rewrite andb_true_r. apply Z.testbit_true; [lia|]. unfold two32 in *. replace ((2147483648 + Z.of_nat k) / 2 ^ 31) with 1 by (change (2 ^ 31) with 2147483648; lia). reflexivity. }
      rewrite E1. change 2147483647 with (2 ^ 31 - 1). rewrite land_ones by lia. change (2 ^ 31) with 2147483648.
      replace ((2147483648 + Z.of_nat k) mod 2147483648) with (Z.of_nat k) by (unfold two32 in *; lia).
      rewrite (Z.mod_small (Z.of_nat k * 8)) by lia.
      match goal with |- (if ?c then _ else _) = _ => assert (Ec : c = false) by lia; rewrite Ec; clear Ec end.
      set (at8 := 1024 + 8 + Z.of_nat (length objs) * (Z.of_nat osz + 4) + Z.of_nat (length objs) * 4 + Z.of_nat k * 8).
      assert (S8 : sub data (Z.to_nat at8) 8 = be 8 (snd o)).
      { rewrite Ed.
        replace ([255; 116; 79; 99] ++ [0; 0; 0; 2] ++ fan_table objs ++ ids ++ crcs ++ concat (map (be 4) words) ++ concat (map (be 8) longs) ++ sums)
        with (([255; 116; 79; 99] ++ [0; 0; 0; 2] ++ fan_table objs ++ ids ++ crcs ++ concat (map (be 4) words)) ++ concat (map (be 8) longs) ++ sums) by (rewrite <- ?app_assoc; reflexivity).
        apply (sub_concat_at (be 8) 8 longs _ _ ltac:(intros; apply be_length) k (snd o) _ Hk). rewrite !app_length, fan_table_length, Li, Lc, Lws. cbn [length]. unfold at8. lia. }
      rewrite be8_split in S8.
      assert (Hat : 0 <= at8) by (unfold at8; nia).
      assert (Bm : forall v, be 4 v = be 4 (v mod 4294967296)).
      { intros v. cbn [be app]. repeat rewrite Z.div_div by lia. repeat (f_equal; try lia). }
      assert (Rh : rd32 data at8 = Ok (snd o / 4294967296)).
      { apply rd32_sub; [unfold two32; lia|]. replace (Z.to_nat at8) with (Z.to_nat at8 + 0)%nat by lia. rewrite <- (sub_sub_at data (Z.to_nat at8) 8 0 4) by lia. rewrite S8.
        rewrite <- (be_length 4 (snd o / 4294967296)) at 2. apply sub_app_l. }
      assert (Rl : rd32 data (at8 + 4) = Ok (snd o mod 4294967296)).
      { apply rd32_sub; [unfold two32; lia|]. rewrite <- Bm. replace (Z.to_nat (at8 + 4)) with (Z.to_nat at8 + 4)%nat by lia. rewrite <- (sub_sub_at data (Z.to_nat at8) 8 4 4) by lia. rewrite S8.
        rewrite <- (app_nil_r (be 4 (snd o / 4294967296) ++ be 4 (snd o))), <- app_assoc. apply sub_mid; apply be_length. }
      rewrite Rh. cbn [bindr]. rewrite Rl. cbn [bindr]. f_equal.
      rewrite Z.lor_comm, (lor_disjoint _ _ 32); [|lia|change (2 ^ 32) with 4294967296; lia|rewrite shiftl_mul by lia; apply Z.mod_mul; lia].
      rewrite shiftl_mul by lia. change (2 ^ 32) with 4294967296. unfold to_int64.
      destruct (Z.ltb_spec (snd o mod 4294967296 + snd o / 4294967296 * 4294967296) 9223372036854775808); unfold two64; lia.
  - destruct (forall2_nth _ _ _ Fw i o H) as (w & Hw & Wo). destruct Wo as [[_ ?]|(k & _ & _ & ?)]; lia.
Qed.

(** *** Any accepted file is searched within its bounds *)
Lemma fan_check_inv data : bytes data -> forall i base nr n, 0 <= base -> fan_check data base i nr = Ok n ->
  nr <= n /\ (forall k, 0 <= k < Z.of_nat i -> exists v, rd32 data (base + 4 * k) = Ok v /\ nr <= v <= n) /\
  (forall j k v w, 0 <= j <= k -> k < Z.of_nat i -> rd32 data (base + 4 * j) = Ok v -> rd32 data (base + 4 * k) = Ok w -> v <= w).
Proof.
  intros Bd. induction i as [|i IH]; intros base nr n Hb; cbn [fan_check].
  - intros [= ->]. split; [lia|]. split; intros; lia.
  - destruct (rd32 data base) as [m| | |] eqn:Em; try discriminate. cbn [bindr]. destruct (Z.ltb_spec m nr); [discriminate|].
    intros H'. destruct (IH (base + 4) m n ltac:(lia) H') as (A & B & C). split; [lia|]. split.
    + intros k Hk. destruct (Z.eq_dec k 0) as [->|].
      * exists m. rewrite Z.mul_0_r, Z.add_0_r. split; [exact Em|lia].
      * destruct (B (k - 1) ltac:(lia)) as (v & Ev & Rv). replace (base + 4 + 4 * (k - 1)) with (base + 4 * k) in Ev by lia. exists v. split; [exact Ev|lia].
    + intros j k v w Hj Hk Ev Ew. destruct (Z.eq_dec j 0) as [->|].
      * rewrite Z.mul_0_r, Z.add_0_r in Ev. assert (v = m) by congruence. subst. destruct (Z.eq_dec k 0) as [->|].
        -- rewrite Z.mul_0_r, Z.add_0_r in Ew. assert (w = m) by congruence. lia.
        -- destruct (B (k - 1) ltac:(lia)) as (v & Ev' & Rv). replace (base + 4 + 4 * (k - 1)) with (base + 4 * k) in Ev' by lia. assert (v = w) by congruence. lia.
      * apply (C (j - 1) (k - 1) v w); try lia; [replace (base + 4 + 4 * (j - 1)) with (base + 4 * j) by lia; exact Ev|replace (base + 4 + 4 * (k - 1)) with (base + 4 * k) by lia; exact Ew].
Qed.
Lemma mod_le a m : 0 <= a -> 0 < m -> 0 <= a mod m <= a.
Proof. intros. pose proof (Z.mod_pos_bound a m ltac:(lia)). pose proof (Z.mod_le a m ltac:(lia) ltac:(lia)). lia. Qed.

Lemma open_inv osz data p : bytes data -> 0 < osz -> index_open osz data = Ok p ->
  p_data p = data /\ p_osz p = osz /\ (p_version p = 1 \/ p_version p = 2) /\ 0 <= p_nr p /\
  fan_check data (if 1 <? p_version p then 8 else 0) 256 0 = Ok (p_nr p) /\
  (p_version p = 1 -> Z.of_nat (length data) = 1024 + p_nr p * (osz + 4) + osz * 2) /\
  (p_version p = 2 -> 1032 + p_nr p * (osz + 8) + osz * 2 <= Z.of_nat (length data)).
Proof.
  intros Bd Ho. unfold index_open, index_check. destruct (Z.ltb_spec (Z.of_nat (length data)) (1024 + osz * 2)); [discriminate|].
  destruct (rd32 data 0) as [sig| | |]; try discriminate. cbn [bindr].
  assert (G : forall v, v = 1 \/ v = 2 -> forall r, (do nr <- fan_check data (if 1 <? v then 8 else 0) 256 0 ;;
     if v =? 1 then if negb (Z.of_nat (length data) =? 1024 + nr * (osz + 4) + osz * 2) then Err (-1) else Ok (v, nr)
     else if (Z.of_nat (length data) <? 8 + 1024 + nr * (osz + 4 + 4) + osz * 2) || (8 + 1024 + nr * (osz + 4 + 4) + osz * 2 + (if nr =? 0 then 0 else ((nr - 1) * 8) mod two32) <? Z.of_nat (length data)) then Err (-1) else Ok (v, nr)) = Ok r ->
     fst r = v /\ 0 <= snd r /\ fan_check data (if 1 <? v then 8 else 0) 256 0 = Ok (snd r) /\ (v = 1 -> Z.of_nat (length data) = 1024 + snd r * (osz + 4) + osz * 2) /\
  (v = 2 -> 1032 + snd r * (osz + 8) + osz * 2 <= Z.of_nat (length data))).
  { intros v Hv r. destruct (fan_check data (if 1 <? v then 8 else 0) 256 0) as [nr| | |] eqn:EF; try discriminate. cbn [bindr].
    destruct (fan_check_inv data Bd 256 (if 1 <? v then 8 else 0) 0 nr ltac:(destruct (1 <? v); lia) EF) as (N & _ & _).
    destruct Hv as [-> | ->].
    - change (1 =? 1) with true. cbv iota. destruct (Z.eqb_spec (Z.of_nat (length data)) (1024 + nr * (osz + 4) + osz * 2)); cbn [negb]; [|discriminate].
      intros [= <-]. cbn [fst snd]. repeat split; auto; lia.
    - change (2 =? 1) with false. cbv iota. match goal with |- context [if ?c then Err _ else _] => destruct c eqn:Ec end; [discriminate|].
      apply orb_false_elim in Ec as [E1 _]. apply Z.ltb_ge in E1. intros [= <-]. cbn [fst snd]. repeat split; auto; intros; try lia; nia. }
  destruct (sig =? IDX_SIG).
  - destruct (rd32 data 4) as [v| | |]; try discriminate. cbn [bindr]. destruct ((v <? 2) || (2 <? v)) eqn:Ev; [discriminate|]. cbn [bindr]. cbv zeta.
    assert (v = 2) by lia. subst v. match goal with |- (do _ <- ?e ;; _) = _ -> _ => destruct e as [[ver nr]| | |] eqn:E; try discriminate end.
    specialize (G 2 ltac:(auto) _ E). cbn [fst snd] in G. destruct G as (-> & G). cbn [bindr]. intros [= <-]. cbn [p_data p_osz p_version p_nr]. tauto.
  - cbn [bindr]. cbv zeta. match goal with |- (do _ <- ?e ;; _) = _ -> _ => destruct e as [[ver nr]| | |] eqn:E; try discriminate end.
    specialize (G 1 ltac:(auto) _ E). cbn [fst snd] in G. destruct G as (-> & G). cbn [bindr]. intros [= <-]. cbn [p_data p_osz p_version p_nr]. tauto.
Qed.

Lemma nth_offset_safe osz data p n : bytes data -> 0 < osz -> index_open osz data = Ok p -> 0 <= n < p_nr p -> exists v, nth_offset p n = Ok v.
Proof.
  intros Bd Ho E Hn. destruct (open_inv osz data p Bd Ho E) as (Ed & Eo & Hv & Hr & _ & H1 & H2). unfold nth_offset. rewrite Ed, Eo.
  destruct Hv as [Hv|Hv]; rewrite Hv.
  - change (1 =? 1) with true. cbv iota. destruct (rd32_some data (1024 + (osz + 4) * n) Bd) as (v & -> & _); try (specialize (H1 Hv); nia). eauto.
  - change (2 =? 1) with false. cbv iota zeta. specialize (H2 Hv). pose proof (mod_le (4 * n) two32 ltac:(lia) ltac:(reflexivity)).
    destruct (rd32_some data (1024 + 8 + p_nr p * (osz + 4) + (4 * n) mod two32) Bd) as (w & -> & Rw); [nia|nia|]. cbn [bindr].
    destruct (Z.land w 2147483648 =? 0); [eauto|].
    set (ix := 1024 + 8 + p_nr p * (osz + 4) + p_nr p * 4 + (Z.land w 2147483647 * 8) mod two32).
    assert (0 <= ix) by (unfold ix; pose proof (Z.mod_pos_bound (Z.land w 2147483647 * 8) two32 ltac:(reflexivity)); nia).
    destruct (Z.leb_spec (Z.of_nat (length data) - 8) ix); [eauto|].
    destruct (rd32_some data ix Bd) as (h & -> & _); try lia. cbn [bindr]. destruct (rd32_some data (ix + 4) Bd) as (l & -> & _); try lia. cbn [bindr]. eauto.
Qed.

Lemma find_safe osz data p q len : bytes data -> 0 < osz -> index_open osz data = Ok p -> p_nr p < 2147483648 ->
  oid_ok (Z.to_nat osz) q -> (len <= 2 * Z.to_nat osz)%nat ->
  find_offset p q len <> UB /\ find_offset p q len <> NoFuel.
Proof.
  intros Bd Ho E Hnr Hq Hlen. destruct (open_inv osz data p Bd Ho E) as (Ed & Eo & Hv & Hr & HF & H1 & H2).
  pose proof (nth_offset_safe osz data p) as NO. unfold find_offset. rewrite Ed, Eo.
  set (lvl1 := if 1 <? p_version p then 8 else 0) in *.
  set (stride := if 1 <? p_version p then osz else osz + 4).
  set (index := lvl1 + 1024 + (if 1 <? p_version p then 0 else 4)).
  assert (Hix : 0 <= index) by (unfold index, lvl1; destruct (1 <? p_version p); lia).
  assert (Hst : osz <= stride) by (unfold stride; destruct (1 <? p_version p); lia).
  assert (Hsz : index + (p_nr p - 1) * stride + osz <= Z.of_nat (length data)).
  { unfold index, lvl1, stride. destruct Hv as [Hv|Hv]; rewrite Hv; [change (1 <? 1) with false|change (1 <? 2) with true]; cbv iota; [specialize (H1 Hv)|specialize (H2 Hv)]; nia. }
  destruct (fan_check_inv data Bd 256 lvl1 0 (p_nr p) ltac:(unfold lvl1; destruct (1 <? p_version p); lia) HF) as (_ & FB & FM).
  destruct Hq as [Lq Bq]. destruct q as [|b q'] eqn:Eq; [cbn in Lq; lia|]. rewrite <- Eq in *.
  assert (Hb : 0 <= b < 256) by (subst q; inversion_clear Bq; assumption).
  assert (Er : rd q 0 = Ok b) by (subst q; reflexivity). rewrite Er. cbn [bindr]. clear Eq Er q'.
  destruct (FB b ltac:(lia)) as (hi & Ehi & Rhi). rewrite Ehi. cbn [bindr].
  assert (Elo : exists lo, (if b =? 0 then Ok 0 else rd32 data (lvl1 + 4 * (b - 1))) = Ok lo /\ 0 <= lo <= hi).
  { destruct (Z.eqb_spec b 0); [exists 0; split; [reflexivity|lia]|]. destruct (FB (b - 1) ltac:(lia)) as (lo & El & Rl). exists lo. split; [exact El|].
    pose proof (FM (b - 1) b lo hi ltac:(lia) ltac:(lia) El Ehi). lia. }
  destruct Elo as (lo & -> & Rlo). cbn [bindr].
  destruct (lookup_safe (S (Z.to_nat (hi - lo))) data index stride lo hi q osz) as (r & -> & Rr); try lia.
  { intros. assert ((hi - 1) * stride <= (p_nr p - 1) * stride) by nia. lia. }
  cbn [bindr]. replace (to_int32 (p_nr p)) with (p_nr p) by (unfold to_int32; destruct (Z.ltb_spec (p_nr p) 2147483648); lia). cbv zeta.
  assert (NC : forall off, 0 <= off -> off + osz <= Z.of_nat (length data) -> exists c, ncmp_at osz data off q len = Ok c).
  { intros off Hoff Hl. destruct (ncmp_at_spec data off q len osz) as (c & Ec & _); eauto; try lia. split; assumption. }
  assert (AD : forall k, 0 <= k < p_nr p -> 0 <= index + (k * stride) mod two32 /\ index + (k * stride) mod two32 + osz <= Z.of_nat (length data) /\
     (k + 1 < p_nr p -> index + (k * stride) mod two32 + stride + osz <= Z.of_nat (length data))).
  { intros k Hk. pose proof (mod_le (k * stride) two32 ltac:(nia) ltac:(reflexivity)). split; [lia|]. split; intros; nia. }
  assert (Q : exists found pos cur, (if 0 <=? r then Ok (true, r, index + (r * stride) mod two32)
      else if - 1 - r <? p_nr p then do c <- ncmp_at osz data (index + ((- 1 - r) * stride) mod two32) q len;; Ok (c =? 0, - 1 - r, index + ((- 1 - r) * stride) mod two32)
           else Ok (false, - 1 - r, 0)) = Ok (found, pos, cur) /\ (found = true -> 0 <= pos < p_nr p /\ cur = index + (pos * stride) mod two32)).
  { destruct (Z.leb_spec 0 r).
    - exists true, r, (index + (r * stride) mod two32). split; [reflexivity|]. intros _. split; [|reflexivity]. destruct Rr as [(mi & ? & ? & _)|(k & ? & ?)]; lia.
    - destruct (Z.ltb_spec (- 1 - r) (p_nr p)).
      + destruct (AD (- 1 - r) ltac:(lia)) as (A1 & A2 & _). destruct (NC _ A1 A2) as (c & ->). cbn [bindr].
        exists (c =? 0), (- 1 - r), (index + ((- 1 - r) * stride) mod two32). split; [reflexivity|]. intros _. split; [lia|reflexivity].
      + exists false, (- 1 - r), 0. split; [reflexivity|discriminate]. }
  destruct Q as (found & pos & cur & -> & Hfc). cbn [bindr].
  destruct found; cbn [negb andb]; [|cbn [bindr]; split; discriminate].
  destruct (Hfc eq_refl) as (Hpos & ->). destruct (AD pos Hpos) as (A1 & A2 & A3).
  destruct (NO pos Bd Ho E Hpos) as (v & Ev).
  assert (FIN : forall amb, (if (amb : bool) then Err (-5) else do offset <- nth_offset p pos ;; if offset <? 0 then Err (-1)
             else do o0 <- rdn data (Z.to_nat (index + (pos * stride) mod two32)) (Z.to_nat osz) ;; Ok (offset, o0)) <> @UB (Z * list Z) /\
     (if (amb : bool) then Err (-5) else do offset <- nth_offset p pos ;; if offset <? 0 then Err (-1)
             else do o0 <- rdn data (Z.to_nat (index + (pos * stride) mod two32)) (Z.to_nat osz) ;; Ok (offset, o0)) <> NoFuel).
  { intros [|]; [split; discriminate|]. rewrite Ev. cbn [bindr]. destruct (v <? 0); [split; discriminate|]. rewrite rdn_ok by lia. cbn [bindr]. split; discriminate. }
  destruct (negb (Z.of_nat len =? 2 * osz) && (pos + 1 <? p_nr p)) eqn:Ea; cbn [bindr]; [|apply (FIN false)].
  apply andb_prop in Ea as [_ Ea]. destruct (NC (index + (pos * stride) mod two32 + stride) ltac:(lia) (A3 ltac:(lia))) as (c & ->). cbn [bindr]. apply FIN.
Qed.

(** *** The writer produces version 2 files *)
Definition obj_of (o : iobj) : pobj := (o_id o, o_off o).
Definition iobjs_ok (osz : nat) (objs : list iobj) : Prop :=
  objs_ok osz (map obj_of objs) /\ Forall (fun o => length (o_crc o) = 4%nat /\ bytes (o_crc o) /\ 0 <= o_off o < 9223372036854775808) objs.
Lemma combine_map {A B} (g : A * B -> B) (l : list A) : forall (m : list B), combine l (map g (combine l m)) = map (fun x => (fst x, g x)) (combine l m).
Proof. induction l as [|a l IH]; intros [|b m]; cbn; try reflexivity. f_equal. apply IH. Qed.
Lemma fanout_acc objs : forall f, length f = 256%nat ->
  fold_left (fun f o => fan_add f (hd 0 (o_id o))) objs f =
  map (fun x => snd x + count_upto (map obj_of objs) (fst x)) (combine (map Z.of_nat (seq 0 256)) f).
Proof.
  induction objs as [|o objs IH]; intros f Lf.
  - cbn [fold_left map]. transitivity (map snd (combine (map Z.of_nat (seq 0 256)) f)).
    + assert (G : forall (l : list Z) (m : list Z), length l = length m -> map snd (combine l m) = m) by (clear; induction l; intros [|b m] H; cbn in *; try discriminate; [reflexivity|f_equal; auto]).
      symmetry. apply G. rewrite map_length, seq_length, Lf. reflexivity.
    + apply map_ext. intros x. unfold count_upto. cbn. lia.
  - cbn [fold_left]. rewrite IH by (unfold fan_add; rewrite map_length, combine_length, map_length, seq_length, Lf; reflexivity).
    unfold fan_add. rewrite combine_map, map_map. apply map_ext. intros [i v]. cbn [fst snd map]. unfold count_upto. cbn [filter obj_of fst].
    destruct (hd 0 (o_id o) <=? i); cbn [length]; lia.
Qed.
Lemma fanout_table objs : concat (map (be 4) (fanout objs)) = fan_table (map obj_of objs).
Proof.
  unfold fanout. rewrite fanout_acc by apply repeat_length. unfold fan_table. apply (f_equal (@concat Z)). rewrite map_map.
  assert (G : forall l, map (fun x : Z * Z => be 4 (snd x + count_upto (map obj_of objs) (fst x))) (combine (map Z.of_nat l) (repeat 0 (length l))) = map (fun i => bigend 4 (count_upto (map obj_of objs) (Z.of_nat i))) l).
  { induction l as [|a l IHl]; [reflexivity|]. cbn [length repeat map combine fst snd]. rewrite Z.add_0_l, IHl. reflexivity. }
  rewrite <- G. rewrite seq_length. reflexivity.
Qed.
Fixpoint words (objs : list iobj) (long : Z) : list Z :=
  match objs with
  | [] => []
  | o :: r => if 2147483647 <? o_off o then Z.lor 2147483648 long :: words r (long + 1) else o_off o :: words r long
  end.
Fixpoint longs (objs : list iobj) : list Z :=
  match objs with [] => [] | o :: r => if 2147483647 <? o_off o then o_off o :: longs r else longs r end.
Lemma offset_words_eq objs : forall l, offset_words objs l = concat (map (be 4) (words objs l)).
Proof. induction objs as [|o r IH]; intros l; cbn [offset_words words]; [reflexivity|]. destruct (2147483647 <? o_off o); cbn [map concat]; rewrite IH; reflexivity. Qed.
Lemma be4_mod v : be 4 v = be 4 (v mod 4294967296).
Proof. cbn [be app]. repeat rewrite Z.div_div by lia. repeat (f_equal; try lia). Qed.
Lemma long_offsets_eq objs : long_offsets objs = concat (map (be 8) (longs objs)).
Proof.
  unfold long_offsets. induction objs as [|o r IH]; cbn [map concat longs]; [reflexivity|]. rewrite IH. destruct (2147483647 <? o_off o); [|reflexivity].
  cbn [map concat]. rewrite be8_split. rewrite shiftr_div by lia. change 4294967295 with (2 ^ 32 - 1). rewrite land_ones by lia. change (2 ^ 32) with 4294967296.
  rewrite <- be4_mod. reflexivity.
Qed.
Lemma words_ok objs : Forall (fun o => 0 <= o_off o < 9223372036854775808) objs -> forall pre, Z.of_nat (length pre + length objs) < 2147483648 ->
  Forall2 (offset_word (pre ++ longs objs)) (map obj_of objs) (words objs (Z.of_nat (length pre))).
Proof.
  induction 1 as [|o r Ho _ IH]; intros pre Hl; cbn [map words longs]; [constructor|]. cbn [length] in Hl.
  destruct (Z.ltb_spec 2147483647 (o_off o)).
  - constructor.
    + right. exists (length pre). split.
      * rewrite Z.lor_comm. rewrite (lor_disjoint _ _ 31); [lia|lia|change (2 ^ 31) with 2147483648; lia|reflexivity].
      * cbn [obj_of snd]. split; [|lia]. rewrite nth_error_app2, Nat.sub_diag by lia. reflexivity.
    + replace (pre ++ o_off o :: longs r) with ((pre ++ [o_off o]) ++ longs r) by (rewrite <- app_assoc; reflexivity).
      replace (Z.of_nat (length pre) + 1) with (Z.of_nat (length (pre ++ [o_off o]))) by (rewrite app_length; cbn; lia). apply IH. rewrite app_length. cbn [length]. lia.
  - constructor; [left; cbn [obj_of snd]; lia|]. apply IH. lia.
Qed.
Lemma longs_length objs : (length (longs objs) <= length objs)%nat.
Proof. induction objs as [|o r IH]; cbn [longs length]; [lia|]. destruct (2147483647 <? o_off o); cbn [length]; lia. Qed.
Lemma longs_fewer objs : (exists o, In o objs /\ o_off o <= 2147483647) -> (length (longs objs) <= length objs - 1)%nat.
Proof.
  intros (o & Ho & Hs). induction objs as [|a r IH]; [destruct Ho|]. cbn [longs length]. pose proof (longs_length r).
  destruct Ho as [->|Hin].
  - destruct (Z.ltb_spec 2147483647 (o_off o)); lia.
  - specialize (IH Hin). destruct (2147483647 <? o_off a); cbn [length]; destruct r; cbn [length] in *; try lia; destruct Hin.
Qed.
Lemma write_version2 osz objs packsum idxsum : (0 < osz)%nat -> iobjs_ok osz objs -> Z.of_nat (length objs) < 2147483648 ->
  (objs = [] \/ exists o, In o objs /\ o_off o <= 2147483647) ->
  length packsum = osz -> length idxsum = osz -> bytes packsum -> bytes idxsum ->
  version2 osz (map obj_of objs) (write_idx objs packsum idxsum).
Proof.
  intros Hosz [Hok HF] Hn Hsmall Lp Li Bp Bi. split; [exact Hok|].
  exists (concat (map o_crc objs)), (words objs 0), (longs objs), (packsum ++ idxsum). rewrite map_length.
  assert (Hc : forall o, In o objs -> length (o_crc o) = 4%nat /\ bytes (o_crc o)) by (intros o Ho; rewrite Forall_forall in HF; destruct (HF o Ho) as (? & ? & _); auto).
  repeat split.
  - apply concat_length. intros o Ho. apply Hc; auto.
  - apply concat_bytes. intros o Ho. apply Hc; auto.
  - apply (words_ok objs ltac:(eapply Forall_impl; [|exact HF]; cbn; intros; tauto) []). cbn [length]. lia.
  - destruct Hsmall as [->|]; [cbn; lia|]. apply longs_fewer. assumption.
  - rewrite app_length. lia.
  - apply Forall_app. auto.
  - unfold write_idx. rewrite fanout_table, offset_words_eq, long_offsets_eq. rewrite map_map.
    assert (Ei : map (fun x => fst (obj_of x)) objs = map o_id objs) by (apply map_ext; reflexivity). rewrite Ei.
    reflexivity.
Qed.
