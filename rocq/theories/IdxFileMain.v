(** Round trip and safety of the index file. *)
From Verif Require Import Base Arr VectorModel VectorProofs WildModel IndexModel VarintModel VarintSpec VarintProofs VarintProps IdxFileModel IdxFileSpec IdxFileProofs.

(** What a reader finds for [e]. *)
Definition disk_form (e : dentry) : dentry :=
  mkd (d_stat e) (d_id e) (d_flags e) (if extended (d_flags e) then Z.land (d_ext e) EXT_FLAGS else 0) (d_path e).

Definition small (e : dentry) : Prop := Z.of_nat (length (d_path e)) < 1152921504606846976. (* 2^60 *)

Lemma offset_bound osz flags : (42 + osz <= path_offset osz flags <= 44 + osz)%nat.
Proof. unfold path_offset. destruct (extended flags); lia. Qed.

Section RT.
  Variables (path_ok : list Z -> bool) (osz : nat).
  Hypothesis Hosz : (2 <= osz)%nat /\ Z.of_nat osz < 65536.

  Lemma good_stat e : good path_ok osz e -> length (d_stat e) = 10%nat.
  Proof. intros (H & _). destruct (stat10 _ H) as (a & b & c & d & e' & f & g & h & i & j & E & _). rewrite E. reflexivity. Qed.

  Lemma read_common e t compressed bsz last : good path_ok osz e -> (osz <= length t)%nat -> Z.of_nat (length (ondisk e)) + Z.of_nat osz <= bsz ->
    read_entry path_ok osz compressed (ondisk e ++ t) bsz last =
    (do (path, size) <-
      (if negb compressed then
         let plen := Z.land (d_flags e) NAMEMASK in
         do plen <- (if plen =? NAMEMASK
                     then do o <- memchr0 t (Z.to_nat bsz) ;;
                          match o with Some n => Ok (Z.of_nat n) | None => Err (-1) end
                     else Ok plen) ;;
         let size := entry_size osz plen 0 (d_flags e) in
         if size =? 0 then Err (-1) else if bsz <? Z.of_nat osz + size then Err (-1)
         else do path <- strz t ;; Ok (path, size)
       else
         do (strip, vlen) <- decode_varint t ;;
         let last_len := Z.of_nat (length last) in
         if (vlen =? 0)%nat || (last_len <? strip) then Err (-1)
         else
           let prefix_len := Z.to_nat (last_len - strip) in
           do suffix <- strz (skipn vlen t) ;;
           let path_len := Z.of_nat prefix_len + Z.of_nat (length suffix) + 1 in
           if PATH_MAX <? path_len then Err (-1)
           else
             let size := entry_size osz (Z.of_nat (length suffix)) (Z.of_nat vlen) (d_flags e) in
             if size =? 0 then Err (-1) else if bsz <? Z.of_nat osz + size then Err (-1)
             else Ok (firstn prefix_len last ++ suffix, size)) ;;
     if path_ok path then Ok (mkd (d_stat e) (d_id e) (d_flags e) (if extended (d_flags e) then Z.land (d_ext e) EXT_FLAGS else 0) path, size)
     else Err (-1)).
  Proof.
    intros G Ht Hb. assert (L10 := good_stat e G). destruct G as (Hs & Hid & Hidb & Hf & He & Hn & Hp & Hok).
    assert (L := ondisk_length osz e L10 Hid). assert (B := offset_bound osz (d_flags e)).
    unfold read_entry. change (path_offset osz 0) with (42 + osz)%nat.
    destruct (Z.ltb_spec bsz (Z.of_nat osz + Z.of_nat (42 + osz))); [lia|].
    rewrite rdn_ok by (rewrite app_length; lia). cbn [bindr]. rewrite !sub_sub by lia. rewrite flags_roundtrip by assumption.
    rewrite read_stat_sub by lia. rewrite stat_roundtrip by assumption. rewrite id_roundtrip by assumption.
    rewrite skipn_app, skipn_all2 by lia. replace (path_offset osz (d_flags e) - length (ondisk e))%nat with 0%nat by lia. cbn [app]. rewrite skipn_O.
    destruct (extended (d_flags e)) eqn:Ex.
    - rewrite rdn_ok by (rewrite app_length; unfold path_offset in L; rewrite Ex in L; lia). cbn [bindr]. rewrite ext_roundtrip by assumption. reflexivity.
    - reflexivity.
  Qed.

  Lemma plain_roundtrip e b t bsz last : good path_ok osz e -> small e -> write_disk_entry osz e None = Ok b ->
    (osz <= length t)%nat -> Z.of_nat (length b) + Z.of_nat osz <= bsz ->
    read_entry path_ok osz false (b ++ t) bsz last = Ok (disk_form e, Z.of_nat (length b)).
  Proof.
    intros G Hsm E Ht Hb. assert (G' := G). assert (L10 := good_stat e G). destruct G' as (Hs & Hid & Hidb & Hf & He & Hn & Hp & Hok).
    assert (L := ondisk_length osz e L10 Hid). assert (B := offset_bound osz (d_flags e)).
    unfold write_disk_entry in E. unfold small in Hsm.
    assert (Ez : entry_size osz (Z.of_nat (length (d_path e))) 0 (d_flags e) = 8 * ((Z.of_nat (path_offset osz (d_flags e)) + Z.of_nat (length (d_path e)) + 8) / 8)) by (apply entry_size_plain; unfold two64; lia).
    rewrite Ez in E. cbv zeta in E. set (sz := 8 * ((Z.of_nat (path_offset osz (d_flags e)) + Z.of_nat (length (d_path e)) + 8) / 8)) in *.
    destruct (Z.eqb_spec sz 0) as [|Nz]; [discriminate|]. destruct (Z.ltb_spec (Z.of_nat (length (d_path e))) (sz - Z.of_nat (path_offset osz (d_flags e)))) as [Hlt|]; [|discriminate].
    cbn [negb] in E. injection E as <-.
    set (pad := Z.to_nat (sz - Z.of_nat (path_offset osz (d_flags e)) - Z.of_nat (length (d_path e)))) in *.
    assert (Lb : Z.of_nat (length (ondisk e ++ d_path e ++ repeat 0 pad)) = sz) by (rewrite !app_length, repeat_length; unfold pad; lia).
    rewrite Lb in *. rewrite <- !app_assoc.
    rewrite read_common; [|exact G|rewrite !app_length, repeat_length; lia|lia]. cbn [negb]. cbv zeta.
    destruct pad as [|pad'] eqn:Epad; [unfold pad in Epad; lia|]. cbn [repeat app].
    assert (Hplen : (do plen <- (if Z.land (d_flags e) NAMEMASK =? NAMEMASK then do o <- memchr0 (d_path e ++ 0 :: repeat 0 pad' ++ t) (Z.to_nat bsz) ;; match o with Some n => Ok (Z.of_nat n) | None => Err (-1) end else Ok (Z.land (d_flags e) NAMEMASK)) ;; Ok plen) = Ok (Z.of_nat (length (d_path e)))).
    { unfold NAMEMASK. rewrite Hn. destruct (Z.eqb_spec (Z.min (Z.of_nat (length (d_path e))) 4095) 4095).
      - rewrite memchr0_app by (assumption || lia). reflexivity.
      - cbn [bindr]. f_equal. lia. }
    destruct (if Z.land (d_flags e) NAMEMASK =? NAMEMASK then _ else _) as [plen| | |]; cbn [bindr] in Hplen |- *; try discriminate. injection Hplen as ->.
    rewrite Ez. fold sz. destruct (Z.eqb_spec sz 0); [contradiction|]. destruct (Z.ltb_spec bsz (Z.of_nat osz + sz)); [lia|].
    rewrite strz_app by assumption. cbn [bindr]. rewrite Hok. reflexivity.
  Qed.

  Lemma write_plain_ok e : small e -> exists b, write_disk_entry osz e None = Ok b.
  Proof.
    intros H. unfold small in H. assert (B := offset_bound osz (d_flags e)). unfold write_disk_entry. rewrite entry_size_plain by (unfold two64; lia). cbv zeta.
    set (sz := 8 * _). destruct (Z.eqb_spec sz 0); [lia|]. destruct (Z.ltb_spec (Z.of_nat (length (d_path e))) (sz - Z.of_nat (path_offset osz (d_flags e)))); [|lia]. eexists; reflexivity.
  Qed.

  Lemma write_comp_ok e l : small e -> Z.of_nat (length l) < 1152921504606846976 ->
    exists code, varint_code code (Z.of_nat (length l) - Z.of_nat (same_len (d_path e) l)) /\
      write_disk_entry osz e (Some l) = Ok (ondisk e ++ code ++ skipn (same_len (d_path e) l) (d_path e) ++ [0]).
  Proof.
    intros H Hl. unfold small in H. assert (B := offset_bound osz (d_flags e)). unfold write_disk_entry. destruct (same_len_le (d_path e) l) as [S1 S2].
    set (same := same_len (d_path e) l) in *. destruct (varint_encode_exact (Z.of_nat (length l) - Z.of_nat same)) as (code & Hc & En & Es & _); [change (2 ^ 64) with two64; unfold two64; lia|].
    exists code. split; [exact Hc|]. cbv zeta. rewrite En. cbn [bindr].
    assert (Lc : (0 < length code)%nat) by (destruct Hc; cbn; lia || (rewrite ?app_length; cbn; lia)).
    assert (Lc2 : (length code <= 10)%nat). { clear - En Lc Hc Hl. 
      destruct (le_lt_dec (length code) 10) as [|Hgt]; [assumption|exfalso].
      assert (R := varint_decode_reads_at_most_10 (firstn 10 code)). rewrite firstn_length in R. destruct R as [r R]; [lia|].
      assert (X := varint_decode_exact code _ [] Hc). rewrite app_nil_r in X. change (2 ^ 64) with two64 in X. unfold two64 in X.
      destruct (Z.ltb_spec (Z.of_nat (length l) - Z.of_nat same) 18446744073709551616); [|lia].
      assert (Mono : forall rest c val n more r0, decode_loop rest c val n = Ok r0 -> decode_loop (rest ++ more) c val n = Ok r0).
      { induction rest as [|c' rest IH]; intros c val n more r0 Hr; cbn [app decode_loop] in *.
        - destruct (Z.land c 128 =? 0) eqn:E1; [destruct more; cbn [decode_loop]; rewrite E1; exact Hr|].
          destruct ((_ =? 0) || _) eqn:E2; [|discriminate]. destruct more; cbn [decode_loop]; rewrite E1, E2; exact Hr.
        - destruct (Z.land c 128 =? 0); [exact Hr|]. destruct ((_ =? 0) || _); [exact Hr|]. apply IH, Hr. }
      assert (decode_varint code = Ok r) as Y.
      { rewrite <- (firstn_skipn 10 code). destruct (firstn 10 code) as [|c0 r0]; [discriminate R|]. cbn [app decode_varint] in *. apply Mono, R. }
      rewrite Y in X. injection X as ->.
      assert (Cnt : forall rest c val n v k, decode_loop rest c val n = Ok (v, k) -> (k <= n + length rest)%nat).
      { induction rest as [|c' rest IH]; intros c val n v k Hr; cbn [decode_loop] in Hr.
        - destruct (Z.land c 128 =? 0); [injection Hr as <- <-; cbn; lia|]. destruct ((_ =? 0) || _); [injection Hr as <- <-; cbn; lia|discriminate].
        - destruct (Z.land c 128 =? 0); [injection Hr as <- <-; cbn; lia|]. destruct ((_ =? 0) || _); [injection Hr as <- <-; cbn; lia|]. apply IH in Hr. cbn. lia. }
      assert (L10 : (length (firstn 10 code) <= 10)%nat) by (rewrite firstn_length; lia).
      destruct (firstn 10 code) as [|c0 r0]; [discriminate R|]. cbn [decode_varint] in R. apply Cnt in R. cbn in L10. lia. }
    rewrite entry_size_comp by (unfold two64; lia). set (sz := Z.of_nat (path_offset osz (d_flags e)) + _ + 1 + _).
    destruct (Z.eqb_spec sz 0); [lia|]. rewrite Es by lia. cbn [bindr]. destruct (Z.ltb_spec 0 (Z.of_nat (length code))); [|lia]. cbn [negb].
    destruct (Z.eqb_spec (sz - Z.of_nat (path_offset osz (d_flags e)) - Z.of_nat (length code)) (Z.of_nat (length (d_path e)) - Z.of_nat same + 1)); [|lia]. reflexivity.
  Qed.

  Lemma comp_roundtrip e b t bsz l : good path_ok osz e -> Z.of_nat (length (d_path e)) < 4096 -> Z.of_nat (length l) < 4096 ->
    write_disk_entry osz e (Some l) = Ok b ->
    (osz <= length t)%nat -> Z.of_nat (length b) + Z.of_nat osz <= bsz -> Z.of_nat (length b) < 1152921504606846976 ->
    read_entry path_ok osz true (b ++ t) bsz l = Ok (disk_form e, Z.of_nat (length b)).
  Proof.
    intros G Hsm Hl E Ht Hb Hbig. assert (G' := G). assert (L10 := good_stat e G). destruct G' as (Hs & Hid & Hidb & Hf & He & Hn & Hp & Hok).
    assert (L := ondisk_length osz e L10 Hid). assert (B := offset_bound osz (d_flags e)).
    destruct (write_comp_ok e l) as (code & Hc & Ew); [unfold small; lia|lia|]. rewrite Ew in E. injection E as <-. destruct (same_len_le (d_path e) l) as [S1 S2].
    set (same := same_len (d_path e) l) in *. rewrite !app_length in *. cbn [length] in *. rewrite skipn_length in *.
    rewrite <- !app_assoc. rewrite read_common; [|exact G|rewrite !app_length; lia|lia]. cbn [negb].
    rewrite (varint_decode_exact code _ _ Hc). change (2 ^ 64) with two64. unfold two64. destruct (Z.ltb_spec (Z.of_nat (length l) - Z.of_nat same) 18446744073709551616); [|lia]. cbn [bindr]. cbv zeta.
    assert (Lc : (0 < length code)%nat) by (destruct Hc; cbn; lia || (rewrite ?app_length; cbn; lia)).
    destruct (Nat.eqb_spec (length code) 0); [lia|]. destruct (Z.ltb_spec (Z.of_nat (length l)) (Z.of_nat (length l) - Z.of_nat same)); [lia|]. cbn [orb].
    rewrite skipn_app, skipn_all, Nat.sub_diag, skipn_O. cbn [app].
    rewrite strz_app.
    2:{ rewrite <- (firstn_skipn same (d_path e)) in Hp. apply Forall_app in Hp. apply Hp. }
    cbn [bindr]. replace (Z.to_nat (Z.of_nat (length l) - (Z.of_nat (length l) - Z.of_nat same))) with same by lia.
    rewrite skipn_length. unfold PATH_MAX. destruct (Z.ltb_spec 4096 (Z.of_nat same + Z.of_nat (length (d_path e) - same) + 1)); [lia|].
    rewrite entry_size_comp by (unfold two64; lia). set (sz := Z.of_nat (path_offset osz (d_flags e)) + _ + 1 + _).
    destruct (Z.eqb_spec sz 0); [lia|]. destruct (Z.ltb_spec bsz (Z.of_nat osz + sz)); [lia|]. cbn [bindr].
    assert (Ep : firstn same l ++ skipn same (d_path e) = d_path e) by (unfold same; rewrite <- same_len_firstn; apply firstn_skipn). rewrite Ep, Hok.
    unfold disk_form. f_equal. f_equal. lia.
  Qed.
End RT.

Section Loops.
  Variables (path_ok : list Z -> bool) (osz : nat).
  Hypothesis Hosz : (2 <= osz)%nat /\ Z.of_nat osz < 65536.
  Definition fits (version : Z) (e : dentry) : Prop :=
    if 4 <=? version then Z.of_nat (length (d_path e)) < 4096 else small e.
  Definition next_last (version : Z) (p : list Z) : option (list Z) := if 4 <=? version then Some p else None.

  Lemma write_loop_ok version es : forall l, Forall (fits version) es -> Z.of_nat (length l) < 4096 ->
    exists b, write_loop osz version es (next_last version l) = Ok b.
  Proof.
    induction es as [|e es IH]; intros l F Hl; cbn [write_loop]; [eauto|]. inversion_clear F as [|? ? Fe Fs].
    unfold fits, next_last in *. destruct (4 <=? version) eqn:V.
    - destruct (write_comp_ok path_ok osz Hosz e l) as (code & _ & ->); [unfold small; lia|lia|]. cbn [bindr]. destruct (IH (d_path e) Fs Fe) as [b ->]. cbn [bindr]. eauto.
    - destruct (write_plain_ok osz Hosz e Fe) as (b0 & ->). cbn [bindr]. destruct (IH [] Fs ltac:(cbn; lia)) as [b ->]. cbn [bindr]. eauto.
  Qed.

  Lemma write_entry_length e last b : length (d_stat e) = 10%nat -> length (d_id e) = osz -> write_disk_entry osz e last = Ok b -> (42 <= length b)%nat.
  Proof.
    intros H1 H2 E. assert (L := ondisk_length osz e H1 H2). assert (B := offset_bound osz (d_flags e)). unfold write_disk_entry in E. destruct last as [l|].
    - cbv zeta in E. destruct (encode_varint None _) as [[v c]| | |]; cbn [bindr] in E; try discriminate. destruct (_ =? 0); [discriminate|].
      destruct (encode_varint _ _) as [[v2 c2]| | |]; cbn [bindr] in E; try discriminate. destruct (negb _); [discriminate|]. destruct (negb _); [discriminate|]. injection E as <-. rewrite app_length. lia.
    - cbv zeta in E. destruct (_ =? 0); [discriminate|]. destruct (negb _); [discriminate|]. injection E as <-. rewrite app_length. lia.
  Qed.

  Lemma parse_write version es : forall l last b t fuel, Forall (good path_ok osz) es -> Forall (fits version) es -> Z.of_nat (length l) < 4096 ->
    write_loop osz version es (next_last version l) = Ok b -> (osz < length t)%nat -> (length es < fuel)%nat ->
    (if 4 <=? version then last = l else True) ->
    parse_entries fuel path_ok osz (4 <=? version) (Z.of_nat (length es)) (b ++ t) (Z.of_nat (length (b ++ t)) - 1) last =
      Ok (map disk_form es, t, Z.of_nat (length t) - 1).
  Proof.
    induction es as [|e es IH]; intros l last b t [|f] G F Hl E Ht Hf Hlast; cbn [length] in Hf; try lia.
    - cbn [write_loop] in E. injection E as <-. cbn [parse_entries length map app]. reflexivity.
    - inversion_clear G as [|? ? Ge Gs]. inversion_clear F as [|? ? Fe Fs]. cbn [write_loop] in E.
      destruct (write_disk_entry osz e (next_last version l)) as [b0| | |] eqn:E0; cbn [bindr] in E; try discriminate.
      destruct (write_loop osz version es _) as [bs| | |] eqn:Es; cbn [bindr] in E; try discriminate. injection E as <-.
      assert (L0 := write_entry_length e _ b0 (good_stat path_ok osz e Ge) (proj1 (proj2 Ge)) E0).
      rewrite <- app_assoc. cbn [parse_entries]. rewrite !app_length. destruct (Z.ltb_spec 0 (Z.of_nat (length (e :: es)))); [|cbn [length] in *; lia].
      destruct (Z.ltb_spec (Z.of_nat osz) (Z.of_nat (length b0 + (length bs + length t)) - 1)); [|lia]. cbn [andb].
      assert (R : read_entry path_ok osz (4 <=? version) (b0 ++ bs ++ t) (Z.of_nat (length b0 + (length bs + length t)) - 1) last = Ok (disk_form e, Z.of_nat (length b0))).
      { unfold fits, next_last in *. destruct (4 <=? version).
        - subst last. destruct (Z_lt_le_dec (Z.of_nat (length b0)) 1152921504606846976) as [Hlt|Hge].
          + apply comp_roundtrip; auto; rewrite ?app_length; lia.
          + exfalso. destruct (write_comp_ok path_ok osz Hosz e l) as (code & Hc & Ew); [unfold small; lia|lia|]. rewrite Ew in E0. injection E0 as <-.
            assert (L := ondisk_length osz e (good_stat path_ok osz e Ge) (proj1 (proj2 Ge))). assert (B := offset_bound osz (d_flags e)).
            rewrite !app_length, skipn_length in Hge. cbn [length] in Hge.
            assert (Lc : (length code <= 16)%nat).
            { destruct (varint_encode_exact (Z.of_nat (length l) - Z.of_nat (same_len (d_path e) l))) as (c2 & Hc2 & En & _).
              - change (2 ^ 64) with two64. unfold two64. destruct (same_len_le (d_path e) l). lia.
              - assert (c2 = code) by (eapply varint_code_unique; eauto). subst c2. clear - En. unfold encode_varint in En.
                assert (X : forall room v acc o, encode_loop room v acc = Ok o -> (length o <= length acc + room)%nat).
                { induction room; intros v acc o Ho; cbn [encode_loop] in Ho; destruct (_ =? 0); try discriminate; try (injection Ho as <-; lia). apply IHroom in Ho. cbn in Ho. lia. }
                destruct (encode_loop 15 _ _) as [o| | |] eqn:Eo; cbn [bindr] in En; try discriminate. apply X in Eo. injection En as En. cbn in Eo.
                rewrite Nat2Z.inj_iff in En. lia. }
            lia.
        - eapply plain_roundtrip; eauto; rewrite ?app_length; lia. }
      rewrite R. cbn [bindr]. unfold seek. destruct (Z.leb_spec (Z.of_nat (length b0 + (length bs + length t)) - 1) (Z.of_nat (length b0))); [lia|]. cbn [bindr].
      rewrite Nat2Z.id, skipn_app, skipn_all, Nat.sub_diag, skipn_O. cbn [app].
      replace (Z.of_nat (length (e :: es)) - 1) with (Z.of_nat (length es)) by (cbn [length]; lia).
      replace (Z.of_nat (length b0 + (length bs + length t)) - 1 - Z.of_nat (length b0)) with (Z.of_nat (length (bs ++ t)) - 1) by (rewrite app_length; lia).
      rewrite (IH (if 4 <=? version then d_path e else []) _ bs t f); auto.
      + unfold fits in Fe. destruct (4 <=? version); [exact Fe|cbn; lia].
      + unfold next_last in *. destruct (4 <=? version); exact Es.
      + lia.
      + unfold disk_form. cbn [d_path]. destruct (4 <=? version); [reflexivity|exact I].
  Qed.
End Loops.
