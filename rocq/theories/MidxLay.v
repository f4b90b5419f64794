(** The layout of a written multi-pack-index, for any contents of its chunks. *)
From Verif Require Import Base Arr CStr Str OidModel OidSpec OidProofs IdxFileModel IdxFileProofs PackIdxModel PackIdxSpec PackIdxProofs PackIdxMain PrefsFind CgModel CgSpec CgFind CgWrite CgSafe CgMain CodecProofs ReflogProofs MidxModel.

Lemma mx_step data trailer n hdr lastoff last cs id off : rd32 data hdr = Ok id -> rd32 data (hdr + 4) = Ok (Z.shiftr off 32 mod two32) -> rd32 data (hdr + 8) = Ok (off mod two32) ->
  0 <= off < 4611686018427387904 -> lastoff <= off -> off < trailer ->
  mx_chunks data trailer (S n) hdr lastoff last cs =
  mx_chunks data trailer n (hdr + 12) off (Some (mx_slot id)) (set_offset (match last with None => cs | Some j => set_length cs j (off - lastoff) end) (mx_slot id) off).
Proof.
  intros E0 E1 E2 Ho H1 H2. cbn [mx_chunks]. rewrite E0. cbn [bindr]. rewrite E1. cbn [bindr]. rewrite E2. cbn [bindr].
  assert (Hh : 0 <= Z.shiftr off 32 < 1073741824).
  { rewrite Z.shiftr_div_pow2 by lia. change (2 ^ 32) with 4294967296. split; [apply Z.div_pos; lia|apply Z.div_lt_upper_bound; lia]. }
  assert (Hm : Z.shiftr off 32 mod two32 = Z.shiftr off 32) by (apply Z.mod_small; unfold two32; lia).
  destruct (Z.leb_spec 2147483647 (Z.shiftr off 32 mod two32)) as [Hc|_]; [rewrite Hm in Hc; lia|].
  rewrite join_offset by (unfold two64; lia).
  destruct (Z.ltb_spec off lastoff); [lia|]. destruct (Z.leb_spec trailer off); [lia|]. reflexivity.
Qed.

Section Lay.
  Context (names : list (list Z)) (P fan ids offs large sum : list Z) (n m : nat).
  Let N := Z.of_nat n.
  Let M := Z.of_nat m.
  Let npk := Z.of_nat (length names).
  Let more := (0 <? length large)%nat.
  Let data := mx_body npk P fan ids offs large ++ sum.
  Let h : Z := if more then 84 else 72.
  Let o1 := h + Z.of_nat (length P).
  Let o2 := o1 + 1024.
  Let o3 := o2 + 20 * N.
  Let o4 := o3 + 8 * N.
  Let o5 := o4 + 8 * M.
  Definition hdr_words : list Z :=
    [MX_SIG; if more then 16844032 else 16843776; npk;
     ID_PNAM; Z.shiftr h 32; h; ID_OIDF; Z.shiftr o1 32; o1; ID_OIDL; Z.shiftr o2 32; o2; ID_OOFF; Z.shiftr o3 32; o3] ++
    (if more then [ID_LOFF; Z.shiftr o4 32; o4; 0; Z.shiftr o5 32; o5] else [0; Z.shiftr o4 32; o4]).
  Definition hdr_bytes : list Z := concat (map (be 4) hdr_words).
  Definition lay_file : mxfile := mkmx data 20 names N o1 o2 o3 (if more then o4 else 0) M sum.

  Hypothesis HP0 : P <> [].
  Hypothesis HP : forall t, names_loop (length names) (P ++ t) (length P) None = Ok names.
  Hypothesis HPb : Z.of_nat (length P) < 4294967296.
  Hypothesis Hnpk : npk < two32.
  Hypothesis Lfan : length fan = 1024%nat.
  Hypothesis Hfan : forall pre t, fan_check (pre ++ fan ++ t) (Z.of_nat (length pre)) 256 0 = Ok N.
  Hypothesis Lids : length ids = (20 * n)%nat.
  Hypothesis Loffs : length offs = (8 * n)%nat.
  Hypothesis Llarge : length large = (8 * m)%nat.
  Hypothesis Lsum : length sum = 20%nat.
  Hypothesis Hn : 1 <= N < 2147483648.
  Hypothesis Hm : M <= N.

  Lemma L_hdr : Z.of_nat (length hdr_bytes) = h.
  Proof. unfold hdr_bytes. rewrite (concat_length (be 4) 4) by (intros; apply be_length). unfold hdr_words, h. destruct (bool_cases more) as [E|E]; rewrite E; reflexivity. Qed.
  Lemma lay_data : data = hdr_bytes ++ P ++ fan ++ ids ++ offs ++ large ++ sum.
  Proof.
    unfold data, mx_body. cbv zeta. fold more.
    assert (E0 : 12 + (4 + (if more then 1 else 0) + 1) * 12 = h) by (unfold h; destruct (bool_cases more) as [E|E]; rewrite E; reflexivity).
    assert (EI : Z.of_nat (length ids) = 20 * N) by (rewrite Lids; unfold N; lia).
    assert (EO : Z.of_nat (length offs) = 8 * N) by (rewrite Loffs; unfold N; lia).
    assert (EL : Z.of_nat (length large) = 8 * M) by (rewrite Llarge; unfold M; lia).
    rewrite E0, EI, EO, EL. fold o1. fold o2. fold o3. fold o4. fold o5. unfold hdr_bytes, hdr_words, chunk_header.
    destruct (bool_cases more) as [E|E]; rewrite E; cbn [map concat app]; repeat rewrite <- app_assoc; [change (be 4 16844032) with [1; 1; 5; 0]|change (be 4 16843776) with [1; 1; 4; 0]]; cbn [app]; repeat rewrite <- app_assoc; cbn [app]; reflexivity.
  Qed.
  Lemma L_all : Z.of_nat (length data) = o5 + 20.
  Proof. rewrite lay_data. rewrite !app_length, Lfan, Lids, Loffs, Llarge, Lsum. pose proof L_hdr. unfold o5, o4, o3, o2, o1, N, M. lia. Qed.
  Lemma lay_word k v off : nth_error hdr_words k = Some v -> off = 4 * Z.of_nat k -> rd32 data off = Ok (v mod two32).
  Proof. rewrite lay_data. apply rd32_word. Qed.
  Lemma Hh : h = 84 \/ h = 72.
  Proof. unfold h. destruct (bool_cases more) as [E|E]; rewrite E; auto. Qed.
  Lemma more_M : if more then 0 < M else M = 0.
  Proof. destruct (bool_cases more) as [E|E]; rewrite E; unfold more in E; [apply Nat.ltb_lt in E|apply Nat.ltb_ge in E]; rewrite Llarge in E; unfold M; lia. Qed.
  Lemma HPl : 0 < Z.of_nat (length P).
  Proof. destruct P; [congruence|cbn; lia]. Qed.

  Lemma lay_chunks : mx_chunks data o5 (if more then 5 else 4) 12 h None (repeat (0, 0) 6) =
    Ok [(h, Z.of_nat (length P)); (o1, 1024); (o2, 20 * N); (o3, 8 * N); (if more then (o4, 8 * M) else (0, 0)); (0, 0)].
  Proof.
    pose proof Hh as Hh. pose proof HPl as Hpl. pose proof more_M as HmM. assert (HM0 : 0 <= M) by (unfold M; lia).
    assert (W : o1 < o5 /\ o2 < o5 /\ o3 < o5 /\ h < o5 /\ (more = true -> o4 < o5) /\ o5 < 4611686018427387904).
    { unfold o5, o4, o3, o2, o1. repeat split; try lia. intros E. rewrite E in HmM. lia. }
    destruct W as (W1 & W2 & W3 & W0 & W4 & W5).
    assert (G0 : h <= o1) by (unfold o1; lia). assert (G1 : o1 <= o2) by (unfold o2; lia). assert (G2 : o2 <= o3) by (unfold o3; lia). assert (G3 : o3 <= o4) by (unfold o4; lia).
    assert (Q0 : 0 <= h < 4611686018427387904) by (clear - W0 W5 Hh; lia). assert (Q1 : 0 <= o1 < 4611686018427387904) by (clear - Q0 G0 W1 W5; lia).
    assert (Q2 : 0 <= o2 < 4611686018427387904) by (clear - Q1 G1 W2 W5; lia). assert (Q3 : 0 <= o3 < 4611686018427387904) by (clear - Q2 G2 W3 W5; lia).
    assert (Q4 : more = true -> 0 <= o4 < 4611686018427387904) by (intros Em; specialize (W4 Em); clear - Q3 G3 W4 W5; lia).
    assert (Gh : h <= h) by apply Z.le_refl.
    assert (S : forall j k id off mm hdr lastoff last c, nth_error hdr_words j = Some id -> id mod two32 = id -> nth_error hdr_words (1 + j) = Some (Z.shiftr off 32) -> nth_error hdr_words (2 + j) = Some off ->
       hdr = 4 * Z.of_nat j -> mx_slot id = k -> 0 <= off < 4611686018427387904 -> lastoff <= off -> off < o5 ->
       mx_chunks data o5 (Datatypes.S mm) hdr lastoff last c = mx_chunks data o5 mm (hdr + 12) off (Some k) (set_offset (match last with None => c | Some i => set_length c i (off - lastoff) end) k off)).
    { intros j k id off mm hdr lastoff last c A0 Am A1 A2 -> <- B0 B1 B2. apply mx_step; try assumption.
      - rewrite (lay_word j id _ A0 eq_refl), Am. reflexivity.
      - apply (lay_word (1 + j)); [exact A1|lia].
      - apply (lay_word (2 + j)); [exact A2|lia]. }
    assert (D1 : o1 - h = Z.of_nat (length P)) by (unfold o1; ring). assert (D2 : o2 - o1 = 1024) by (unfold o2; ring). assert (D3 : o3 - o2 = 20 * N) by (unfold o3; ring).
    assert (D4 : o4 - o3 = 8 * N) by (unfold o4; ring). assert (D5 : o5 - o4 = 8 * M) by (unfold o5; ring).
    assert (D6 : M = 0 -> o5 - o3 = 8 * N) by (intros Z0; unfold o5, o4; rewrite Z0; ring).
    assert (S0 := S 3%nat 0%nat ID_PNAM h). assert (S1 := S 6%nat 1%nat ID_OIDF o1). assert (S2 := S 9%nat 2%nat ID_OIDL o2). assert (S3 := S 12%nat 3%nat ID_OOFF o3). assert (S4 := S 15%nat 4%nat ID_LOFF o4).
    destruct (bool_cases more) as [E|E]; rewrite E in *.
    - rewrite (S0 4%nat 12); [|reflexivity|reflexivity|reflexivity|reflexivity|reflexivity|reflexivity|assumption|assumption|assumption]. change (12 + 12) with 24.
      rewrite (S1 3%nat 24); [|reflexivity|reflexivity|reflexivity|reflexivity|reflexivity|reflexivity|assumption|assumption|assumption]. change (24 + 12) with 36.
      rewrite (S2 2%nat 36); [|reflexivity|reflexivity|reflexivity|reflexivity|reflexivity|reflexivity|assumption|assumption|assumption]. change (36 + 12) with 48.
      rewrite (S3 1%nat 48); [|reflexivity|reflexivity|reflexivity|reflexivity|reflexivity|reflexivity|assumption|assumption|assumption]. change (48 + 12) with 60.
      rewrite (S4 0%nat 60); [|unfold hdr_words; rewrite E; reflexivity|reflexivity|unfold hdr_words; rewrite E; reflexivity|unfold hdr_words; rewrite E; reflexivity|reflexivity|reflexivity|apply Q4; reflexivity|assumption|apply W4; reflexivity].
      cbn [mx_chunks repeat set_offset set_length upd nth fst snd]. rewrite D1, D2, D3, D4, D5. reflexivity.
    - rewrite (S0 3%nat 12); [|reflexivity|reflexivity|reflexivity|reflexivity|reflexivity|reflexivity|assumption|assumption|assumption]. change (12 + 12) with 24.
      rewrite (S1 2%nat 24); [|reflexivity|reflexivity|reflexivity|reflexivity|reflexivity|reflexivity|assumption|assumption|assumption]. change (24 + 12) with 36.
      rewrite (S2 1%nat 36); [|reflexivity|reflexivity|reflexivity|reflexivity|reflexivity|reflexivity|assumption|assumption|assumption]. change (36 + 12) with 48.
      rewrite (S3 0%nat 48); [|reflexivity|reflexivity|reflexivity|reflexivity|reflexivity|reflexivity|assumption|assumption|assumption].
      cbn [mx_chunks repeat set_offset set_length upd nth fst snd]. rewrite D1, D2, D3, D6 by exact HmM. reflexivity.
  Qed.
  Lemma lay_head : exists t, data = 77 :: 73 :: 68 :: 88 :: 1 :: 1 :: (if more then 5 else 4) :: 0 :: t.
  Proof.
    rewrite lay_data. unfold hdr_bytes, hdr_words. cbn [map concat app]. rewrite <- !app_assoc. change (be 4 MX_SIG) with [77; 73; 68; 88]. cbn [app].
    destruct (bool_cases more) as [E|E]; rewrite E.
    - change (be 4 16844032) with [1; 1; 5; 0]. eexists. cbn [app]. reflexivity.
    - change (be 4 16843776) with [1; 1; 4; 0]. eexists. cbn [app]. reflexivity.
  Qed.
  Lemma lay_sum : rdn data (Z.to_nat o5) 20 = Ok sum.
  Proof.
    pose proof L_all as L. pose proof Hh. assert (0 <= o5) by (unfold o5, o4, o3, o2, o1, M; lia).
    rewrite rdn_ok by lia. f_equal. rewrite lay_data in *. rewrite !app_assoc in *.
    set (pre := (((((hdr_bytes ++ P) ++ fan) ++ ids) ++ offs) ++ large)) in *. rewrite <- (app_nil_r sum) at 1. apply sub_mid; [|exact Lsum].
    rewrite app_length, Lsum in L. lia.
  Qed.
  Lemma lay_names : parse_names data npk (h, Z.of_nat (length P)) = Ok names.
  Proof.
    pose proof Hh as Hh. pose proof HPl as Hpl. unfold parse_names. cbn [fst snd]. destruct (Z.eqb_spec h 0); [lia|]. destruct (Z.eqb_spec (Z.of_nat (length P)) 0); [lia|].
    unfold npk. rewrite !Nat2Z.id. rewrite lay_data. replace (Z.to_nat h) with (length hdr_bytes) by (pose proof L_hdr; lia).
    rewrite skipn_app, skipn_all, Nat.sub_diag. cbn [app skipn]. apply HP.
  Qed.
  Lemma lay_fan : parse_fanout data (o1, 1024) = Ok N.
  Proof.
    pose proof Hh as Hh. unfold parse_fanout. cbn [fst snd]. assert (0 < o1) by (unfold o1; lia). destruct (Z.eqb_spec o1 0); [lia|]. cbn [Z.eqb].
    change (negb (1024 =? 256 * 4)) with false. change (1024 =? 0) with false. cbv iota. rewrite lay_data. rewrite app_assoc.
    replace o1 with (Z.of_nat (length (hdr_bytes ++ P))) by (rewrite app_length; pose proof L_hdr; unfold o1; lia). apply Hfan.
  Qed.
  Lemma lay_parse : mx_parse 20 data = Ok lay_file.
  Proof.
    destruct lay_head as (t & Et). pose proof L_all as L. pose proof Hh as Hh. pose proof more_M as HmM. pose proof HPl as Hpl.
    assert (HM0 : 0 <= M) by (unfold M; lia).
    assert (W : 0 < o1 /\ 0 < o2 /\ 0 < o3 /\ 0 < o4 /\ h < o5) by (unfold o5, o4, o3, o2, o1; lia). destruct W as (W1 & W2 & W3 & W4 & W5).
    unfold mx_parse. cbv zeta. rewrite L. destruct (Z.ltb_spec (o5 + 20) (12 + 20)); [lia|].
    rewrite (lay_word 0 MX_SIG 0 eq_refl eq_refl). change (MX_SIG mod two32) with MX_SIG. cbn [bindr].
    rewrite (lay_word 2 npk 8 eq_refl eq_refl). rewrite (Z.mod_small npk two32) by (unfold npk in *; lia).
    assert (R4 : rd data 4 = Ok 1) by (rewrite Et; reflexivity). assert (R5 : rd data 5 = Ok 1) by (rewrite Et; reflexivity). assert (R6 : rd data 6 = Ok (if more then 5 else 4)) by (rewrite Et; reflexivity).
    rewrite R4, R5, R6. cbn [bindr]. rewrite !Z.eqb_refl. cbn [negb orb].
    replace (o5 + 20 - 20) with o5 by lia.
    assert (EC : 12 + (1 + (if more then 5 else 4)) * 12 = h) by (unfold h; destruct (bool_cases more) as [E|E]; rewrite E; reflexivity). rewrite EC.
    assert (EN : Z.to_nat (if more then 5 else 4) = (if more then 5 else 4)%nat) by (destruct (bool_cases more) as [E|E]; rewrite E; reflexivity). rewrite EN.
    assert (EZ : ((if more then 5 else 4) =? 0) = false) by (destruct (bool_cases more) as [E|E]; rewrite E; reflexivity). rewrite EZ.
    destruct (Z.ltb_spec o5 h); [lia|]. change (Z.to_nat 20) with 20%nat. rewrite lay_sum. cbn [bindr]. rewrite lay_chunks. cbn [bindr nth].
    rewrite lay_names. cbn [bindr]. rewrite lay_fan. cbn [bindr fst snd].
    unfold parse_table. cbn [fst snd]. destruct (Z.eqb_spec o2 0); [lia|]. destruct (Z.eqb_spec (20 * N) 0); [lia|]. rewrite (Z.mul_comm N 20), Z.eqb_refl. cbn [negb bindr].
    destruct (Z.eqb_spec o3 0); [lia|]. destruct (Z.eqb_spec (8 * N) 0); [lia|]. rewrite (Z.mul_comm N 8), Z.eqb_refl. cbn [negb bindr].
    unfold parse_large, lay_file. destruct (bool_cases more) as [E|E]; rewrite E in *; cbn [fst snd].
    - destruct (Z.eqb_spec (8 * M) 0); [lia|]. rewrite (Z.mul_comm 8 M), Z.mod_mul, Z.div_mul by lia. cbn [Z.eqb negb bindr]. reflexivity.
    - cbn [Z.eqb bindr]. rewrite HmM. reflexivity.
  Qed.
  (** Reading the tables. *)
  Lemma at_table (pre X post : list Z) o d k : Z.of_nat (length pre) = o -> (d + k <= length X)%nat -> sub (pre ++ X ++ post) (Z.to_nat (o + Z.of_nat d)) k = sub X d k.
  Proof. intros <- H. replace (Z.to_nat (Z.of_nat (length pre) + Z.of_nat d)) with (length pre + d)%nat by lia. rewrite sub_app_r. unfold sub. rewrite skipn_app, firstn_app, skipn_length. replace (k - (length X - d))%nat with 0%nat by lia. cbn [firstn]. apply app_nil_r. Qed.
  Lemma lay_offsets : 0 < m_fan lay_file /\ 0 < m_lookup lay_file /\ 0 < m_offs lay_file /\ m_lookup lay_file + 20 * N <= Z.of_nat (length data) /\ m_data lay_file = data.
  Proof.
    pose proof Hh as Hh. pose proof L_all as L. rewrite L. assert (0 <= M) by (unfold M; lia). assert (0 <= N) by (unfold N; lia). unfold lay_file. cbn [m_fan m_lookup m_offs m_data].
    assert (A1 : 0 < o1) by (unfold o1; lia). assert (A2 : 0 < o2) by (unfold o2; lia). assert (A3 : 0 < o3) by (unfold o3; lia). assert (A5 : o2 + 20 * N <= o5 + 20) by (unfold o5, o4, o3; lia). auto.
  Qed.
  Lemma lay_fan_read objs b : fan = fan_table objs -> length objs = n -> 0 <= b < 256 -> rd32 data (m_fan lay_file + 4 * b) = Ok (count_upto objs b).
  Proof.
    intros Ef Eo Hb. rewrite lay_data, Ef. rewrite (app_assoc hdr_bytes P). replace (m_fan lay_file) with (Z.of_nat (length (hdr_bytes ++ P))) by (rewrite app_length; pose proof L_hdr; unfold lay_file, o1; cbn [m_fan]; lia).
    apply fan_read; [exact Hb|]. rewrite Eo. unfold two32. fold N. lia.
  Qed.
  Lemma lay_ids i : (i < n)%nat -> sub data (Z.to_nat (m_lookup lay_file + Z.of_nat i * 20)) 20 = sub ids (20 * i) 20.
  Proof.
    intros Hi. rewrite lay_data. replace (hdr_bytes ++ P ++ fan ++ ids ++ offs ++ large ++ sum) with ((hdr_bytes ++ P ++ fan) ++ ids ++ (offs ++ large ++ sum)) by (rewrite <- !app_assoc; reflexivity).
    replace (Z.of_nat i * 20) with (Z.of_nat (20 * i)) by lia. apply at_table; [|rewrite Lids; lia]. rewrite !app_length, Lfan. pose proof L_hdr. unfold lay_file, o2, o1. cbn [m_lookup]. lia.
  Qed.
  Lemma lay_offs i : (i < n)%nat -> sub data (Z.to_nat (m_offs lay_file + Z.of_nat i * 8)) 8 = sub offs (8 * i) 8.
  Proof.
    intros Hi. rewrite lay_data. replace (hdr_bytes ++ P ++ fan ++ ids ++ offs ++ large ++ sum) with ((hdr_bytes ++ P ++ fan ++ ids) ++ offs ++ (large ++ sum)) by (rewrite <- !app_assoc; reflexivity).
    replace (Z.of_nat i * 8) with (Z.of_nat (8 * i)) by lia. apply at_table; [|rewrite Loffs; lia]. rewrite !app_length, Lfan, Lids. pose proof L_hdr. unfold lay_file, o3, o2, o1, N. cbn [m_offs]. lia.
  Qed.
  Lemma lay_large k : (8 * k + 8 <= length large)%nat -> 0 < m_large lay_file /\ sub data (Z.to_nat (m_large lay_file + Z.of_nat (8 * k))) 8 = sub large (8 * k) 8.
  Proof.
    intros Hk. assert (E : more = true) by (unfold more; apply Nat.ltb_lt; lia). unfold lay_file. cbn [m_large]. rewrite E. pose proof Hh as Hh. split; [unfold o4, o3, o2, o1, N; lia|].
    rewrite lay_data. replace (hdr_bytes ++ P ++ fan ++ ids ++ offs ++ large ++ sum) with ((hdr_bytes ++ P ++ fan ++ ids ++ offs) ++ large ++ sum) by (rewrite <- !app_assoc; reflexivity).
    apply at_table; [|lia]. rewrite !app_length, Lfan, Lids, Loffs. pose proof L_hdr. unfold o4, o3, o2, o1, N. lia.
  Qed.
End Lay.
