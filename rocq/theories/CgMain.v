(** Written commit-graphs are read back. *)
From Verif Require Import Base Arr CStr Str OidModel OidSpec OidProofs IdxFileModel IdxFileProofs PackIdxModel PackIdxSpec PackIdxProofs PackIdxMain PrefsFind CgModel CgSpec CgFind CgWrite CgSafe CodecProofs ReflogProofs.

Lemma chunk_step data trailer n hdr lastoff last cs id off k : rd32 data hdr = Ok id -> rd32 data (hdr + 4) = Ok (Z.shiftr off 32 mod two32) -> rd32 data (hdr + 8) = Ok (off mod two32) ->
  0 <= off < two64 -> lastoff <= off -> off < trailer -> chunk_slot id = Some k ->
  chunk_loop data trailer (S n) hdr lastoff last cs =
  chunk_loop data trailer n (hdr + 12) off (Some k) (set_offset (match last with None => cs | Some j => set_length cs j (off - lastoff) end) k off).
Proof.
  intros E0 E1 E2 Ho H1 H2 Hk. cbn [chunk_loop]. rewrite E1. cbn [bindr]. rewrite E2. cbn [bindr]. rewrite join_offset by exact Ho.
  destruct (Z.ltb_spec off lastoff); [lia|]. destruct (Z.leb_spec trailer off); [lia|]. rewrite E0. cbn [bindr]. rewrite Hk. reflexivity.
Qed.

Lemma memcmp_lt a b n : (n <= length a)%nat -> (n <= length b)%nat -> lex (firstn n a) (firstn n b) = Lt -> exists z, memcmp a b n = Ok z /\ z < 0.
Proof.
  intros Ha Hb Hl. rewrite memcmp_firstn by assumption. destruct (memcmp_lex (firstn n a) (firstn n b)) as (z & E & Hz); [rewrite !firstn_length; lia|].
  rewrite firstn_length, Nat.min_l in E by lia. exists z. split; [exact E|]. rewrite Hl in Hz. unfold sgn_cmp in Hz. destruct (Z.compare_spec z 0); try discriminate. assumption.
Qed.
Lemma lookup_check_sorted data : forall l off prev, 0 <= off -> off + 20 * Z.of_nat (length l) <= Z.of_nat (length data) -> (20 <= length prev)%nat ->
  (forall i c, nth_error l i = Some c -> sub data (Z.to_nat off + 20 * i) 20 = k_id c) -> increasing (firstn 20 prev :: map k_id l) ->
  lookup_check data 20 (length l) off prev = Ok tt.
Proof.
  induction l as [|c l IH]; intros off prev Ho Hl Hp Hid Hi; [reflexivity|]. cbn [length lookup_check].
  pose proof (Hid 0%nat c eq_refl) as E0. rewrite Nat.mul_0_r, Nat.add_0_r in E0. unfold sub in E0. destruct Hi as [Hlt Hi].
  destruct (memcmp_lt prev (skipn (Z.to_nat off) data) 20) as (z & E & Hz); [lia|rewrite skipn_length; cbn [length] in Hl; lia|rewrite E0; exact Hlt|].
  change (Z.to_nat 20) with 20%nat. rewrite E. cbn [bindr]. destruct (Z.leb_spec 0 z); [lia|]. apply IH.
  - lia.
  - cbn [length] in Hl. lia.
  - rewrite skipn_length. cbn [length] in Hl. lia.
  - intros i c' Hc'. rewrite <- (Hid (S i) c' Hc'). f_equal. lia.
  - rewrite E0. exact Hi.
Qed.

Lemma row_read data cd t a b c d : 0 <= cd -> length t = 20%nat -> sub data (Z.to_nat cd) 36 = t ++ be 4 a ++ be 4 b ++ be 4 c ++ be 4 d ->
  0 <= a < two32 -> 0 <= b < two32 -> 0 <= c < two32 -> 0 <= d < two32 ->
  rdn data (Z.to_nat cd) 20 = Ok t /\ rd32 data (cd + 20) = Ok a /\ rd32 data (cd + 20 + 4) = Ok b /\ rd32 data (cd + 20 + 8) = Ok c /\ rd32 data (cd + 20 + 12) = Ok d.
Proof.
  intros Hc Lt E Ha Hb Hc' Hd. pose proof (be_length 4) as Lb.
  assert (L36 : length (sub data (Z.to_nat cd) 36) = 36%nat) by (rewrite E; rewrite !app_length, !Lb; lia).
  assert (Ls : (Z.to_nat cd + 36 <= length data)%nat) by (unfold sub in L36; rewrite firstn_length, skipn_length in L36; lia).
  assert (G : forall j m x, (j + m <= 36)%nat -> sub (t ++ be 4 a ++ be 4 b ++ be 4 c ++ be 4 d) j m = x -> sub data (Z.to_nat cd + j) m = x).
  { intros j m x Hj Hx. rewrite <- (sub_sub_at data (Z.to_nat cd) 36 j m Hj), E. exact Hx. }
  split; [|split; [|split; [|split]]].
  - rewrite rdn_ok by lia. f_equal. rewrite <- (Nat.add_0_r (Z.to_nat cd)). apply G; [lia|]. rewrite <- Lt at 1. apply sub_app_l.
  - apply rd32_sub; [exact Ha|]. replace (Z.to_nat (cd + 20)) with (Z.to_nat cd + 20)%nat by lia. apply G; [lia|]. apply sub_mid; [exact Lt|apply Lb].
  - apply rd32_sub; [exact Hb|]. replace (Z.to_nat (cd + 20 + 4)) with (Z.to_nat cd + 24)%nat by lia. apply G; [lia|]. rewrite (app_assoc t). apply sub_mid; [rewrite app_length, Lt, Lb; reflexivity|apply Lb].
  - apply rd32_sub; [exact Hc'|]. replace (Z.to_nat (cd + 20 + 8)) with (Z.to_nat cd + 28)%nat by lia. apply G; [lia|]. rewrite (app_assoc t), (app_assoc (t ++ be 4 a)). apply sub_mid; [rewrite !app_length, Lt, !Lb; reflexivity|apply Lb].
  - apply rd32_sub; [exact Hd|]. replace (Z.to_nat (cd + 20 + 12)) with (Z.to_nat cd + 32)%nat by lia. apply G; [lia|]. rewrite <- (app_nil_r (be 4 d)) at 1. rewrite (app_assoc t), (app_assoc (t ++ be 4 a)), (app_assoc ((t ++ be 4 a) ++ be 4 b)).
    apply sub_mid; [rewrite !app_length, Lt, !Lb; reflexivity|apply Lb].
Qed.
Lemma edge_scan_ew data edges : forall l n pos count, l <> [] -> (length l <= n)%nat -> Forall (fun p => Z.of_nat p < 2147483648) l ->
  (forall k v, nth_error (ew l) k = Some v -> rd32 data (edges + (pos + Z.of_nat k) * 4) = Ok v) ->
  edge_scan data edges n pos count = Ok (count + Z.of_nat (length l) - 1).
Proof.
  induction l as [|p [|q r] IH]; intros n pos count Hne Hn Hb Hr; [congruence| |].
  - destruct n as [|n]; [cbn in Hn; lia|]. cbn [edge_scan]. replace (pos * 4) with ((pos + Z.of_nat 0) * 4) by lia. rewrite (Hr 0%nat _ eq_refl). cbn [bindr].
    inversion_clear Hb. rewrite topbit_or by lia. destruct (Z.eqb_spec (Z.land (Z.of_nat p + 2147483648) TOPBIT) 0) as [E|_]; [exfalso; revert E; apply topbit_set; lia|]. cbn [length]. f_equal. lia.
  - destruct n as [|n]; [cbn in Hn; lia|]. cbn [edge_scan]. replace (pos * 4) with ((pos + Z.of_nat 0) * 4) by lia. rewrite (Hr 0%nat _ eq_refl). cbn [bindr].
    inversion_clear Hb as [|? ? Hp Hb']. rewrite topbit_small by lia. cbn [Z.eqb]. rewrite IH.
    + f_equal. cbn [length]. lia.
    + discriminate.
    + cbn [length] in *. lia.
    + exact Hb'.
    + intros k v Hk. rewrite <- (Hr (S k) v Hk). f_equal. lia.
Qed.
Lemma bool_cases (b : bool) : b = true \/ b = false.
Proof. destruct b; auto. Qed.
Section Written.
  Context (cs : list pcommit) (pidx : list (list nat)) (gens sum : list Z).
  Let n := length cs.
  Let N := Z.of_nat n.
  Let W := all_ew pidx.
  Let M := Z.of_nat (length W).
  Hypothesis Hobj : objs_ok 20 (objs_of cs).
  Hypothesis Htree : Forall (fun c => oid_ok 20 (k_tree c)) cs.
  Hypothesis Hnz : Forall (fun c => k_id c <> repeat 0 20) cs.
  Hypothesis Htime : Forall (fun c => 0 <= k_time c < 17179869184) cs.
  Hypothesis Hn : 1 <= N < MISSING_PARENT.
  Hypothesis HM : M < 2147483648.
  Hypothesis Lp : length pidx = n.
  Hypothesis Lg : length gens = n.
  Hypothesis Hp : forall ps, In ps pidx -> Forall (fun p => (p < n)%nat) ps.
  Hypothesis Hg : Forall (fun g => 0 <= g <= GEN_MAX) gens.
  Hypothesis Lsum : length sum = 20%nat.
  Hypothesis Bsum : bytes sum.

  Let fan := fan_table (objs_of cs).
  Let ids := concat (map k_id cs).
  Let cdata := fst (tables cs pidx gens 0).
  Let edges := concat (map (be 4) W).
  Let data := cg_body fan ids cdata edges ++ sum.
  Let h : Z := if (0 <? length edges)%nat then 68 else 56.
  Let o1 := h + 1024.
  Let o2 := o1 + 20 * N.
  Let o3 := o2 + 36 * N.
  Let o4 := o3 + 4 * M.

  Lemma L_ids : length ids = (20 * n)%nat.
  Proof. destruct (ids_bytes 20 (objs_of cs) Hobj) as [_ E]. rewrite objs_fst, objs_length in E. exact E. Qed.
  Lemma T_tables : snd (tables cs pidx gens 0) = edges /\ length cdata = (36 * n)%nat /\
    forall i c ps g, nth_error cs i = Some c -> nth_error pidx i = Some ps -> nth_error gens i = Some g ->
      sub cdata (36 * i) 36 = data_words c ps g (Z.of_nat (length (all_ew (firstn i pidx)))).
  Proof.
    apply (tables_spec cs pidx gens 0); auto; try lia.
    - eapply Forall_impl; [|exact Htree]. intros a [L _]. exact L.
    - unfold two32. unfold M, W in HM. lia.
  Qed.
  Lemma L_cdata : length cdata = (36 * n)%nat. Proof. apply T_tables. Qed.
  Lemma L_edges : length edges = (4 * length W)%nat. Proof. unfold edges. apply concat_length. intros. apply be_length. Qed.
  Lemma L_fan : length fan = 1024%nat. Proof. apply fan_table_length. Qed.

  Definition ws : list Z :=
    [CG_SIG; if (0 <? length edges)%nat then 16843776 else 16843520;
     ID_OIDF; Z.shiftr h 32; h; ID_OIDL; Z.shiftr o1 32; o1; ID_CDAT; Z.shiftr o2 32; o2] ++
    (if (0 <? length edges)%nat then [ID_EDGE; Z.shiftr o3 32; o3; 0; Z.shiftr o4 32; o4] else [0; Z.shiftr o3 32; o3]).
  Definition rest := fan ++ ids ++ cdata ++ edges ++ sum.
  Lemma data_ws : data = concat (map (be 4) ws) ++ rest.
  Proof.
    assert (EN : Z.of_nat (length ids) = 20 * N) by (rewrite L_ids; unfold N; lia).
    assert (EC : Z.of_nat (length cdata) = 36 * N) by (rewrite L_cdata; unfold N; lia).
    assert (EE : Z.of_nat (length edges) = 4 * M) by (rewrite L_edges; unfold M; lia).
    unfold data, cg_body. cbv zeta. rewrite EN, EC, EE. unfold ws, rest, chunk_header.
    assert (E0 : 8 + (3 + (if (0 <? length edges)%nat then 1 else 0) + 1) * 12 = h) by (unfold h; destruct (0 <? length edges)%nat; reflexivity).
    rewrite E0. fold o1. fold o2. fold o3. fold o4.
    destruct (0 <? length edges)%nat eqn:E; cbn [map concat app]; repeat rewrite <- app_assoc; [change (be 4 16843776) with [1; 1; 4; 0]|change (be 4 16843520) with [1; 1; 3; 0]]; cbn [app]; repeat rewrite <- app_assoc; cbn [app]; reflexivity.
  Qed.
  Lemma L_ws : Z.of_nat (length (concat (map (be 4) ws))) = h.
  Proof. rewrite (concat_length (be 4) 4) by (intros; apply be_length). unfold ws, h. destruct (0 <? length edges)%nat; reflexivity. Qed.
  Lemma L_data : Z.of_nat (length data) = o4 + 20.
  Proof.
    rewrite data_ws, app_length. unfold rest. rewrite !app_length, L_fan, L_ids, L_cdata, L_edges, Lsum. pose proof L_ws. unfold o4, o3, o2, o1, N, M. lia.
  Qed.
  Lemma B_data : bytes data.
  Proof.
    assert (A : forall a b, bytes a -> bytes b -> bytes (a ++ b)) by (intros; apply Forall_app; split; assumption).
    rewrite data_ws. unfold rest. refine (A _ _ _ (A _ _ _ (A _ _ _ (A _ _ _ (A _ _ _ _))))).
    - apply concat_bytes. intros. apply be_bytes.
    - apply concat_bytes. intros. apply (be_bytes 4 (count_upto (objs_of cs) (Z.of_nat x))).
    - destruct (ids_bytes 20 (objs_of cs) Hobj) as [B _]. rewrite objs_fst in B. exact B.
    - unfold cdata. assert (G : forall l p g ec, Forall (fun c => oid_ok 20 (k_tree c)) l -> bytes (fst (tables l p g ec))).
      { induction l as [|c l IH]; intros [|ps p] [|g g'] ec F; cbn [tables]; try constructor. inversion_clear F as [|? ? [_ Fc] Fr].
        destruct (tables l p g' _) as [cd ed] eqn:E. cbn [fst]. apply Forall_app. split; [|specialize (IH p g' (if (2 <? length ps)%nat then (ec + Z.of_nat (length ps) - 1) mod two32 else ec) Fr); rewrite E in IH; exact IH].
        unfold data_words. refine (A _ _ _ (A _ _ _ (A _ _ _ (A _ _ _ _)))); [exact Fc| | | |]; apply be_bytes. }
      apply G. exact Htree.
    - apply concat_bytes. intros. apply be_bytes.
    - exact Bsum.
  Qed.
  Lemma word k v off : nth_error ws k = Some v -> off = 4 * Z.of_nat k -> rd32 data off = Ok (v mod two32).
  Proof. rewrite data_ws. apply rd32_word. Qed.

  Lemma rd_fan b : 0 <= b < 256 -> rd32 data (h + 4 * b) = Ok (count_upto (objs_of cs) b).
  Proof. intros Hb. rewrite data_ws. unfold rest. rewrite <- L_ws. apply fan_read; [exact Hb|]. rewrite objs_length. fold n. unfold MISSING_PARENT in Hn. unfold two32. fold N. lia. Qed.
  Lemma sub_id i c : nth_error cs i = Some c -> sub data (Z.to_nat (o1 + Z.of_nat i * 20)) 20 = k_id c.
  Proof.
    intros H. rewrite data_ws. unfold rest, ids. rewrite app_assoc. apply (sub_concat_at k_id 20 cs (concat (map (be 4) ws) ++ fan)) with (i := i); [|exact H|].
    - intros x Hx. destruct Hobj as [F _]. apply In_nth_error in Hx as (j & Hj). apply objs_nth in Hj. rewrite Forall_forall in F. apply nth_error_In in Hj. destruct (F _ Hj) as [L _]. exact L.
    - rewrite app_length, L_fan. pose proof L_ws. unfold o1. lia.
  Qed.
  Lemma sub_row i c ps g : nth_error cs i = Some c -> nth_error pidx i = Some ps -> nth_error gens i = Some g ->
    sub data (Z.to_nat (o2 + Z.of_nat i * 36)) 36 = data_words c ps g (Z.of_nat (length (all_ew (firstn i pidx)))).
  Proof.
    intros H1 H2 H3. destruct T_tables as (_ & _ & T). rewrite <- (T i c ps g H1 H2 H3). rewrite data_ws. unfold rest. rewrite !app_assoc. rewrite <- (app_assoc _ edges sum). rewrite <- (app_assoc _ cdata).
    assert (Hi : (i < n)%nat) by (apply nth_error_Some; congruence). pose proof L_cdata as Lc.
    replace (Z.to_nat (o2 + Z.of_nat i * 36)) with (length ((concat (map (be 4) ws) ++ fan) ++ ids) + 36 * i)%nat.
    - rewrite sub_app_r. unfold sub. rewrite skipn_app. rewrite firstn_app. replace (36 - length (skipn (36 * i) cdata))%nat with 0%nat by (rewrite skipn_length; lia). cbn [firstn]. apply app_nil_r.
    - rewrite !app_length, L_fan, L_ids. pose proof L_ws. unfold o2, o1, N. lia.
  Qed.
  Lemma rd_edge k v : nth_error W k = Some v -> 0 <= v < two32 -> rd32 data (o3 + Z.of_nat k * 4) = Ok v.
  Proof.
    intros H Hv. rewrite data_ws. unfold rest. rewrite !app_assoc. rewrite <- (app_assoc _ edges sum). unfold edges. apply (rd32_word_at _ _ _ k v); [exact H|exact Hv|].
    rewrite !app_length, L_fan, L_ids, L_cdata. pose proof L_ws. unfold o3, o2, o1, N. lia.
  Qed.

  Definition wfile : cgfile := mkcg data 20 N h o1 o2 (if (0 <? length edges)%nat then o3 else 0) M sum.

  Lemma wchunks : chunk_loop data o4 (if (0 <? length edges)%nat then 4 else 3) 8 h None (repeat (0, 0) 5) =
    Ok [(h, 1024); (o1, 20 * N); (o2, 36 * N); (if (0 <? length edges)%nat then (o3, 4 * M) else (0, 0)); (0, 0)].
  Proof.
    assert (HNM : 0 <= M /\ (0 < length edges)%nat = (0 < length edges)%nat) by (unfold M; split; [lia|reflexivity]).
    assert (Hh : h = 68 \/ h = 56) by (unfold h; destruct (0 <? length edges)%nat; auto). unfold MISSING_PARENT in Hn.
    assert (B : 0 <= h < two64 /\ 0 <= o1 < two64 /\ 0 <= o2 < two64 /\ 0 <= o3 < two64) by (unfold o3, o2, o1, two64; lia). destruct B as (B0 & B1 & B2 & B3).
    assert (Ids : forall k v, nth_error ws k = Some v -> v mod two32 = v -> rd32 data (4 * Z.of_nat k) = Ok v) by (intros k v E1 E2; rewrite (word k v _ E1 eq_refl), E2; reflexivity).
    assert (Hd : forall m lastoff last c, lastoff <= h -> chunk_loop data o4 (S m) 8 lastoff last c =
       chunk_loop data o4 m (8 + 12) h (Some 0%nat) (set_offset (match last with None => c | Some j => set_length c j (h - lastoff) end) 0 h)).
    { intros m lastoff last c Hle. apply (chunk_step data o4 m 8 lastoff last c ID_OIDF h 0); [apply (Ids 2%nat); [reflexivity|reflexivity]|apply (word 3%nat); [reflexivity|reflexivity]|apply (word 4%nat); [reflexivity|reflexivity]|assumption|assumption|unfold o4, o3, o2, o1; lia|reflexivity]. }
    assert (Hd1 : forall m lastoff last c, lastoff <= o1 -> chunk_loop data o4 (S m) 20 lastoff last c =
       chunk_loop data o4 m (20 + 12) o1 (Some 1%nat) (set_offset (match last with None => c | Some j => set_length c j (o1 - lastoff) end) 1 o1)).
    { intros m lastoff last c Hle. apply (chunk_step data o4 m 20 lastoff last c ID_OIDL o1 1); [apply (Ids 5%nat); [reflexivity|reflexivity]|apply (word 6%nat); [reflexivity|reflexivity]|apply (word 7%nat); [reflexivity|reflexivity]|assumption|assumption|unfold o4, o3, o2, o1; lia|reflexivity]. }
    assert (Hd2 : forall m lastoff last c, lastoff <= o2 -> chunk_loop data o4 (S m) 32 lastoff last c =
       chunk_loop data o4 m (32 + 12) o2 (Some 2%nat) (set_offset (match last with None => c | Some j => set_length c j (o2 - lastoff) end) 2 o2)).
    { intros m lastoff last c Hle. apply (chunk_step data o4 m 32 lastoff last c ID_CDAT o2 2); [apply (Ids 8%nat); [reflexivity|reflexivity]|apply (word 9%nat); [reflexivity|reflexivity]|apply (word 10%nat); [reflexivity|reflexivity]|assumption|assumption|unfold o4, o3, o2, o1; lia|reflexivity]. }
    assert (Hd3 : (0 <? length edges)%nat = true -> forall m lastoff last c, lastoff <= o3 -> chunk_loop data o4 (S m) 44 lastoff last c =
       chunk_loop data o4 m (44 + 12) o3 (Some 3%nat) (set_offset (match last with None => c | Some j => set_length c j (o3 - lastoff) end) 3 o3)).
    { intros Em m lastoff last c Hle. assert (0 < M) by (apply Nat.ltb_lt in Em; rewrite L_edges in Em; unfold M; lia).
      apply (chunk_step data o4 m 44 lastoff last c ID_EDGE o3 3); [apply (Ids 11%nat); [unfold ws; rewrite Em; reflexivity|reflexivity]|apply (word 12%nat); [unfold ws; rewrite Em; reflexivity|reflexivity]|apply (word 13%nat); [unfold ws; rewrite Em; reflexivity|reflexivity]|assumption|assumption|unfold o4, o3, o2, o1; lia|reflexivity]. }
    assert (Em : (0 <? length edges)%nat = true \/ (0 <? length edges)%nat = false) by apply bool_cases. destruct Em as [Em|Em]; rewrite Em.
    - rewrite Hd by lia. change (8 + 12) with 20. rewrite Hd1 by (unfold o1; lia). change (20 + 12) with 32. rewrite Hd2 by (unfold o2, o1; lia). change (32 + 12) with 44. rewrite (Hd3 Em) by (unfold o3; lia).
      cbn [chunk_loop repeat set_offset set_length upd nth fst snd]. f_equal. repeat (f_equal; try (unfold o4, o3, o2, o1; lia)).
    - assert (M = 0) by (apply Nat.ltb_ge in Em; rewrite L_edges in Em; unfold M; lia).
      rewrite Hd by lia. change (8 + 12) with 20. rewrite Hd1 by (unfold o1; lia). change (20 + 12) with 32. rewrite Hd2 by (unfold o2, o1; lia).
      cbn [chunk_loop repeat set_offset set_length upd nth fst snd]. f_equal. repeat (f_equal; try (unfold o4, o3, o2, o1; lia)).
  Qed.
  Lemma Hh : h = 68 \/ h = 56.
  Proof. unfold h. destruct (bool_cases (0 <? length edges)%nat) as [E|E]; rewrite E; auto. Qed.
  Lemma head_data : exists t, data = 67 :: 71 :: 80 :: 72 :: 1 :: 1 :: (if (0 <? length edges)%nat then 4 else 3) :: 0 :: t.
  Proof.
    rewrite data_ws. unfold ws. cbn [map concat app]. rewrite <- !app_assoc. change (be 4 CG_SIG) with [67; 71; 80; 72]. cbn [app].
    destruct (bool_cases (0 <? length edges)%nat) as [E|E]; rewrite E.
    - change (be 4 16843776) with [1; 1; 4; 0]. eexists. cbn [app]. reflexivity.
    - change (be 4 16843520) with [1; 1; 3; 0]. eexists. cbn [app]. reflexivity.
  Qed.
  Lemma sum_data : rdn data (Z.to_nat o4) 20 = Ok sum.
  Proof.
    pose proof L_data as L. pose proof Hh. unfold MISSING_PARENT in Hn. assert (0 <= o4) by (unfold o4, o3, o2, o1, M; lia).
    rewrite rdn_ok by lia. f_equal. rewrite data_ws in *. unfold rest in *. rewrite !app_assoc in *.
    set (pre := ((((concat (map (be 4) ws) ++ fan) ++ ids) ++ cdata) ++ edges)) in *. rewrite <- (app_nil_r sum) at 1. apply sub_mid; [|exact Lsum].
    rewrite app_length, Lsum in L. lia.
  Qed.
  Lemma ids_sorted : increasing (repeat 0 20 :: map k_id cs).
  Proof.
    destruct Hobj as [F I]. rewrite objs_fst in I. destruct cs as [|c r] eqn:Ec; [cbn; exact Logic.I|]. cbn [map]. split; [|exact I].
    assert (Hc : oid_ok 20 (k_id c)). { rewrite Forall_forall in F. apply (F (k_id c, 0)). left. reflexivity. }
    destruct Hc as [L B]. inversion_clear Hnz as [|? ? Hc0 _]. pose proof (lex_zeros (k_id c)) as Hz. rewrite L in Hz.
    destruct (lex (repeat 0 20) (k_id c)) eqn:El; [|reflexivity|exfalso; apply Hz; [|reflexivity]].
    - exfalso. apply Hc0. symmetry. apply lex_eq. exact El.
    - eapply Forall_impl; [|exact B]. unfold is_byte. intros; lia.
  Qed.
  Lemma written_parse : cg_parse 20 data = Ok wfile.
  Proof.
    destruct head_data as (t & Et). pose proof L_data as L. pose proof Hh as Hh. pose proof Hn as Hn'. unfold MISSING_PARENT in Hn'.
    assert (HM0 : 0 <= M) by (unfold M; lia).
    unfold cg_parse. rewrite L. cbv zeta. destruct (Z.ltb_spec (o4 + 20) (8 + 20)); [unfold o4, o3, o2, o1 in *; lia|].
    rewrite (word 0 CG_SIG 0 eq_refl eq_refl). change (CG_SIG mod two32) with CG_SIG. cbn [bindr].
    assert (E4 : rd data 4 = Ok 1) by (rewrite Et; reflexivity). assert (E5 : rd data 5 = Ok 1) by (rewrite Et; reflexivity).
    assert (E6 : rd data 6 = Ok (if (0 <? length edges)%nat then 4 else 3)) by (rewrite Et; reflexivity).
    rewrite E4. cbn [bindr]. rewrite E5. cbn [bindr]. rewrite E6. cbn [bindr]. change (negb (CG_SIG =? CG_SIG) || negb (1 =? 1) || negb (1 =? 1)) with false. cbv iota.
    replace ((if (0 <? length edges)%nat then 4 else 3) =? 0) with false by (destruct (bool_cases (0 <? length edges)%nat) as [E|E]; rewrite E; reflexivity).
    replace (8 + (1 + (if (0 <? length edges)%nat then 4 else 3)) * 12) with h by (unfold h; destruct (bool_cases (0 <? length edges)%nat) as [E|E]; rewrite E; reflexivity).
    replace (o4 + 20 - 20) with o4 by lia. destruct (Z.ltb_spec o4 h); [unfold o4, o3, o2, o1 in *; lia|].
    change (CHECKSUM_BUF <? 20) with false. cbv iota. change (Z.to_nat 20) with 20%nat. rewrite sum_data. cbn [bindr].
    replace (Z.to_nat (if (0 <? length edges)%nat then 4 else 3)) with (if (0 <? length edges)%nat then 4%nat else 3%nat) by (destruct (bool_cases (0 <? length edges)%nat) as [E|E]; rewrite E; reflexivity).
    rewrite wchunks. cbn [bindr nth].
    unfold parse_fanout. cbn [fst snd]. destruct (Z.eqb_spec h 0); [lia|]. change (1024 =? 0) with false. change (negb (1024 =? 256 * 4)) with false. cbv iota.
    replace h with (h + 4 * 0) at 1 by lia. rewrite (fan_check_ok data h (count_upto (objs_of cs)) rd_fan) by (try lia; intros; try apply count_mono; try apply count_le; lia).
    cbn [bindr]. rewrite (count_all 20 (objs_of cs)) by (auto; lia). rewrite objs_length. fold n. fold N.
    unfold parse_lookup. cbn [fst snd]. destruct (Z.eqb_spec o1 0); [unfold o1 in *; lia|]. destruct (Z.eqb_spec (20 * N) 0); [lia|].
    destruct (Z.eqb_spec (20 * N) (N * 20)); [|lia]. cbn [negb]. replace (Z.to_nat N) with n by (unfold N; lia).
    assert (ELC : lookup_check data 20 n o1 (repeat 0 32) = Ok tt).
    { apply (lookup_check_sorted data cs o1 (repeat 0 32)).
      - unfold o1; lia.
      - rewrite L. fold n. fold N. unfold o4, o3, o2. lia.
      - rewrite repeat_length. lia.
      - intros i c Hc. rewrite <- (sub_id i c Hc). f_equal. unfold o1 in *. lia.
      - exact ids_sorted. }
    rewrite ELC. cbn [bindr].
    unfold parse_cdata. cbn [fst snd]. destruct (Z.eqb_spec o2 0); [unfold o2, o1 in *; lia|]. destruct (Z.eqb_spec (36 * N) 0); [lia|].
    destruct (Z.eqb_spec (36 * N) (N * (20 + 16))); [|lia]. cbn [negb bindr]. unfold parse_edges, wfile.
    destruct (bool_cases (0 <? length edges)%nat) as [E|E]; rewrite E; cbn [fst snd].
    - apply Nat.ltb_lt in E. rewrite L_edges in E. destruct (Z.eqb_spec (4 * M) 0); [unfold M in *; lia|]. rewrite (Z.mul_comm 4 M), Z.mod_mul, Z.div_mul by lia. reflexivity.
    - apply Nat.ltb_ge in E. rewrite L_edges in E. assert (M = 0) as -> by (unfold M; lia). reflexivity.
  Qed.

  Definition ec (i : nat) : Z := Z.of_nat (length (all_ew (firstn i pidx))).
  Definition p0_of (ps : list nat) : Z := match ps with [] => MISSING_PARENT | p :: _ => Z.of_nat p end.
  Definition p1_of (ps : list nat) (e : Z) : Z := match ps with [] | [_] => MISSING_PARENT | [_; q] => Z.of_nat q | _ => Z.lor TOPBIT e end.
  Lemma rd_ew i ps k v : nth_error pidx i = Some ps -> many ps = true -> nth_error (ew (tl ps)) k = Some v -> rd32 data (o3 + (ec i + Z.of_nat k) * 4) = Ok v.
  Proof.
    intros Hi Hm Hk. assert (HW : nth_error W (length (all_ew (firstn i pidx)) + k) = Some v).
    { unfold W. rewrite (all_ew_split pidx i ps Hi), Hm. rewrite nth_error_app2 by apply Nat.le_add_r. rewrite Nat.add_comm, Nat.add_sub. rewrite nth_error_app1; [exact Hk|]. apply nth_error_Some. congruence. }
    replace ((ec i + Z.of_nat k) * 4) with (Z.of_nat (length (all_ew (firstn i pidx)) + k) * 4) by (unfold ec; lia). apply rd_edge; [exact HW|].
    assert (Hlt : (k < length (tl ps))%nat) by (rewrite <- ew_length; apply nth_error_Some; congruence). destruct (ew_nth (tl ps) k Hlt) as (p & E1 & E2).
    assert (Ev : v = if (S k =? length (tl ps))%nat then Z.lor (Z.of_nat p) TOPBIT else Z.of_nat p) by congruence. rewrite Ev. assert (Hpn : (p < n)%nat).
    { apply nth_error_In in E1. apply nth_error_In in Hi. specialize (Hp ps Hi). rewrite Forall_forall in Hp. apply Hp. destruct ps; [destruct E1|right; exact E1]. }
    unfold MISSING_PARENT, N in Hn. unfold two32. destruct (S k =? length (tl ps))%nat; [rewrite topbit_or by lia|]; lia.
  Qed.
  Lemma ec_bound i ps : nth_error pidx i = Some ps -> many ps = true -> ec i + Z.of_nat (length (tl ps)) <= M.
  Proof.
    intros Hi Hm. unfold M, W, ec. rewrite (all_ew_split pidx i ps Hi), Hm. rewrite !app_length, ew_length. lia.
  Qed.
  Lemma written_get i c ps g : nth_error cs i = Some c -> nth_error pidx i = Some ps -> nth_error gens i = Some g ->
    get_byindex wfile (Z.of_nat i) = Ok (mkent g (k_time c) (Z.of_nat (length ps)) (p0_of ps) (p1_of ps (ec i)) (if many ps then Some (ec i) else None) (k_tree c) (k_id c)).
  Proof.
    intros Hi Hps Hgi. assert (Hin : (i < n)%nat) by (apply nth_error_Some; congruence). pose proof Hh as Hh. pose proof Hn as Hn'. unfold MISSING_PARENT, N in Hn'.
    pose proof L_data as L. assert (HM0 : 0 <= M) by (unfold M; lia).
    assert (Hct : oid_ok 20 (k_tree c)) by (rewrite Forall_forall in Htree; apply Htree; apply nth_error_In in Hi; exact Hi).
    assert (Htm : 0 <= k_time c < 17179869184) by (rewrite Forall_forall in Htime; apply Htime; apply nth_error_In in Hi; exact Hi).
    assert (Hgg : 0 <= g <= GEN_MAX) by (rewrite Forall_forall in Hg; apply Hg; apply nth_error_In in Hgi; exact Hgi).
    assert (Hpb : Forall (fun p => Z.of_nat p < MISSING_PARENT) ps).
    { apply nth_error_In in Hps. specialize (Hp ps Hps). eapply Forall_impl; [|exact Hp]. cbv beta. unfold MISSING_PARENT. intros; lia. }
    assert (Hid : rdn data (Z.to_nat (o1 + Z.of_nat i * 20)) 20 = Ok (k_id c)).
    { rewrite rdn_ok by (unfold o4, o3, o2, o1, N in *; lia). f_equal. apply sub_id. exact Hi. }
    pose proof (sub_row i c ps g Hi Hps Hgi) as Er. unfold data_words in Er. fold (ec i) in Er. fold (p0_of ps) in Er. fold (p1_of ps (ec i)) in Er.
    assert (Hec : many ps = true -> 0 <= ec i < 2147483648).
    { intros Hm. pose proof (ec_bound i ps Hps Hm). unfold ec in *. lia. }
    destruct (pack_word g (k_time c) Hgg Htm) as (v & Ev & Hv & Hv2 & Hv3). rewrite Ev in Er.
    assert (H0 : 0 <= p0_of ps < 2147483648). { destruct ps as [|p r]; cbn [p0_of]; [unfold MISSING_PARENT; lia|]. inversion_clear Hpb. unfold MISSING_PARENT in *. lia. }
    assert (H1 : 0 <= p1_of ps (ec i) < two32).
    { unfold two32. destruct ps as [|p [|q [|x r]]]; cbn [p1_of]; try (unfold MISSING_PARENT; lia).
      - inversion_clear Hpb as [|? ? _ Hpb']. inversion_clear Hpb'. unfold MISSING_PARENT in *. lia.
      - specialize (Hec eq_refl). rewrite Z.lor_comm, topbit_or by lia. lia. }
    assert (Ht : Z.land (k_time c) 4294967295 = k_time c mod two32) by (change 4294967295 with (Z.ones 32); rewrite Z.land_ones by lia; reflexivity).
    rewrite Ht in Er. pose proof (Z.mod_pos_bound (k_time c) two32 ltac:(unfold two32; lia)) as Hmt.
    assert (Hcd : 0 <= o2 + Z.of_nat i * 36) by (unfold o2, o1; lia).
    destruct (row_read data (o2 + Z.of_nat i * 36) (k_tree c) _ _ _ _ Hcd (proj1 Hct) Er) as (R1 & R2 & R3 & R4 & R5); [unfold two32; lia|exact H1|exact Hv|exact Hmt|].
    unfold get_byindex, wfile. cbn [c_num c_data c_osz c_cdata c_lookup c_nedges c_edges]. destruct (Z.leb_spec N (Z.of_nat i)); [unfold N in *; lia|].
    cbv zeta. change (Z.to_nat 20) with 20%nat. change (20 + 16) with 36. rewrite R1. cbn [bindr]. rewrite R2. cbn [bindr]. rewrite R3. cbn [bindr]. rewrite R4. cbn [bindr]. rewrite R5. cbn [bindr]. rewrite Hv2, Hv3, Hid. cbn [bindr].
    destruct ps as [|p [|q [|x r]]]; cbn [p0_of p1_of].
    - change (many []) with false. change (MISSING_PARENT =? MISSING_PARENT) with true. change (Z.land MISSING_PARENT TOPBIT) with 0. cbn [Z.eqb negb bindr]. reflexivity.
    - change (many [p]) with false. inversion_clear Hpb. destruct (Z.eqb_spec (Z.of_nat p) MISSING_PARENT); [lia|]. change (MISSING_PARENT =? MISSING_PARENT) with true. change (Z.land MISSING_PARENT TOPBIT) with 0. cbn [Z.eqb negb bindr]. reflexivity.
    - change (many [p; q]) with false. inversion_clear Hpb as [|? ? Hpp Hpb']. inversion_clear Hpb'. destruct (Z.eqb_spec (Z.of_nat p) MISSING_PARENT); [lia|]. destruct (Z.eqb_spec (Z.of_nat q) MISSING_PARENT); [lia|].
      rewrite topbit_small by (unfold MISSING_PARENT in *; lia). cbn [Z.eqb negb bindr]. reflexivity.
    - change (many (p :: q :: x :: r)) with true. specialize (Hec eq_refl). inversion_clear Hpb as [|? ? Hpp Hpb']. destruct (Z.eqb_spec (Z.of_nat p) MISSING_PARENT); [lia|].
      rewrite (Z.lor_comm TOPBIT), topbit_or by lia. destruct (Z.eqb_spec (ec i + 2147483648) MISSING_PARENT); [unfold MISSING_PARENT in *; lia|].
      destruct (Z.eqb_spec (Z.land (ec i + 2147483648) TOPBIT) 0) as [E|_]; [exfalso; revert E; apply topbit_set; lia|]. cbn [negb].
      rewrite low31 by lia. replace ((ec i + 2147483648) mod 2147483648) with (ec i) by (rewrite Z.add_mod, Z.mod_same, Z.add_0_r, Z.mod_mod, Z.mod_small by lia; reflexivity).
      pose proof (ec_bound i _ Hps eq_refl) as Hbd. cbn [tl length] in Hbd. destruct (Z.leb_spec M (ec i)); [lia|].
      assert (Ee : (0 <? length edges)%nat = true) by (apply Nat.ltb_lt; rewrite L_edges; unfold M in *; lia). rewrite Ee.
      rewrite (edge_scan_ew data o3 (q :: x :: r)).
      + cbn [bindr length]. f_equal. f_equal. lia.
      + discriminate.
      + cbn [length]. lia.
      + eapply Forall_impl; [|exact Hpb']. cbv beta. unfold MISSING_PARENT. intros; lia.
      + intros k w Hk. apply (rd_ew i (p :: q :: x :: r)); auto.
  Qed.

  Lemma wlayout : cg_layout wfile (objs_of cs).
  Proof.
    pose proof Hh as Hh. pose proof Hn as Hn'. unfold MISSING_PARENT in Hn'. unfold cg_layout, wfile. cbn [c_num c_lookup c_data c_fan c_osz].
    split; [rewrite objs_length; reflexivity|]. split; [unfold o1; lia|]. split; [exact rd_fan|]. split.
    - intros _. rewrite L_data. unfold o4, o3, o2, M. lia.
    - split.
      + intros i o Ho. apply objs_inv in Ho as (c & Hc & ->). exact (sub_id i c Hc).
      + intros i o Ho. apply objs_inv in Ho as (c & Hc & ->). reflexivity.
  Qed.
  Lemma written_find vs q : query vs q ->
    cg_find wfile q (length vs) = match lookup_spec (objs_of cs) vs with NotFound => Err (-3) | Found o => get_byindex wfile (snd o) | Ambiguous => Err (-5) end.
  Proof.
    intros (Hq & Hl & Hv). apply (cg_find_spec wfile (objs_of cs) q vs); unfold wfile; cbn [c_osz c_data]; change (Z.to_nat 20) with 20%nat; [lia|exact Hobj|exact B_data|exact wlayout| |exact Hq|exact Hl|exact Hv].
    rewrite objs_length. fold n. fold N. unfold MISSING_PARENT in Hn. lia.
  Qed.
  Lemma written_full i c : nth_error cs i = Some c -> cg_find wfile (k_id c) 40 = get_byindex wfile (Z.of_nat i).
  Proof.
    intros Hi. destruct Hobj as [F I]. assert (Hc : oid_ok 20 (k_id c)).
    { rewrite Forall_forall in F. apply (F (k_id c, Z.of_nat i)). apply (nth_error_In _ i). apply objs_nth. exact Hi. }
    assert (Ln : length (nibbles (k_id c)) = 40%nat) by (rewrite nibbles_length; destruct Hc; lia).
    assert (E : cg_find wfile (k_id c) (length (nibbles (k_id c))) = match lookup_spec (objs_of cs) (nibbles (k_id c)) with NotFound => Err (-3) | Found o => get_byindex wfile (snd o) | Ambiguous => Err (-5) end).
    { apply written_find. split; [exact Hc|]. split; [lia|]. rewrite Ln. cbn. rewrite app_nil_r. reflexivity. }
    rewrite Ln in E. rewrite E. clear E. unfold lookup_spec.
    assert (G : forall l k, (forall j d, nth_error l j = Some d -> nth_error cs (k + j) = Some d) ->
       filter (starts_with (nibbles (k_id c))) (combine (map k_id l) (map Z.of_nat (seq k (length l)))) = if (k <=? i)%nat && (i <? k + length l)%nat then [(k_id c, Z.of_nat i)] else []).
    { induction l as [|d l IH]; intros k Hk.
      - cbn [map length seq combine filter]. destruct (Nat.leb_spec k i), (Nat.ltb_spec i (k + 0)); cbn [andb]; try reflexivity. lia.
      - cbn [map length seq combine filter]. rewrite IH by (intros j x Hx; replace (S k + j)%nat with (k + S j)%nat by lia; apply Hk; exact Hx).
        pose proof (Hk 0%nat d eq_refl) as Hd. rewrite Nat.add_0_r in Hd.
        assert (Hid : oid_ok 20 (k_id d)). { rewrite Forall_forall in F. apply (F (k_id d, Z.of_nat k)). apply (nth_error_In _ k). apply objs_nth. exact Hd. }
        destruct (starts_with (nibbles (k_id c)) (k_id d, Z.of_nat k)) eqn:Es.
        + apply starts_spec in Es. cbn [fst] in Es. rewrite firstn_all2 in Es by (rewrite Ln, nibbles_length; destruct Hid; lia). apply nibbles_inj in Es; [|apply Hid|apply Hc].
          assert (k = i).
          { rewrite objs_fst in I. destruct (Nat.lt_trichotomy k i) as [L|[L|L]]; [|exact L|].
            - pose proof (increasing_nth _ I k i (k_id d) (k_id c) L (map_nth_error k_id _ _ Hd) (map_nth_error k_id _ _ Hi)) as C. rewrite Es, lex_refl in C. discriminate.
            - pose proof (increasing_nth _ I i k (k_id c) (k_id d) L (map_nth_error k_id _ _ Hi) (map_nth_error k_id _ _ Hd)) as C. rewrite Es, lex_refl in C. discriminate. }
          subst k. rewrite Es. destruct (Nat.leb_spec (S i) i); [lia|]. destruct (Nat.leb_spec i i); [|lia]. destruct (Nat.ltb_spec i (i + S (length l))); [|lia]. reflexivity.
        + assert (k <> i).
          { intros ->. assert (d = c) by congruence. subst d. assert (starts_with (nibbles (k_id c)) (k_id c, Z.of_nat i) = true); [|congruence]. apply starts_spec. cbn [fst]. rewrite firstn_all2 by lia. reflexivity. }
          destruct (Nat.leb_spec (S k) i), (Nat.leb_spec k i), (Nat.ltb_spec i (S k + length l)), (Nat.ltb_spec i (k + S (length l))); cbn [andb]; try reflexivity; lia. }
    unfold objs_of. rewrite (G cs 0%nat) by (intros j d Hd; exact Hd). assert (Hin : (i < length cs)%nat) by (apply nth_error_Some; congruence).
    cbn [Nat.leb andb Nat.add]. destruct (Nat.ltb_spec i (length cs)); [|lia]. reflexivity.
  Qed.
  Lemma written_parent i c ps g e k p : nth_error cs i = Some c -> nth_error pidx i = Some ps -> nth_error gens i = Some g -> get_byindex wfile (Z.of_nat i) = Ok e ->
    nth_error ps k = Some p -> cg_parent wfile e (Z.of_nat k) = get_byindex wfile (Z.of_nat p).
  Proof.
    intros Hi Hps Hgi He Hk. rewrite (written_get i c ps g Hi Hps Hgi) in He. apply Ok_inj in He. subst e. unfold cg_parent. cbn [e_count e_p0 e_p1 e_extra].
    assert (Hkl : (k < length ps)%nat) by (apply nth_error_Some; congruence). destruct (Z.leb_spec (Z.of_nat (length ps)) (Z.of_nat k)); [lia|].
    destruct ps as [|a [|b [|x r]]]; [cbn in Hkl; lia| | |].
    - destruct k; [|cbn in Hkl; lia]. injection Hk as ->. reflexivity.
    - destruct k as [|[|k]]; [injection Hk as ->; reflexivity|injection Hk as ->; reflexivity|cbn in Hkl; lia].
    - destruct k as [|k]; [injection Hk as ->; reflexivity|].
      destruct (Z.eqb_spec (Z.of_nat (S k)) 0); [lia|]. destruct (Z.eqb_spec (Z.of_nat (length (a :: b :: x :: r))) 2); [cbn [length] in *; lia|]. rewrite andb_false_r. cbn [orb].
      change (many (a :: b :: x :: r)) with true. cbv iota. assert (Hk' : nth_error (b :: x :: r) k = Some p) by exact Hk.
      assert (Hkl' : (k < length (b :: x :: r))%nat) by (cbn [length] in *; lia). destruct (ew_nth (b :: x :: r) k Hkl') as (p' & E1 & E2). assert (p' = p) by congruence. subst p'.
      assert (Hpn : (p < n)%nat). { apply nth_error_In in Hk. apply nth_error_In in Hps. specialize (Hp _ Hps). rewrite Forall_forall in Hp. apply Hp. exact Hk. }
      pose proof Hn as Hn'. unfold MISSING_PARENT, N in Hn'.
      unfold wfile at 1 2. cbn [c_data c_edges]. pose proof (ec_bound i _ Hps eq_refl) as Hbd. cbn [tl length] in Hbd. assert (0 <= ec i) by (unfold ec; lia).
      assert (Ee : (0 <? length edges)%nat = true) by (apply Nat.ltb_lt; rewrite L_edges; unfold M in *; lia). rewrite Ee.
      replace (ec i + Z.of_nat (S k) - 1) with (ec i + Z.of_nat k) by lia.
      match type of E2 with _ = Some ?v => rewrite (rd_ew i _ k v Hps eq_refl E2) end. cbn [bindr]. f_equal.
      destruct (S k =? length (b :: x :: r))%nat; [rewrite topbit_or by lia|]; rewrite low31 by lia; [rewrite Z.add_mod, Z.mod_same, Z.add_0_r, Z.mod_mod by lia|]; apply Z.mod_small; lia.
  Qed.
  Lemma written_validate H : H (firstn (Z.to_nat o4) data) = sum -> cg_validate H wfile = Ok tt.
  Proof.
    intros E. pose proof L_data as L. unfold cg_validate, wfile. cbn [c_data c_osz c_sum]. rewrite L. cbv zeta.
    pose proof Hh as Hh. pose proof Hn as Hn'. unfold MISSING_PARENT in Hn'. destruct (Z.ltb_spec (o4 + 20) 20); [unfold o4, o3, o2, o1, M in *; lia|].
    replace (o4 + 20 - 20) with o4 by lia. rewrite E. change (Z.to_nat 20) with 20%nat.
    destruct (memcmp_lex sum sum eq_refl) as (z & Ez & Hz). rewrite Lsum in Ez. rewrite Ez. cbn [bindr]. rewrite lex_refl in Hz. unfold sgn_cmp in Hz. destruct (Z.compare_spec z 0) as [->|?|?]; try discriminate. reflexivity.
  Qed.
  Lemma body_o4 : Z.to_nat o4 = length (cg_body fan ids cdata edges).
  Proof. pose proof L_data as L. unfold data in L. rewrite app_length, Lsum in L. pose proof Hh. unfold MISSING_PARENT in Hn. assert (0 <= o4) by (unfold o4, o3, o2, o1, M; lia). lia. Qed.
End Written.
