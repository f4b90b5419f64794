(** The round trip of multi-pack-index files. *)
From Verif Require Import Base Arr CStr Str OidModel OidSpec OidProofs IdxFileModel IdxFileProofs PackIdxModel PackIdxSpec PackIdxProofs PackIdxMain VectorModel CgModel CgSpec CgWrite CgRound ReflogProofs MidxModel MidxSpec MidxFind MidxLay MidxSort MidxTab.
From Coq Require Import Permutation.
Lemma keep_all {A} (f : A -> bool) l : (forall x, In x l -> f x = true) -> filter f l = l.
Proof. induction l as [|a l IH]; intros H; cbn [filter]; [reflexivity|]. rewrite (H a (or_introl eq_refl)). f_equal. apply IH. intros x Hx. apply H. right. exact Hx. Qed.
Lemma app_split_last {A} (a s b : list A) : a ++ s = b ++ s -> a = b. Proof. apply app_inv_tail. Qed.
Lemma skipn_one {A} : forall (l : list A) i x, nth_error l i = Some x -> skipn i l = x :: skipn (S i) l.
Proof. induction l as [|a l IH]; intros [|i] x H; try discriminate; cbn [nth_error skipn] in *; [injection H as ->; reflexivity|apply IH; exact H]. Qed.

Section W.
  Context (ss : list (list Z)) (es : list mentry) (sum : list Z).
  Let pc := map as_pc es.
  Let objs := objs_of pc.
  Let P := padded (concat (map name_row ss)).
  Let fan := fan_table objs.
  Let ids := concat (map me_id es).
  Let offs := fst (off_tables es 0).
  Let large := snd (off_tables es 0).
  Let n := length es.
  Let m := (length large / 8)%nat.
  Let names := map idx_name ss.
  Definition wfile : mxfile := lay_file names P fan ids offs large sum n m.
  Let body := mx_body (Z.of_nat (length names)) P fan ids offs large.

  Hypothesis Hss : Forall name_ok ss.
  Hypothesis Hinc : increasing names.
  Hypothesis Hes : Forall entry_ok es.
  Hypothesis Hie : increasing (map me_id es).
  Hypothesis Hn : 1 <= Z.of_nat (length es) <= 268435456.
  Hypothesis Hpk : forall e, In e es -> me_pack e < Z.of_nat (length names).
  Hypothesis Hsum : length sum = 20%nat.
  Hypothesis Bsum : bytes sum.
  Hypothesis HPb : Z.of_nat (length P) < 4294967296.
  Hypothesis Hnpk : Z.of_nat (length names) < two32.

  Lemma W_pc : map k_id pc = map me_id es.
  Proof. unfold pc. rewrite map_map. reflexivity. Qed.
  Lemma W_obj : objs_ok 20 objs.
  Proof.
    split; [|unfold objs; rewrite objs_fst, W_pc; exact Hie]. rewrite Forall_forall. intros o Ho. apply In_nth_error in Ho as (i & Hi). apply objs_inv in Hi as (c & Hc & ->). cbn [fst].
    unfold pc in Hc. apply nth_error_In, in_map_iff in Hc as (e & <- & He). rewrite Forall_forall in Hes. apply (Hes e He).
  Qed.
  Lemma W_objs_length : length objs = n.
  Proof. unfold objs. rewrite objs_length. unfold pc. apply map_length. Qed.
  Lemma W_objs_nth i e : nth_error es i = Some e -> nth_error objs i = Some (me_id e, Z.of_nat i).
  Proof. intros H. apply (objs_nth pc i (as_pc e)). unfold pc. apply map_nth_error. exact H. Qed.
  Lemma W_objs_inv i o : nth_error objs i = Some o -> exists e, nth_error es i = Some e /\ o = (me_id e, Z.of_nat i).
  Proof.
    intros H. destruct (nth_error es i) as [e|] eqn:E; [exists e; split; [reflexivity|]; apply W_objs_nth in E; congruence|].
    apply nth_error_None in E. assert (nth_error objs i <> None) as C by congruence. apply nth_error_Some in C. rewrite W_objs_length in C. unfold n in C. lia.
  Qed.
  Lemma W_tab : length offs = (8 * n)%nat /\ length large = (8 * m)%nat /\ (m <= n)%nat /\
    forall i e, nth_error es i = Some e -> exists w, sub offs (8 * i) 8 = be 4 (me_pack e) ++ be 4 w /\ stored large 0 e w.
  Proof.
    destruct (off_tables_spec es 0 ltac:(lia) ltac:(lia) Hes) as (L1 & (k & L2 & Hk) & Hi). split; [exact L1|].
    assert (Em : m = k) by (unfold m, large; rewrite L2, Nat.mul_comm; apply Nat.div_mul; lia). rewrite Em. split; [exact L2|]. split; [exact Hk|exact Hi].
  Qed.

  (* The facts MidxLay needs. *)
  Lemma W_P0 : ss <> [] -> P <> [].
  Proof. unfold P, padded. destruct ss as [|s r]; [congruence|]. intros _. cbn [map concat]. unfold name_row. destruct (idx_name s); discriminate. Qed.
  Lemma W_ss : ss <> [].
  Proof. destruct es as [|e r] eqn:E; [cbn in Hn; lia|]. specialize (Hpk e (or_introl eq_refl)). assert (F : Forall entry_ok (e :: r)) by exact Hes. inversion_clear F as [|? ? A _]. destruct A as (_ & B & _). unfold names in Hpk. rewrite map_length in Hpk. intros ->. cbn in Hpk. lia. Qed.
  Lemma W_names t : names_loop (length names) (P ++ t) (length P) None = Ok names.
  Proof.
    unfold P, padded. rewrite <- app_assoc. unfold names at 1. rewrite map_length. apply names_read; [exact Hss|exact Hinc|exact I|]. rewrite app_length. lia.
  Qed.
  Lemma W_fan pre t : fan_check (pre ++ fan ++ t) (Z.of_nat (length pre)) 256 0 = Ok (Z.of_nat n).
  Proof.
    pose proof (fan_check_ok (pre ++ fan ++ t) (Z.of_nat (length pre)) (count_upto objs)) as F.
    assert (R : forall b, 0 <= b < 256 -> rd32 (pre ++ fan ++ t) (Z.of_nat (length pre) + 4 * b) = Ok (count_upto objs b)).
    { intros b Hb. apply fan_read; [exact Hb|]. rewrite W_objs_length. unfold n, two32. lia. }
    specialize (F R (count_mono objs) 256%nat 0 0 ltac:(lia) ltac:(lia) ltac:(lia)). replace (Z.of_nat (length pre) + 4 * 0) with (Z.of_nat (length pre)) in F by lia. rewrite F; [|apply (count_le objs 0)].
    f_equal. unfold count_upto. rewrite <- W_objs_length. f_equal. rewrite keep_all; [reflexivity|]. intros o Ho. apply Z.leb_le.
    destruct W_obj as [Fo _]. rewrite Forall_forall in Fo. destruct (Fo o Ho) as [L B]. destruct (fst o) as [|c r]; [discriminate|]. inversion_clear B. unfold is_byte in *. cbn [hd]. lia.
  Qed.
  Lemma W_ids : length ids = (20 * n)%nat.
  Proof. unfold ids. apply concat_length. intros e He. rewrite Forall_forall in Hes. apply (Hes e He). Qed.
  Lemma W_parse : mx_parse 20 (body ++ sum) = Ok wfile.
  Proof.
    destruct W_tab as (T1 & T2 & T3 & _). unfold body, wfile.
    refine (lay_parse names P fan ids offs large sum n m (W_P0 W_ss) W_names HPb Hnpk _ W_fan W_ids T1 T2 Hsum _ _); [apply fan_table_length|unfold n; lia|lia].
  Qed.
  Lemma W_data : m_data wfile = body ++ sum. Proof. reflexivity. Qed.
  Lemma W_num : m_num wfile = Z.of_nat n. Proof. reflexivity. Qed.
  Lemma W_osz : m_osz wfile = 20. Proof. reflexivity. Qed.
  Lemma W_packs : m_packs wfile = names. Proof. reflexivity. Qed.
  Lemma W_bytes : Forall bytes ss -> bytes (m_data wfile).
  Proof.
    intros Bs. destruct W_tab as (T1 & T2 & T3 & _). rewrite W_data. unfold body.
    rewrite (lay_data names P fan ids offs large sum n m W_names (fan_table_length objs) W_fan W_ids T1 T2 Hsum).
    destruct (off_tables_bytes es 0) as [B1 B2].
    assert (Bids : bytes ids) by (apply concat_bytes; intros e He; rewrite Forall_forall in Hes; apply (Hes e He)).
    assert (BP : bytes P).
    { unfold P, padded. apply Forall_app. split.
      - apply concat_bytes. intros s Hs. unfold name_row, idx_name. rewrite Forall_forall in Bs. apply Forall_app. split; [apply Forall_app; split; [apply Bs; exact Hs|]|]; repeat constructor; cbn; lia.
      - rewrite Forall_forall. intros x Hx. apply repeat_spec in Hx. subst x. unfold is_byte. lia. }
    assert (Bf : bytes fan) by (apply concat_bytes; intros; apply (be_bytes 4)).
    assert (Bh : bytes (hdr_bytes names P large n m)) by (apply concat_bytes; intros; apply be_bytes).
    apply Forall_app. split; [exact Bh|]. apply Forall_app. split; [exact BP|]. apply Forall_app. split; [exact Bf|]. apply Forall_app. split; [exact Bids|]. apply Forall_app. split; [exact B1|]. apply Forall_app. split; [exact B2|exact Bsum].
  Qed.
  Lemma W_ids_nth i e : nth_error es i = Some e -> sub (m_data wfile) (Z.to_nat (m_lookup wfile + Z.of_nat i * m_osz wfile)) (Z.to_nat (m_osz wfile)) = me_id e.
  Proof.
    intros Hi. destruct W_tab as (T1 & T2 & T3 & _). assert (Hin : (i < n)%nat) by (apply nth_error_Some; congruence).
    rewrite W_data, W_osz. change (Z.to_nat 20) with 20%nat. unfold wfile, body. rewrite (lay_ids names P fan ids offs large sum n m W_names (fan_table_length objs) W_fan W_ids T1 T2 Hsum i Hin).
    unfold ids. rewrite <- (app_nil_r (concat _)). apply (sub_concat_at me_id 20 es [] []) with (i := i); [|exact Hi|cbn [length]; lia]. intros x Hx. rewrite Forall_forall in Hes. apply (Hes x Hx).
  Qed.
  Lemma W_layout : mx_layout wfile objs.
  Proof.
    destruct W_tab as (T1 & T2 & T3 & _). destruct (lay_offsets names P fan ids offs large sum n m W_names (fan_table_length objs) W_fan W_ids T1 T2 Hsum) as (O1 & O2 & O3 & O4 & O5).
    unfold mx_layout. rewrite W_objs_length. split; [reflexivity|]. split; [unfold wfile; lia|]. split.
    - intros b Hb. apply (lay_fan_read names P fan ids offs large sum n m W_names (fan_table_length objs) W_fan W_ids T1 T2 Hsum); [unfold n; lia|reflexivity|apply W_objs_length|exact Hb].
    - split; [|split].
      + intros _. rewrite W_num, W_osz, W_data. unfold wfile, body. lia.
      + intros i o Hi. destruct (W_objs_inv i o Hi) as (e & He & ->). apply W_ids_nth. exact He.
      + intros i o Hi. destruct (W_objs_inv i o Hi) as (e & He & ->). reflexivity.
  Qed.
  Lemma W_entry i e : nth_error es i = Some e -> mx_entry wfile (Z.of_nat i) = Ok e.
  Proof.
    intros Hi. destruct W_tab as (T1 & T2 & T3 & T4). assert (Hin : (i < n)%nat) by (apply nth_error_Some; congruence).
    assert (He : In e es) by (apply nth_error_In in Hi; exact Hi). assert (Hok : entry_ok e) by (rewrite Forall_forall in Hes; apply Hes; exact He). destruct Hok as (Hid & Hpack & Hoff).
    destruct (lay_offsets names P fan ids offs large sum n m W_names (fan_table_length objs) W_fan W_ids T1 T2 Hsum) as (O1 & O2 & O3 & O4 & O5).
    unfold mx_entry. cbv zeta. destruct (Z.ltb_spec 2147483647 (Z.of_nat i * 8)); [unfold n in Hin; lia|].
    destruct (T4 i e Hi) as (w & Ew & Hw).
    pose proof (lay_offs names P fan ids offs large sum n m W_names (fan_table_length objs) W_fan W_ids T1 T2 Hsum i Hin) as RO. rewrite Ew in RO.
    destruct (two_words _ (m_offs wfile + Z.of_nat i * 8) (me_pack e) w ltac:(unfold wfile; lia) RO) as [R1 R2].
    change (m_data wfile) with (body ++ sum). unfold body. rewrite R2. cbn [bindr].
    assert (HO : (if negb (m_large wfile =? 0) && negb (Z.land (w mod two32) TOPBIT =? 0) then
         if m_nlarge wfile <=? Z.lxor (w mod two32) TOPBIT then Err (-3)
         else do h <- rd32 (mx_body (Z.of_nat (length names)) P fan ids offs large ++ sum) (m_large wfile + (8 * Z.lxor (w mod two32) TOPBIT) mod two32) ;;
              do l <- rd32 (mx_body (Z.of_nat (length names)) P fan ids offs large ++ sum) (m_large wfile + (8 * Z.lxor (w mod two32) TOPBIT) mod two32 + 4) ;; Ok (to_int64 (Z.lor (Z.shiftl h 32) l))
       else Ok (w mod two32)) = Ok (me_off e)).
    { destruct Hw as [[Hs ->]|(Hb & k & -> & Hk & Es)].
      - unfold TOPBIT in Hs. rewrite (Z.mod_small (me_off e)) by (unfold two32; lia). rewrite topbit_small by lia. cbn [Z.eqb negb]. rewrite andb_false_r. reflexivity.
      - rewrite Z.add_0_l in *. assert (Hkn : (k < n)%nat) by (rewrite T2 in Hk; lia). assert (Kr : 0 <= Z.of_nat k < 268435456) by (unfold n in Hkn; lia).
        rewrite Z.lor_comm, topbit_or by lia. rewrite (Z.mod_small (_ + _)) by (unfold two32; lia).
        destruct (lay_large names P fan ids offs large sum n m W_names (fan_table_length objs) W_fan W_ids T1 T2 Hsum k Hk) as [L1 L2]. rewrite Es in L2.
        change (m_large wfile) with (m_large (lay_file names P fan ids offs large sum n m)). destruct (Z.eqb_spec (m_large (lay_file names P fan ids offs large sum n m)) 0); [lia|].
        pose proof (topbit_set (Z.of_nat k) ltac:(lia)) as TS. destruct (Z.eqb_spec (Z.land (Z.of_nat k + 2147483648) TOPBIT) 0); [contradiction|]. cbn [negb andb].
        assert (EX : Z.lxor (Z.of_nat k + 2147483648) TOPBIT = Z.of_nat k).
        { rewrite <- topbit_or by lia. rewrite <- Z.lxor_lor by (apply topbit_small; lia). rewrite Z.lxor_assoc, Z.lxor_nilpotent. apply Z.lxor_0_r. }
        rewrite EX. change (m_nlarge wfile) with (Z.of_nat m). destruct (Z.leb_spec (Z.of_nat m) (Z.of_nat k)); [rewrite T2 in Hk; lia|].
        rewrite (Z.mod_small (8 * Z.of_nat k)) by (unfold two32; lia). replace (8 * Z.of_nat k) with (Z.of_nat (8 * k)) by lia.
        destruct (two_words _ (m_large (lay_file names P fan ids offs large sum n m) + Z.of_nat (8 * k)) _ _ ltac:(lia) L2) as [Q1 Q2]. rewrite Q1. cbn [bindr]. rewrite Q2. cbn [bindr]. rewrite join_offset by (unfold two64; lia).
        unfold to_int64. destruct (Z.ltb_spec (me_off e) 9223372036854775808); [reflexivity|lia]. }
    rewrite HO. cbn [bindr]. rewrite R1. cbn [bindr]. rewrite (Z.mod_small (me_pack e)) by exact Hpack. rewrite W_packs.
    destruct (Z.leb_spec (Z.of_nat (length names)) (me_pack e)) as [Hc|_]; [specialize (Hpk e He); lia|].
    pose proof (W_ids_nth i e Hi) as RI. rewrite W_osz in *. change (Z.to_nat 20) with 20%nat in *. change (m_data wfile) with (mx_body (Z.of_nat (length names)) P fan ids offs large ++ sum) in RI.
    rewrite rdn_ok; [|unfold wfile; unfold n in *; lia]. rewrite RI. cbn [bindr]. destruct e; reflexivity.
  Qed.
  Lemma W_find vs q : Forall bytes ss -> query vs q -> mx_find wfile q (length vs) = match lookup_spec objs vs with NotFound => Err (-3) | Found o => mx_entry wfile (snd o) | Ambiguous => Err (-5) end.
  Proof.
    intros Bs (Hq & Hl & Hnq). unfold mx_find. rewrite (mx_locate_spec wfile objs q vs); rewrite ?W_osz; try change (Z.to_nat 20) with 20%nat; try lia; try assumption.
    - destruct (lookup_spec objs vs); reflexivity.
    - apply W_obj.
    - apply W_bytes. exact Bs.
    - apply W_layout.
    - rewrite W_objs_length. unfold n. lia.
  Qed.
  Lemma W_foreach : mx_foreach wfile = Ok (map me_id es).
  Proof.
    unfold mx_foreach. rewrite W_num. destruct (Z.eqb_spec (Z.of_nat n) 0); [unfold n in *; lia|]. rewrite Nat2Z.id.
    destruct W_tab as (T1 & T2 & T3 & _). destruct (lay_offsets names P fan ids offs large sum n m W_names (fan_table_length objs) W_fan W_ids T1 T2 Hsum) as (O1 & O2 & O3 & O4 & O5).
    assert (G : forall k i, (i + k = n)%nat -> ids_loop wfile k (Z.of_nat i) = Ok (map me_id (skipn i es))).
    { induction k as [|k IH]; intros i Hik; cbn [ids_loop].
      - rewrite skipn_all2 by (unfold n in Hik; lia). reflexivity.
      - destruct (nth_error es i) as [e|] eqn:Ee; [|apply nth_error_None in Ee; unfold n in Hik; lia].
        rewrite rdn_ok; [|rewrite W_osz, W_data; unfold wfile, body; lia]. rewrite (W_ids_nth i e Ee). cbn [bindr]. replace (Z.of_nat i + 1) with (Z.of_nat (S i)) by lia. rewrite IH by lia. cbn [bindr].
        f_equal. rewrite (skipn_one es i e Ee). reflexivity. }
    apply (G n 0%nat). reflexivity.
  Qed.
End W.
