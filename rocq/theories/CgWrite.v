(** The layout of a written commit-graph. *)
From Verif Require Import Base Arr CStr Str OidModel OidSpec OidProofs IdxFileModel IdxFileProofs PackIdxModel PackIdxSpec PackIdxProofs PackIdxMain CgModel CgSpec CgFind CodecProofs.

(** *** Words *)
Lemma topbit_small v : 0 <= v < 2147483648 -> Z.land v TOPBIT = 0.
Proof.
  intros H. unfold TOPBIT. change 2147483648 with (2 ^ 31). apply Z.bits_inj'. intros k Hk. rewrite Z.land_spec, Z.bits_0, Z.pow2_bits_eqb by lia.
  destruct (Z.eqb_spec 31 k) as [<-|]; [|apply andb_false_r]. rewrite andb_true_r. destruct (Z.eq_dec v 0) as [->|]; [apply Z.bits_0|].
  apply Z.bits_above_log2; [lia|]. apply Z.log2_lt_pow2; lia.
Qed.
Lemma topbit_or v : 0 <= v < 2147483648 -> Z.lor v TOPBIT = v + 2147483648.
Proof. intros H. unfold TOPBIT. apply (lor_disjoint v 2147483648 31); [lia|exact H|reflexivity]. Qed.
Lemma topbit_set v : 0 <= v < 2147483648 -> Z.land (v + 2147483648) TOPBIT <> 0.
Proof.
  intros H E. pose proof (f_equal (fun x => Z.testbit x 31) E) as B. cbn beta in B. rewrite Z.land_spec, Z.bits_0 in B. unfold TOPBIT in B.
  change 2147483648 with (2 ^ 31) in B at 2. rewrite Z.pow2_bits_true, andb_true_r in B by lia. rewrite <- topbit_or in B by exact H. rewrite Z.lor_spec in B.
  unfold TOPBIT in B. change 2147483648 with (2 ^ 31) in B. rewrite Z.pow2_bits_true, orb_true_r in B by lia. discriminate.
Qed.
Lemma low31 v : 0 <= v -> Z.land v 2147483647 = v mod 2147483648.
Proof. intros H. change 2147483647 with (2 ^ 31 - 1). rewrite land_ones by lia. reflexivity. Qed.

Lemma be_mod k : forall v, be k v = be k (v mod 256 ^ Z.of_nat k).
Proof.
  induction k as [|k IH]; intros v; cbn [be]; [reflexivity|]. rewrite (IH (v / 256)), (IH (v mod 256 ^ Z.of_nat (S k) / 256)).
  replace (256 ^ Z.of_nat (S k)) with (256 * 256 ^ Z.of_nat k) by (rewrite Nat2Z.inj_succ, Z.pow_succ_r; lia).
  assert (0 < 256 ^ Z.of_nat k) by (apply Z.pow_pos_nonneg; lia).
  rewrite Z.rem_mul_r by lia. f_equal.
  - f_equal. replace ((v mod 256 + 256 * ((v / 256) mod 256 ^ Z.of_nat k)) / 256) with ((v / 256) mod 256 ^ Z.of_nat k).
    + rewrite Z.mod_mod by lia. reflexivity.
    + rewrite (Z.mul_comm 256), Z.div_add by lia. rewrite (Z.div_small (v mod 256)) by (apply Z.mod_pos_bound; lia). lia.
  - f_equal. rewrite (Z.mul_comm 256), Z.mod_add by lia. rewrite Z.mod_mod by lia. reflexivity.
Qed.
Lemma rd32_word ws t k v off : nth_error ws k = Some v -> off = 4 * Z.of_nat k -> rd32 (concat (map (be 4) ws) ++ t) off = Ok (v mod two32).
Proof.
  intros H ->. apply rd32_sub; [unfold two32; apply Z.mod_pos_bound; lia|]. replace (Z.to_nat (4 * Z.of_nat k)) with (4 * k)%nat by lia.
  rewrite (sub_concat (be 4) 4 ws t ltac:(intros; apply be_length) k v H). apply be_mod.
Qed.
Lemma rd32_word_at pre ws t k v off : nth_error ws k = Some v -> 0 <= v < two32 -> off = Z.of_nat (length pre) + 4 * Z.of_nat k -> rd32 (pre ++ concat (map (be 4) ws) ++ t) off = Ok v.
Proof.
  intros H Hv ->. apply rd32_sub; [exact Hv|]. replace (Z.to_nat (Z.of_nat (length pre) + 4 * Z.of_nat k)) with (length pre + 4 * k)%nat by lia.
  rewrite sub_app_r. apply (sub_concat (be 4) 4 ws t ltac:(intros; apply be_length) k v H).
Qed.
Lemma join_offset o : 0 <= o < two64 -> Z.lor (Z.shiftl (Z.shiftr o 32 mod two32) 32) (o mod two32) = o.
Proof.
  intros H. unfold two64, two32 in *. rewrite Z.shiftr_div_pow2, Z.shiftl_mul_pow2 by lia. change (2 ^ 32) with 4294967296.
  rewrite (Z.mod_small (o / 4294967296)) by (split; [apply Z.div_pos; lia|apply Z.div_lt_upper_bound; lia]).
  pose proof (Z.mod_pos_bound o 4294967296 ltac:(lia)). rewrite Z.lor_comm.
  rewrite (lor_disjoint _ _ 32); [pose proof (Z.div_mod o 4294967296); lia|lia|exact H0|]. change (2 ^ 32) with 4294967296. apply Z.mod_mul. lia.
Qed.
Lemma pack_word gen t : 0 <= gen <= GEN_MAX -> 0 <= t < 17179869184 ->
  exists v, Z.lor (Z.shiftl (if GEN_MAX <? gen then GEN_MAX else gen) 2) (Z.land (Z.shiftr t 32) 3) = v /\ 0 <= v < two32 /\ Z.shiftr v 2 = gen /\
    Z.lor (t mod two32) (Z.shiftl (Z.land v 3) 32) = t.
Proof.
  intros Hg Ht. unfold GEN_MAX, two32 in *. destruct (Z.ltb_spec 1073741823 gen); [lia|]. exists (gen * 4 + t / 4294967296).
  assert (Hd : 0 <= t / 4294967296 < 4) by (split; [apply Z.div_pos; lia|apply Z.div_lt_upper_bound; lia]).
  rewrite Z.shiftr_div_pow2, Z.shiftl_mul_pow2 by lia. change (2 ^ 32) with 4294967296. change (2 ^ 2) with 4. rewrite !land_3.
  rewrite (Z.mod_small (t / 4294967296) 4) by exact Hd.
  split; [rewrite Z.lor_comm, (lor_disjoint _ _ 2); [lia|lia|exact Hd|change (2 ^ 2) with 4; apply Z.mod_mul; lia]|]. split; [lia|].
  split; [rewrite Z.shiftr_div_pow2 by lia; change (2 ^ 2) with 4; rewrite Z.add_comm, Z.div_add by lia; rewrite Z.div_small by lia; lia|].
  rewrite Z.add_comm, Z.mod_add by lia. rewrite (Z.mod_small (t / 4294967296) 4) by exact Hd. rewrite Z.shiftl_mul_pow2 by lia. change (2 ^ 32) with 4294967296.
  rewrite (lor_disjoint _ _ 32); [pose proof (Z.div_mod t 4294967296); lia|lia|apply (Z.mod_pos_bound t 4294967296); lia|]. change (2 ^ 32) with 4294967296. apply Z.mod_mul. lia.
Qed.

(** *** The fan-out table *)
Definition cnt (l : list pcommit) (b : Z) : Z := Z.of_nat (length (filter (fun c => hd 0 (k_id c) <=? b) l)).
Fixpoint hsorted (l : list pcommit) : Prop := match l with [] => True | a :: r => Forall (fun c => hd 0 (k_id a) <= hd 0 (k_id c)) r /\ hsorted r end.
Lemma cnt_zero l b : Forall (fun c => b < hd 0 (k_id c)) l -> cnt l b = 0.
Proof. intros F. unfold cnt. rewrite filter_none; [reflexivity|]. intros x Hx. rewrite Forall_forall in F. specialize (F x Hx). apply Z.leb_gt. exact F. Qed.
Lemma cnt_cons a l b : cnt (a :: l) b = (if hd 0 (k_id a) <=? b then 1 else 0) + cnt l b.
Proof. unfold cnt. cbn [filter]. destruct (hd 0 (k_id a) <=? b); cbn [length]; lia. Qed.
Lemma fan_skip_spec i : forall rest count, hsorted rest -> exists rest', fan_skip i rest count = (rest', count + cnt rest i) /\ hsorted rest' /\
  (forall j, i <= j -> cnt rest j = cnt rest i + cnt rest' j).
Proof.
  induction rest as [|c r IH]; intros count Hs; cbn [fan_skip].
  - exists []. split; [f_equal; unfold cnt; cbn; lia|]. split; [exact I|]. intros. unfold cnt. cbn. lia.
  - destruct Hs as [H1 H2]. destruct (Z.leb_spec (hd 0 (k_id c)) i) as [Hle|Hgt].
    + destruct (IH (count + 1) H2) as (rest' & -> & Hs' & Hc). exists rest'. split; [f_equal; rewrite cnt_cons; destruct (Z.leb_spec (hd 0 (k_id c)) i); lia|]. split; [exact Hs'|].
      intros j Hj. rewrite !cnt_cons, (Hc j Hj). destruct (Z.leb_spec (hd 0 (k_id c)) i), (Z.leb_spec (hd 0 (k_id c)) j); lia.
    + assert (Z0 : cnt (c :: r) i = 0) by (apply cnt_zero; constructor; [lia|eapply Forall_impl; [|exact H1]; cbn; intros; lia]).
      exists (c :: r). rewrite Z0. split; [f_equal; lia|]. split; [split; assumption|]. intros; lia.
Qed.
Lemma fan_fill_spec : forall n i rest count, hsorted rest -> fan_fill n (Z.of_nat i) rest count = concat (map (fun k => be 4 (count + cnt rest (Z.of_nat k))) (seq i n)).
Proof.
  induction n as [|n IH]; intros i rest count Hs; cbn [fan_fill seq map concat]; [reflexivity|].
  destruct (fan_skip_spec (Z.of_nat i) rest count Hs) as (rest' & -> & Hs' & Hc). f_equal. replace (Z.of_nat i + 1) with (Z.of_nat (S i)) by lia. rewrite IH by exact Hs'.
  f_equal. apply map_ext_in. intros k Hk. apply in_seq in Hk. f_equal. rewrite (Hc (Z.of_nat k)) by lia. lia.
Qed.

(** The ids with their positions. *)
Definition objs_of (cs : list pcommit) : list pobj := combine (map k_id cs) (map Z.of_nat (seq 0 (length cs))).
Lemma objs_fst cs : map fst (objs_of cs) = map k_id cs.
Proof.
  unfold objs_of. generalize 0%nat. induction cs as [|c cs IH]; intros k; [reflexivity|]. cbn [map length seq combine fst]. rewrite IH. reflexivity.
Qed.
Lemma objs_length cs : length (objs_of cs) = length cs.
Proof. transitivity (length (map fst (objs_of cs))); [symmetry; apply map_length|]. rewrite objs_fst. apply map_length. Qed.
Lemma objs_nth cs i c : nth_error cs i = Some c -> nth_error (objs_of cs) i = Some (k_id c, Z.of_nat i).
Proof.
  unfold objs_of. cut (forall k, nth_error cs i = Some c -> nth_error (combine (map k_id cs) (map Z.of_nat (seq k (length cs)))) i = Some (k_id c, Z.of_nat (k + i))); [intros Q H; apply (Q 0%nat H)|].
  revert i. induction cs as [|a cs IH]; intros [|i] k H; try discriminate; cbn [map length seq combine nth_error] in *.
  - injection H as <-. rewrite Nat.add_0_r. reflexivity.
  - rewrite (IH i (S k) H). f_equal. f_equal. lia.
Qed.
Lemma objs_inv cs i o : nth_error (objs_of cs) i = Some o -> exists c, nth_error cs i = Some c /\ o = (k_id c, Z.of_nat i).
Proof.
  intros H. destruct (nth_error cs i) as [c|] eqn:E; [exists c; split; [reflexivity|]; apply objs_nth in E; congruence|].
  apply nth_error_None in E. assert (nth_error (objs_of cs) i <> None) as C by congruence. apply nth_error_Some in C. rewrite objs_length in C. lia.
Qed.
Lemma cnt_objs cs b : count_upto (objs_of cs) b = cnt cs b.
Proof.
  unfold count_upto, cnt. f_equal. transitivity (length (filter (fun i => hd 0 i <=? b) (map fst (objs_of cs)))).
  - induction (objs_of cs) as [|o l IH]; cbn [filter map]; [reflexivity|]. destruct (hd 0 (fst o) <=? b); cbn [length]; lia.
  - rewrite objs_fst. induction cs as [|c l IH]; cbn [filter map]; [reflexivity|]. destruct (hd 0 (k_id c) <=? b); cbn [length]; lia.
Qed.
Lemma fan_fill_table cs : hsorted cs -> fan_fill 256 0 cs 0 = fan_table (objs_of cs).
Proof.
  intros H. pose proof (fan_fill_spec 256 0 cs 0 H) as E. change (Z.of_nat 0) with 0 in E. rewrite E. unfold fan_table. f_equal. apply map_ext. intros k. rewrite cnt_objs. reflexivity.
Qed.

(** *** The two tables *)
Fixpoint ew (ps : list nat) : list Z := match ps with [] => [] | [p] => [Z.lor (Z.of_nat p) TOPBIT] | p :: r => Z.of_nat p :: ew r end.
Definition many (ps : list nat) : bool := (2 <? length ps)%nat.
Definition all_ew (pidx : list (list nat)) : list Z := concat (map (fun ps => if many ps then ew (tl ps) else []) pidx).
Lemma edge_words_ew ps : edge_words ps = concat (map (be 4) (ew ps)).
Proof. induction ps as [|p [|q r] IH]; [reflexivity|cbn [edge_words ew map concat]; rewrite app_nil_r; reflexivity|]. cbn [edge_words ew map concat] in *. f_equal. exact IH. Qed.
Lemma ew_length ps : length (ew ps) = length ps.
Proof. induction ps as [|p [|q r] IH]; [reflexivity|reflexivity|]. cbn [ew length] in *. lia. Qed.
Lemma data_words_length c ps g ec : length (k_tree c) = 20%nat -> length (data_words c ps g ec) = 36%nat.
Proof. intros H. unfold data_words. rewrite !app_length, !be_length. lia. Qed.

Lemma tables_spec : forall cs pidx gens ec, length pidx = length cs -> length gens = length cs -> Forall (fun c => length (k_tree c) = 20%nat) cs ->
  0 <= ec -> ec + Z.of_nat (length (all_ew pidx)) < two32 ->
  snd (tables cs pidx gens ec) = concat (map (be 4) (all_ew pidx)) /\ length (fst (tables cs pidx gens ec)) = (36 * length cs)%nat /\
  forall i c ps g, nth_error cs i = Some c -> nth_error pidx i = Some ps -> nth_error gens i = Some g ->
    sub (fst (tables cs pidx gens ec)) (36 * i) 36 = data_words c ps g (ec + Z.of_nat (length (all_ew (firstn i pidx)))).
Proof.
  induction cs as [|c cs IH]; intros [|ps pidx] [|g gens] ec L1 L2 F H0 HB; try discriminate; cbn [tables].
  - split; [reflexivity|]. split; [reflexivity|]. intros [|i]; discriminate.
  - inversion_clear F as [|? ? Fc Fr]. cbn in L1, L2.
    assert (Eall : all_ew (ps :: pidx) = (if many ps then ew (tl ps) else []) ++ all_ew pidx) by reflexivity.
    set (ec' := if (2 <? length ps)%nat then (ec + Z.of_nat (length ps) - 1) mod two32 else ec).
    assert (Eec : ec' = ec + Z.of_nat (length (if many ps then ew (tl ps) else []))).
    { unfold ec', many. rewrite Eall, app_length in HB. unfold many in HB. destruct (Nat.ltb_spec 2 (length ps)); [|cbn; lia].
      rewrite ew_length in *. destruct ps as [|p ps]; [cbn in *; lia|]. cbn [tl length] in *. rewrite Z.mod_small by lia. lia. }
    destruct (IH pidx gens ec' ltac:(lia) ltac:(lia) Fr ltac:(lia)) as (I1 & I2 & I3).
    { rewrite Eec. rewrite Eall, app_length in HB. lia. }
    destruct (tables cs pidx gens ec') as [cd ed] eqn:Et. cbn [fst snd] in *. split; [|split].
    + rewrite Eall, map_app, concat_app, I1. f_equal. fold (many ps). destruct (many ps); [apply edge_words_ew|reflexivity].
    + rewrite app_length, data_words_length, I2 by exact Fc. cbn [length]. lia.
    + intros [|i] c' ps' g' Hc Hp Hg; cbn [nth_error] in *.
      * injection Hc as <-. injection Hp as <-. injection Hg as <-. rewrite Nat.mul_0_r. cbn [firstn all_ew map concat length]. rewrite Z.add_0_r.
        rewrite <- (data_words_length c ps g ec Fc). apply sub_app_l.
      * replace (36 * S i)%nat with (length (data_words c ps g ec) + 36 * i)%nat by (rewrite data_words_length by exact Fc; lia). rewrite sub_app_r.
        rewrite (I3 i c' ps' g' Hc Hp Hg). f_equal. cbn [firstn]. replace (all_ew (ps :: firstn i pidx)) with ((if many ps then ew (tl ps) else []) ++ all_ew (firstn i pidx)) by reflexivity.
        rewrite app_length. lia.
Qed.
Lemma all_ew_split pidx i ps : nth_error pidx i = Some ps -> all_ew pidx = all_ew (firstn i pidx) ++ (if many ps then ew (tl ps) else []) ++ all_ew (skipn (S i) pidx).
Proof.
  revert i. induction pidx as [|a l IH]; intros [|i] H; try discriminate; cbn [nth_error] in H.
  - injection H as <-. reflexivity.
  - cbn [firstn]. replace (skipn (S (S i)) (a :: l)) with (skipn (S i) l) by reflexivity.
    change (all_ew (a :: l)) with ((if many a then ew (tl a) else []) ++ all_ew l). change (all_ew (a :: firstn i l)) with ((if many a then ew (tl a) else []) ++ all_ew (firstn i l)).
    rewrite <- app_assoc. f_equal. apply IH. exact H.
Qed.
Lemma ew_nth : forall ps k, (k < length ps)%nat -> exists p, nth_error ps k = Some p /\ nth_error (ew ps) k = Some (if (S k =? length ps)%nat then Z.lor (Z.of_nat p) TOPBIT else Z.of_nat p).
Proof.
  induction ps as [|p [|q r] IH]; intros k Hk; [cbn in Hk; lia| |].
  - destruct k; [|cbn in Hk; lia]. exists p. split; reflexivity.
  - destruct k as [|k]; [exists p; split; reflexivity|]. destruct (IH k) as (x & E1 & E2); [cbn [length] in *; lia|]. exists x. split; [exact E1|]. exact E2.
Qed.
