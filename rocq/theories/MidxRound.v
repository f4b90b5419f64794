(** Writing a multi-pack-index and reading it back. *)
From Verif Require Import Base Arr CStr Str OidModel OidSpec OidProofs IdxFileModel IdxFileProofs PackIdxModel PackIdxSpec PackIdxProofs PackIdxMain VectorModel CgModel CgSpec CgWrite CgRound ReflogProofs MidxModel MidxSpec MidxFind MidxLay MidxSort MidxTab MidxMain.
From Coq Require Import Permutation.

Lemma entries_in : forall ps i e, In e (pack_entries ps i) <-> exists k p, nth_error ps k = Some p /\ me_pack e = i + Z.of_nat k /\ In (me_id e, me_off e) (mp_objs p).
Proof.
  induction ps as [|p ps IH]; intros i e; cbn [pack_entries].
  - split; [intros []|intros ([|k] & p & H & _); discriminate].
  - rewrite in_app_iff, IH. split.
    + intros [H|(k & q & H1 & H2 & H3)].
      * apply in_map_iff in H as ([id off] & <- & Ho). exists 0%nat, p. cbn [me_pack me_id me_off fst snd]. split; [reflexivity|]. split; [lia|exact Ho].
      * exists (S k), q. split; [exact H1|]. split; [lia|exact H3].
    + intros ([|k] & q & H1 & H2 & H3); cbn [nth_error] in H1.
      * injection H1 as ->. left. apply in_map_iff. exists (me_id e, me_off e). split; [|exact H3]. destruct e as [a b c]. cbn [me_id me_pack me_off fst snd] in *. f_equal. lia.
      * right. exists k, q. split; [exact H1|]. split; [lia|exact H3].
Qed.
Lemma stems : forall ps, Forall pack_ok ps -> exists ss, map mp_name ps = map (fun s => s ++ bs ".pack") ss /\ Forall stem_ok ss.
Proof.
  induction 1 as [|p ps Hp _ (ss & E & F)]; [exists []; split; [reflexivity|constructor]|]. destruct Hp as ((s & Hs & En) & _).
  exists (s :: ss). split; [cbn [map]; rewrite En, E; reflexivity|constructor; assumption].
Qed.
Lemma stems_increasing : forall ss, Forall stem_ok ss -> increasing (map (fun s => s ++ bs ".pack") ss) -> increasing (map idx_name ss).
Proof.
  induction 1 as [|a ss Ha HF IH]; intros Hi; [exact I|]. destruct ss as [|b r]; [exact I|]. cbn [map] in *. destruct Hi as [H1 H2]. split; [|apply IH; exact H2].
  inversion_clear HF as [|? ? Hb _]. destruct Ha as (_ & _ & _ & Ha & _), Hb as (_ & _ & _ & Hb & _). apply idx_lt; assumption.
Qed.
Lemma entries_length : forall ps i, Z.of_nat (length (pack_entries ps i)) = objects ps.
Proof. induction ps as [|p ps IH]; intros i; [reflexivity|]. cbn [pack_entries]. rewrite app_length, map_length, Nat2Z.inj_add, IH. reflexivity. Qed.
Lemma objects_perm ps qs : Permutation ps qs -> objects ps = objects qs.
Proof. unfold objects. induction 1; cbn [map fold_right] in *; lia. Qed.
Lemma name_bytes_perm ps qs : Permutation ps qs -> name_bytes ps = name_bytes qs.
Proof. unfold name_bytes. induction 1; cbn [map fold_right] in *; lia. Qed.
Lemma rows_length : forall ps ss, map mp_name ps = map (fun s => s ++ bs ".pack") ss -> Z.of_nat (length (concat (map name_row ss))) = name_bytes ps /\ Z.of_nat (length ss) <= name_bytes ps.
Proof.
  induction ps as [|p ps IH]; intros [|s ss] E; try discriminate; [cbn; lia|]. cbn [map] in E. destruct (cons_eq _ _ _ _ E) as [E1 E2]. destruct (IH ss E2) as [A B].
  change (name_bytes (p :: ps)) with (Z.of_nat (length (mp_name p)) + name_bytes ps). rewrite E1. cbn [map concat length]. unfold name_row at 1, idx_name. rewrite !app_length.
  change (length (bs ".pack")) with 5%nat. change (length (bs ".idx")) with 4%nat. cbn [length]. lia.
Qed.
Lemma padded_length l : Z.of_nat (length (padded l)) <= Z.of_nat (length l) + 3.
Proof. unfold padded. rewrite app_length, repeat_length. pose proof (Nat.mod_upper_bound (4 - length l mod 4) 4 ltac:(lia)). lia. Qed.
Lemma fan_eq es : Forall entry_ok es -> increasing (map me_id es) -> fan_fill 256 0 (map as_pc es) 0 = fan_table (objs_of (map as_pc es)).
Proof.
  intros F Hi. apply fan_fill_table. apply increasing_hsorted.
  - rewrite Forall_forall in *. intros c Hc. apply in_map_iff in Hc as (e & <- & He). apply (F e He).
  - rewrite map_map. exact Hi.
Qed.

Lemma midx_round_trip H packs : (forall b, length (H b) = 20%nat /\ bytes (H b)) -> packs_ok packs -> objects packs <= 268435456 -> name_bytes packs < 4294967290 ->
  exists body f, mx_write H packs = Ok (body ++ H body) /\ mx_parse 20 (body ++ H body) = Ok f /\ m_sum f = H body /\ mx_answers f packs.
Proof.
  intros HH (Hpk & Hnd & Hne) Hobj Hnb. destruct (inserted_any packs (@vinit mpack) eq_refl) as [E1 E2]. change (items (@vinit mpack)) with (@nil mpack) in *. cbn [app] in *.
  destruct (stems packs Hpk) as (ss0 & Es0 & _). destruct (rows_length packs ss0 Es0) as [_ Lss0]. assert (Lp0 : length packs = length ss0) by (rewrite <- (map_length mp_name packs), Es0; apply map_length).
  destruct (sort_any mp_name (fold_left vinsert packs vinit)) as (v & Ev & Sv & _ & Pv).
  { rewrite E1, E2. destruct (Nat.leb_spec (length packs) 1); [right; lia|left; reflexivity]. }
  { rewrite E1. lia. }
  rewrite E1 in Pv. set (ps := items v) in *.
  assert (Hpk' : Forall pack_ok ps) by (apply (Permutation_Forall Pv); exact Hpk).
  assert (Hincp : increasing (map mp_name ps)) by (apply nodup_increasing; [exact Sv|]; apply (Permutation_NoDup (Permutation_map mp_name Pv)); exact Hnd).
  destruct (stems ps Hpk') as (ss & Ess & Fss). assert (Lss : length ss = length ps) by (rewrite <- (map_length mp_name ps), Ess, map_length; reflexivity).
  rewrite Ess in Hincp. pose proof (stems_increasing ss Fss Hincp) as Hinc.
  assert (Fok : Forall name_ok ss) by (eapply Forall_impl; [|exact Fss]; intros a (A1 & A2 & A3 & A4 & A5 & A6); unfold name_ok; auto).
  assert (Fby : Forall bytes ss) by (eapply Forall_impl; [|exact Fss]; intros a (A1 & A2 & A3); exact A2).
  destruct (rows_length ps ss Ess) as [Lrows Lss']. rewrite <- (name_bytes_perm _ _ Pv) in Lrows, Lss'.
  pose proof (entries_length ps 0) as Le. rewrite <- (objects_perm _ _ Pv) in Le.
  destruct (sort_uniq me_id (pack_entries ps 0)) as (w1 & w2 & Ew1 & Ew2 & Hie & Hincl & Hcov & Hlen); [lia|]. set (es := items w2) in *.
  assert (Hin : forall e, In e es -> exists k p, nth_error ps k = Some p /\ me_pack e = Z.of_nat k /\ In (me_id e, me_off e) (mp_objs p)).
  { intros e He. apply Hincl in He. apply entries_in in He as (k & p & A & B & C). exists k, p. split; [exact A|]. split; [lia|exact C]. }
  assert (Hes : Forall entry_ok es).
  { rewrite Forall_forall. intros e He. destruct (Hin e He) as (k & p & A & B & C). assert (Hp : pack_ok p) by (rewrite Forall_forall in Hpk'; apply Hpk'; apply nth_error_In in A; exact A).
    destruct Hp as (_ & Fo). rewrite Forall_forall in Fo. destruct (Fo _ C) as [F1 F2]. cbn [fst snd] in *. assert (k < length ps)%nat by (apply nth_error_Some; congruence).
    split; [exact F1|]. split; [unfold two32; lia|exact F2]. }
  assert (Hpack : forall e, In e es -> me_pack e < Z.of_nat (length (map idx_name ss))).
  { intros e He. destruct (Hin e He) as (k & p & A & B & C). rewrite map_length, Lss. assert (k < length ps)%nat by (apply nth_error_Some; congruence). lia. }
  assert (Hpres : forall id, present packs id <-> exists e, In e es /\ me_id e = id).
  { intros id. split.
    - intros (p & off & Hp & Ho). apply (Permutation_in _ Pv) in Hp. apply In_nth_error in Hp as (k & Hk).
      destruct (Hcov (mkme id (Z.of_nat k) off)) as (d & Hd & Ed); [apply entries_in; exists k, p; auto|]. exists d. split; [exact Hd|exact Ed].
    - intros (e & He & <-). destruct (Hin e He) as (k & p & A & B & C). exists p, (me_off e). split; [|exact C]. apply (Permutation_in _ (Permutation_sym Pv)). apply nth_error_In in A. exact A. }
  assert (Hn : 1 <= Z.of_nat (length es) <= 268435456).
  { split; [|lia]. destruct Hne as (p & Hp & Hop). destruct (mp_objs p) as [|[id off] r] eqn:Eo; [congruence|].
    destruct (proj1 (Hpres id)) as (e & He & _); [exists p, off; split; [exact Hp|rewrite Eo; left; reflexivity]|]. destruct es; [destruct He|cbn; lia]. }
  pose proof (padded_length (concat (map name_row ss))) as Lpad.
  set (body := mx_body (Z.of_nat (length (map idx_name ss))) (padded (concat (map name_row ss))) (fan_table (objs_of (map as_pc es))) (concat (map me_id es)) (fst (off_tables es 0)) (snd (off_tables es 0))).
  destruct (HH body) as [Ls Bs]. exists body, (wfile ss es (H body)).
  assert (HPb : Z.of_nat (length (padded (concat (map name_row ss)))) < 4294967296) by lia.
  assert (Hnpk : Z.of_nat (length (map idx_name ss)) < two32) by (rewrite map_length; unfold two32; lia).
  split; [|split; [|split; [reflexivity|]]].
  - unfold mx_write. change mp_cmp with (kcmp mp_name). rewrite Ev. cbn [bindr]. fold ps. rewrite (pack_names_spec ps ss Ess Fok). cbn [bindr]. change me_cmp with (kcmp me_id). rewrite Ew1. cbn [bindr]. rewrite Ew2. cbn [bindr]. fold es.
    rewrite (fan_eq es Hes Hie). unfold body. rewrite map_length, Lss. destruct (off_tables es 0) as [o l]. reflexivity.
  - apply W_parse; assumption.
  - set (f := wfile ss es (H body)).
    assert (Find : forall vs q, query vs q -> mx_find f q (length vs) = match lookup_spec (objs_of (map as_pc es)) vs with NotFound => Err (-3) | Found o => mx_entry f (snd o) | Ambiguous => Err (-5) end)
      by (intros; apply W_find; assumption).
    assert (Ent : forall i e, nth_error es i = Some e -> mx_entry f (Z.of_nat i) = Ok e) by (intros; apply W_entry; assumption).
    assert (Inv : forall i o, nth_error (objs_of (map as_pc es)) i = Some o -> exists e, nth_error es i = Some e /\ o = (me_id e, Z.of_nat i)) by (intros i o Hi; apply (W_objs_inv ss es (H body)); assumption).
    assert (Right : forall e, In e es -> right f packs e).
    { intros e He. destruct (Hin e He) as (k & p & A & B & C). assert (Hs : exists s, nth_error ss k = Some s /\ mp_name p = s ++ bs ".pack").
      { pose proof (map_nth_error mp_name _ _ A) as M. rewrite Ess in M. destruct (nth_error ss k) as [s|] eqn:Ek.
        - exists s. split; [reflexivity|]. rewrite (map_nth_error _ _ _ Ek) in M. apply ShortenProofs.Some_inj in M. symmetry. exact M.
        - apply nth_error_None in Ek. assert (k < length ps)%nat by (apply nth_error_Some; congruence). lia. }
      destruct Hs as (s & Hs & En). exists p, s. split; [apply (Permutation_in _ (Permutation_sym Pv)); apply nth_error_In in A; exact A|]. split; [exact En|]. split; [lia|].
      split; [|exact C]. rewrite B, Nat2Z.id. change (m_packs f) with (map idx_name ss). apply (map_nth_error idx_name). exact Hs. }
    assert (Uniq : forall a b, In a es -> In b es -> me_id a = me_id b -> a = b).
    { intros a b Ha Hb E. apply In_nth_error in Ha as (i & Hi). apply In_nth_error in Hb as (j & Hj). destruct (Nat.lt_trichotomy i j) as [L|[L|L]]; [|subst j; congruence|]; exfalso;
        [pose proof (increasing_nth _ Hie i j _ _ L (map_nth_error me_id _ _ Hi) (map_nth_error me_id _ _ Hj)) as X|pose proof (increasing_nth _ Hie j i _ _ L (map_nth_error me_id _ _ Hj) (map_nth_error me_id _ _ Hi)) as X]; rewrite E, lex_refl in X; discriminate. }
    assert (Matches : forall vs o, In o (filter (starts_with vs) (objs_of (map as_pc es))) -> exists i e, nth_error es i = Some e /\ o = (me_id e, Z.of_nat i) /\ begins vs (me_id e)).
    { intros vs o Ho. apply filter_In in Ho as [Ho Hst]. apply In_nth_error in Ho as (i & Hi). destruct (Inv i o Hi) as (e & He & ->). exists i, e. split; [exact He|]. split; [reflexivity|]. apply starts_spec in Hst. exact Hst. }
    assert (Matches' : forall vs e, In e es -> begins vs (me_id e) -> exists j, nth_error es j = Some e /\ In (me_id e, Z.of_nat j) (filter (starts_with vs) (objs_of (map as_pc es)))).
    { intros vs e He Hb. apply In_nth_error in He as (j & Hj). exists j. split; [exact Hj|]. apply filter_In. split; [|apply starts_spec; exact Hb]. apply (nth_error_In _ j). apply (objs_nth (map as_pc es) j (as_pc e)). apply map_nth_error. exact Hj. }
    assert (Answer : forall vs q, query vs q -> match mx_find f q (length vs) with
       | Ok e => In e es /\ begins vs (me_id e) /\ (forall d, In d es -> begins vs (me_id d) -> d = e)
       | Err x => (x = -3 /\ forall d, In d es -> ~ begins vs (me_id d)) \/ (x = -5 /\ exists a b, In a es /\ In b es /\ me_id a <> me_id b /\ begins vs (me_id a) /\ begins vs (me_id b))
       | _ => False end).
    { intros vs q Hq. rewrite (Find vs q Hq). unfold lookup_spec. pose proof (Matches vs) as MA. pose proof (Matches' vs) as MB.
      assert (NDf : NoDup (filter (starts_with vs) (objs_of (map as_pc es)))).
      { apply NoDup_filter. apply (NoDup_map_inv fst). rewrite objs_fst. apply increasing_nodup. rewrite map_map. exact Hie. }
      destruct (filter (starts_with vs) (objs_of (map as_pc es))) as [|o [|o2 r]].
      - left. split; [reflexivity|]. intros d Hd Hb. destruct (MB d Hd Hb) as (j & _ & []).
      - destruct (MA o (or_introl eq_refl)) as (i & e & Hi & -> & Hb). cbn [snd]. rewrite (Ent i e Hi). split; [apply nth_error_In in Hi; exact Hi|]. split; [exact Hb|].
        intros d Hd Hbd. destruct (MB d Hd Hbd) as (j & Hj & [Ej|[]]). apply Uniq; [exact Hd|apply nth_error_In in Hi; exact Hi|]. congruence.
      - right. split; [reflexivity|]. destruct (MA o (or_introl eq_refl)) as (i & a & Hi & -> & Hb). destruct (MA o2 (or_intror (or_introl eq_refl))) as (j & b & Hj & -> & Hb2).
        exists a, b. split; [apply nth_error_In in Hi; exact Hi|]. split; [apply nth_error_In in Hj; exact Hj|]. split; [|auto].
        inversion_clear NDf as [|? ? Hx _]. intros Eab. apply Hx. left. assert (Eq : a = b) by (apply Uniq; [apply nth_error_In in Hi; exact Hi|apply nth_error_In in Hj; exact Hj|exact Eab]). subst b.
        assert (Eij : i = j); [|subst j; reflexivity]. destruct (Nat.lt_trichotomy i j) as [L|[L|L]]; [|exact L|]; exfalso;
          [pose proof (increasing_nth _ Hie i j _ _ L (map_nth_error me_id _ _ Hi) (map_nth_error me_id _ _ Hj)) as X|pose proof (increasing_nth _ Hie j i _ _ L (map_nth_error me_id _ _ Hj) (map_nth_error me_id _ _ Hi)) as X]; rewrite lex_refl in X; discriminate. }
    split; [|split].
    + intros id Hid. apply Hpres in Hid as (e & He & <-). exists e. split; [|split; [reflexivity|apply Right; exact He]].
      assert (Hoid : oid_ok 20 (me_id e)) by (rewrite Forall_forall in Hes; apply (Hes e He)).
      assert (Ln : length (nibbles (me_id e)) = 40%nat) by (rewrite nibbles_length; destruct Hoid as [L _]; lia).
      assert (Q : query (nibbles (me_id e)) (me_id e)) by (split; [exact Hoid|]; split; [lia|]; rewrite Ln; cbn [Nat.sub repeat]; symmetry; apply app_nil_r).
      assert (Hbg : begins (nibbles (me_id e)) (me_id e)) by (unfold begins; apply firstn_all).
      pose proof (Answer _ _ Q) as A. rewrite Ln in A. destruct (mx_find f (me_id e) 40) as [d|x| |].
      * f_equal. destruct A as (_ & _ & A). symmetry. apply A; assumption.
      * exfalso. destruct A as [[_ A]|[_ (a & b & Ha & Hb & Hab & Hba & Hbb)]]; [apply (A e He Hbg)|]. apply Hab. unfold begins in *. rewrite Ln in *.
        assert (F : forall c, In c es -> firstn 40 (nibbles (me_id c)) = nibbles (me_id c)).
        { intros c Hc. apply firstn_all2. rewrite nibbles_length. rewrite Forall_forall in Hes. destruct (Hes c Hc) as ([L _] & _). lia. }
        rewrite (F a Ha) in Hba. rewrite (F b Hb) in Hbb. rewrite Forall_forall in Hes. apply nibbles_inj; [apply (Hes a Ha)|apply (Hes b Hb)|congruence].
      * destruct A.
      * destruct A.
    + intros vs q Hq. pose proof (Answer vs q Hq) as A. destruct (mx_find f q (length vs)) as [e|x| |]; try exact A.
      * destruct A as (A1 & A2 & A3). split; [exact A2|]. split; [apply Right; exact A1|]. intros id Hid Hb. apply Hpres in Hid as (d & Hd & <-). rewrite (A3 d Hd Hb). reflexivity.
      * destruct A as [[-> A]|[-> (a & b & Ha & Hb & Hab & Hba & Hbb)]]; [left|right].
        -- split; [reflexivity|]. intros id Hid Hb. apply Hpres in Hid as (d & Hd & <-). apply (A d Hd Hb).
        -- split; [reflexivity|]. exists (me_id a), (me_id b). split; [apply Hpres; eauto|]. split; [apply Hpres; eauto|]. auto.
    + exists (map me_id es). split; [apply W_foreach; assumption|]. split; [exact Hie|]. intros id. rewrite Hpres, in_map_iff. split; intros (e & A & B); exists e; auto.
Qed.
