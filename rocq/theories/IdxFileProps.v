(** C12: the index file. *)
From Verif Require Import Base Arr TsortSpec VectorModel VectorProofs WildModel IndexModel IndexSpec IndexProofs VarintModel VarintSpec VarintProofs VarintProps
  IdxFileModel IdxFileSpec IdxFileProofs IdxFileMain.

(** *** Whole file *)
Lemma parse_exts_write ext_ok osz xs : (1 <= osz)%nat -> forall t fuel, Forall (good_ext ext_ok) xs -> length t = S osz -> (length xs < fuel)%nat ->
  parse_exts fuel ext_ok osz (concat (map write_ext xs) ++ t) (Z.of_nat (length (concat (map write_ext xs) ++ t)) - 1) = Ok (xs, t, Z.of_nat osz).
Proof.
  intros H1. induction xs as [|[sig data] xs IH]; intros t [|f] G Ht Hf; cbn [length] in Hf; try lia.
  - cbn [map concat app parse_exts]. destruct (Z.ltb_spec (Z.of_nat osz) (Z.of_nat (length t) - 1)); [lia|]. do 2 f_equal. lia.
  - inversion_clear G as [|? ? Ge Gs]. destruct Ge as (L4 & Hsig & Hok & Hlen). cbn [fst snd] in *.
    cbn [map concat]. unfold write_ext at 1 3. cbn [fst snd]. rewrite <- !app_assoc. set (rest := concat (map write_ext xs) ++ t).
    assert (Lr : (S osz <= length rest)%nat) by (unfold rest; rewrite app_length; lia).
    assert (Ltot : length (sig ++ be 4 (Z.of_nat (length data)) ++ data ++ rest) = (8 + length data + length rest)%nat) by (rewrite !app_length, be_length; lia).
    rewrite Ltot. cbn [parse_exts]. destruct (Z.ltb_spec (Z.of_nat osz) (Z.of_nat (8 + length data + length rest) - 1)); [|lia].
    unfold read_extension. rewrite rdn_ok by lia. cbn [bindr]. rewrite !sub_sub by lia.
    replace (sub (sig ++ be 4 (Z.of_nat (length data)) ++ data ++ rest) 0 4) with sig by (symmetry; apply (sub_mid [] sig); [reflexivity|exact L4]).
    replace (sub (sig ++ be 4 (Z.of_nat (length data)) ++ data ++ rest) 4 4) with (be 4 (Z.of_nat (length data))) by (symmetry; apply sub_mid; [exact L4|apply be_length]).
    rewrite unbe_be by (change (256 ^ Z.of_nat 4) with 4294967296; lia).
    destruct (Z.ltb_spec (Z.of_nat (8 + length data + length rest) - 1) (Z.of_nat (length data) + 8)); [lia|].
    destruct (Z.ltb_spec (Z.of_nat (8 + length data + length rest) - 1 - (Z.of_nat (length data) + 8)) (Z.of_nat osz)); [lia|]. cbn [orb].
    destruct (Z.leb_spec 65 (nth 0 sig 0)); [|lia]. destruct (Z.leb_spec (nth 0 sig 0) 90); [|lia]. cbn [andb].
    rewrite rdn_ok by lia. rewrite Nat2Z.id. cbn [bindr].
    replace (sub (sig ++ be 4 (Z.of_nat (length data)) ++ data ++ rest) 8 (length data)) with data.
    2:{ rewrite app_assoc. symmetry. apply sub_mid; [rewrite app_length, be_length; lia|reflexivity]. }
    rewrite Hok. cbn [bindr]. unfold seek. destruct (Z.leb_spec (Z.of_nat (8 + length data + length rest) - 1) (Z.of_nat (length data) + 8)); [lia|]. cbn [bindr].
    replace (skipn (Z.to_nat (Z.of_nat (length data) + 8)) (sig ++ be 4 (Z.of_nat (length data)) ++ data ++ rest)) with rest.
    2:{ replace (sig ++ be 4 (Z.of_nat (length data)) ++ data ++ rest) with ((sig ++ be 4 (Z.of_nat (length data)) ++ data) ++ rest) by (rewrite <- !app_assoc; reflexivity).
        replace (Z.to_nat (Z.of_nat (length data) + 8)) with (length (sig ++ be 4 (Z.of_nat (length data)) ++ data)) by (rewrite !app_length, be_length; lia).
        rewrite skipn_app, skipn_all, Nat.sub_diag. reflexivity. }
    replace (Z.of_nat (8 + length data + length rest) - 1 - (Z.of_nat (length data) + 8)) with (Z.of_nat (length rest) - 1) by lia.
    unfold rest. rewrite IH by (assumption || lia). reflexivity.
Qed.

Lemma sorted_perm_unique {A} (cmp : A -> A -> Z) : cmp_ok cmp -> forall l l', sorted cmp l -> sorted cmp l' -> Permutation l l' ->
  (forall a b, In a l -> In b l -> cmp a b = 0 -> a = b) -> l = l'.
Proof.
  intros Hc. induction l as [|x l IH]; intros l' S S' P U.
  - apply Permutation_nil in P. congruence.
  - destruct l' as [|x' l']; [apply Permutation_sym, Permutation_nil in P; discriminate|].
    destruct S as [S1 S2]. destruct S' as [S1' S2'].
    assert (x = x').
    { assert (Hx : In x (x' :: l')) by (eapply Permutation_in; [exact P|left; reflexivity]).
      assert (Hx' : In x' (x :: l)) by (eapply Permutation_in; [apply Permutation_sym, P|left; reflexivity]).
      destruct Hx as [->|Hx]; [reflexivity|]. destruct Hx' as [->|Hx']; [reflexivity|].
      apply U; [left; reflexivity|right; exact Hx'|]. specialize (S1 x' Hx'). specialize (S1' x Hx).
      assert (Hanti := cmp_sym cmp Hc x x'). lia. }
    subst x'. f_equal. apply Permutation_cons_inv in P. apply IH; auto. intros a b Ha Hb. apply U; right; assumption.
Qed.

(** Reading back what the loop over a given list wrote. *)
Definition assemble (H : list Z -> list Z) (number count : Z) (body : list Z) (exts : list (list Z * list Z)) : list Z :=
  let contents := be 4 SIG ++ be 4 number ++ be 4 count ++ body ++ concat (map write_ext exts) in contents ++ H contents.
Lemma leq_refl l : leq l l = true.
Proof. unfold leq. destruct (list_eq_dec Z.eq_dec l l); [reflexivity|contradiction]. Qed.

Section Whole.
  Variables (H : list Z -> list Z) (path_ok : list Z -> bool) (ext_ok : list Z -> list Z -> bool) (osz : nat).
  Hypothesis Hosz : (2 <= osz)%nat /\ Z.of_nat osz < 65536.
  Hypothesis HH : forall l, length (H l) = osz.

  Lemma sub_first (a b : list Z) n : length a = n -> sub (a ++ b) 0 n = a.
  Proof. apply (sub_mid [] a b 0 n eq_refl). Qed.
  Lemma parse_assembled ic number es exts body :
    2 <= number <= 4 -> Forall (good path_ok osz) es -> Forall (fits number) es -> Z.of_nat (length es) < 4294967296 -> Forall (good_ext ext_ok) exts ->
    write_loop osz number es (if 4 <=? number then Some [] else None) = Ok body ->
    parse_index H path_ok ext_ok osz ic (assemble H number (Z.of_nat (length es)) body exts) =
      (do v <- vsort (dcmp ic) (mkvec (map disk_form es) (negb ic)) ;; Ok (number, v, exts)).
  Proof.
    intros Hn G F Hlen GX Ew. unfold assemble. set (contents := be 4 SIG ++ be 4 number ++ be 4 (Z.of_nat (length es)) ++ body ++ concat (map write_ext exts)).
    cbv zeta. assert (Lc : length contents = (12 + length body + length (concat (map write_ext exts)))%nat) by (unfold contents; rewrite !app_length, !be_length; lia).
    assert (Lf : length (contents ++ H contents) = (12 + length body + length (concat (map write_ext exts)) + osz)%nat) by (rewrite app_length, Lc, HH; lia).
    unfold parse_index. rewrite Lf. destruct (Z.ltb_spec (Z.of_nat (12 + length body + length (concat (map write_ext exts)) + osz)) (12 + Z.of_nat osz)); [lia|].
    cbv zeta.
    replace (firstn (12 + length body + length (concat (map write_ext exts)) + osz - osz) (contents ++ H contents)) with contents.
    2:{ replace (12 + length body + length (concat (map write_ext exts)) + osz - osz)%nat with (length contents) by lia. rewrite firstn_app, firstn_all, Nat.sub_diag, firstn_O, app_nil_r. reflexivity. }
    set (cs := H contents) in *. rewrite rdn_ok by (rewrite app_length, Lf; lia). cbn [bindr]. rewrite !sub_sub by lia.
    assert (Em : (contents ++ cs) ++ [0] = be 4 SIG ++ be 4 number ++ be 4 (Z.of_nat (length es)) ++ (body ++ (concat (map write_ext exts) ++ (cs ++ [0])))) by (unfold contents; rewrite <- !app_assoc; reflexivity).
    rewrite Em.
    rewrite (sub_first (be 4 SIG)) by apply be_length. rewrite unbe_be by (unfold SIG; cbn; lia). rewrite Z.eqb_refl. cbn [negb].
    rewrite (sub_mid (be 4 SIG) (be 4 number)) by apply be_length. rewrite unbe_be by (change (256 ^ Z.of_nat 4) with 4294967296; lia).
    rewrite (app_assoc (be 4 SIG)). rewrite (sub_mid (be 4 SIG ++ be 4 number) (be 4 (Z.of_nat (length es)))) by (apply be_length || (rewrite app_length, !be_length; reflexivity)).
    rewrite unbe_be by (change (256 ^ Z.of_nat 4) with 4294967296; lia).
    destruct (Z.ltb_spec number 2); [lia|]. destruct (Z.ltb_spec 4 number); [lia|]. cbn [orb].
    unfold seek at 1. destruct (Z.leb_spec (Z.of_nat (12 + length body + length (concat (map write_ext exts)) + osz)) 12); [lia|]. cbn [bindr].
    replace (skipn (Z.to_nat 12) ((be 4 SIG ++ be 4 number) ++ be 4 (Z.of_nat (length es)) ++ body ++ concat (map write_ext exts) ++ cs ++ [0])) with (body ++ (concat (map write_ext exts) ++ (cs ++ [0]))).
    2:{ replace ((be 4 SIG ++ be 4 number) ++ be 4 (Z.of_nat (length es)) ++ body ++ concat (map write_ext exts) ++ cs ++ [0]) with (((be 4 SIG ++ be 4 number) ++ be 4 (Z.of_nat (length es))) ++ (body ++ concat (map write_ext exts) ++ cs ++ [0])) by (rewrite <- !app_assoc; reflexivity).
        replace (Z.to_nat 12) with (length ((be 4 SIG ++ be 4 number) ++ be 4 (Z.of_nat (length es)))) by (rewrite !app_length, !be_length; reflexivity).
        rewrite skipn_app, skipn_all, Nat.sub_diag. reflexivity. }
    assert (Lt : length (cs ++ [0]) = S osz) by (rewrite app_length; unfold cs; rewrite HH; cbn; lia).
    set (tail := concat (map write_ext exts) ++ cs ++ [0]).
    assert (Ltail : length tail = (length (concat (map write_ext exts)) + S osz)%nat) by (unfold tail; rewrite app_length, Lt; reflexivity).
    replace (Z.of_nat (12 + length body + length (concat (map write_ext exts)) + osz) - 12) with (Z.of_nat (length (body ++ tail)) - 1) by (rewrite app_length, Ltail; lia).
    assert (Hes : (length es <= length body)%nat).
    { clear - Ew G Hosz. assert (forall es last body, Forall (good path_ok osz) es -> write_loop osz number es last = Ok body -> (length es <= length body)%nat).
      { induction es0 as [|e es0 IH]; intros last body0 G0 E; cbn [write_loop] in E; [cbn; lia|]. inversion_clear G0 as [|? ? Ge Gs].
        destruct (write_disk_entry osz e last) as [b0| | |] eqn:E0; cbn [bindr] in E; try discriminate. destruct (write_loop osz number es0 _) as [b1| | |] eqn:E1; cbn [bindr] in E; try discriminate. injection E as <-.
        apply IH in E1; [|exact Gs]. assert (L0 := write_entry_length path_ok osz Hosz e last b0 (good_stat path_ok osz e Ge) (proj1 (proj2 Ge)) E0). rewrite app_length. cbn [length]. lia. }
      eauto. }
    assert (Hx : (length exts <= length (concat (map write_ext exts)))%nat).
    { clear. induction exts as [|x xs IH]; cbn [map concat length]; [lia|]. rewrite app_length. unfold write_ext at 1. rewrite !app_length, be_length. lia. }
    assert (HPW := parse_write path_ok osz Hosz number es [] [] body tail (S (12 + length body + length (concat (map write_ext exts)) + osz)) G F ltac:(cbn; lia) Ew ltac:(rewrite Ltail; lia) ltac:(lia) ltac:(destruct (4 <=? number); auto)).
    rewrite HPW. cbn [bindr]. unfold tail.
    rewrite parse_exts_write; [|lia|exact GX|exact Lt|lia]. cbn [bindr]. rewrite Z.eqb_refl. cbn [negb].
    rewrite rdn_ok by (rewrite Lt; lia). cbn [bindr].
    replace (sub (cs ++ [0]) 0 osz) with cs by (symmetry; apply (sub_mid [] cs); [reflexivity|unfold cs; apply HH]). rewrite leq_refl. rewrite andb_false_r. reflexivity.
  Qed.
End Whole.

(** *** Flags *)
Ltac bits := apply Z.bits_inj'; let n := fresh "n" in let Hn := fresh in intros n Hn;
  repeat rewrite ?Z.land_spec, ?Z.lor_spec, ?Z.ldiff_spec, ?Z.bits_0; repeat match goal with |- context [Z.testbit ?a ?b] => destruct (Z.testbit a b) eqn:? end; try reflexivity.
Lemma below16 x : 0 <= x -> (x < 65536 <-> Z.log2 x < 16).
Proof.
  intros H. destruct (Z.eq_dec x 0) as [->|]; [cbn; lia|]. change 65536 with (2 ^ 16). split; intros K; apply Z.log2_lt_pow2; lia || assumption.
Qed.
Lemma fix_extended_flags e : Z.ldiff (d_flags (fix_extended e)) 16384 = Z.ldiff (d_flags e) 16384.
Proof. unfold fix_extended, EXTENDED. destruct (_ =? 0); cbn [d_flags]; bits. Qed.
Lemma land_disjoint x m : Z.land m 16384 = 0 -> Z.land x m = Z.land (Z.ldiff x 16384) m.
Proof.
  intros H. apply Z.bits_inj'. intros n Hn. rewrite !Z.land_spec, Z.ldiff_spec. assert (K := f_equal (fun z => Z.testbit z n) H). cbn beta in K. rewrite Z.land_spec, Z.bits_0 in K.
  destruct (Z.testbit x n), (Z.testbit m n), (Z.testbit 16384 n); cbn in *; congruence.
Qed.
Lemma same_mask x y m : Z.ldiff x 16384 = Z.ldiff y 16384 -> Z.land m 16384 = 0 -> Z.land x m = Z.land y m.
Proof. intros E H. rewrite (land_disjoint x m H), (land_disjoint y m H), E. reflexivity. Qed.
Lemma fix_extended_range e : 0 <= d_flags e < 65536 -> 0 <= d_flags (fix_extended e) < 65536.
Proof.
  intros H. assert (H1 : 0 <= Z.ldiff (d_flags e) EXTENDED) by (apply Z.ldiff_nonneg; left; lia).
  assert (Q : d_flags e = Z.land (d_flags e) EXTENDED + Z.ldiff (d_flags e) EXTENDED).
  { rewrite Z.add_nocarry_lxor by bits. apply Z.bits_inj'. intros n Hn. rewrite Z.lxor_spec, Z.land_spec, Z.ldiff_spec. destruct (Z.testbit (d_flags e) n), (Z.testbit EXTENDED n); reflexivity. }
  assert (0 <= Z.land (d_flags e) EXTENDED) by (apply Z.land_nonneg; left; lia).
  assert (H2 : Z.log2 (Z.ldiff (d_flags e) EXTENDED) < 16) by (apply below16; lia).
  unfold fix_extended. destruct (_ =? 0); cbn [d_flags].
  - split; [exact H1|]. apply below16; assumption.
  - assert (0 <= Z.lor (Z.ldiff (d_flags e) EXTENDED) EXTENDED) by (apply Z.lor_nonneg; split; [exact H1|unfold EXTENDED; lia]). split; [assumption|]. apply below16; [assumption|].
    rewrite Z.log2_lor by (exact H1 || (unfold EXTENDED; lia)). change (Z.log2 EXTENDED) with 14. lia.
Qed.
Lemma fix_extended_good path_ok osz e : good path_ok osz e -> good path_ok osz (fix_extended e).
Proof.
  intros (H1 & H2 & H3 & H4 & H5 & H6 & H7 & H8). assert (R := fix_extended_range e H4). assert (F := fix_extended_flags e).
  assert (d_stat (fix_extended e) = d_stat e /\ d_id (fix_extended e) = d_id e /\ d_ext (fix_extended e) = d_ext e /\ d_path (fix_extended e) = d_path e) as (E1 & E2 & E3 & E4) by (unfold fix_extended; destruct (_ =? 0); cbn; auto).
  unfold good. rewrite E1, E2, E3, E4. rewrite (same_mask _ (d_flags e) 4095 F eq_refl). auto 10.
Qed.
Lemma fix_extended_bit e : extended (d_flags (fix_extended e)) = negb (Z.land (d_ext e) EXT_FLAGS =? 0).
Proof.
  unfold fix_extended, extended. destruct (Z.land (d_ext e) EXT_FLAGS =? 0); cbn [d_flags negb].
  - assert (Z.land (Z.ldiff (d_flags e) EXTENDED) EXTENDED = 0) as -> by bits. reflexivity.
  - assert (Z.land (Z.lor (Z.ldiff (d_flags e) EXTENDED) EXTENDED) EXTENDED = EXTENDED) as -> by bits. reflexivity.
Qed.

(** The entries as written by the given version. *)
Definition prepared (version : Z) (e : dentry) : dentry := if version <=? 3 then fix_extended e else e.
Definition keeps_ext (version : Z) (e : dentry) : Prop :=
  4 <= version -> Z.land (d_ext e) 24576 <> 0 -> Z.land (d_flags e) 16384 <> 0.
Lemma prepared_saved version e : keeps_ext version e -> saved e (disk_form (prepared version e)).
Proof.
  intros K. unfold prepared. destruct (Z.leb_spec version 3) as [H|H].
  - assert (d_stat (fix_extended e) = d_stat e /\ d_id (fix_extended e) = d_id e /\ d_ext (fix_extended e) = d_ext e /\ d_path (fix_extended e) = d_path e) as (E1 & E2 & E3 & E4) by (unfold fix_extended; destruct (_ =? 0); cbn; auto).
    unfold saved, disk_form. cbn [d_path d_id d_stat d_flags d_ext]. rewrite E1, E2, E3, E4, fix_extended_bit, fix_extended_flags. repeat (split; [reflexivity|]).
    unfold EXT_FLAGS in *. destruct (Z.eqb_spec (Z.land (d_ext e) 24576) 0) as [Hz|]; cbn [negb]; congruence.
  - unfold saved, disk_form. cbn. repeat (split; [reflexivity|]). unfold extended, EXTENDED, EXT_FLAGS in *. destruct (Z.eqb_spec (Z.land (d_flags e) 16384) 0) as [Hz|]; cbn [negb]; [|reflexivity].
    destruct (Z.eq_dec (Z.land (d_ext e) 24576) 0) as [->|N]; [reflexivity|]. exfalso. apply K; [lia|exact N|exact Hz].
Qed.
Definition number_of (version : Z) (es : list dentry) : Z := if version <=? 3 then (if is_extended es then 3 else 2) else version.
Lemma map_prepared version es : (if version <=? 3 then map fix_extended es else es) = map (prepared version) es.
Proof. unfold prepared. destruct (version <=? 3); [reflexivity|]. symmetry. apply map_id. Qed.
Definition path_fits (version : Z) (e : dentry) : Prop :=
  if 4 <=? version then Z.of_nat (length (d_path e)) < 4096 else Z.of_nat (length (d_path e)) < 1152921504606846976.
Lemma prepared_path version e : d_path (prepared version e) = d_path e.
Proof. unfold prepared, fix_extended. destruct (_ <=? 3); [destruct (_ =? 0)|]; reflexivity. Qed.
Lemma prepared_all version path_ok osz es : 2 <= version <= 4 -> Forall (good path_ok osz) es -> Forall (path_fits version) es ->
  2 <= number_of version es <= 4 /\ Forall (good path_ok osz) (map (prepared version) es) /\ Forall (fits (number_of version es)) (map (prepared version) es).
Proof.
  intros Hv G F. split; [unfold number_of; destruct (_ <=? 3), (is_extended es); lia|]. split.
  - apply Forall_map. eapply Forall_impl; [|exact G]. intros e He. unfold prepared. destruct (_ <=? 3); [apply fix_extended_good, He|exact He].
  - apply Forall_map. eapply Forall_impl; [|exact F]. intros e He. unfold fits, path_fits, small, number_of in *. rewrite prepared_path.
    destruct (Z.leb_spec version 3).
    + destruct (Z.leb_spec 4 version); [lia|]. destruct (is_extended es); exact He.
    + destruct (Z.leb_spec 4 version); [exact He|lia].
Qed.
Lemma Forall2_saved version es : Forall (keeps_ext version) es -> Forall2 saved es (map disk_form (map (prepared version) es)).
Proof. induction 1; cbn [map]; constructor; auto. apply prepared_saved. assumption. Qed.

Definition params_ok (H : list Z -> list Z) (osz : nat) : Prop := (osz = 20%nat \/ osz = 32%nat) /\ forall l, length (H l) = osz.

(** Writing an index succeeds, and reading the file gives the same entries in
    the same order and the same extensions, for every version. *)
Theorem C12_roundtrip H path_ok ext_ok osz version es exts :
  params_ok H osz -> 2 <= version <= 4 ->
  Forall (good path_ok osz) es -> Forall (path_fits version) es -> Forall (keeps_ext version) es ->
  Z.of_nat (length es) < 4294967296 -> Forall (good_ext ext_ok) exts ->
  exists file es', write_index H osz false version es exts = Ok file /\
    parse_index H path_ok ext_ok osz false file = Ok (number_of version es, mkvec es' true, exts) /\
    Forall2 saved es es'.
Proof.
  intros [Ho HH] Hv G F K Hlen GX. assert (Hosz : (2 <= osz)%nat /\ Z.of_nat osz < 65536) by lia.
  destruct (prepared_all version path_ok osz es Hv G F) as (Hn & G' & F').
  destruct (write_loop_ok path_ok osz Hosz (number_of version es) (map (prepared version) es) [] F' ltac:(cbn; lia)) as [body Eb]. unfold next_last in Eb.
  unfold write_index. fold (number_of version es). rewrite map_prepared. unfold write_entries. cbn [bindr items]. rewrite Eb. cbn [bindr].
  rewrite Z.mod_small by (unfold two32; lia). eexists. exists (map disk_form (map (prepared version) es)). split; [reflexivity|]. split.
  - assert (P := parse_assembled H path_ok ext_ok osz Hosz HH false (number_of version es) (map (prepared version) es) exts body Hn G' F' ltac:(rewrite map_length; lia) GX Eb).
    unfold assemble in P. rewrite map_length in P. cbv zeta in P. rewrite P. unfold vsort. cbn [flag negb bindr]. reflexivity.
  - apply Forall2_saved, K.
Qed.

Lemma Ok_inj {A} (a b : A) : Ok a = Ok b -> a = b.
Proof. congruence. Qed.
Lemma dcmp_ok ic : cmp_ok (dcmp ic).
Proof. unfold dcmp. split; intros; [apply (cmp_sym _ (ecmp_ok ic))|eapply (cmp_trans _ (ecmp_ok ic)); eauto]. Qed.
Lemma stage_form version e : toe (disk_form (prepared version e)) = toe e.
Proof.
  unfold toe. cbn [disk_form d_path]. rewrite prepared_path. f_equal. unfold d_stage. cbn [disk_form d_flags]. f_equal.
  apply same_mask; [|reflexivity]. unfold prepared. destruct (_ <=? 3); [apply fix_extended_flags|reflexivity].
Qed.

(** An index that ignores case is written sorted by bytes and sorted again when
    read: the entries come back in the order they had. *)
Theorem C12_roundtrip_ignore_case H path_ok ext_ok osz version es exts file v n xs :
  params_ok H osz -> 2 <= version <= 4 ->
  Forall (good path_ok osz) es -> Forall (path_fits version) es -> Forall (keeps_ext version) es ->
  Z.of_nat (length es) < 4294967296 -> Forall (good_ext ext_ok) exts ->
  ordered true (map toe es) ->
  write_index H osz true version es exts = Ok file ->
  parse_index H path_ok ext_ok osz true file = Ok (n, v, xs) ->
  n = number_of version es /\ xs = exts /\ Forall2 saved es (items v).
Proof.
  intros [Ho HH] Hv G F K Hlen GX Hord Ew Ep. assert (Hosz : (2 <= osz)%nat /\ Z.of_nat osz < 65536) by lia.
  destruct (prepared_all version path_ok osz es Hv G F) as (Hn & G' & F').
  unfold write_index in Ew. fold (number_of version es) in Ew. rewrite map_prepared in Ew. unfold write_entries in Ew.
  destruct (vsort (dcmp false) _) as [w| | |] eqn:Es; cbn [bindr] in Ew; try discriminate.
  destruct (vsort_spec (dcmp false) (dcmp_ok false) (mkvec (map (prepared version) es) false) w ltac:(intros F0; cbn in F0; discriminate F0) Es) as (_ & _ & _ & Pw & _). cbn [items] in Pw.
  destruct (write_loop _ _ _ _) as [body| | |] eqn:Eb; cbn [bindr] in Ew; try discriminate. apply Ok_inj in Ew. subst file.
  rewrite (Z.mod_small (Z.of_nat (length es)) two32) in Ep by (unfold two32; lia).
  assert (Lw : length es = length (items w)) by (rewrite <- (Permutation_length Pw), map_length; reflexivity).
  assert (Gw : Forall (good path_ok osz) (items w)) by (eapply Permutation_Forall; eassumption). assert (Fw : Forall (fits (number_of version es)) (items w)) by (eapply Permutation_Forall; eassumption).
  assert (P := parse_assembled H path_ok ext_ok osz Hosz HH true (number_of version es) (items w) exts body Hn Gw Fw ltac:(lia) GX Eb).
  unfold assemble in P. rewrite <- Lw in P. cbv zeta in P. cbv zeta in Ep; fold (number_of version es) in Ep; rewrite P in Ep. cbn [negb] in Ep.
  destruct (vsort (dcmp true) _) as [v'| | |] eqn:Ev; cbn [bindr] in Ep; try discriminate. injection Ep as <- <- <-.
  destruct (vsort_spec (dcmp true) (dcmp_ok true) (mkvec (map disk_form (items w)) false) v' ltac:(intros F0; cbn in F0; discriminate F0) Ev) as (Sv & _ & _ & Pv & _). cbn [items] in Pv.
  split; [reflexivity|]. split; [reflexivity|].
  assert (map disk_form (map (prepared version) es) = items v') as <-; [|apply Forall2_saved, K].
  assert (Hkeys : map toe (map disk_form (map (prepared version) es)) = map toe es) by (rewrite !map_map; apply map_ext; apply stage_form).
  assert (St : forall l, ordered true (map toe l) -> sorted (dcmp true) l /\ (forall a b, In a l -> In b l -> dcmp true a b = 0 -> a = b)).
  { clear. intros l Ho. apply ss_nth in Ho. induction l as [|x l IH]; [split; [exact I|intros a b []]|].
    cbn [map] in Ho. apply Sorting.Sorted.StronglySorted_inv in Ho as [Hs Hx]. destruct (IH Hs) as [I1 I2]. rewrite Forall_forall in Hx.
    assert (Hlt : forall y, In y l -> dcmp true x y < 0) by (intros y Hy; apply Hx, in_map, Hy).
    split; [split; [intros y Hy; specialize (Hlt y Hy); lia|exact I1]|].
    intros a b [<-|Ha] [<-|Hb] E; [reflexivity|specialize (Hlt b Hb); lia| |apply I2; assumption].
    specialize (Hlt a Ha). assert (Q := cmp_sym _ (dcmp_ok true) x a). lia. }
  destruct (St (map disk_form (map (prepared version) es))) as [St1 St2]; [rewrite Hkeys; exact Hord|].
  apply (sorted_perm_unique (dcmp true) (dcmp_ok true)); auto. rewrite <- Pv. apply Permutation_map, Pw.
Qed.

(** *** Hostile files *)
Lemma decode_loop_nat rest c val n v k : decode_loop rest c val n = Ok (v, k) -> (k <= n + length rest)%nat.
Proof.
  revert c val n. induction rest as [|c' rest IH]; intros c val n Hr; cbn [decode_loop] in Hr.
  - destruct (Z.land c 128 =? 0); [injection Hr as <- <-; cbn; lia|]. destruct ((_ =? 0) || _); [injection Hr as <- <-; cbn; lia|discriminate].
  - destruct (Z.land c 128 =? 0); [injection Hr as <- <-; cbn; lia|]. destruct ((_ =? 0) || _); [injection Hr as <- <-; cbn; lia|]. apply IH in Hr. cbn. lia.
Qed.
Lemma decode_prefix rest more c val n r : decode_loop rest c val n = Ok r -> decode_loop (rest ++ more) c val n = Ok r.
Proof.
  revert c val n. induction rest as [|c' rest IH]; intros c val n Hr; cbn [app decode_loop] in *.
  - destruct (Z.land c 128 =? 0) eqn:E1; [destruct more; cbn [decode_loop]; rewrite E1; exact Hr|].
    destruct ((_ =? 0) || _) eqn:E2; [|discriminate]. destruct more; cbn [decode_loop]; rewrite E1, E2; exact Hr.
  - destruct (Z.land c 128 =? 0); [exact Hr|]. destruct ((_ =? 0) || _); [exact Hr|]. apply IH, Hr.
Qed.
Lemma decode_10 b : (10 <= length b)%nat -> exists v k, decode_varint b = Ok (v, k) /\ (k <= 10)%nat.
Proof.
  intros H. destruct (varint_decode_reads_at_most_10 (firstn 10 b)) as [[v k] R]; [rewrite firstn_length; lia|].
  exists v, k. assert (L : (length (firstn 10 b) <= 10)%nat) by (rewrite firstn_length; lia). rewrite <- (firstn_skipn 10 b).
  destruct (firstn 10 b) as [|c r]; [discriminate R|]. cbn [app decode_varint] in *. split; [apply decode_prefix, R|]. apply decode_loop_nat in R. cbn in L. lia.
Qed.
Lemma size_bound osz plen vlen flags : 0 <= plen -> 0 <= vlen -> entry_size osz plen vlen flags <> 0 -> 0 < entry_size osz plen vlen flags.
Proof.
  intros H1 H2. unfold entry_size. destruct (negb (vlen =? 0)).
  - destruct (_ || _); [lia|]. lia.
  - destruct (_ || _); [lia|]. rewrite ldiff7 by lia. lia.
Qed.

  Lemma skipn_bytes b n : bytes b -> bytes (skipn n b).
  Proof. intros H. apply Forall_forall. intros x Hx. unfold bytes in H. rewrite Forall_forall in H. apply H. rewrite <- (firstn_skipn n b). apply in_or_app. auto. Qed.
  Lemma seek_safe b n : 0 <= n < Z.of_nat (length b) -> seek (b ++ [0]) (Z.of_nat (length b)) n = Ok (skipn (Z.to_nat n) b ++ [0], Z.of_nat (length (skipn (Z.to_nat n) b))).
  Proof.
    intros H. unfold seek. destruct (Z.leb_spec (Z.of_nat (length b)) n); [lia|]. rewrite skipn_app. replace (Z.to_nat n - length b)%nat with 0%nat by lia. rewrite skipn_O, skipn_length. do 2 f_equal. lia.
  Qed.

Section Hostile.
  Variables (path_ok : list Z -> bool) (ext_ok : list Z -> list Z -> bool) (osz : nat).
  Hypothesis Hosz : (12 <= osz)%nat.

  Lemma read_entry_safe compressed b last : bytes b ->
    (exists e size, read_entry path_ok osz compressed (b ++ [0]) (Z.of_nat (length b)) last = Ok (e, size) /\
       path_ok (d_path e) = true /\ 0 < size /\ size + Z.of_nat osz <= Z.of_nat (length b)) \/
    read_entry path_ok osz compressed (b ++ [0]) (Z.of_nat (length b)) last = Err (-1).
  Proof.
    intros Hb. unfold read_entry. change (path_offset osz 0) with (42 + osz)%nat. cbv zeta.
    destruct (Z.ltb_spec (Z.of_nat (length b)) (Z.of_nat osz + Z.of_nat (42 + osz))); [right; reflexivity|].
    assert (Lm : length (b ++ [0]) = S (length b)) by (rewrite app_length; cbn; lia).
    rewrite rdn_ok by lia. cbn [bindr]. set (source := sub (b ++ [0]) 0 (44 + osz)). set (flags := unbe (sub source (40 + osz) 2)).
    assert (Bm : bytes (b ++ [0])) by (apply Forall_app; split; [exact Hb|constructor; [unfold is_byte; lia|constructor]]).
    assert (Hfl : 0 <= flags < 65536) by (unfold flags; assert (L := unbe_range (sub source (40 + osz) 2) ltac:(apply sub_bytes, sub_bytes, Bm)); unfold source in *; rewrite sub_sub in * by lia; rewrite sub_length in L by lia; exact L).
    assert (Off := offset_bound osz flags).
    set (ext := if extended flags then _ else _). assert (exists x, ext = Ok x) as [x ->].
    { unfold ext. destruct (extended flags); [rewrite rdn_ok by lia; cbn [bindr]|]; eexists; reflexivity. }
    cbn [bindr]. rewrite skipn_app. replace (path_offset osz flags - length b)%nat with 0%nat by lia. rewrite skipn_O.
    set (pp := skipn (path_offset osz flags) b). assert (Lpp : (10 <= length pp)%nat) by (unfold pp; rewrite skipn_length; lia).
    destruct compressed; cbn [negb].
    - destruct (decode_10 (pp ++ [0])) as (v & k & Ed & Hk); [rewrite app_length; lia|]. rewrite Ed. cbn [bindr].
      destruct ((k =? 0)%nat || (Z.of_nat (length last) <? v)) eqn:E1; [right; reflexivity|]. apply orb_false_elim in E1 as [E1 E2]. apply Nat.eqb_neq in E1.
      rewrite skipn_app. replace (k - length pp)%nat with 0%nat by lia. rewrite skipn_O. change [0] with (0 :: @nil Z). destruct (strz_safe (skipn k pp) []) as (s & Es & Ls). rewrite Es. cbn [bindr].
      destruct (PATH_MAX <? _); [right; reflexivity|]. destruct (Z.eqb_spec (entry_size osz (Z.of_nat (length s)) (Z.of_nat k) flags) 0); [right; reflexivity|].
      destruct (Z.ltb_spec (Z.of_nat (length b)) (Z.of_nat osz + entry_size osz (Z.of_nat (length s)) (Z.of_nat k) flags)); [right; reflexivity|]. cbn [bindr].
      destruct (path_ok _) eqn:Ep; [|right; reflexivity]. left. eexists _, _. split; [reflexivity|]. cbn [d_path]. split; [exact Ep|]. split; [apply size_bound; lia|lia].
    - set (pl := if _ =? NAMEMASK then _ else _). assert ((exists n, pl = Ok n /\ 0 <= n) \/ pl = Err (-1)) as [(n & -> & Hn)| ->]; [| |right; reflexivity].
      { unfold pl. destruct (_ =? NAMEMASK).
        - change [0] with (0 :: @nil Z). destruct (memchr0_safe pp [] (Z.to_nat (Z.of_nat (length b)))) as [o ->]. cbn [bindr]. destruct o as [n|]; [left; exists (Z.of_nat n); split; [reflexivity|lia]|right; reflexivity].
        - left. eexists. split; [reflexivity|]. apply Z.land_nonneg. left. lia. }
      cbn [bindr]. destruct (Z.eqb_spec (entry_size osz n 0 flags) 0); [right; reflexivity|].
      destruct (Z.ltb_spec (Z.of_nat (length b)) (Z.of_nat osz + entry_size osz n 0 flags)); [right; reflexivity|].
      change [0] with (0 :: @nil Z). destruct (strz_safe pp []) as (s & -> & _). cbn [bindr].
      destruct (path_ok s) eqn:Ep; [|right; reflexivity]. left. eexists _, _. split; [reflexivity|]. cbn [d_path]. split; [exact Ep|]. split; [apply size_bound; lia|lia].
  Qed.

  Lemma parse_entries_safe compressed : forall fuel count b last, bytes b -> (length b < fuel)%nat -> 0 <= count ->
    (exists es b', parse_entries fuel path_ok osz compressed count (b ++ [0]) (Z.of_nat (length b)) last = Ok (es, b' ++ [0], Z.of_nat (length b')) /\
       (exists pre, b = pre ++ b') /\ Z.of_nat (length es) = count /\ Forall (fun e => path_ok (d_path e) = true) es) \/
    parse_entries fuel path_ok osz compressed count (b ++ [0]) (Z.of_nat (length b)) last = Err (-1).
  Proof.
    induction fuel as [|f IH]; intros count b last Hb Hf Hc; [lia|]. cbn [parse_entries].
    destruct ((0 <? count) && (Z.of_nat osz <? Z.of_nat (length b))) eqn:E.
    - apply andb_prop in E as [E1 E2]. destruct (read_entry_safe compressed b last Hb) as [(e & size & -> & Hp & Hs & Hle)| ->]; [|right; reflexivity]. cbn [bindr].
      rewrite seek_safe by lia. cbn [bindr]. destruct (IH (count - 1) (skipn (Z.to_nat size) b) (if compressed then d_path e else last)) as [(es & b' & -> & [pre B1] & B3 & B4)| ->];
        [apply skipn_bytes, Hb|rewrite skipn_length; lia|lia| |right; reflexivity].
      cbn [bindr]. left. exists (e :: es), b'. split; [reflexivity|]. split; [exists (firstn (Z.to_nat size) b ++ pre); rewrite <- app_assoc, <- B1, firstn_skipn; reflexivity|]. split; [cbn [length]; lia|constructor; assumption].
    - destruct (Z.eqb_spec count 0) as [->|]; [|right; reflexivity]. left. exists [], b. split; [reflexivity|]. split; [exists []; reflexivity|]. split; [reflexivity|constructor].
  Qed.

  Lemma parse_exts_safe : forall fuel b, bytes b -> (length b < fuel)%nat ->
    (exists xs b', parse_exts fuel ext_ok osz (b ++ [0]) (Z.of_nat (length b)) = Ok (xs, b' ++ [0], Z.of_nat (length b')) /\ exists pre, b = pre ++ b') \/
    parse_exts fuel ext_ok osz (b ++ [0]) (Z.of_nat (length b)) = Err (-1).
  Proof.
    induction fuel as [|f IH]; intros b Hb Hf; [lia|]. cbn [parse_exts].
    destruct (Z.ltb_spec (Z.of_nat osz) (Z.of_nat (length b))) as [E|E]; [|left; exists [], b; split; [reflexivity|]; exists []; reflexivity].
    unfold read_extension. assert (Lm : length (b ++ [0]) = S (length b)) by (rewrite app_length; cbn; lia). rewrite rdn_ok by lia. cbn [bindr].
    assert (Bm : bytes (b ++ [0])) by (apply Forall_app; split; [exact Hb|constructor; [unfold is_byte; lia|constructor]]).
    set (size := unbe _). assert (Hs : 0 <= size) by (apply unbe_range, sub_bytes, sub_bytes, Bm).
    destruct (Z.ltb_spec (Z.of_nat (length b)) (size + 8)); [right; reflexivity|]. destruct (Z.ltb_spec (Z.of_nat (length b) - (size + 8)) (Z.of_nat osz)); [right; reflexivity|]. cbn [orb].
    destruct (_ && _); [|right; reflexivity]. rewrite rdn_ok by lia. cbn [bindr]. destruct (ext_ok _ _); [|right; reflexivity]. cbn [bindr].
    rewrite seek_safe by lia. cbn [bindr]. destruct (IH (skipn (Z.to_nat (size + 8)) b)) as [(xs & b' & -> & [pre B1])| ->]; [apply skipn_bytes, Hb|rewrite skipn_length; lia| |right; reflexivity].
    cbn [bindr]. left. eexists _, b'. split; [reflexivity|]. exists (firstn (Z.to_nat (size + 8)) b ++ pre). rewrite <- app_assoc, <- B1, firstn_skipn. reflexivity.
  Qed.
End Hostile.

(** Parsing any bytes at all never reads outside the file and its terminator
    and ends; it either reports an error or yields as many entries as the header
    says, all with acceptable paths, from a file whose last bytes are the hash
    of the rest (or zero). *)
Theorem C12_parse_safe H path_ok ext_ok osz file : params_ok H osz -> bytes file ->
  parse_index H path_ok ext_ok osz false file = Err (-1) \/
  exists version es exts, parse_index H path_ok ext_ok osz false file = Ok (version, mkvec es true, exts) /\
    2 <= version <= 4 /\ Z.of_nat (length es) = unbe (sub file 8 4) /\ Forall (fun e => path_ok (d_path e) = true) es /\
    exists contents stored, file = contents ++ stored /\ length stored = osz /\ (stored = H contents \/ stored = repeat 0 osz).
Proof.
  intros [Ho HH] Hb. assert (Hosz : (12 <= osz)%nat) by lia. unfold parse_index. cbv zeta. assert (Lm : length (file ++ [0]) = S (length file)) by (rewrite app_length; cbn; lia).
  destruct (Z.ltb_spec (Z.of_nat (length file)) (12 + Z.of_nat osz)); [left; reflexivity|]. rewrite rdn_ok by lia. cbn [bindr].
  assert (Bm : bytes (file ++ [0])) by (apply Forall_app; split; [exact Hb|constructor; [unfold is_byte; lia|constructor]]).
  destruct (negb (_ =? SIG)); [left; reflexivity|]. set (version := unbe (sub (sub (file ++ [0]) 0 12) 4 4)).
  destruct (Z.ltb_spec version 2); [left; reflexivity|]. destruct (Z.ltb_spec 4 version); [left; reflexivity|]. cbn [orb].
  rewrite seek_safe by lia. cbn [bindr]. set (count := unbe (sub (sub (file ++ [0]) 0 12) 8 4)). assert (Hc : 0 <= count) by (apply unbe_range, sub_bytes, sub_bytes, Bm).
  destruct (parse_entries_safe path_ok ext_ok osz Hosz (4 <=? version) (S (length file)) count (skipn (Z.to_nat 12) file) []) as [(es & b' & -> & [pre B1] & B3 & B4)| ->];
    [apply skipn_bytes, Hb|rewrite skipn_length; lia|exact Hc| |left; reflexivity].
  cbn [bindr]. assert (Hfile : file = (firstn (Z.to_nat 12) file ++ pre) ++ b') by (rewrite <- app_assoc, <- B1, firstn_skipn; reflexivity).
  assert (Bb : bytes b') by (rewrite Hfile in Hb; apply Forall_app in Hb; apply Hb).
  assert (Lb : (length b' <= length file)%nat) by (rewrite Hfile, app_length; lia).
  destruct (parse_exts_safe path_ok ext_ok osz Hosz (S (length file)) b' Bb ltac:(lia)) as [(xs & b2 & -> & [pre2 B5])| ->]; [|left; reflexivity].
  cbn [bindr]. destruct (Z.eqb_spec (Z.of_nat (length b2)) (Z.of_nat osz)); [|left; reflexivity]. cbn [negb].
  rewrite rdn_ok by (rewrite app_length; lia). cbn [bindr].
  assert (L2 : length b2 = osz) by lia. replace (sub (b2 ++ [0]) 0 osz) with b2 by (symmetry; apply sub_mid with (a := []); [reflexivity|exact L2]).
  assert (Hfile2 : file = ((firstn (Z.to_nat 12) file ++ pre) ++ pre2) ++ b2) by (rewrite Hfile at 1; rewrite B5, <- !app_assoc; reflexivity).
  set (contents := (firstn (Z.to_nat 12) file ++ pre) ++ pre2) in *.
  replace (firstn (length file - osz) file) with contents.
  2:{ assert (length file - osz = length contents)%nat as -> by (apply (f_equal (@length Z)) in Hfile2; rewrite app_length in Hfile2; lia). rewrite Hfile2 at 1. rewrite firstn_app, firstn_all, Nat.sub_diag, firstn_O, app_nil_r. reflexivity. }
  destruct (negb (leq b2 (repeat 0 osz)) && negb (leq b2 (H contents))) eqn:EL; [left; reflexivity|]. cbn [bindr]. right.
  eexists version, es, xs. split; [reflexivity|]. split; [lia|]. split; [|split; [exact B4|]].
  - rewrite B3. unfold count. rewrite sub_sub by lia. f_equal.
    unfold sub. rewrite skipn_app, firstn_app. replace (4 - length (skipn 8 file))%nat with 0%nat by (rewrite skipn_length; lia). rewrite firstn_O, app_nil_r. reflexivity.
  - exists contents, b2. split; [exact Hfile2|]. split; [exact L2|]. apply andb_false_iff in EL. rewrite !negb_false_iff in EL. unfold leq in EL.
    destruct EL as [EL|EL]; destruct (list_eq_dec Z.eq_dec _ _); try discriminate; auto.
Qed.

(** *** Refutations and examples *)
Definition H0 (l : list Z) : list Z := repeat 7 20.
Definition any (p : list Z) : bool := negb (leq p []).
Definition any_ext (s d : list Z) : bool := true.
Definition ent (path : list Z) (flags ext : Z) : dentry := mkd [-5; 6; 7; 8; 1; 2; 33188; 3; 4; 5] (repeat 9 20) (flags + Z.min (Z.of_nat (length path)) 4095) ext path.
Lemma H0_ok : params_ok H0 20. Proof. split; [left; reflexivity|reflexivity]. Qed.
Lemma ent_good path flags ext : (flags = 0 \/ flags = 4096 \/ flags = 8192 \/ flags = 16384) -> 0 <= ext < 65536 -> path <> [] -> Forall (fun c => 0 < c < 256) path -> good any 20 (ent path flags ext).
Proof.
  intros Hf He Hp Hc. unfold good, ent. cbn [d_stat d_id d_flags d_ext d_path]. split.
  { exists (-5), 6, 7, 8, [1; 2; 33188; 3; 4; 5]. unfold int32, uint32. split; [reflexivity|]. repeat (split; [lia|]). split; [reflexivity|]. repeat (constructor; [lia|]). constructor. }
  split; [reflexivity|]. split; [repeat (constructor; [unfold is_byte; lia|]); constructor|]. split; [lia|]. split; [exact He|]. split.
  - set (m := Z.min (Z.of_nat (length path)) 4095). assert (0 <= m <= 4095) by lia. change 4095 with (2 ^ 12 - 1). rewrite land_ones by lia. change (2 ^ 12) with 4096. lia.
  - split; [exact Hc|]. unfold any, leq. destruct (list_eq_dec Z.eq_dec path []); [contradiction|reflexivity].
Qed.

(** Version 4 with a path of 4096 bytes: it is written, and cannot be read. *)
Theorem C12_v4_long_path_refuted : exists e file, good any 20 e /\ keeps_ext 4 e /\
  write_index H0 20 false 4 [e] [] = Ok file /\ parse_index H0 any any_ext 20 false file = Err (-1).
Proof.
  exists (ent (repeat 97 (Z.to_nat 4096)) 0 0). eexists. split; [|split; [|split]].
  - apply ent_good; [lia|lia|intros E; apply (f_equal (@length Z)) in E; rewrite repeat_length in E; cbn in E; lia|]. apply Forall_forall. intros x Hx. apply repeat_spec in Hx. lia.
  - intros _ N. exfalso. apply N. reflexivity.
  - vm_compute. reflexivity.
  - vm_compute. reflexivity.
Qed.
(** Version 4: the intent-to-add bit of a new entry is not written. *)
Theorem C12_v4_extended_refuted : exists e file v, good any 20 e /\ path_fits 4 e /\ Z.land (d_ext e) 8192 = 8192 /\
  write_index H0 20 false 4 [e] [] = Ok file /\
  parse_index H0 any any_ext 20 false file = Ok (4, mkvec [v] true, []) /\ d_path v = d_path e /\ d_ext v = 0.
Proof.
  exists (ent [97; 98] 0 8192). eexists. eexists. split; [|split; [|split; [|split; [|split; [|split]]]]].
  - apply ent_good; [lia|lia|discriminate|repeat (constructor; [lia|]); constructor].
  - vm_compute. reflexivity.
  - reflexivity.
  - vm_compute. reflexivity.
  - vm_compute. reflexivity.
  - reflexivity.
  - reflexivity.
Qed.
(** The order of the entries on disk is trusted: a file with entries out of
    order is accepted and its entries vector marked as sorted. *)
Theorem C12_order_trusted_refuted : exists file es, parse_index H0 any any_ext 20 false file = Ok (2, mkvec es true, []) /\ ~ ordered false (map toe es).
Proof.
  assert (E : exists file, write_index H0 20 false 2 [ent [98] 0 0; ent [97] 0 0] [] = Ok file) by (eexists; vm_compute; reflexivity). destruct E as [file E].
  exists file. vm_compute in E. injection E as <-. eexists. split; [vm_compute; reflexivity|].
  intros O. specialize (O 0%nat 1%nat _ _ ltac:(lia) eq_refl eq_refl). destruct O as [O|[O _]]; cbn in O; discriminate.
Qed.

Example C12_ex : exists es exts, length es = 3%nat /\ Forall (good any 20) es /\ Forall (path_fits 4) es /\ Forall (keeps_ext 4) es /\ Forall (good_ext any_ext) exts /\ exts <> [] /\
  (exists e, In e es /\ Z.land (d_ext e) 24576 <> 0).
Proof.
  exists [ent [97; 47; 98] 0 0; ent [97; 47; 99] 4096 0; ent [97; 47; 99; 100] 16384 8192], [([84; 82; 69; 69], [1; 2; 3])].
  split; [reflexivity|]. split; [|split; [|split; [|split; [|split]]]].
  - repeat (constructor; [apply ent_good; [lia|lia|discriminate|repeat (constructor; [lia|]); constructor]|]). constructor.
  - repeat (constructor; [vm_compute; reflexivity|]). constructor.
  - repeat (constructor; [intros _; vm_compute; congruence|]). constructor.
  - constructor; [|constructor]. repeat split; cbn; lia.
  - discriminate.
  - exists (ent [97; 47; 99; 100] 16384 8192). split; [right; right; left; reflexivity|]. vm_compute. discriminate.
Qed.
(** Its file, read back: the three paths, compressed on disk. *)
Example C12_ex_read : match write_index H0 20 false 4 [ent [97; 47; 98] 0 0; ent [97; 47; 99] 4096 0; ent [97; 47; 99; 100] 16384 8192] [] with
  | Ok file => length file = 231%nat /\ match parse_index H0 any any_ext 20 false file with Ok (_, v, _) => map d_path (items v) = [[97; 47; 98]; [97; 47; 99]; [97; 47; 99; 100]] /\ map d_ext (items v) = [0; 0; 8192] | _ => False end
  | _ => False end.
Proof. vm_compute. repeat split; reflexivity. Qed.
Print Assumptions C12_roundtrip.
Print Assumptions C12_roundtrip_ignore_case.
Print Assumptions C12_parse_safe.
