(** Searching a commit-graph (compare [PackIdxProofs.find_spec]). *)
From Verif Require Import Base CStr OidModel OidSpec OidProofs IdxFileModel IdxFileProofs PackIdxModel PackIdxSpec PackIdxProofs CgModel.

(** [objs]: the ids in the file, with their positions. *)
Definition cg_layout (f : cgfile) (objs : list pobj) : Prop :=
  c_num f = Z.of_nat (length objs) /\ 0 <= c_lookup f /\
  (forall b, 0 <= b < 256 -> rd32 (c_data f) (c_fan f + 4 * b) = Ok (count_upto objs b)) /\
  (objs <> [] -> c_lookup f + (c_num f - 1) * c_osz f + c_osz f <= Z.of_nat (length (c_data f))) /\
  (forall i o, nth_error objs i = Some o -> sub (c_data f) (Z.to_nat (c_lookup f + Z.of_nat i * c_osz f)) (Z.to_nat (c_osz f)) = fst o) /\
  (forall i o, nth_error objs i = Some o -> snd o = Z.of_nat i).

Lemma cg_find_spec f objs q vs : (0 < c_osz f) -> objs_ok (Z.to_nat (c_osz f)) objs -> bytes (c_data f) -> cg_layout f objs -> Z.of_nat (length objs) < 2147483648 ->
  oid_ok (Z.to_nat (c_osz f)) q -> (length vs <= 2 * Z.to_nat (c_osz f))%nat -> nibbles q = vs ++ repeat 0 (2 * Z.to_nat (c_osz f) - length vs) ->
  cg_find f q (length vs) = match lookup_spec objs vs with NotFound => Err (-3) | Found o => get_byindex f (snd o) | Ambiguous => Err (-5) end.
Proof.
  intros Hosz Hok Bd HL Hn Hq Hlv Hnq. unfold cg_layout in HL. unfold cg_find.
  destruct HL as (Hnr & Hix & Hfan & Hsize & Hid & Hoff).
  destruct q as [|b q'] eqn:Eq; [destruct Hq as [L _]; cbn in L; lia|]. rewrite <- Eq in *.
  assert (Hb : 0 <= b < 256) by (destruct Hq as [_ B]; subst q; inversion_clear B; assumption).
  assert (Hhd : hd 0 q = b) by (subst q; reflexivity).
  assert (Er : rd q 0 = Ok b) by (subst q; reflexivity). clear Eq q'. rewrite Er. cbn [bindr]. rewrite Hfan by lia. cbn [bindr].
  assert (Elo : (if b =? 0 then Ok 0 else rd32 (c_data f) (c_fan f + 4 * (b - 1))) = Ok (count_upto objs (b - 1))).
  { destruct (Z.eqb_spec b 0) as [->|]; [|apply Hfan; lia]. f_equal. unfold count_upto. rewrite filter_none; [reflexivity|].
    intros o Ho. destruct Hok as [F _]. rewrite Forall_forall in F. destruct (F o Ho) as [_ B].
    apply Z.leb_gt. destruct (fst o) as [|c r] eqn:Ec; cbn; [|inversion_clear B; unfold is_byte in *; lia].
    destruct (F o Ho) as [L _]. rewrite Ec in L. cbn in L. lia. }
  rewrite Elo. cbn [bindr]. clear Elo.
  set (lo := count_upto objs (b - 1)). set (hi := count_upto objs b).
  assert (Hlohi : 0 <= lo <= hi) by (split; [apply (count_le objs (b - 1))|apply count_mono; lia]).
  assert (Hhi : hi <= Z.of_nat (length objs)) by apply (count_le objs b).
  set (key := fun i => fst (nth i objs ([], 0))).
  assert (Hkey : forall i o, nth_error objs i = Some o -> key i = fst o) by (intros i o Ho; unfold key; rewrite (nth_error_nth _ _ _ Ho); reflexivity).
  assert (Hex : forall i, 0 <= i < Z.of_nat (length objs) -> exists o, nth_error objs (Z.to_nat i) = Some o).
  { intros i Hi. destruct (nth_error objs (Z.to_nat i)) eqn:E; [eauto|]. apply nth_error_None in E. lia. }
  destruct (lookup_sorted (S (Z.to_nat (hi - lo))) (c_data f) (c_lookup f) (c_osz f) lo hi q (c_osz f) key) as (r & Er' & Hr); try lia.
  { destruct Hq as [L _]. exact L. }
  { intros Hlt. assert (objs <> []) by (intros ->; cbn in Hhi; lia). specialize (Hsize ltac:(assumption)). nia. }
  { intros i Hi. destruct (Hex i ltac:(lia)) as [o Ho]. rewrite (Hkey _ _ Ho). rewrite <- (Hid _ _ Ho). rewrite Z2Nat.id by lia. reflexivity. }
  { intros i j Hij Hj. destruct (Hex i ltac:(lia)) as [x Hx], (Hex j ltac:(lia)) as [y Hy]. rewrite (Hkey _ _ Hx), (Hkey _ _ Hy).
    apply (obj_lt _ objs Hok (Z.to_nat i) (Z.to_nat j)); auto. lia. }
  rewrite Er'. cbn [bindr]. clear Er'. rewrite Hnr.
  replace (to_int32 (Z.of_nat (length objs))) with (Z.of_nat (length objs)) by (unfold to_int32; destruct (Z.ltb_spec (Z.of_nat (length objs)) 2147483648); lia).
  (* the position k splits the objects *)
  assert (Hsplit : exists k found, 0 <= k <= Z.of_nat (length objs) /\
     (forall i o, Z.of_nat i < k -> nth_error objs i = Some o -> lex (fst o) q = Lt) /\
     (forall i o, k <= Z.of_nat i -> nth_error objs i = Some o -> le_id q (fst o)) /\
     (if 0 <=? r then Ok (true, r, c_lookup f + r * c_osz f)
      else if - 1 - r <? Z.of_nat (length objs) then
             do c <- ncmp_at (c_osz f) (c_data f) (c_lookup f + (- 1 - r) * c_osz f) q (length vs) ;; Ok (c =? 0, - 1 - r, c_lookup f + (- 1 - r) * c_osz f)
           else Ok (false, - 1 - r, 0)) = Ok (found, k, if k <? Z.of_nat (length objs) then c_lookup f + k * c_osz f else 0) /\
     (found = true <-> exists o, nth_error objs (Z.to_nat k) = Some o /\ starts_with vs o = true)).
  { assert (Hne : forall i o, nth_error objs i = Some o -> fst o <> []).
    { intros i o Ho. apply (oid_ne (Z.to_nat (c_osz f)) ltac:(lia)). exact (obj_ok _ _ Hok i o Ho). }
    assert (Hqne : q <> []) by (apply (oid_ne (Z.to_nat (c_osz f)) ltac:(lia)); exact Hq).
    assert (Hfar : forall i o, nth_error objs i = Some o -> Z.of_nat i < lo -> lex (fst o) q = Lt).
    { intros i o Ho Hi. apply lex_hd; [exact (Hne i o Ho)|exact Hqne|].
      apply (count_pos (Z.to_nat (c_osz f)) objs ltac:(lia) Hok (b - 1) i o Ho) in Hi. lia. }
    assert (Hfar2 : forall i o, nth_error objs i = Some o -> hi <= Z.of_nat i -> lex q (fst o) = Lt).
    { intros i o Ho Hi. apply lex_hd; [exact Hqne|exact (Hne i o Ho)|].
      pose proof (count_pos (Z.to_nat (c_osz f)) objs ltac:(lia) Hok b i o Ho) as C. fold hi in C. lia. }
    assert (Ncmp : forall k o, 0 <= k < Z.of_nat (length objs) -> nth_error objs (Z.to_nat k) = Some o ->
       exists c, ncmp_at (c_osz f) (c_data f) (c_lookup f + k * c_osz f) q (length vs) = Ok c /\ (c = 0 <-> starts_with vs o = true)).
    { intros k o Hk Ho. destruct (ncmp_at_spec (c_data f) (c_lookup f + k * c_osz f) q (length vs) (c_osz f)) as (c & Ec & Hc); auto; try lia; try nia.
      { assert (objs <> []) by (intros ->; cbn in Hk; lia). specialize (Hsize ltac:(assumption)).
        assert (k * c_osz f <= (c_num f - 1) * c_osz f) by (apply Z.mul_le_mono_nonneg_r; lia). lia. }
      exists c. split; [exact Ec|]. rewrite Hc, starts_spec. pose proof (Hid _ _ Ho) as E. rewrite Z2Nat.id in E by lia. rewrite E.
      rewrite Hnq, firstn_app, firstn_all, Nat.sub_diag. cbn [firstn]. rewrite app_nil_r. split; congruence. }
    destruct Hr as [(R0 & Hrr & Hrk)|(k & -> & Hk & Hl & Hg)].
    - exists r, true. destruct (Hex r ltac:(lia)) as [o Ho]. rewrite (Hkey _ _ Ho) in Hrk.
      repeat split; try lia.
      + intros i x Hi Hx. rewrite <- Hrk. apply (obj_lt _ objs Hok i (Z.to_nat r)); auto. lia.
      + intros i x Hi Hx. unfold le_id. destruct (Nat.eq_dec i (Z.to_nat r)) as [->|]; [replace x with o by congruence; rewrite Hrk, lex_refl; discriminate|].
        rewrite <- Hrk. rewrite (obj_lt _ objs Hok (Z.to_nat r) i o x); auto; [discriminate|lia].
      + destruct (Z.leb_spec 0 r); [|lia]. destruct (Z.ltb_spec r (Z.of_nat (length objs))); [|lia]. reflexivity.
      + intros _. exists o. split; [exact Ho|]. apply starts_spec. rewrite Hrk, Hnq, firstn_app, firstn_all, Nat.sub_diag. cbn [firstn]. apply app_nil_r.
    - destruct (Z.leb_spec 0 (- k - 1)); [lia|]. replace (- 1 - (- k - 1)) with k by lia.
      assert (P1 : forall i o, Z.of_nat i < k -> nth_error objs i = Some o -> lex (fst o) q = Lt).
      { intros i o Hi Ho. destruct (Z.lt_ge_cases (Z.of_nat i) lo); [eauto|]. rewrite <- (Hkey _ _ Ho). rewrite <- (Nat2Z.id i). apply Hl. lia. }
      assert (P2 : forall i o, k <= Z.of_nat i -> nth_error objs i = Some o -> le_id q (fst o)).
      { intros i o Hi Ho. unfold le_id. destruct (Z.lt_ge_cases (Z.of_nat i) hi) as [Hh|Hh].
        - rewrite <- (Hkey _ _ Ho). rewrite <- (Nat2Z.id i). rewrite Hg by lia. discriminate.
        - rewrite (Hfar2 i o Ho) by lia. discriminate. }
      destruct (Z.ltb_spec k (Z.of_nat (length objs))).
      + destruct (Hex k ltac:(lia)) as [o Ho]. destruct (Ncmp k o ltac:(lia) Ho) as (c & Ec & Hc).
        exists k, (c =? 0). repeat split; auto; try lia.
        * rewrite Ec. cbn [bindr]. destruct (Z.ltb_spec k (Z.of_nat (length objs))); [reflexivity|lia].
        * intros Hz. exists o. split; [exact Ho|]. apply Hc. lia.
        * intros (o' & Ho' & Hs). assert (o' = o) by congruence. subst. apply Z.eqb_eq. tauto.
      + exists k, false. repeat split; auto; try lia; try discriminate.
        * destruct (Z.ltb_spec k (Z.of_nat (length objs))); [lia|reflexivity].
        * intros (o & Ho & _). assert (nth_error objs (Z.to_nat k) <> None) as C by congruence. apply nth_error_Some in C. lia. }
  cbv zeta. destruct Hsplit as (k & found & Hk & Hbelow & Habove & -> & Hfound). cbn [bindr]. clear Hr.
  (* objects below k do not match *)
  assert (Hfil : filter (starts_with vs) objs = filter (starts_with vs) (skipn (Z.to_nat k) objs)).
  { rewrite <- (firstn_skipn (Z.to_nat k) objs) at 1. rewrite filter_app. rewrite filter_none; [reflexivity|].
    intros x Hx. apply In_nth_error in Hx as [i Hi]. assert (Li : (i < Z.to_nat k)%nat).
    { assert (nth_error (firstn (Z.to_nat k) objs) i <> None) as C by congruence. apply nth_error_Some in C. rewrite firstn_length in C. lia. }
    assert (Ho : nth_error objs i = Some x). { rewrite <- (firstn_skipn (Z.to_nat k) objs). rewrite nth_error_app1; auto. rewrite firstn_length. lia. }
    destruct (starts_with vs x) eqn:Es; [|reflexivity]. exfalso. apply starts_spec in Es.
    pose proof (Hbelow i x ltac:(lia) Ho) as B.
    pose proof (prefix_min _ q vs (fst x) Hq (obj_ok _ _ Hok i x Ho) Hnq Hlv Es) as M. apply M. rewrite lex_antisym, B. reflexivity. }
  assert (Hmono : forall i j x y, (i <= j)%nat -> nth_error (skipn (Z.to_nat k) objs) i = Some x -> nth_error (skipn (Z.to_nat k) objs) j = Some y -> starts_with vs y = true -> starts_with vs x = true).
  { intros i j x y Hij Hi Hj Hy. rewrite nth_skipn in Hi, Hj. apply starts_spec in Hy. apply starts_spec.
    apply (prefix_between _ q vs (fst x) (fst y) Hq (obj_ok _ _ Hok _ x Hi) (obj_ok _ _ Hok _ y Hj) Hnq Hlv); auto.
    - apply (Habove (Z.to_nat k + i)%nat); auto. lia.
    - unfold le_id. destruct (Nat.eq_dec i j) as [->|]; [assert (x = y) as -> by congruence; rewrite lex_refl; discriminate|].
      rewrite (obj_lt _ objs Hok (Z.to_nat k + i)%nat (Z.to_nat k + j)%nat x y); auto; [discriminate|lia]. }
  unfold lookup_spec. rewrite Hfil.
  assert (Hn0 : forall i, nth_error (skipn (Z.to_nat k) objs) i = nth_error objs (Z.to_nat k + i)) by (intros; apply nth_skipn).
  destruct (skipn (Z.to_nat k) objs) as [|o [|o2 rest]] eqn:Esk.
  - (* k is past the end *)
    assert (Lk : k = Z.of_nat (length objs)). { assert (length (skipn (Z.to_nat k) objs) = 0%nat) by (rewrite Esk; reflexivity). rewrite skipn_length in *. lia. }
    assert (found = false) as ->. { destruct found; [|reflexivity]. destruct (proj1 Hfound eq_refl) as (o & Ho & _). assert (nth_error objs (Z.to_nat k) <> None) as C by congruence. apply nth_error_Some in C. lia. }
    reflexivity.
  - assert (Lk : k = Z.of_nat (length objs) - 1). { assert (length (skipn (Z.to_nat k) objs) = 1%nat) by (rewrite Esk; reflexivity). rewrite skipn_length in *. lia. }
    assert (Ho : nth_error objs (Z.to_nat k) = Some o). { rewrite <- (Nat.add_0_r (Z.to_nat k)). rewrite <- Hn0. reflexivity. }
    assert (Ef : found = starts_with vs o). { destruct found.
      - destruct (proj1 Hfound eq_refl) as (o' & Ho' & Hs). congruence.
      - destruct (starts_with vs o) eqn:E; [|reflexivity]. assert (false = true) by (apply Hfound; eauto). discriminate. }
    destruct (Z.ltb_spec (k + 1) (Z.of_nat (length objs))); [lia|]. rewrite andb_false_r. cbn [bindr].
    rewrite Ef. cbn [filter]. destruct (starts_with vs o) eqn:Es; cbn [negb]; [|reflexivity].
    rewrite (Hoff _ _ Ho). rewrite Z2Nat.id by lia. reflexivity.
  - assert (Lk : k <= Z.of_nat (length objs) - 2). { assert (length (skipn (Z.to_nat k) objs) = S (S (length rest))) by (rewrite Esk; reflexivity). rewrite skipn_length in *. lia. }
    assert (Ho : nth_error objs (Z.to_nat k) = Some o). { rewrite <- (Nat.add_0_r (Z.to_nat k)). rewrite <- Hn0. reflexivity. }
    assert (Ho2 : nth_error objs (Z.to_nat (k + 1)) = Some o2). { replace (Z.to_nat (k + 1)) with (Z.to_nat k + 1)%nat by lia. rewrite <- Hn0. reflexivity. }
    assert (Ef : found = starts_with vs o). { destruct found.
      - destruct (proj1 Hfound eq_refl) as (o' & Ho' & Hs). congruence.
      - destruct (starts_with vs o) eqn:E; [|reflexivity]. assert (false = true) by (apply Hfound; eauto). discriminate. }
    destruct (Z.ltb_spec (k + 1) (Z.of_nat (length objs))); [|lia]. destruct (Z.ltb_spec k (Z.of_nat (length objs))); [|lia].
    rewrite Ef. assert (objs <> []) by (intros ->; destruct (Z.to_nat k); discriminate). specialize (Hsize ltac:(assumption)). rewrite Hnr in Hsize.
    assert (Hrest : starts_with vs o2 = false -> filter (starts_with vs) (o2 :: rest) = []).
    { intros F2. apply filter_none. intros x Hx. apply In_nth_error in Hx as [i Hi].
      destruct (starts_with vs x) eqn:Ex; [|reflexivity]. rewrite (Hmono 1%nat (S i) o2 x ltac:(lia) eq_refl Hi Ex) in F2. discriminate. }
    destruct (starts_with vs o) eqn:Es.
    + cbn [andb negb].
      assert (Eend : snd o = k) by (rewrite (Hoff _ _ Ho); lia).
      assert (Eamb : (if negb (Z.of_nat (length vs) =? 2 * c_osz f) && true
          then do c <- ncmp_at (c_osz f) (c_data f) (c_lookup f + k * c_osz f + c_osz f) q (length vs);; Ok (c =? 0) else Ok false) = Ok (starts_with vs o2)).
      { rewrite andb_true_r. destruct (Z.eqb_spec (Z.of_nat (length vs)) (2 * c_osz f)) as [Efull|Nf]; cbn [negb].
        - f_equal. destruct (starts_with vs o2) eqn:E2; [|reflexivity]. exfalso. apply starts_spec in Es, E2.
          assert (A : forall x, oid_ok (Z.to_nat (c_osz f)) x -> firstn (length vs) (nibbles x) = nibbles x).
          { intros x [Lx _]. apply firstn_all2. rewrite nibbles_length. lia. }
          pose proof (obj_ok _ _ Hok _ o Ho) as K1. pose proof (obj_ok _ _ Hok _ o2 Ho2) as K2. rewrite A in Es, E2 by assumption.
          assert (fst o = fst o2) as Eid by (apply nibbles_inj; [apply K1|apply K2|congruence]).
          pose proof (obj_lt _ objs Hok (Z.to_nat k) (Z.to_nat (k + 1)) o o2 ltac:(lia) Ho Ho2) as L. rewrite Eid, lex_refl in L. discriminate.
        - replace (c_lookup f + k * c_osz f + c_osz f) with (c_lookup f + (k + 1) * c_osz f) by lia.
          destruct (ncmp_at_spec (c_data f) (c_lookup f + (k + 1) * c_osz f) q (length vs) (c_osz f)) as (c & Ec & Hc); auto; try lia; try nia.
          rewrite Ec. cbn [bindr]. f_equal. pose proof (Hid _ _ Ho2) as E. rewrite Z2Nat.id in E by lia. rewrite E in Hc.
          rewrite Hnq, firstn_app, firstn_all, Nat.sub_diag in Hc. cbn [firstn] in Hc. rewrite app_nil_r in Hc.
          destruct (starts_with vs o2) eqn:E2; [apply starts_spec in E2; apply Z.eqb_eq; apply Hc; congruence|].
          apply Z.eqb_neq. intros ->. assert (starts_with vs o2 = true) by (apply starts_spec; symmetry; apply Hc; reflexivity). congruence. }
      rewrite Eamb. cbn [bindr]. cbn [filter]. rewrite Es. destruct (starts_with vs o2) eqn:E2; [reflexivity|].
      specialize (Hrest eq_refl). cbn [filter] in Hrest. rewrite ?E2 in Hrest. rewrite Hrest, Eend. reflexivity.
    + cbn [andb bindr negb]. rewrite filter_none; [reflexivity|]. intros x Hx. apply In_nth_error in Hx as [i Hi].
      destruct (starts_with vs x) eqn:Ex; [|reflexivity]. rewrite (Hmono 0%nat i o x ltac:(lia) eq_refl Hi Ex) in Es. discriminate.
Qed.
