(** C24: looking up ids in pack indexes. *)
From Verif Require Import Base CStr OidModel OidSpec OidProofs IdxFileModel IdxFileProofs PackIdxModel PackIdxSpec PackIdxProofs PackIdxMain.

(** An abbreviated or full id given as text [str] (its first [len] characters) is
    answered according to the objects whose id starts with those digits, in every
    well-formed index of either version.  Missing: indexes with so many objects
    that the C code's 32-bit products wrap (more than 2^32 / 28 objects for SHA1). *)
Theorem C24_lookup_partial : forall osz objs data str len q,
  (0 < osz)%nat -> version1 osz objs data \/ version2 osz objs data ->
  Z.of_nat (length objs) * (Z.of_nat osz + 8) < two32 -> Z.of_nat (length objs) < 2147483648 ->
  bytes str -> oid_from_prefix osz str len = Ok q ->
  exists p vs, index_open (Z.of_nat osz) data = Ok p /\ digits_of (firstn len str) vs /\ length vs = len /\
    find_offset p q len = answer_res (lookup_spec objs vs).
Proof.
  intros osz objs data str len q Ho Hv Hn Hn2 Bs Eq.
  apply (proj1 (from_prefix_iff osz str len q Bs)) in Eq as (Hl & Hls & Hq & vs & Hd & Hnib).
  assert (Lv : length vs = len).
  { assert (G : forall a b, digits_of a b -> length b = length a) by (intros a b F; induction F; cbn; congruence).
    rewrite (G _ _ Hd), firstn_length. lia. }
  assert (K : exists p, index_open (Z.of_nat osz) data = Ok p /\ p_data p = data /\ p_osz p = Z.of_nat osz /\ layout p objs /\ bytes data).
  { destruct Hv as [Hv|Hv]; [apply version1_open|apply version2_open]; auto. nia. }
  assert (Hok : objs_ok osz objs) by (destruct Hv as [[? _]|[? _]]; assumption).
  destruct K as (p & Ep & Ed & Eo & HL & Bd). exists p, vs. repeat split; auto. rewrite <- Lv.
  apply find_spec; rewrite ?Ed, ?Eo, ?Nat2Z.id; auto; try lia. rewrite Hnib, Lv. reflexivity.
Qed.

(** A full id is found exactly when it is listed, with its offset. *)
Theorem C24_full_id_partial : forall osz objs data q,
  (0 < osz)%nat -> version1 osz objs data \/ version2 osz objs data ->
  Z.of_nat (length objs) * (Z.of_nat osz + 8) < two32 -> Z.of_nat (length objs) < 2147483648 ->
  oid_ok osz q ->
  exists p, index_open (Z.of_nat osz) data = Ok p /\
    (forall off id, find_offset p q (2 * osz) = Ok (off, id) <-> id = q /\ In (q, off) objs) /\
    (find_offset p q (2 * osz) = Err (-3) <-> ~ In q (map fst objs)).
Proof.
  intros osz objs data q Ho Hv Hn Hn2 Hq.
  assert (K : exists p, index_open (Z.of_nat osz) data = Ok p /\ p_data p = data /\ p_osz p = Z.of_nat osz /\ layout p objs /\ bytes data).
  { destruct Hv as [Hv|Hv]; [apply version1_open|apply version2_open]; auto. nia. }
  assert (Hok : objs_ok osz objs) by (destruct Hv as [[? _]|[? _]]; assumption).
  destruct K as (p & Ep & Ed & Eo & HL & Bd). exists p. split; [exact Ep|].
  assert (Ln : length (nibbles q) = (2 * osz)%nat) by (rewrite nibbles_length; destruct Hq; lia).
  assert (E : find_offset p q (2 * osz) = answer_res (lookup_spec objs (nibbles q))).
  { rewrite <- Ln. apply find_spec; rewrite ?Ed, ?Eo, ?Nat2Z.id; auto; try lia. rewrite Ln, Nat.sub_diag. cbn. rewrite app_nil_r. reflexivity. }
  assert (SW : forall o, In o objs -> (starts_with (nibbles q) o = true <-> fst o = q)).
  { intros o Hi. rewrite starts_spec, Ln. destruct Hok as [F _]. rewrite Forall_forall in F. destruct (F o Hi) as [L B]. destruct Hq as [Lq Bq].
    rewrite firstn_all2 by (rewrite nibbles_length; lia). split; [apply nibbles_inj; assumption|congruence]. }
  assert (U : forall l, (forall o, In o l -> In o objs) -> NoDup (map fst l) -> (exists o, In o l /\ fst o = q /\ filter (starts_with (nibbles q)) l = [o]) \/ (~ In q (map fst l) /\ filter (starts_with (nibbles q)) l = [])).
  { induction l as [|o l IH]; intros Hin Hnd; [right; split; [intros []|reflexivity]|]. inversion_clear Hnd as [|? ? Hx Hnd'].
    cbn [filter]. destruct (starts_with (nibbles q) o) eqn:Es.
    - apply SW in Es; [|apply Hin; cbn; auto]. left. exists o. split; [cbn; auto|]. split; [exact Es|]. f_equal.
      destruct (IH ltac:(intros; apply Hin; cbn; auto) Hnd') as [(o' & Ho' & Eo' & _)|[_ ->]]; [|reflexivity].
      exfalso. apply Hx. rewrite Es, <- Eo'. apply in_map. exact Ho'.
    - destruct (IH ltac:(intros; apply Hin; cbn; auto) Hnd') as [(o' & Ho' & Eo' & F)|[N F]].
      + left. exists o'. cbn [In]. auto.
      + right. split; [|exact F]. cbn. intros [Eo'|]; [|contradiction]. assert (starts_with (nibbles q) o = true) by (apply SW; [apply Hin; cbn; auto|exact Eo']). congruence. }
  assert (ND : NoDup (map fst objs)).
  { apply (NoDup_nth_error). intros i j Hi Eij. destruct (nth_error (map fst objs) i) as [x|] eqn:Ex; [|apply nth_error_Some in Hi; congruence].
    destruct Hok as [_ Hs]. destruct (Nat.lt_trichotomy i j) as [L|[L|L]]; [|exact L|].
    - pose proof (increasing_nth _ Hs i j x x L Ex (eq_sym Eij)) as C. rewrite lex_refl in C. discriminate.
    - pose proof (increasing_nth _ Hs j i x x L (eq_sym Eij) Ex) as C. rewrite lex_refl in C. discriminate. }
  rewrite E. unfold lookup_spec. destruct (U objs (fun o H => H) ND) as [([i off'] & Hin & Hid & ->)|[N ->]]; cbn [answer_res fst snd] in *.
  - subst i. split.
    + intros off id. split; [intros [= <- <-]; auto|]. intros [-> Hin']. f_equal. f_equal.
      assert (G : forall l, NoDup (map fst l) -> In (q, off) l -> In (q, off') l -> off' = off).
      { clear. induction l as [|[a b] l IH]; intros Hnd H1 H2; [destruct H1|]. inversion_clear Hnd as [|? ? Hx Hnd'].
        destruct H1 as [E1|H1], H2 as [E2|H2]; [congruence| | |auto];
          exfalso; apply Hx; [injection E1 as -> _; exact (in_map fst l (q, off') H2)|injection E2 as -> _; exact (in_map fst l (q, off) H1)]. }
      eapply G; eauto.
    + split; [discriminate|]. intros C. exfalso. apply C. exact (in_map fst objs (q, off') Hin).
  - split; [|tauto]. intros off id. split; [discriminate|]. intros [-> Hin]. exfalso. apply N. exact (in_map fst objs (q, off) Hin).
Qed.

(** The index libgit2 writes for a pack is of version 2: the theorems above apply
    to it, with the same objects. *)
Theorem C24_written : forall osz objs packsum idxsum, (0 < osz)%nat -> iobjs_ok osz objs -> Z.of_nat (length objs) < 2147483648 ->
  (objs = [] \/ exists o, In o objs /\ o_off o <= 2147483647) ->
  length packsum = osz -> length idxsum = osz -> bytes packsum -> bytes idxsum ->
  version2 osz (map (fun o => (o_id o, o_off o)) objs) (write_idx objs packsum idxsum).
Proof. exact write_version2. Qed.

(** Whatever bytes are on disk, an index that is accepted is searched within its
    bounds. *)
Theorem C24_safe : forall osz data p q len, bytes data -> 0 < osz -> index_open osz data = Ok p -> p_nr p < 2147483648 ->
  oid_ok (Z.to_nat osz) q -> (len <= 2 * Z.to_nat osz)%nat ->
  find_offset p q len <> UB /\ find_offset p q len <> NoFuel.
Proof. exact find_safe. Qed.

(** Opening never goes out of bounds either (ids have at least 4 bytes). *)
Theorem C24_open_safe : forall osz data, bytes data -> 4 <= osz -> index_open osz data <> UB /\ index_open osz data <> NoFuel.
Proof.
  intros osz data Bd Ho. unfold index_open, index_check. destruct (Z.ltb_spec (Z.of_nat (length data)) (1024 + osz * 2)); [cbn [bindr]; split; discriminate|].
  destruct (rd32_some data 0 Bd) as (sig & -> & _); try lia. cbn [bindr].
  assert (FS : forall i base nr, 0 <= base -> base + 4 * Z.of_nat i <= Z.of_nat (length data) -> fan_check data base i nr <> UB /\ fan_check data base i nr <> NoFuel).
  { induction i as [|i IH]; intros base nr Hb Hl; cbn [fan_check]; [split; discriminate|].
    destruct (rd32_some data base Bd) as (v & -> & _); try lia. cbn [bindr]. destruct (v <? nr); [split; discriminate|]. apply IH; lia. }
  destruct (sig =? IDX_SIG).
  - destruct (rd32_some data 4 Bd) as (v & -> & _); try lia. cbn [bindr]. destruct ((v <? 2) || (2 <? v)) eqn:Ev; cbn [bindr]; [split; discriminate|].
    assert (v = 2) by lia. subst. change (1 <? 2) with true. cbv iota. destruct (FS 256%nat 8 0 ltac:(lia) ltac:(lia)) as [P1 P2].
    destruct (fan_check data 8 256 0) as [nr| | |]; try congruence; cbn [bindr]; [|split; discriminate]. change (2 =? 1) with false. cbv iota zeta.
    match goal with |- context [if ?c then Err _ else _] => destruct c end; cbn [bindr]; split; discriminate.
  - cbn [bindr]. change (1 <? 1) with false. cbv iota. destruct (FS 256%nat 0 0 ltac:(lia) ltac:(lia)) as [P1 P2].
    destruct (fan_check data 0 256 0) as [nr| | |]; try congruence; cbn [bindr]; [|split; discriminate]. change (1 =? 1) with true. cbv iota.
    destruct (negb _); cbn [bindr]; split; discriminate.
Qed.

(** Non-vacuity: a written index with three objects, one behind a long offset. *)
Definition ex_objs : list iobj :=
  [{| o_id := [18; 1; 0; 0]; o_crc := [1; 2; 3; 4]; o_off := 12 |};
   {| o_id := [18; 52; 0; 0]; o_crc := [1; 2; 3; 4]; o_off := 5000000000 |};
   {| o_id := [171; 52; 0; 0]; o_crc := [1; 2; 3; 4]; o_off := 99 |}].
Example C24_ex_ok : iobjs_ok 4 ex_objs /\ Z.of_nat (length ex_objs) * (4 + 8) < two32.
Proof.
  split; [|reflexivity]. split; [split|].
  - repeat constructor; unfold is_byte; cbn; lia.
  - cbn. auto.
  - repeat constructor; unfold is_byte; cbn; lia.
Qed.
Definition ex_file : list Z := write_idx ex_objs [1; 1; 1; 1] [2; 2; 2; 2].
Definition ex_look (str : list Z) : res (Z * list Z) :=
  do p <- index_open 4 ex_file ;; do q <- oid_from_prefix 4 str (length str) ;; find_offset p q (length str).
Example C24_ex_look : ex_look [49; 50] = Err (-5) /\ ex_look [49; 50; 51] = Ok (5000000000, [18; 52; 0; 0]) /\
  ex_look [97; 66] = Ok (99, [171; 52; 0; 0]) /\ ex_look [50] = Err (-3).
Proof. vm_compute. auto. Qed.
Definition ex_v1 : list Z := fan_table (map obj_of [hd (nth 2 ex_objs (nth 0 ex_objs {| o_id := []; o_crc := []; o_off := 0 |})) ex_objs]) ++ (bigend 4 12 ++ [18; 1; 0; 0]) ++ [1; 1; 1; 1; 2; 2; 2; 2].
Example C24_ex_v1 : version1 4 [([18; 1; 0; 0], 12)] ex_v1.
Proof.
  split; [split; [repeat constructor; unfold is_byte; cbn; lia|cbn; auto]|]. split; [repeat constructor; unfold two32; cbn; lia|].
  exists [1; 1; 1; 1; 2; 2; 2; 2]. split; [reflexivity|]. split; [repeat constructor; unfold is_byte; lia|]. unfold ex_v1, ex_objs. cbn [hd map concat obj_of o_id o_off fst snd]. rewrite <- ?app_assoc. reflexivity.
Qed.

Print Assumptions C24_lookup_partial.
Print Assumptions C24_full_id_partial.
Print Assumptions C24_written.
Print Assumptions C24_safe.
Print Assumptions C24_open_safe.
