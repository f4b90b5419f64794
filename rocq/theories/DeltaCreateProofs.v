From Verif Require Import Base DeltaTables DeltaModel DeltaSpec DeltaApplyProofs.

Local Notation zlen l := (Z.of_nat (length l)).

(** *** Reads, hashes *)
Lemma rdz_ok l i : 0 <= i < zlen l -> exists b, rdz l i = Ok b /\ nth_error l (Z.to_nat i) = Some b.
Proof.
  intros H. unfold rdz, rd.
  destruct (Z.leb_spec 0 i); [|lia]. destruct (Z.ltb_spec i (zlen l)); [|lia]. cbn [andb].
  destruct (nth_error l (Z.to_nat i)) eqn:E; [eauto|]. apply nth_error_None in E. lia.
Qed.
Lemma rdz_byte l i : bytes l -> 0 <= i < zlen l ->
  exists b, rdz l i = Ok b /\ nth_error l (Z.to_nat i) = Some b /\ is_byte b.
Proof.
  intros Hb H. destruct (rdz_ok l i H) as (b & E & Hn). exists b. repeat split; auto.
  - eapply Forall_forall in Hb; [apply Hb|]. eapply nth_error_In; eauto.
  - eapply Forall_forall in Hb; [apply Hb|]. eapply nth_error_In; eauto.
Qed.

Definition t_entry_ok (i : Z) : bool :=
  match rdz T_tab i with Ok t => (0 <=? t) && (t <? two32) && (Bool.eqb (2147483648 <=? t) (Z.odd i)) | _ => false end.
Lemma T_ok i : is_byte i -> exists t, rdz T_tab i = Ok t /\ 0 <= t < two32 /\ (2147483648 <=? t) = Z.odd i.
Proof.
  intros H. assert (E : t_entry_ok i = true) by (revert i H; apply byte_sweep; vm_compute; reflexivity).
  unfold t_entry_ok in E. destruct (rdz T_tab i) as [t| | |]; try discriminate.
  exists t. split; [reflexivity|].
  apply andb_prop in E. destruct E as [E1 E2]. apply eqb_prop in E2. split; [lia|exact E2].
Qed.
Definition u_entry_ok (i : Z) : bool :=
  match rdz U_tab i with Ok t => (0 <=? t) && (t <? 2147483648) | _ => false end.
Lemma U_ok i : is_byte i -> exists t, rdz U_tab i = Ok t /\ 0 <= t < 2 ^ 31.
Proof.
  intros H. assert (E : u_entry_ok i = true) by (revert i H; apply byte_sweep; vm_compute; reflexivity).
  unfold u_entry_ok in E. destruct (rdz U_tab i) as [t| | |]; try discriminate.
  exists t. split; [reflexivity|]. change (2 ^ 31) with 2147483648. lia.
Qed.

Lemma lt_pow2_bits x n : 0 <= n -> 0 <= x -> (forall k, n <= k -> Z.testbit x k = false) -> x < 2 ^ n.
Proof.
  intros Hn Hx H.
  assert (x = x mod 2 ^ n) as ->; [|apply Z.mod_pos_bound; apply Z.pow_pos_nonneg; lia].
  apply Z.bits_inj'. intros k Hk. destruct (Z.lt_ge_cases k n).
  - rewrite Z.mod_pow2_bits_low by lia. reflexivity.
  - rewrite Z.mod_pow2_bits_high by lia. apply H. lia.
Qed.
Lemma bits_lt_pow2 x n k : 0 <= x < 2 ^ n -> 0 <= n <= k -> Z.testbit x k = false.
Proof.
  intros Hx Hk. rewrite <- (Z.mod_small x (2 ^ n)) by lia. apply Z.mod_pow2_bits_high. lia.
Qed.
Lemma lxor_lt a b n : 0 <= n -> 0 <= a < 2 ^ n -> 0 <= b < 2 ^ n -> 0 <= Z.lxor a b < 2 ^ n.
Proof.
  intros Hn Ha Hb. assert (0 <= Z.lxor a b) by (apply Z.lxor_nonneg; lia).
  split; [assumption|]. apply lt_pow2_bits; auto. intros k Hk.
  rewrite Z.lxor_spec, (bits_lt_pow2 a n), (bits_lt_pow2 b n) by lia. reflexivity.
Qed.
Lemma testbit_31 t : 0 <= t < two32 -> Z.testbit t 31 = (2147483648 <=? t).
Proof.
  intros H. unfold two32 in H. rewrite Z.testbit_eqb by lia. change (2 ^ 31) with 2147483648.
  destruct (Z.leb_spec 2147483648 t).
  - replace (t / 2147483648) with 1 by lia. reflexivity.
  - replace (t / 2147483648) with 0 by lia. reflexivity.
Qed.

Lemma hash_step_ok val b : 0 <= val < 2 ^ 31 -> is_byte b ->
  exists v, hash_step val b = Ok v /\ 0 <= v < 2 ^ 31.
Proof.
  intros Hv Hb. unfold hash_step, RABIN_SHIFT.
  change (2 ^ 31) with 2147483648 in *.
  assert (Hi : is_byte (Z.shiftr val 23)).
  { rewrite shiftr_div by lia. change (2 ^ 23) with 8388608. unfold is_byte. lia. }
  destruct (T_ok _ Hi) as (t & Et & Ht & Hodd). rewrite Et. cbn [bindr].
  set (w := Z.lor (Z.shiftl val 8) b mod two32).
  assert (Ew : w = (val mod 16777216) * 256 + b).
  { unfold w. rewrite Z.lor_comm, shiftl_mul by lia. change (2 ^ 8) with 256.
    unfold is_byte in Hb. rewrite (lor_disjoint b (val * 256) 8); [|lia|change (2 ^ 8) with 256; lia|].
    - unfold two32. lia.
    - change (2 ^ 8) with 256. apply Z.mod_mul. lia. }
  assert (Hw : 0 <= w < two32) by (apply Z.mod_pos_bound; reflexivity).
  eexists. split; [reflexivity|].
  assert (0 <= Z.lxor w t) by (apply Z.lxor_nonneg; lia).
  split; [assumption|]. change 2147483648 with (2 ^ 31). apply lt_pow2_bits; [lia|assumption|].
  intros k Hk. rewrite Z.lxor_spec.
  destruct (Z.eq_dec k 31) as [->|].
  - rewrite !testbit_31 by assumption. rewrite Hodd.
    rewrite <- (testbit_31 w Hw). rewrite Ew.
    assert (E1 : Z.testbit (val mod 16777216 * 256 + b) 31 = Z.odd (Z.shiftr val 23)).
    { rewrite <- Ew, testbit_31, Ew by assumption. rewrite shiftr_div by lia. change (2 ^ 23) with 8388608.
      unfold is_byte in Hb.
      rewrite Zodd_mod.
      assert (Hq : (val / 8388608) mod 2 = (val mod 16777216) / 8388608) by lia.
      rewrite Hq. destruct (Z.leb_spec 2147483648 (val mod 16777216 * 256 + b)).
      - assert (8388608 <= val mod 16777216) by lia.
        replace ((val mod 16777216) / 8388608) with 1 by lia. reflexivity.
      - assert (val mod 16777216 < 8388608) by lia.
        replace ((val mod 16777216) / 8388608) with 0 by lia. reflexivity. }
    rewrite E1. apply xorb_nilpotent.
  - change two32 with (2 ^ 32) in *.
    rewrite (bits_lt_pow2 w 32), (bits_lt_pow2 t 32) by lia. reflexivity.
Qed.

Lemma hash_range_ok buf n : bytes buf -> forall pos val, 0 <= pos -> pos + Z.of_nat n <= zlen buf ->
  0 <= val < 2 ^ 31 -> exists v, hash_range buf pos n val = Ok v /\ 0 <= v < 2 ^ 31.
Proof.
  intros Hb. induction n as [|n IH]; intros pos val Hp Hl Hv; cbn [hash_range]; [eauto|].
  destruct (rdz_byte buf pos Hb ltac:(lia)) as (b & -> & _ & Hby). cbn [bindr].
  destruct (hash_step_ok val b Hv Hby) as (v & -> & Hv'). cbn [bindr].
  apply IH; lia.
Qed.

(** *** Index *)
Definition ix_ok (ix : dindex) : Prop :=
  forall i e, In e (di_bucket ix i) -> 0 <= fst e <= zlen (di_src ix).

Lemma index_fill_ok buf n : bytes buf -> Z.of_nat n * 16 < zlen buf -> forall prev (acc : list entry),
  (acc = [] -> 2 ^ 31 <= prev) -> (forall e : entry, In e acc -> 0 <= fst e <= zlen buf) ->
  exists es, index_fill n buf prev acc = Ok es /\ forall e, In e es -> 0 <= fst e <= zlen buf.
Proof.
  intros Hb. induction n as [|k IH]; intros Hn prev acc Hprev Hacc; cbn [index_fill]; [eauto|].
  unfold RABIN_WINDOW.
  destruct (hash_range_ok buf 16 Hb (Z.of_nat k * 16 + 1) 0) as (v & -> & Hv); try lia. cbn [bindr].
  destruct (Z.eqb_spec v prev) as [->|Hne].
  - destruct acc as [|[p w] acc']; [specialize (Hprev eq_refl); lia|].
    apply IH; [lia|discriminate|]. intros e [<-|Hin]; [cbn; lia|]. apply Hacc. right. exact Hin.
  - apply IH; [lia|discriminate|]. intros e [<-|Hin]; [cbn; lia|]. apply Hacc. exact Hin.
Qed.

Lemma cull_incl fuel : forall skip l e, In e (cull fuel skip l) -> In e l.
Proof.
  induction fuel as [|f IH]; intros skip l e H; destruct l as [|a l]; cbn [cull] in H; auto.
  destruct H as [<-|H]; [left; reflexivity|].
  destruct (skip =? 0); [destruct H|].
  apply IH in H. right. rewrite <- (firstn_skipn (Z.to_nat (skip - 1)) l). apply in_or_app. auto.
Qed.

Lemma index_init_ok src : bytes src -> src <> [] ->
  exists ix, delta_index_init src = Ok ix /\ di_src ix = src /\ ix_ok ix.
Proof.
  intros Hb Hne. unfold delta_index_init. cbv zeta.
  set (entries := if UINT_MAX <=? zlen src then 4294967294 / RABIN_WINDOW
                 else ((zlen src - 1) mod two32) / RABIN_WINDOW).
  assert (He : 0 <= entries /\ entries * 16 < zlen src).
  { unfold entries, UINT_MAX, RABIN_WINDOW, two32 in *. destruct src; [congruence|].
    cbn [length] in *. destruct (Z.leb_spec 4294967295 (Z.of_nat (S (length src)))); lia. }
  destruct (index_fill_ok src (Z.to_nat entries) Hb ltac:(lia) UINT_MAX (@nil entry)) as (es & -> & Hes).
  { intros _. unfold UINT_MAX. lia. } { intros e []. }
  cbn [bindr]. eexists. split; [reflexivity|]. cbn [di_src]. split; [reflexivity|].
  intros i e. cbn [di_bucket di_src]. intros Hin. apply Hes.
  destruct (_ <? HASH_LIMIT).
  - apply filter_In in Hin. tauto.
  - apply cull_incl in Hin. apply filter_In in Hin. tauto.
Qed.

(** *** Matches *)
Definition eqrange (a : list Z) (p : Z) (b : list Z) (d m : Z) : Prop :=
  forall k, 0 <= k < m -> nth_error a (Z.to_nat (p + k)) = nth_error b (Z.to_nat (d + k)).

Definition MInv (src trg : list Z) (data moff msize : Z) : Prop :=
  0 <= msize /\ 0 <= moff /\ moff + msize <= zlen src /\ data + msize <= zlen trg /\
  eqrange src moff trg data msize.

Lemma match_len_ok src trg n : forall p d, 0 <= p -> p + Z.of_nat n <= zlen src ->
  0 <= d -> d + Z.of_nat n <= zlen trg ->
  exists m, match_len n src trg p d = Ok m /\ 0 <= m <= Z.of_nat n /\ eqrange src p trg d m.
Proof.
  induction n as [|n IH]; intros p d Hp Hps Hd Hds; cbn [match_len].
  - exists 0. split; [reflexivity|]. split; [lia|]. intros k Hk. lia.
  - destruct (rdz_ok trg d ltac:(lia)) as (a & -> & Ha).
    destruct (rdz_ok src p ltac:(lia)) as (b & -> & Hb). cbn [bindr].
    destruct (Z.eqb_spec a b) as [->|].
    + destruct (IH (p + 1) (d + 1) ltac:(lia) ltac:(lia) ltac:(lia) ltac:(lia)) as (m & -> & Hm & Heq).
      cbn [bindr]. exists (m + 1). split; [reflexivity|]. split; [lia|].
      intros k Hk. destruct (Z.eq_dec k 0) as [->|].
      * rewrite !Z.add_0_r. congruence.
      * specialize (Heq (k - 1) ltac:(lia)).
        replace (p + 1 + (k - 1)) with (p + k) in Heq by lia.
        replace (d + 1 + (k - 1)) with (d + k) in Heq by lia. exact Heq.
    + exists 0. split; [reflexivity|]. split; [lia|]. intros k Hk. lia.
Qed.

Lemma search_ok src trg data val chain : forall moff msize,
  0 <= data -> (forall e, In e chain -> 0 <= fst e <= zlen src) -> MInv src trg data moff msize ->
  exists moff' msize', search chain src trg data val moff msize = Ok (moff', msize') /\
    MInv src trg data moff' msize'.
Proof.
  induction chain as [|[ptr v] rest IH]; intros moff msize Hd Hc HM; cbn [search]; [eauto|].
  assert (Hp : 0 <= ptr <= zlen src) by (apply (Hc (ptr, v)); left; reflexivity).
  assert (Hc' : forall e, In e rest -> 0 <= fst e <= zlen src) by (intros e He; apply Hc; right; exact He).
  destruct (negb (v =? val)); [apply IH; auto|].
  set (rs := if _ <? _ then _ else _).
  destruct (Z.leb_spec rs msize); [eauto|].
  assert (Hrs : 0 <= rs /\ ptr + rs <= zlen src /\ data + rs <= zlen trg).
  { unfold MInv in HM. unfold rs in *. destruct (Z.ltb_spec (zlen trg - data) (zlen src - ptr)); lia. }
  destruct (match_len_ok src trg (Z.to_nat rs) ptr data) as (m & -> & Hm & Heq); try lia. cbn [bindr].
  assert (MInv src trg data ptr m) by (unfold MInv; repeat split; try lia; exact Heq).
  destruct (Z.ltb_spec msize m).
  - destruct (4096 <=? m); [eauto|apply IH; auto].
  - apply IH; auto.
Qed.

(** *** Buffer operations *)
Lemma push_cases o b :
  (push o b = UB /\ ob_cap o <= zlen (ob o)) \/
  (push o b = Ok {| ob := ob o ++ [b mod 256]; ob_cap := ob_cap o |}).
Proof. unfold push. destruct (Z.ltb_spec (zlen (ob o)) (ob_cap o)); auto. Qed.

Lemma nth_sub_Z {A} (l : list A) off len i :
  nth_error (sub l off len) i = if Nat.ltb i len then nth_error l (off + i) else None.
Proof. apply nth_error_sub. Qed.

Lemma sub_snoc {A} (l : list A) off n x : nth_error l (off + n) = Some x ->
  sub l off (S n) = sub l off n ++ [x].
Proof.
  intros H. replace (S n) with (n + 1)%nat by lia. rewrite sub_app_split. f_equal.
  apply list_ext. intros i. rewrite nth_error_sub. destruct i as [|i].
  - cbn. rewrite Nat.add_0_r. exact H.
  - cbn. destruct i; reflexivity.
Qed.
Lemma firstn_sub {A} (l : list A) n m : firstn (n + m) l = firstn n l ++ sub l n m.
Proof.
  change (firstn (n + m) l) with (sub l 0 (n + m)). rewrite sub_app_split. reflexivity.
Qed.
Lemma bytes_sub l off len : bytes l -> bytes (sub l off len).
Proof.
  intros H. unfold bytes. apply Forall_forall. intros x Hx. apply In_nth_error in Hx.
  destruct Hx as [i Hi]. rewrite nth_error_sub in Hi. destruct (Nat.ltb _ _); [|discriminate].
  eapply Forall_forall in H; [exact H|]. eapply nth_error_In; eauto.
Qed.

Lemma delta_body_app base b1 o1 b2 o2 :
  delta_body base b1 o1 -> delta_body base b2 o2 -> delta_body base (b1 ++ b2) (o1 ++ o2).
Proof.
  induction 1 as [|i code chunk body out Hi Hp Hb IH]; intros H2; [exact H2|].
  rewrite <- !app_assoc. eapply db_cons; eauto.
Qed.
Lemma delta_body_one base i code chunk :
  instr_code i code -> produces base i chunk -> delta_body base code chunk.
Proof.
  intros Hi Hp. rewrite <- (app_nil_r code), <- (app_nil_r chunk). eapply db_cons; eauto. constructor.
Qed.

(** The buffer describes the target up to [data - inscnt]; the literal run pending
    in the buffer is [trg[data - inscnt .. data)]. *)
Definition BInv (src trg hdr : list Z) (data inscnt : Z) (o : obuf) : Prop :=
  exists body lit,
    ob o = hdr ++ body ++ lit /\
    delta_body src body (firstn (Z.to_nat (data - inscnt)) trg) /\
    0 <= inscnt <= data /\ data <= zlen trg /\ inscnt <= 127 /\
    (inscnt = 0 -> lit = []) /\
    (0 < inscnt -> exists slot, lit = slot :: sub trg (Z.to_nat (data - inscnt)) (Z.to_nat inscnt)).

Lemma upd_app_at {A} (pre : list A) x post y : upd (pre ++ x :: post) (length pre) y = pre ++ y :: post.
Proof. induction pre as [|a pre IH]; cbn; [reflexivity|]. rewrite IH. reflexivity. Qed.

Lemma set_count_BInv src trg hdr data inscnt o :
  bytes trg -> 0 < inscnt -> BInv src trg hdr data inscnt o ->
  (set_count o inscnt = UB /\ ob_cap o < zlen (ob o)) \/
  (exists o', set_count o inscnt = Ok o' /\ BInv src trg hdr data 0 o' /\
              ob_cap o' = ob_cap o /\ length (ob o') = length (ob o)).
Proof.
  intros Ht Hi (body & lit & Eo & Hb & Hid & Hdn & H127 & _ & Hlit).
  destruct (Hlit Hi) as (slot & ->).
  set (lits := sub trg (Z.to_nat (data - inscnt)) (Z.to_nat inscnt)) in *.
  assert (Hll : length lits = Z.to_nat inscnt) by (apply sub_length; lia).
  unfold set_count.
  assert (Hlen : zlen (ob o) = zlen (hdr ++ body) + 1 + inscnt).
  { rewrite Eo, !app_length. cbn [length]. rewrite Hll. lia. }
  set (pos := zlen (ob o) - inscnt - 1).
  assert (Hpos : pos = zlen (hdr ++ body)) by (unfold pos; lia).
  destruct (Z.ltb_spec pos 0); [lia|]. cbn [orb].
  destruct (Z.leb_spec (ob_cap o) pos); [left; split; [reflexivity|lia]|].
  right. eexists. split; [reflexivity|]. cbn [ob ob_cap]. split; [|split; [reflexivity|apply upd_length]].
  exists (body ++ inscnt :: lits), []. cbn [ob]. rewrite app_nil_r.
  split; [|split; [|repeat split; try lia; intros; lia]].
  - rewrite Hpos, Nat2Z.id, Eo. rewrite (app_assoc hdr body). rewrite upd_app_at.
    rewrite <- app_assoc. rewrite Z.mod_small by lia. reflexivity.
  - replace (Z.to_nat (data - 0)) with (Z.to_nat (data - inscnt) + Z.to_nat inscnt)%nat by lia.
    rewrite firstn_sub. apply delta_body_app; [exact Hb|]. fold lits.
    eapply delta_body_one; [|constructor].
    replace inscnt with (zlen lits) by lia. apply ic_insert; [lia|]. apply bytes_sub. exact Ht.
Qed.

Lemma removelast_snoc {A} (l : list A) x : removelast (l ++ [x]) = l.
Proof. rewrite removelast_app by discriminate. cbn. apply app_nil_r. Qed.

Lemma pop_snoc l x cap : pop {| ob := l ++ [x]; ob_cap := cap |} = Ok {| ob := l; ob_cap := cap |}.
Proof. unfold pop. cbn [ob ob_cap]. rewrite removelast_snoc. destruct l; reflexivity. Qed.

Lemma back_match_ok src trg hdr n : bytes trg -> forall moff msize data o,
  (0 < n)%nat -> Z.of_nat n <= 127 -> MInv src trg data moff msize ->
  BInv src trg hdr data (Z.of_nat n) o ->
  exists moff' msize' data' ins' o' k,
    back_match n src trg moff msize data o = Ok (moff', msize', data', ins', o') /\
    MInv src trg data' moff' msize' /\ 0 <= k <= Z.of_nat n /\
    data' = data - k /\ msize' = msize + k /\ ob_cap o' = ob_cap o /\
    zlen (ob o') <= zlen (ob o) /\
    ((ins' = Z.of_nat n - k /\ 0 < ins' /\ BInv src trg hdr data' ins' o') \/
     (ins' = -1 /\ BInv src trg hdr data' 0 o' /\ zlen (ob o') + 2 <= zlen (ob o))).
Proof.
  intros Ht. induction n as [|n IH]; intros moff msize data o Hn H127 HM HB; [lia|].
  cbn [back_match].
  pose proof HM as (Hm0 & Hmo & Hms & Hmt & Heq).
  pose proof HB as (body & lit & Eo & Hb & Hid & Hdn & _ & _ & Hlit).
  assert (Hself : exists moff' msize' data' ins' o' k,
    @Ok (Z * Z * Z * Z * obuf) (moff, msize, data, Z.of_nat (S n), o) = Ok (moff', msize', data', ins', o') /\
    MInv src trg data' moff' msize' /\ 0 <= k <= Z.of_nat (S n) /\
    data' = data - k /\ msize' = msize + k /\ ob_cap o' = ob_cap o /\
    zlen (ob o') <= zlen (ob o) /\
    ((ins' = Z.of_nat (S n) - k /\ 0 < ins' /\ BInv src trg hdr data' ins' o') \/
     (ins' = -1 /\ BInv src trg hdr data' 0 o' /\ zlen (ob o') + 2 <= zlen (ob o)))).
  { exists moff, msize, data, (Z.of_nat (S n)), o, 0. split; [reflexivity|].
    split; [exact HM|]. repeat split; try lia. left. repeat split; try lia. exact HB. }
  destruct (Z.eqb_spec moff 0) as [|Hmoff]; [exact Hself|].
  destruct (rdz_ok src (moff - 1) ltac:(lia)) as (a & -> & Ha).
  destruct (rdz_ok trg (data - 1) ltac:(lia)) as (b & -> & Hb'). cbn [bindr].
  destruct (Z.eqb_spec a b) as [->|]; cbn [negb]; [|exact Hself]. clear Hself.
  destruct (Hlit ltac:(lia)) as (slot & ->).
  set (i0 := Z.to_nat (data - Z.of_nat (S n))) in *.
  assert (Hsn : sub trg i0 (Z.to_nat (Z.of_nat (S n))) = sub trg i0 n ++ [b]).
  { rewrite Nat2Z.id. apply sub_snoc. rewrite <- Hb'. f_equal. unfold i0. lia. }
  rewrite Hsn in Eo.
  destruct o as [buf cap]. cbn [ob ob_cap] in *. subst buf.
  assert (Epop : pop {| ob := hdr ++ body ++ slot :: sub trg i0 n ++ [b]; ob_cap := cap |}
          = Ok {| ob := hdr ++ body ++ slot :: sub trg i0 n; ob_cap := cap |}).
  { replace (hdr ++ body ++ slot :: sub trg i0 n ++ [b]) with ((hdr ++ body ++ slot :: sub trg i0 n) ++ [b])
      by (rewrite <- !app_assoc; reflexivity). apply pop_snoc. }
  rewrite Epop. cbn [bindr].
  assert (HM' : MInv src trg (data - 1) (moff - 1) (msize + 1)).
  { unfold MInv. repeat split; try lia. intros k Hk.
    destruct (Z.eq_dec k 0) as [->|].
    - rewrite !Z.add_0_r. congruence.
    - specialize (Heq (k - 1) ltac:(lia)).
      replace (moff + (k - 1)) with (moff - 1 + k) in Heq by lia.
      replace (data + (k - 1)) with (data - 1 + k) in Heq by lia. exact Heq. }
  destruct n as [|n'].
  - assert (Epop2 : pop {| ob := hdr ++ body ++ [slot]; ob_cap := cap |}
          = Ok {| ob := hdr ++ body; ob_cap := cap |}).
    { rewrite (app_assoc hdr). apply pop_snoc. }
    change (sub trg i0 0) with (@nil Z). rewrite Epop2. cbn [bindr].
    eexists _, _, _, _, _, 1. split; [reflexivity|]. cbn [ob ob_cap].
    split; [exact HM'|]. split; [lia|]. split; [lia|]. split; [lia|]. split; [reflexivity|].
    split; [rewrite !app_length; lia|].
    right. split; [reflexivity|]. split; [|rewrite !app_length; cbn [length]; rewrite ?app_length; cbn; lia].
    exists body, []. cbn [ob]. rewrite app_nil_r. repeat split; try lia.
    replace (data - 1 - 0) with (data - Z.of_nat 1) by lia. exact Hb.
  - destruct (IH (moff - 1) (msize + 1) (data - 1)
      {| ob := hdr ++ body ++ slot :: sub trg i0 (S n'); ob_cap := cap |}) as
      (mo & ms & da & ins & o' & k & E & HMM & Hk & Hda & Hmsz & Hcap & Hlen & Hcase).
    + lia.
    + lia.
    + exact HM'.
    + exists body, (slot :: sub trg i0 (S n')). cbn [ob]. split; [reflexivity|].
      assert (Ei : i0 = Z.to_nat (data - 1 - Z.of_nat (S n'))) by (unfold i0; lia).
      split; [|repeat split; try lia].
      * rewrite <- Ei. exact Hb.
      * intros _. exists slot. rewrite <- Ei, Nat2Z.id. reflexivity.
    + rewrite E. exists mo, ms, da, ins, o', (k + 1). cbn [ob ob_cap] in *.
      split; [reflexivity|]. split; [exact HMM|].
      assert (Hl1 : zlen (hdr ++ body ++ slot :: sub trg i0 (S n')) + 1 =
                    zlen (hdr ++ body ++ slot :: sub trg i0 (S n') ++ [b])).
      { rewrite !app_length. cbn [length]. rewrite app_length. cbn [length]. lia. }
      repeat split; try lia.
      destruct Hcase as [(Hins & Hpos & HBB)|(Hins & HBB & Hl)].
      * left. repeat split; try lia; exact HBB.
      * right. repeat split; try lia; exact HBB.
Qed.

(** *** Emitting sizes and copies *)
Lemma lor128_byte i : 0 <= i -> Z.lor i 128 mod 256 = 128 + i mod 128.
Proof.
  intros H. rewrite <- land_255, Z.land_lor_distr_l.
  change (Z.land 128 255) with 128. rewrite land_255.
  assert (Hb : is_byte (i mod 256)) by (unfold is_byte; lia).
  assert (E : (Z.lor (i mod 256) 128 =? 128 + (i mod 256) mod 128) = true).
  { revert Hb. generalize (i mod 256). apply byte_sweep. vm_compute. reflexivity. }
  lia.
Qed.

Lemma put_size_ok fuel : forall i o, 0 <= i -> i < 128 ^ Z.of_nat fuel -> (0 < fuel)%nat ->
  (put_size fuel i o = UB /\ ob_cap o < zlen (ob o) + Z.of_nat fuel) \/
  (exists code, size_code code i /\ (length code <= fuel)%nat /\
     put_size fuel i o = Ok {| ob := ob o ++ code; ob_cap := ob_cap o |}).
Proof.
  induction fuel as [|f IH]; intros i o Hi Hlt Hf; [lia|]. cbn [put_size].
  destruct (Z.leb_spec 128 i) as [Hbig|Hsm].
  - destruct (push_cases o (Z.lor i 128)) as [[-> Hc]| ->]; cbn [bindr].
    { left. split; [reflexivity|lia]. }
    rewrite lor128_byte by lia. rewrite shiftr_div by lia. change (2 ^ 7) with 128.
    rewrite Nat2Z.inj_succ, Z.pow_succ_r in Hlt by lia.
    assert (0 < f)%nat.
    { destruct f; [|lia]. change (128 ^ Z.of_nat 0) with 1 in Hlt. lia. }
    destruct (IH (i / 128) {| ob := ob o ++ [128 + i mod 128]; ob_cap := ob_cap o |}) as [[-> Hc]|(code & Hcd & Hl & ->)];
      cbn [ob ob_cap] in *; try lia.
    + left. split; [reflexivity|]. rewrite app_length in Hc. cbn [length] in Hc. lia.
    + right. exists ((128 + i mod 128) :: code). split; [|split].
      * replace i with ((128 + i mod 128) - 128 + 128 * (i / 128)) at 2 by lia.
        apply sc_more; [lia|exact Hcd].
      * cbn [length]. lia.
      * rewrite <- app_assoc. reflexivity.
  - destruct (push_cases o i) as [[-> Hc]| ->].
    { left. split; [reflexivity|lia]. }
    right. exists [i]. rewrite Z.mod_small by lia. split; [constructor; lia|].
    split; [cbn; lia|reflexivity].
Qed.

Lemma land_mask x sh : 0 <= x -> 0 <= sh -> Z.land x (255 * 2 ^ sh) = ((x / 2 ^ sh) mod 256) * 2 ^ sh.
Proof.
  intros Hx Hs. rewrite <- (shiftl_mul 255 sh Hs).
  rewrite <- (shiftl_mul ((x / 2 ^ sh) mod 256) sh Hs), <- land_255, <- (shiftr_div x sh Hs).
  apply Z.bits_inj'. intros n Hn. rewrite Z.land_spec.
  destruct (Z.lt_ge_cases n sh).
  - rewrite !Z.shiftl_spec_low by lia. apply andb_false_r.
  - rewrite !Z.shiftl_spec by lia. rewrite Z.land_spec, Z.shiftr_spec by lia.
    replace (n - sh + sh) with n by lia. reflexivity.
Qed.

Lemma put_opt_ok x mask sh bit o i :
  0 <= x -> 0 <= sh -> mask = 255 * 2 ^ sh ->
  (put_opt x mask sh bit (o, i) = UB /\ ob_cap o <= zlen (ob o)) \/
  (exists f, put_opt x mask sh bit (o, i) =
     Ok ({| ob := ob o ++ opt_bytes f; ob_cap := ob_cap o |}, if is_none f then i else Z.lor i bit)
   /\ opt_val f = (x / 2 ^ sh) mod 256 /\ opt_ok f).
Proof.
  intros Hx Hs ->. unfold put_opt. rewrite land_mask by lia.
  assert (HP : 0 < 2 ^ sh) by (apply Z.pow_pos_nonneg; lia).
  assert (Hm : 0 <= (x / 2 ^ sh) mod 256 < 256) by (apply Z.mod_pos_bound; lia).
  destruct (Z.eqb_spec ((x / 2 ^ sh) mod 256 * 2 ^ sh) 0) as [E|E].
  - right. exists None. cbn. rewrite app_nil_r. destruct o; cbn. repeat split. nia.
  - destruct (push_cases o (Z.shiftr x sh)) as [[-> Hc]| ->]; cbn [bindr]; [left; auto|].
    right. exists (Some ((x / 2 ^ sh) mod 256)). rewrite shiftr_div by lia. cbn. repeat split; lia.
Qed.

Lemma put_copy_ok o moff msize : 0 <= moff < two32 -> 0 < msize <= 65536 ->
  (put_copy o moff msize = UB /\ ob_cap o < zlen (ob o) + 7) \/
  (exists code, put_copy o moff msize = Ok {| ob := ob o ++ code; ob_cap := ob_cap o |} /\
     instr_code (Copy moff msize) code /\ (length code <= 7)%nat).
Proof.
  intros Ho Hm. unfold put_copy.
  assert (OL : forall f, opt_ok f -> (length (opt_bytes f) <= 1)%nat) by (intros [|]; cbn; lia).
  destruct (push_cases o 0) as [[-> Hc]| ->]; cbn [bindr]; [left; split; [reflexivity|lia]|].
  destruct (put_opt_ok moff 255 0 1 {| ob := ob o ++ [0 mod 256]; ob_cap := ob_cap o |} 128)
    as [[-> Hc]|(o0 & -> & V0 & K0)]; try lia; cbn [bindr ob ob_cap] in *.
  { left. split; [reflexivity|]. rewrite app_length in Hc. cbn [length] in Hc. lia. }
  match goal with |- context [put_opt moff 65280 8 2 (?b, ?i)] =>
    destruct (put_opt_ok moff 65280 8 2 b i) as [[-> Hc]|(o1 & -> & V1 & K1)] end;
    try lia; cbn [bindr ob ob_cap] in *.
  { left. split; [reflexivity|]. rewrite !app_length in Hc. cbn [length] in Hc. pose proof (OL _ K0). lia. }
  match goal with |- context [put_opt moff 16711680 16 4 (?b, ?i)] =>
    destruct (put_opt_ok moff 16711680 16 4 b i) as [[-> Hc]|(o2 & -> & V2 & K2)] end;
    try lia; cbn [bindr ob ob_cap] in *.
  { left. split; [reflexivity|]. rewrite !app_length in Hc. cbn [length] in Hc. pose proof (OL _ K0); pose proof (OL _ K1). lia. }
  match goal with |- context [put_opt moff 4278190080 24 8 (?b, ?i)] =>
    destruct (put_opt_ok moff 4278190080 24 8 b i) as [[-> Hc]|(o3 & -> & V3 & K3)] end;
    try lia; cbn [bindr ob ob_cap] in *.
  { left. split; [reflexivity|]. rewrite !app_length in Hc. cbn [length] in Hc.
    pose proof (OL _ K0); pose proof (OL _ K1); pose proof (OL _ K2). lia. }
  match goal with |- context [put_opt msize 255 0 16 (?b, ?i)] =>
    destruct (put_opt_ok msize 255 0 16 b i) as [[-> Hc]|(s0 & -> & W0 & K4)] end;
    try lia; cbn [bindr ob ob_cap] in *.
  { left. split; [reflexivity|]. rewrite !app_length in Hc. cbn [length] in Hc.
    pose proof (OL _ K0); pose proof (OL _ K1); pose proof (OL _ K2); pose proof (OL _ K3). lia. }
  match goal with |- context [put_opt msize 65280 8 32 (?b, ?i)] =>
    destruct (put_opt_ok msize 65280 8 32 b i) as [[-> Hc]|(s1 & -> & W1 & K5)] end;
    try lia; cbn [bindr ob ob_cap] in *.
  { left. split; [reflexivity|]. rewrite !app_length in Hc. cbn [length] in Hc.
    pose proof (OL _ K0); pose proof (OL _ K1); pose proof (OL _ K2); pose proof (OL _ K3); pose proof (OL _ K4). lia. }
  right.
  set (cmd := 128 + opt_flag 1 o0 + opt_flag 2 o1 + opt_flag 4 o2 + opt_flag 8 o3
        + opt_flag 16 s0 + opt_flag 32 s1 + opt_flag 64 None).
  exists (cmd :: opt_bytes o0 ++ opt_bytes o1 ++ opt_bytes o2 ++ opt_bytes o3
       ++ opt_bytes s0 ++ opt_bytes s1 ++ opt_bytes None).
  split; [|split].
  - f_equal. f_equal.
    match goal with |- upd _ _ ?i = _ => replace i with cmd end.
    + rewrite <- !app_assoc. cbn [app opt_bytes]. rewrite upd_app_at, app_nil_r. reflexivity.
    + unfold cmd. destruct o0, o1, o2, o3, s0, s1; reflexivity.
  - pows. change (2 ^ 24) with 16777216 in *.
    replace (Copy moff msize) with
      (Copy (opt_val o0 + 256 * opt_val o1 + 65536 * opt_val o2 + 16777216 * opt_val o3)
            (let n := opt_val s0 + 256 * opt_val s1 + 65536 * opt_val None in
             if n =? 0 then 65536 else n)).
    + apply ic_copy; cbn [opt_ok]; auto.
    + cbn zeta. cbn [opt_val]. unfold two32 in Ho. f_equal; [lia|].
      destruct (Z.eqb_spec (opt_val s0 + 256 * opt_val s1 + 65536 * 0) 0); lia.
  - cbn [length]. rewrite !app_length. cbn [length opt_bytes].
    pose proof (OL _ K0); pose proof (OL _ K1); pose proof (OL _ K2); pose proof (OL _ K3);
    pose proof (OL _ K4); pose proof (OL _ K5). lia.
Qed.

(** *** Capacity *)
Definition CapInv (trg : list Z) (max_size data : Z) (o : obuf) : Prop :=
  36 <= ob_cap o /\ zlen (ob o) + 7 <= ob_cap o /\ zlen (ob o) <= 12 + 2 * data /\
  ((max_size = 0 /\ zlen trg <= 2 ^ 28 /\ ob_cap o <= 8192 + 3 * data) \/
   (0 < max_size <= 2 ^ 30 /\ ob_cap o <= Z.max 8192 (max_size + 35))).

Lemma grow_cases trg max_size data data' o o1 :
  0 <= data <= data' -> data' <= zlen trg ->
  CapInv trg max_size data o -> ob_cap o1 = ob_cap o ->
  zlen (ob o1) <= ob_cap o1 -> zlen (ob o1) <= 12 + 2 * data' ->
  forall o2, grow o1 max_size = Some o2 -> CapInv trg max_size data' o2.
Proof.
  intros Hd Hn (H36 & Hlen & Hlen2 & Hm) Ec Hl Hl2 o2. unfold grow, MAX_OP_SIZE, RABIN_WINDOW.
  replace (5 + 5 + 1 + 16 + 7) with 34 by lia.
  assert (Hc32 : ob_cap o < two32 / 3).
  { change (two32 / 3) with 1431655765. change (2 ^ 28) with 268435456 in *. change (2 ^ 30) with 1073741824 in *. lia. }
  change (two32 / 3) with 1431655765 in Hc32.
  rewrite Ec in *.
  rewrite (Z.mod_small (ob_cap o - 34)) by (unfold two32; lia).
  rewrite (Z.mod_small (ob_cap o * 3)) by (unfold two32; lia).
  destruct (Z.leb_spec (ob_cap o - 34) (zlen (ob o1))) as [Hg|Hg].
  - destruct (Z.eqb_spec max_size 0) as [E0|N0]; cbn [negb andb].
    + intros [= <-]. unfold CapInv. cbn [ob ob_cap]. split; [lia|]. split; [lia|]. split; [lia|].
      left. destruct Hm as [(_ & Hm1 & Hm2)|(Hm1 & _)]; lia.
    + destruct (Z.leb_spec max_size (ob_cap o * 3 / 2)).
      * destruct (Z.ltb_spec max_size (zlen (ob o1))); [discriminate|].
        intros [= <-]. unfold CapInv. cbn [ob ob_cap]. split; [lia|]. split; [lia|]. split; [lia|]. right. lia.
      * destruct (Z.ltb_spec max_size (zlen (ob o1))); [discriminate|].
        intros [= <-]. unfold CapInv. cbn [ob ob_cap]. split; [lia|]. split; [lia|]. split; [lia|]. right. lia.
  - intros [= <-]. unfold CapInv. rewrite Ec. split; [lia|]. split; [lia|]. split; [lia|]. lia.
Qed.

Lemma grow_ob o m o' : grow o m = Some o' -> ob o' = ob o.
Proof.
  unfold grow. cbv zeta. repeat match goal with |- context [if ?b then _ else _] => destruct b end; try discriminate; intros [= <-]; reflexivity.
Qed.
Lemma grow_none o m : grow o m = None -> m <> 0 /\ m < zlen (ob o).
Proof.
  unfold grow. cbv zeta. destruct (_ <=? _); [|discriminate].
  destruct (Z.eqb_spec m 0); cbn [negb andb]; [discriminate|].
  destruct (_ <=? _); (destruct (Z.ltb_spec m (zlen (ob o))); [auto|discriminate]).
Qed.

Lemma BInv_ob src trg hdr data ins o o' : ob o' = ob o -> BInv src trg hdr data ins o -> BInv src trg hdr data ins o'.
Proof. intros E (b & l & H). exists b, l. rewrite E. exact H. Qed.

Lemma eqrange_sub a p b d m : 0 <= p -> 0 <= d -> 0 <= m -> eqrange a p b d m ->
  sub a (Z.to_nat p) (Z.to_nat m) = sub b (Z.to_nat d) (Z.to_nat m).
Proof.
  intros Hp Hd Hm H. apply list_ext. intros i. rewrite !nth_error_sub.
  destruct (Nat.ltb_spec i (Z.to_nat m)); [|reflexivity].
  specialize (H (Z.of_nat i) ltac:(lia)).
  replace (Z.to_nat (p + Z.of_nat i)) with (Z.to_nat p + i)%nat in H by lia.
  replace (Z.to_nat (d + Z.of_nat i)) with (Z.to_nat d + i)%nat in H by lia. exact H.
Qed.

Lemma MInv_zero src trg data moff : 0 <= moff -> moff <= zlen src -> data <= zlen trg -> MInv src trg data moff 0.
Proof. intros. unfold MInv. repeat split; try lia. intros k Hk. lia. Qed.

Section Loop.
  Variables (ix : dindex) (trg hdr : list Z) (max_size : Z).
  Hypothesis Hix : ix_ok ix.
  Hypothesis Htb : bytes trg.
  Hypothesis Hs32 : zlen (di_src ix) <= UINT_MAX.

  Lemma create_loop_ok fuel : forall data val moff msize inscnt o,
    zlen trg - data < Z.of_nat fuel -> (16 <= data \/ data = zlen trg) -> data <= zlen trg ->
    0 <= val < 2 ^ 31 -> MInv (di_src ix) trg data moff msize ->
    BInv (di_src ix) trg hdr data inscnt o -> inscnt < 127 ->
    match create_loop fuel ix trg max_size data val moff msize inscnt o with
    | Ok (o', ins') => exists data', BInv (di_src ix) trg hdr data' ins' o' /\ ins' < 127 /\
                        (data' = zlen trg \/ (max_size <> 0 /\ max_size < zlen (ob o'))) /\
                        (CapInv trg max_size data o -> zlen (ob o') <= ob_cap o')
    | UB => ~ CapInv trg max_size data o
    | _ => False
    end.
  Proof.
    set (src := di_src ix) in *.
    induction fuel as [|fuel IH]; intros data val moff msize inscnt o Hfuel H16 Hdn Hval HM HB Hins.
    - lia.
    - cbn [create_loop].
      destruct (Z.ltb_spec data (zlen trg)) as [Hlt|Hge]; cbn [negb].
      2:{ exists data. split; [exact HB|]. split; [lia|]. split; [left; lia|].
          unfold CapInv. lia. }
      assert (H16' : 16 <= data) by lia. clear H16.
      (* the search *)
      match goal with |- context [bindr (if msize <? 4096 then ?A else ?B) _] =>
        assert (Hs : exists val' moff' msize', (if msize <? 4096 then A else B) = Ok (val', moff', msize') /\
           0 <= val' < 2 ^ 31 /\ MInv src trg data moff' msize') end.
      { destruct (Z.ltb_spec msize 4096).
        - unfold RABIN_WINDOW.
          destruct (rdz_byte trg (data - 16) Htb ltac:(lia)) as (old & -> & _ & Hold). cbn [bindr].
          destruct (U_ok old Hold) as (u & -> & Hu). cbn [bindr].
          destruct (rdz_byte trg data Htb ltac:(lia)) as (cur & -> & _ & Hcur). cbn [bindr].
          destruct (hash_step_ok (Z.lxor val u) cur) as (v & -> & Hv); [apply lxor_lt; lia|exact Hcur|]. cbn [bindr].
          destruct (search_ok src trg data v (di_bucket ix (Z.land v (di_mask ix))) moff msize)
            as (mo & ms & Es & HMs); [lia|apply Hix|exact HM|].
          fold src. rewrite Es. cbn [bindr]. eauto 8.
        - eauto 8. }
      destruct Hs as (val1 & moff1 & msize1 & -> & Hval1 & HM1). cbn [bindr].
      destruct (Z.ltb_spec msize1 4) as [Hlit|Hcopy].
      + (* literal *)
        destruct HB as (body & lit & Eo & Hb & Hid & _ & _ & Hl0 & Hl1).
        set (slotted := if inscnt =? 0 then push o 0 else Ok o).
        assert (Hsl : (slotted = UB /\ ob_cap o <= zlen (ob o)) \/
          exists slot, slotted = Ok {| ob := hdr ++ body ++ slot :: sub trg (Z.to_nat (data - inscnt)) (Z.to_nat inscnt); ob_cap := ob_cap o |}).
        { unfold slotted. destruct (Z.eqb_spec inscnt 0) as [E0|N0].
          - destruct (push_cases o 0) as [[-> Hc]| ->]; [left; auto|]. right. exists 0.
            f_equal. f_equal. rewrite Eo, (Hl0 E0), app_nil_r, E0.
            change (Z.to_nat 0) with O. unfold sub. cbn [firstn]. rewrite <- app_assoc. reflexivity.
          - right. destruct (Hl1 ltac:(lia)) as (slot & ->). exists slot. destruct o; cbn in *. congruence. }
        destruct Hsl as [[-> Hc]|(slot & ->)]; cbn [bindr].
        { unfold CapInv. lia. }
        destruct (rdz_byte trg data Htb ltac:(lia)) as (b & -> & Hnb & Hbb). cbn [bindr].
        set (o1 := {| ob := _; ob_cap := _ |}).
        assert (Hlen1 : zlen (ob o1) <= zlen (ob o) + 1).
        { unfold o1. cbn [ob]. rewrite Eo.
          destruct (Z.eq_dec inscnt 0) as [E0|N0].
          - rewrite (Hl0 E0), E0. change (Z.to_nat 0) with O. unfold sub. cbn [firstn]. rewrite !app_length. cbn [length]. lia.
          - destruct (Hl1 ltac:(lia)) as (s & ->). rewrite !app_length. cbn [length]. lia. }
        destruct (push_cases o1 b) as [[-> Hc]| ->]; cbn [bindr].
        { unfold CapInv. unfold o1 in *. cbn [ob_cap] in *. lia. }
        set (o2 := {| ob := ob o1 ++ [b mod 256]; ob_cap := ob_cap o1 |}).
        assert (Hcap2 : ob_cap o2 = ob_cap o) by reflexivity.
        assert (Hlen2 : zlen (ob o2) <= zlen (ob o) + 2).
        { unfold o2. cbn [ob]. rewrite app_length. cbn [length]. lia. }
        assert (HB2 : BInv src trg hdr (data + 1) (inscnt + 1) o2).
        { exists body, (slot :: sub trg (Z.to_nat (data + 1 - (inscnt + 1))) (Z.to_nat (inscnt + 1))).
          replace (data + 1 - (inscnt + 1)) with (data - inscnt) by lia.
          split; [|split; [exact Hb|]; repeat split; try lia; eauto].
          unfold o2, o1. cbn [ob]. rewrite <- !app_assoc. f_equal. f_equal. cbn [app]. f_equal.
          replace (Z.to_nat (inscnt + 1)) with (S (Z.to_nat inscnt)) by lia.
          symmetry. rewrite Z.mod_small by exact Hbb. apply sub_snoc. rewrite <- Hnb. f_equal. lia. }
        match goal with |- context [bindr (if inscnt + 1 =? 127 then ?A else ?B) _] =>
          assert (Hs : ((if inscnt + 1 =? 127 then A else B) = UB /\ ob_cap o < zlen (ob o2)) \/
           exists o3 ins3, (if inscnt + 1 =? 127 then A else B) = Ok (o3, ins3) /\
             BInv src trg hdr (data + 1) ins3 o3 /\ ins3 < 127 /\ ob_cap o3 = ob_cap o /\
             zlen (ob o3) = zlen (ob o2)) end.
        { destruct (Z.eqb_spec (inscnt + 1) 127).
          - destruct (set_count_BInv src trg hdr (data + 1) (inscnt + 1) o2 Htb ltac:(lia) HB2)
              as [[-> Hc]|(o3 & -> & HB3 & Hc3 & Hl3)]; cbn [bindr]; [left; auto|].
            right. exists o3, 0. repeat split; try lia; try assumption.
          - right. exists o2, (inscnt + 1). repeat split; try lia; try assumption. }
        destruct Hs as [[-> Hc]|(o3 & ins3 & -> & HB3 & Hi3 & Hc3 & Hl3)]; cbn [bindr].
        { unfold CapInv. lia. }
        destruct (grow o3 max_size) as [o4|] eqn:Eg.
        * pose proof (grow_ob _ _ _ Eg) as Eob.
          assert (Hcap4 : CapInv trg max_size data o -> CapInv trg max_size (data + 1) o4).
          { intros HC. eapply grow_cases with (o := o) (data := data) (o1 := o3); eauto; unfold CapInv in HC; lia. }
          specialize (IH (data + 1) val1 moff1 0 ins3 o4 ltac:(lia) ltac:(lia) ltac:(lia) Hval1
             ltac:(apply MInv_zero; unfold MInv in HM1; lia)
             ltac:(eapply BInv_ob; eauto) Hi3).
          destruct (create_loop _ _ _ _ _ _ _ _ _ _) as [[o' ins']| | |]; auto.
          destruct IH as (d' & HB' & Hins' & Hend & Hcp). exists d'. exact (conj HB' (conj Hins' (conj Hend (fun H => Hcp (Hcap4 H))))).
        * destruct (grow_none _ _ Eg). exists (data + 1). split; [exact HB3|].
          split; [lia|]. split; [auto|]. unfold CapInv. lia.
      + (* copy *)
        match goal with |- context [bindr (if inscnt =? 0 then ?A else ?B) _] =>
          assert (Hs : ((if inscnt =? 0 then A else B) = UB /\ ob_cap o < zlen (ob o)) \/
            exists moff2 msize2 data2 o2 k, (if inscnt =? 0 then A else B) = Ok (moff2, msize2, data2, o2) /\
             MInv src trg data2 moff2 msize2 /\ BInv src trg hdr data2 0 o2 /\ 0 <= k < 127 /\
             data2 = data - k /\ msize2 = msize1 + k /\ ob_cap o2 = ob_cap o /\ zlen (ob o2) <= zlen (ob o)) end.
        { destruct (Z.eqb_spec inscnt 0) as [E0|N0].
          - right. exists moff1, msize1, data, o, 0. rewrite E0 in HB. split; [reflexivity|]. split; [exact HM1|]. split; [exact HB|]. repeat split; lia.
          - pose proof HB as (body0 & lit0 & _ & _ & Hid & _).
            destruct (back_match_ok src trg hdr (Z.to_nat inscnt) Htb moff1 msize1 data o)
              as (mo & ms & da & ins & o' & k & E & HM2 & Hk & Hda & Hmsz & Hcap & Hlen & Hcase);
              [lia|lia|exact HM1|rewrite Z2Nat.id by lia; exact HB|].
            fold src. rewrite E. cbn [bindr]. 
            destruct Hcase as [(Hins2 & Hpos & HBB)|(Hins2 & HBB & Hl)].
            + destruct (set_count_BInv src trg hdr da ins o' Htb Hpos HBB)
                as [[-> Hc]|(o3 & -> & HB3 & Hc3 & Hl3)]; cbn [bindr].
              * left. split; [reflexivity|]. lia.
              * right. exists mo, ms, da, o3, k. split; [reflexivity|]. split; [exact HM2|]. split; [exact HB3|]. repeat split; lia.
            + subst ins. unfold set_count.
              replace (zlen (ob o') - -1 - 1) with (zlen (ob o')) by lia.
              destruct (Z.ltb_spec (zlen (ob o')) 0); [lia|]. cbn [orb].
              destruct (Z.leb_spec (ob_cap o') (zlen (ob o'))); cbn [bindr].
              * left. split; [reflexivity|lia].
              * right. eexists mo, ms, da, _, k. split; [reflexivity|].
                assert (Eupd : upd (ob o') (Z.to_nat (zlen (ob o'))) (-1 mod 256) = ob o').
                { rewrite Nat2Z.id. clear. generalize (-1 mod 256). induction (ob o') as [|a l IHl]; intros z; cbn; [reflexivity|]. rewrite IHl. reflexivity. }
                cbn [ob ob_cap]. rewrite Eupd.
                split; [exact HM2|]. split; [eapply BInv_ob; [|exact HBB]; reflexivity|]. repeat split; lia. }
        destruct Hs as [[-> Hc]|(moff2 & msize2 & data2 & o2 & k & -> & HM2 & HB2 & Hk & Hd2 & Hm2 & Hc2 & Hl2)]; cbn [bindr].
        { unfold CapInv. lia. }
        set (left := if msize2 <? 65536 then 0 else msize2 - 65536).
        assert (Hleft : 0 <= left /\ 0 < msize2 - left <= 65536 /\ (left = 0 \/ msize2 - left = 65536)).
        { unfold left. destruct (Z.ltb_spec msize2 65536); lia. }
        pose proof HM2 as (Hm0 & Hmo & Hms & Hmt & Heq).
        destruct (put_copy_ok o2 moff2 (msize2 - left)) as [[-> Hc]|(code & -> & Hcode & Hcl)];
          [unfold UINT_MAX, two32 in *; lia|lia| |]; cbn [bindr].
        { unfold CapInv. lia. }
        set (o3 := {| ob := ob o2 ++ code; ob_cap := ob_cap o2 |}).
        assert (Hdd : data + 4 <= data2 + (msize2 - left)) by lia.
        assert (HM3 : MInv src trg (data2 + (msize2 - left)) (moff2 + (msize2 - left)) left).
        { unfold MInv. repeat split; try lia. intros j Hj.
          specialize (Heq (msize2 - left + j) ltac:(lia)).
          rewrite !Z.add_assoc in Heq. exact Heq. }
        assert (HB3 : BInv src trg hdr (data2 + (msize2 - left)) 0 o3).
        { destruct HB2 as (body & lit & Eo & Hb & Hid & _ & _ & Hl0 & _).
          rewrite (Hl0 eq_refl), app_nil_r in Eo.
          exists (body ++ code), []. rewrite app_nil_r. unfold o3. cbn [ob].
          split; [rewrite Eo, <- app_assoc; reflexivity|].
          split; [|repeat split; try lia; intros; lia].
          replace (Z.to_nat (data2 + (msize2 - left) - 0)) with (Z.to_nat (data2 - 0) + Z.to_nat (msize2 - left))%nat by lia.
          rewrite firstn_sub. apply delta_body_app; [exact Hb|].
          eapply delta_body_one; [exact Hcode|].
          replace (Z.to_nat (data2 - 0)) with (Z.to_nat data2) by lia.
          rewrite <- (eqrange_sub src moff2 trg data2 (msize2 - left)); try lia.
          - eapply pr_copy; [apply (sub_split src (Z.to_nat moff2) (Z.to_nat (msize2 - left))); lia| |].
            + rewrite firstn_length. lia.
            + rewrite sub_length by lia. lia.
          - intros j Hj. apply Heq. lia. }
        match goal with |- context [bindr (if left <? 4096 then ?A else ?B) _] =>
          assert (Hs : exists val3, (if left <? 4096 then A else B) = Ok val3 /\ 0 <= val3 < 2 ^ 31) end.
        { destruct (left <? 4096).
          - unfold RABIN_WINDOW. apply hash_range_ok; auto; lia.
          - eauto. }
        destruct Hs as (val3 & -> & Hval3). cbn [bindr].
        assert (Hl3 : zlen (ob o3) <= zlen (ob o) + 7).
        { unfold o3. cbn [ob]. rewrite app_length. lia. }
        assert (Hc3 : ob_cap o3 = ob_cap o) by exact Hc2.
        destruct (grow o3 max_size) as [o4|] eqn:Eg.
        * pose proof (grow_ob _ _ _ Eg) as Eob.
          assert (Hcap4 : CapInv trg max_size data o -> CapInv trg max_size (data2 + (msize2 - left)) o4).
          { intros HC. eapply grow_cases with (o := o) (data := data) (o1 := o3); eauto; unfold CapInv in HC; lia. }
          specialize (IH (data2 + (msize2 - left)) val3 (moff2 + (msize2 - left)) left 0 o4
             ltac:(lia) ltac:(lia) ltac:(lia) Hval3 HM3 ltac:(eapply BInv_ob; eauto) ltac:(lia)).
          destruct (create_loop _ _ _ _ _ _ _ _ _ _) as [[o' ins']| | |]; auto.
          destruct IH as (d' & HB' & Hins' & Hend & Hcp). exists d'. exact (conj HB' (conj Hins' (conj Hend (fun H => Hcp (Hcap4 H))))).
        * destruct (grow_none _ _ Eg). exists (data2 + (msize2 - left)). split; [exact HB3|].
          split; [lia|]. split; [auto|]. unfold CapInv. lia.
  Qed.
End Loop.

Lemma first_window_ok trg : bytes trg -> forall n data val o, 0 <= data <= zlen trg -> 0 <= val < 2 ^ 31 ->
  (first_window n trg data val o = UB /\ ob_cap o < zlen (ob o) + Z.of_nat n) \/
  exists data' val', first_window n trg data val o =
      Ok (data', val', {| ob := ob o ++ sub trg (Z.to_nat data) (Z.to_nat (data' - data)); ob_cap := ob_cap o |}) /\
    0 <= val' < 2 ^ 31 /\ data' = Z.min (data + Z.of_nat n) (zlen trg).
Proof.
  intros Ht. induction n as [|n IH]; intros data val o Hd Hv; cbn [first_window].
  - right. exists data, val. rewrite Z.sub_diag. change (Z.to_nat 0) with O. unfold sub. cbn [firstn].
    rewrite app_nil_r. destruct o; cbn. repeat split; lia.
  - destruct (Z.ltb_spec data (zlen trg)).
    + destruct (rdz_byte trg data Ht ltac:(lia)) as (b & -> & Hnb & Hbb). cbn [bindr].
      destruct (push_cases o b) as [[-> Hc]| ->]; cbn [bindr]; [left; split; [reflexivity|lia]|].
      destruct (hash_step_ok val b Hv Hbb) as (v & -> & Hv'). cbn [bindr].
      destruct (IH (data + 1) v {| ob := ob o ++ [b mod 256]; ob_cap := ob_cap o |} ltac:(lia) Hv')
        as [[-> Hc]|(d' & v' & -> & Hv2 & Hd')]; cbn [ob ob_cap] in *.
      * left. split; [reflexivity|]. rewrite app_length in Hc. cbn [length] in Hc. lia.
      * right. exists d', v'. split; [|split; [lia|lia]]. f_equal. f_equal. f_equal.
        rewrite <- app_assoc. f_equal. rewrite Z.mod_small by exact Hbb.
        replace (Z.to_nat (d' - data)) with (1 + Z.to_nat (d' - (data + 1)))%nat by lia.
        rewrite sub_app_split. replace (Z.to_nat (data + 1)) with (Z.to_nat data + 1)%nat by lia.
        f_equal. apply list_ext. intros [|i]; rewrite nth_error_sub; cbn; [rewrite Nat.add_0_r; auto|destruct i; reflexivity].
    + right. exists data, val. rewrite Z.sub_diag. change (Z.to_nat 0) with O. unfold sub. cbn [firstn].
      rewrite app_nil_r. destruct o; cbn. repeat split; lia.
Qed.

(** One body describes one output. *)
Lemma delta_body_fun base body out1 : delta_body base body out1 ->
  forall out2, delta_body base body out2 -> out1 = out2.
Proof.
  induction 1 as [|i code chunk body out Hi Hp Hb IH]; intros out2 H2.
  - symmetry. eapply delta_body_nil_inv; exact H2.
  - inversion H2 as [E0 E0'|j code2 chunk2 body2 o2 Hj Hp2 Hb2 E1 E2].
    { inversion Hi; subst; discriminate. }
    assert (K : chunk2 = chunk /\ body2 = body).
    { inversion Hi as [dt L B EE EE'|q0 q1 q2 q3 w0 w1 w2 A0 A1 A2 A3 A4 A5 A6 EE EE'];
      inversion Hj as [dt' L' B' FF FF'|q0' q1' q2' q3' w0' w1' w2' B0 B1 B2 B3 B4 B5 B6 FF FF'];
      subst i j.
      - subst code code2. cbn [app] in E1. injection E1 as E1 E1'.
        apply Nat2Z.inj in E1.
        apply produces_insert in Hp, Hp2. subst.
        assert (G : dt' = dt).
        { apply (f_equal (firstn (length dt))) in E1'. rewrite <- E1 in E1' at 1.
          rewrite !firstn_app, !firstn_all, E1, !Nat.sub_diag in E1'. cbn in E1'. rewrite !app_nil_r in E1'. exact E1'. }
        subst dt'. apply app_inv_head in E1'. auto.
      - exfalso. subst code code2. cbn [app] in E1. injection E1 as E1 _.
        destruct q0', q1', q2', q3', w0', w1', w2'; cbn in E1; lia.
      - exfalso. subst code code2. cbn [app] in E1. injection E1 as E1 _.
        destruct q0, q1, q2, q3, w0, w1, w2; cbn in E1; lia.
      - destruct code as [|c code]; [discriminate|]. destruct code2 as [|c2 code2]; [discriminate|].
        cbn [app] in E1. injection E1 as E1 E1'. subst c2.
        pose proof (read_copy_enc _ _ _ _ body Hi) as R1.
        pose proof (read_copy_enc _ _ _ _ body2 Hj) as R2.
        rewrite E1', R1 in R2. injection R2 as R2 R2' R2''.
        apply produces_copy in Hp. apply produces_copy in Hp2.
        destruct Hp as (_ & _ & _ & ->). destruct Hp2 as (_ & _ & _ & ->).
        cbv zeta. rewrite R2, R2'. auto. }
    destruct K as [-> ->]. f_equal. apply IH. exact Hb2.
Qed.

Definition size_limits (trg : list Z) (max_size : Z) : Prop :=
  (max_size = 0 /\ zlen trg <= 2 ^ 28) \/ 0 < max_size <= 2 ^ 30.

Lemma delta_create_correct ix trg max_size :
  ix_ok ix -> bytes (di_src ix) -> bytes trg -> 0 <= max_size ->
  match delta_create ix trg max_size with
  | Ok None => trg = []
  | Ok (Some d) => delta_apply (di_src ix) d = Ok trg /\ (max_size <> 0 -> zlen d <= max_size)
  | Err c => (c = -1 /\ (UINT_MAX < zlen (di_src ix) \/ UINT_MAX < zlen trg \/ UINT_MAX - 35 < max_size))
             \/ (c = GIT_EBUFS /\ max_size <> 0)
  | UB => ~ size_limits trg max_size
  | NoFuel => False
  end.
Proof.
  intros Hix Hsb Htb Hmax. unfold delta_create. cbv zeta.
  destruct (Z.eqb_spec (zlen trg) 0) as [E0|N0].
  { destruct trg; [reflexivity|]. cbn [length] in E0. lia. }
  destruct (Z.ltb_spec UINT_MAX (zlen (di_src ix))) as [|Hs]; cbn [orb]; [left; auto|].
  destruct (Z.ltb_spec UINT_MAX (zlen trg)) as [|Ht]; cbn [orb]; [left; auto|].
  unfold MAX_OP_SIZE, RABIN_WINDOW. replace (5 + 5 + 1 + 16 + 7) with 34 by lia.
  destruct (Z.ltb_spec (UINT_MAX - 34 - 1) max_size) as [|Hm]; [left; split; [reflexivity|lia]|].
  set (cap := if _ && _ then _ else 8192).
  assert (Hcap : 36 <= cap /\ (max_size = 0 -> cap = 8192) /\ cap <= Z.max 8192 (max_size + 35)).
  { unfold cap. destruct (Z.eqb_spec max_size 0); cbn [negb andb]; [lia|].
    destruct (Z.leb_spec max_size 8192); lia. }
  clearbody cap.
  unfold UINT_MAX in *.
  assert (P5 : forall x, x <= 4294967295 -> x < 128 ^ Z.of_nat 5) by (intros; change (128 ^ Z.of_nat 5) with 34359738368; lia).
  assert (PS : forall i o, 0 <= i -> i <= 4294967295 ->
    (put_size 6 i o = UB /\ ob_cap o < zlen (ob o) + 5) \/
    (exists code, size_code code i /\ (length code <= 5)%nat /\
     put_size 6 i o = Ok {| ob := ob o ++ code; ob_cap := ob_cap o |})).
  { intros i o Hi Hi2.
    assert (Eq : forall f i o, 0 <= i -> i < 128 ^ Z.of_nat (S f) -> put_size (S (S f)) i o = put_size (S f) i o).
    { clear. induction f as [|f IH]; intros i o Hi Hl.
      - change (128 ^ Z.of_nat 1) with 128 in Hl. cbn [put_size]. destruct (Z.leb_spec 128 i); [lia|reflexivity].
      - rewrite Nat2Z.inj_succ, Z.pow_succ_r in Hl by lia.
        cbn [put_size]. destruct (Z.leb_spec 128 i); [|reflexivity].
        destruct (push o (Z.lor i 128)) as [o'| | |]; cbn [bindr]; try reflexivity.
        rewrite shiftr_div by lia. change (2 ^ 7) with 128.
        specialize (IH (i / 128) o' ltac:(lia) ltac:(lia)). cbn [put_size] in IH. exact IH. }
    rewrite (Eq 4%nat) by auto.
    destruct (put_size_ok 5 i o Hi (P5 _ Hi2) ltac:(lia)) as [H|H]; [left|right]; exact H. }
  destruct (PS (zlen (di_src ix)) {| ob := []; ob_cap := cap |} ltac:(lia) ltac:(lia)) as [[_ Hc]|(h1 & C1 & L1 & ->)];
    cbn [ob ob_cap app bindr] in *; [cbn [length] in Hc; lia|].
  destruct (PS (zlen trg) {| ob := h1; ob_cap := cap |} ltac:(lia) ltac:(lia)) as [[_ Hc]|(h2 & C2 & L2 & ->)];
    cbn [ob ob_cap app bindr] in *; [lia|].
  destruct (push_cases {| ob := h1 ++ h2; ob_cap := cap |} 0) as [[-> Hc]| ->]; cbn [ob ob_cap bindr] in *.
  { exfalso. rewrite app_length in Hc. lia. }
  destruct (first_window_ok trg Htb 16 0 0 {| ob := (h1 ++ h2) ++ [0 mod 256]; ob_cap := cap |} ltac:(lia) ltac:(lia))
    as [[-> Hc]|(data & val & -> & Hv & Hdata)]; cbn [ob ob_cap bindr] in *.
  { exfalso. rewrite !app_length in Hc. cbn [length] in Hc. lia. }
  set (o := {| ob := _; ob_cap := cap |}).
  assert (HB : BInv (di_src ix) trg (h1 ++ h2) data data o).
  { exists [], (0 mod 256 :: sub trg (Z.to_nat (data - data)) (Z.to_nat data)).
    unfold o. cbn [ob]. rewrite Z.sub_diag. cbn [app]. change (Z.to_nat 0) with O. rewrite Z.sub_0_r.
    split; [rewrite <- !app_assoc; reflexivity|]. split; [constructor|].
    repeat split; try lia. eauto. }
  assert (HC : size_limits trg max_size -> CapInv trg max_size data o).
  { intros HL. unfold CapInv, size_limits in *. unfold o. cbn [ob ob_cap]. rewrite !app_length. cbn [length].
    rewrite sub_length by lia. lia. }
  pose proof (create_loop_ok ix trg (h1 ++ h2) max_size Hix Htb Hs (S (length trg)) data val 0 0 data o
     ltac:(lia) ltac:(lia) ltac:(lia) Hv ltac:(apply MInv_zero; lia) HB ltac:(lia)) as HL.
  destruct (create_loop _ _ _ _ _ _ _ _ _ _) as [[o' ins']| | |]; cbn [bindr]; [|contradiction|auto|contradiction].
  destruct HL as (d' & HB' & Hi' & Hend & Hcp).
  assert (Hfin : ((if ins' =? 0 then Ok o' else set_count o' ins') = UB /\ ob_cap o' < zlen (ob o')) \/
     exists o'', (if ins' =? 0 then Ok o' else set_count o' ins') = Ok o'' /\
       BInv (di_src ix) trg (h1 ++ h2) d' 0 o'' /\ length (ob o'') = length (ob o')).
  { pose proof HB' as (_ & _ & _ & _ & Hid & _).
    destruct (Z.eqb_spec ins' 0) as [->|].
    - right. eauto.
    - destruct (set_count_BInv (di_src ix) trg (h1 ++ h2) d' ins' o' Htb ltac:(lia) HB') as [H|(o'' & -> & HB'' & _ & Hl)];
        [left; exact H|right; eauto]. }
  destruct Hfin as [[-> Hc]|(o'' & -> & HB'' & Hl'')]; cbn [bindr].
  { intros HLm. specialize (HC HLm). specialize (Hcp HC). lia. }
  destruct (Z.eqb_spec max_size 0) as [Em|Nm]; cbn [negb andb].
  2: destruct (Z.ltb_spec max_size (zlen (ob o''))) as [|Hle]; [right; auto|].
  all: split; [|lia].
  all: assert (Hd' : d' = zlen trg) by (destruct Hend as [|[? ?]]; lia).
  all: destruct HB'' as (body & lit & Eo & Hb & _ & _ & _ & Hl0 & _).
  all: rewrite (Hl0 eq_refl), app_nil_r in Eo; rewrite Eo, <- app_assoc.
  all: replace (firstn (Z.to_nat (d' - 0)) trg) with trg in Hb by (symmetry; apply firstn_all2; lia).
  all: assert (Hbody : bytes body) by
   (clear - Hb; induction Hb as [|i code chunk body out Hi Hp Hb IH]; [constructor|];
    apply bytes_app; split; [|exact IH]; inversion Hi; subst;
    [constructor; [unfold is_byte; lia|assumption]|
     apply (instr_code_copy_bounds _ _ _ Hi)]).
  all: destruct (delta_apply_wf (di_src ix) h1 _ h2 _ body C1 C2 L1 L2 Hbody) as [(out & Ea & _ & Hr & Hbo)|(_ & Hno)];
    [unfold two64; lia| |].
  all: try (exfalso; destruct (Hno trg Hb) as [Hx|Hx]; apply Hx; apply Z.mod_small; unfold two32; lia).
  all: rewrite Ea; f_equal.
  all: eapply delta_body_fun; eauto.
Qed.
