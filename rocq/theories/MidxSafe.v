(** Reading any file as a multi-pack-index stays inside it. *)
From Verif Require Import Base Arr CStr Str OidModel OidSpec OidProofs IdxFileModel IdxFileProofs PackIdxModel PackIdxSpec PackIdxProofs PackIdxMain PrefsFind CgModel CgSpec CgSafe ShortenProofs MidxModel MidxSpec.

Lemma mx_slot_lt id : (mx_slot id < 6)%nat.
Proof. unfold mx_slot. repeat (match goal with |- context [if ?b then _ else _] => destruct b end); lia. Qed.

Lemma mx_chunks_ok data trailer : bytes data -> trailer <= Z.of_nat (length data) -> forall n hdr lastoff last cs,
  0 <= hdr -> hdr + 12 * Z.of_nat n <= Z.of_nat (length data) -> 0 <= lastoff <= trailer -> length cs = 6%nat ->
  (last = None -> (0 < n)%nat) -> (forall k, last = Some k -> (k < 6)%nat /\ fst (nth k cs (0, 0)) = lastoff) ->
  (forall k, last <> Some k -> fits lastoff (nth k cs (0, 0))) ->
  match mx_chunks data trailer n hdr lastoff last cs with
  | Ok cs' => forall k, fits trailer (nth k cs' (0, 0))
  | Err e => e = -1
  | _ => False
  end.
Proof.
  intros Bd Ht. induction n as [|n IH]; intros hdr lastoff last cs Hh Hn Hl L Hlast Hk Hfit; cbn [mx_chunks].
  - destruct last as [k|]; [|specialize (Hlast eq_refl); lia]. destruct (Hk k eq_refl) as [Hk5 Ho]. intros j. unfold set_length. rewrite nth_set.
    destruct (Nat.eqb_spec j k) as [->|Nj]; cbn [andb].
    + destruct (Nat.ltb_spec k (length cs)); [|lia]. unfold fits. cbn [fst snd]. lia.
    + assert (F : fits lastoff (nth j cs (0, 0))) by (apply Hfit; congruence). destruct F as (F1 & F2 & F3). unfold fits. lia.
  - destruct (rd32_some data hdr Bd ltac:(lia) ltac:(lia)) as (id & -> & _). cbn [bindr].
    destruct (rd32_some data (hdr + 4) Bd ltac:(lia) ltac:(lia)) as (h & -> & Rh). cbn [bindr].
    destruct (rd32_some data (hdr + 8) Bd ltac:(lia) ltac:(lia)) as (l & -> & Rl). cbn [bindr].
    destruct (2147483647 <=? h); [reflexivity|]. cbv zeta.
    set (off := Z.lor (Z.shiftl h 32) l). destruct (Z.ltb_spec off lastoff); [reflexivity|]. destruct (Z.leb_spec trailer off); [reflexivity|].
    pose proof (mx_slot_lt id) as Hk'. set (k' := mx_slot id) in *.
    set (cs1 := match last with None => cs | Some k => set_length cs k (off - lastoff) end).
    assert (L1 : length cs1 = 6%nat) by (unfold cs1; destruct last; [unfold set_length; rewrite upd_length|]; exact L).
    assert (F1 : forall j, fits off (nth j cs1 (0, 0))).
    { intros j. unfold cs1. destruct last as [k|].
      - destruct (Hk k eq_refl) as [Hk5 Ho]. unfold set_length. rewrite nth_set. destruct (Nat.eqb_spec j k) as [->|Nj]; cbn [andb].
        + destruct (Nat.ltb_spec k (length cs)); [|lia]. unfold fits. cbn [fst snd]. lia.
        + assert (F : fits lastoff (nth j cs (0, 0))) by (apply Hfit; congruence). destruct F as (G1 & G2 & G3). unfold fits. lia.
      - destruct (Hfit j) as (G1 & G2 & G3); [discriminate|]. unfold fits. lia. }
    apply IH; try lia.
    + unfold set_offset. rewrite upd_length. exact L1.
    + discriminate.
    + intros k Ek. injection Ek as <-. split; [exact Hk'|]. unfold set_offset. rewrite nth_set, Nat.eqb_refl, L1. destruct (Nat.ltb_spec k' 6); [|lia]. reflexivity.
    + intros k Nk. unfold set_offset. rewrite nth_set. destruct (Nat.eqb_spec k k') as [->|]; [congruence|]. cbn [andb]. apply F1.
Qed.

Lemma strnlen_safe : forall n l, (n <= length l)%nat -> exists k, strnlen l n = Ok k /\ (k <= n)%nat.
Proof.
  induction n as [|n IH]; intros l Hl; [exists 0%nat; split; [destruct l; reflexivity|lia]|]. destruct l as [|c r]; [inversion Hl|]. apply le_S_n in Hl. cbn [strnlen].
  destruct (c =? 0); [exists 0%nat; split; [reflexivity|lia]|]. destruct (IH r Hl) as (k & -> & Hk). cbn [bindr]. exists (S k). split; [reflexivity|lia].
Qed.
Lemma names_safe : forall n l size prev, (size <= length l)%nat -> match names_loop n l size prev with Ok r => length r = n | Err e => e = -1 | _ => False end.
Proof.
  induction n as [|n IH]; intros l size prev Hl; cbn [names_loop]; [reflexivity|]. destruct (strnlen_safe size l Hl) as (k & -> & Hk). cbn [bindr].
  destruct (k =? 0)%nat; [reflexivity|]. destruct (Nat.ltb_spec size (k + 1)); [reflexivity|]. cbv zeta.
  repeat (match goal with |- match (if ?b then Err (-1) else _) with _ => _ end => destruct b; [reflexivity|] end).
  specialize (IH (skipn (k + 1) l) (size - (k + 1))%nat (Some (firstn k l))). rewrite skipn_length in IH. specialize (IH ltac:(lia)).
  destruct (names_loop n _ _ _) as [r| | |]; cbn [bindr]; try assumption. cbn [length]. congruence.
Qed.

(** What parsing establishes. *)
Definition mx_good (f : mxfile) : Prop :=
  let size := Z.of_nat (length (m_data f)) in
  bytes (m_data f) /\ m_osz f = 20 /\ 0 < m_num f /\ 0 <= m_fan f /\ 0 <= m_lookup f /\ 0 <= m_offs f /\ 0 <= m_large f /\ 0 <= m_nlarge f /\
  fan_check (m_data f) (m_fan f) 256 0 = Ok (m_num f) /\
  m_fan f + 1024 <= size - 20 /\ m_lookup f + m_num f * 20 <= size - 20 /\ m_offs f + m_num f * 8 <= size - 20 /\
  m_large f + m_nlarge f * 8 <= size - 20.

Lemma mx_parse_good data : bytes data -> match mx_parse 20 data with Ok f => mx_good f /\ m_data f = data | Err e => e = -1 | _ => False end.
Proof.
  intros Bd. unfold mx_parse. cbv zeta. destruct (Z.ltb_spec (Z.of_nat (length data)) (12 + 20)); [reflexivity|].
  destruct (rd32_some data 0 Bd ltac:(lia) ltac:(lia)) as (sig & -> & _). cbn [bindr].
  destruct (rd_some data 4 ltac:(lia)) as (v4 & ->). destruct (rd_some data 5 ltac:(lia)) as (v5 & ->). destruct (rd_some data 6 ltac:(lia)) as (ch & Ech). rewrite Ech. cbn [bindr].
  destruct (rd32_some data 8 Bd ltac:(lia) ltac:(lia)) as (npk & -> & Rn). cbn [bindr].
  destruct (negb (sig =? MX_SIG) || negb (v4 =? 1) || negb (v5 =? 1)); [reflexivity|]. destruct (Z.eqb_spec ch 0); [reflexivity|].
  pose proof (rd_byte _ _ _ Bd Ech) as Rch. destruct (Z.ltb_spec (Z.of_nat (length data) - 20) (12 + (1 + ch) * 12)); [reflexivity|].
  rewrite rdn_ok by lia. cbn [bindr].
  pose proof (mx_chunks_ok data (Z.of_nat (length data) - 20) Bd ltac:(lia) (Z.to_nat ch) 12 (12 + (1 + ch) * 12) None (repeat (0, 0) 6)) as CL.
  specialize (CL ltac:(lia) ltac:(lia) ltac:(lia) eq_refl ltac:(lia) ltac:(discriminate)).
  assert (F0 : forall k, None <> Some k -> fits (12 + (1 + ch) * 12) (nth k (repeat (0, 0) 6) (0, 0))).
  { intros k _. replace (nth k (repeat (0, 0) 6) (0, 0)) with (0, 0) by (destruct k as [|[|[|[|[|[|k]]]]]]; try reflexivity; cbn; destruct k; reflexivity). unfold fits. cbn. lia. }
  specialize (CL F0). destruct (mx_chunks _ _ _ _ _ _ _) as [cs| | |]; try (cbn [bindr]; assumption). cbn [bindr].
  unfold parse_names. destruct (CL 0%nat) as (N1 & N2 & N3). destruct (Z.eqb_spec (fst (nth 0 cs (0, 0))) 0); [reflexivity|].
  destruct (Z.eqb_spec (snd (nth 0 cs (0, 0))) 0); [reflexivity|].
  pose proof (names_safe (Z.to_nat npk) (skipn (Z.to_nat (fst (nth 0 cs (0, 0)))) data) (Z.to_nat (snd (nth 0 cs (0, 0)))) None) as NS. rewrite skipn_length in NS. specialize (NS ltac:(lia)).
  destruct (names_loop _ _ _ _) as [names| | |]; try (cbn [bindr]; assumption). cbn [bindr]. clear NS.
  unfold parse_fanout. destruct (CL 1%nat) as (A1 & A2 & A3). destruct (Z.eqb_spec (fst (nth 1 cs (0, 0))) 0); [reflexivity|].
  destruct (Z.eqb_spec (snd (nth 1 cs (0, 0))) 0); [reflexivity|]. destruct (Z.eqb_spec (snd (nth 1 cs (0, 0))) (256 * 4)); [|reflexivity]. cbn [negb].
  pose proof (fan_safe data Bd 256 (fst (nth 1 cs (0, 0))) 0 A1 ltac:(lia)) as FS.
  destruct (fan_check data (fst (nth 1 cs (0, 0))) 256 0) as [num| | |] eqn:Efan; try (cbn [bindr]; assumption). cbn [bindr].
  destruct (fan_check_inv data Bd 256 _ 0 num A1 Efan) as (Hnum & _).
  unfold parse_table. destruct (CL 2%nat) as (B1 & B2 & B3). destruct (Z.eqb_spec (fst (nth 2 cs (0, 0))) 0); [reflexivity|].
  destruct (Z.eqb_spec (snd (nth 2 cs (0, 0))) 0); [reflexivity|]. destruct (Z.eqb_spec (snd (nth 2 cs (0, 0))) (num * 20)); [|reflexivity]. cbn [negb bindr].
  destruct (CL 3%nat) as (C1 & C2 & C3). destruct (Z.eqb_spec (fst (nth 3 cs (0, 0))) 0); [reflexivity|].
  destruct (Z.eqb_spec (snd (nth 3 cs (0, 0))) 0); [reflexivity|]. destruct (Z.eqb_spec (snd (nth 3 cs (0, 0))) (num * 8)); [|reflexivity]. cbn [negb bindr].
  unfold parse_large. destruct (CL 4%nat) as (D1 & D2 & D3). destruct (Z.eqb_spec (snd (nth 4 cs (0, 0))) 0).
  - cbn [bindr]. unfold mx_good. cbn [m_data m_osz m_num m_fan m_lookup m_offs m_large m_nlarge]. repeat split; auto; lia.
  - destruct (Z.eqb_spec (snd (nth 4 cs (0, 0)) mod 8) 0); [|reflexivity]. cbn [negb bindr]. unfold mx_good. cbn [m_data m_osz m_num m_fan m_lookup m_offs m_large m_nlarge].
    repeat split; auto; try lia; try (apply Z.div_pos; lia).
Qed.

Lemma mx_locate_safe f q len : mx_good f -> Z.of_nat (length (m_data f)) < 5368709120 -> oid_ok 20 q -> (len <= 40)%nat ->
  match mx_locate f q len with Ok p => 0 <= p < m_num f | Err e => e = -3 \/ e = -5 | _ => False end.
Proof.
  intros Hg Hsz Hq Hlen. pose proof Hg as (Bd & Eo & Hn & Hf & Hl & Hc & He & Hne & Efan & S1 & S2 & S3 & S4). unfold mx_locate. rewrite Eo.
  destruct (fan_check_inv _ Bd 256 _ 0 _ Hf Efan) as (_ & FV & FM).
  destruct q as [|b q'] eqn:Eq; [destruct Hq as [L _]; discriminate|]. rewrite <- Eq in *.
  assert (Hb : 0 <= b < 256) by (destruct Hq as [_ B]; subst q; inversion_clear B; assumption).
  assert (Er : rd q 0 = Ok b) by (subst q; reflexivity). clear Eq q'. rewrite Er. cbn [bindr].
  destruct (FV b ltac:(lia)) as (hi & Ehi & Rhi). rewrite Ehi. cbn [bindr].
  assert (Elo : exists lo, (if b =? 0 then Ok 0 else rd32 (m_data f) (m_fan f + 4 * (b - 1))) = Ok lo /\ 0 <= lo <= hi).
  { destruct (Z.eqb_spec b 0); [exists 0; split; [reflexivity|lia]|]. destruct (FV (b - 1) ltac:(lia)) as (lo & El & Rl). exists lo. split; [exact El|]. split; [lia|]. apply (FM (b - 1) b lo hi); auto; lia. }
  destruct Elo as (lo & -> & Rlo). cbn [bindr].
  destruct (lookup_safe (S (Z.to_nat (hi - lo))) (m_data f) (m_lookup f) 20 lo hi q 20) as (r & -> & Rr); try lia; [apply Hq|]. cbn [bindr].
  assert (E32 : to_int32 (m_num f) = m_num f) by (unfold to_int32; destruct (Z.ltb_spec (m_num f) 2147483648); lia). rewrite E32.
  assert (Hmid : exists found pos current,
    (if 0 <=? r then Ok (true, r, m_lookup f + r * 20)
     else if - 1 - r <? m_num f then do c <- ncmp_at 20 (m_data f) (m_lookup f + (- 1 - r) * 20) q len ;; Ok (c =? 0, - 1 - r, m_lookup f + (- 1 - r) * 20) else Ok (false, - 1 - r, 0)) = Ok (found, pos, current) /\
    (found = true -> 0 <= pos < m_num f /\ current = m_lookup f + pos * 20)).
  { destruct Rr as [(mi & Rm & -> & _)|(k & Rk & ->)].
    - destruct (Z.leb_spec 0 mi); [|lia]. exists true, mi, (m_lookup f + mi * 20). split; [reflexivity|]. intros _. lia.
    - destruct (Z.leb_spec 0 (- k - 1)); [lia|]. cbv zeta. replace (- 1 - (- k - 1)) with k by lia. destruct (Z.ltb_spec k (m_num f)).
      + destruct (ncmp_safe (m_data f) (m_lookup f + k * 20) q len Bd Hq ltac:(lia) ltac:(lia) Hlen) as (c & ->). cbn [bindr]. exists (c =? 0), k, (m_lookup f + k * 20). split; [reflexivity|]. intros _. lia.
      + exists false, k, 0. split; [reflexivity|discriminate]. }
  cbv zeta. destruct Hmid as (found & pos & current & -> & Hfound). cbn [bindr].
  assert (Hamb : exists amb : bool, (if (found : bool) && negb (Z.of_nat len =? 2 * 20) && (pos + 1 <? m_num f) then do c <- ncmp_at 20 (m_data f) (current + 20) q len ;; Ok (c =? 0) else Ok false) = Ok amb).
  { destruct found; [|exists false; reflexivity]. destruct (Hfound eq_refl) as [Hpos ->]. cbn [andb]. destruct (negb (Z.of_nat len =? 2 * 20)); [|exists false; reflexivity]. cbn [andb].
    destruct (Z.ltb_spec (pos + 1) (m_num f)); [|exists false; reflexivity].
    destruct (ncmp_safe (m_data f) (m_lookup f + pos * 20 + 20) q len Bd Hq ltac:(lia) ltac:(lia) Hlen) as (c & ->). cbn [bindr]. eauto. }
  destruct Hamb as (amb & ->). cbn [bindr]. destruct found; cbn [negb]; [|auto]. destruct amb; [auto|]. apply Hfound. reflexivity.
Qed.

Lemma mx_entry_safe f pos : mx_good f -> Z.of_nat (length (m_data f)) < 5368709120 -> 0 <= pos < m_num f ->
  match mx_entry f pos with
  | Ok e => 0 <= me_pack e < Z.of_nat (length (m_packs f)) /\ rdn (m_data f) (Z.to_nat (m_lookup f + pos * m_osz f)) (Z.to_nat (m_osz f)) = Ok (me_id e)
  | Err e => e = -1 \/ e = -3 | _ => False end.
Proof.
  intros (Bd & Eo & Hn & Hf & Hl & Hc & He & Hne & Efan & S1 & S2 & S3 & S4) Hsz Hp. unfold mx_entry. cbv zeta. rewrite Eo.
  destruct (Z.ltb_spec 2147483647 (pos * 8)); [lia|].
  destruct (rd32_some (m_data f) (m_offs f + pos * 8 + 4) Bd ltac:(lia) ltac:(lia)) as (off & -> & Ro). cbn [bindr].
  assert (Hoff : match (if negb (m_large f =? 0) && negb (Z.land off TOPBIT =? 0) then
         if m_nlarge f <=? Z.lxor off TOPBIT then Err (-3)
         else do h <- rd32 (m_data f) (m_large f + (8 * Z.lxor off TOPBIT) mod two32) ;; do l <- rd32 (m_data f) (m_large f + (8 * Z.lxor off TOPBIT) mod two32 + 4) ;; Ok (to_int64 (Z.lor (Z.shiftl h 32) l))
       else Ok off) with Ok _ => True | Err e => e = -3 | _ => False end).
  { destruct (negb (m_large f =? 0) && negb (Z.land off TOPBIT =? 0)); [|exact I]. destruct (Z.leb_spec (m_nlarge f) (Z.lxor off TOPBIT)); [reflexivity|].
    assert (Hx : 0 <= Z.lxor off TOPBIT) by (apply Z.lxor_nonneg; unfold TOPBIT; lia). set (lp := Z.lxor off TOPBIT) in *.
    pose proof (Z.mod_pos_bound (8 * lp) two32 eq_refl). pose proof (Z.mod_le (8 * lp) two32 ltac:(lia) eq_refl).
    destruct (rd32_some (m_data f) (m_large f + (8 * lp) mod two32) Bd ltac:(lia) ltac:(lia)) as (h & -> & _). cbn [bindr].
    destruct (rd32_some (m_data f) (m_large f + (8 * lp) mod two32 + 4) Bd ltac:(lia) ltac:(lia)) as (l & -> & _). exact I. }
  match type of Hoff with match ?x with _ => _ end => destruct x as [o|e| |]; try contradiction; cbn [bindr]; [|right; exact Hoff] end. clear Hoff.
  destruct (rd32_some (m_data f) (m_offs f + pos * 8) Bd ltac:(lia) ltac:(lia)) as (pk & -> & Rp). cbn [bindr].
  destruct (Z.leb_spec (Z.of_nat (length (m_packs f))) pk); [left; reflexivity|].
  rewrite rdn_ok by lia. cbn [bindr me_pack me_id]. split; [lia|reflexivity].
Qed.

Lemma ids_loop_safe f : mx_good f -> forall n i, 0 <= i -> i + Z.of_nat n <= m_num f ->
  exists l, ids_loop f n i = Ok l /\ length l = n /\ forall j, (j < n)%nat -> exists id, nth_error l j = Some id /\ rdn (m_data f) (Z.to_nat (m_lookup f + (i + Z.of_nat j) * m_osz f)) (Z.to_nat (m_osz f)) = Ok id.
Proof.
  intros (Bd & Eo & Hn & Hf & Hl & Hc & He & Hne & Efan & S1 & S2 & S3 & S4). induction n as [|n IH]; intros i Hi Hb; cbn [ids_loop].
  - exists []. split; [reflexivity|]. split; [reflexivity|]. lia.
  - rewrite Eo in *. destruct (rdn (m_data f) (Z.to_nat (m_lookup f + i * 20)) (Z.to_nat 20)) as [id| | |] eqn:Er; rewrite rdn_ok in Er by lia; try discriminate. cbn [bindr].
    destruct (IH (i + 1) ltac:(lia) ltac:(lia)) as (l & -> & Ll & Hj). cbn [bindr]. exists (id :: l). split; [reflexivity|]. split; [cbn; congruence|].
    intros [|j] Hjn.
    + exists id. split; [reflexivity|]. replace (i + Z.of_nat 0) with i by lia. rewrite rdn_ok by lia. exact Er.
    + destruct (Hj j ltac:(lia)) as (x & Hx & Rx). exists x. split; [exact Hx|]. replace (i + Z.of_nat (S j)) with (i + 1 + Z.of_nat j) by lia. exact Rx.
Qed.

(** Everything at once. *)
Theorem reading_safe data : bytes data -> Z.of_nat (length data) < 5368709120 ->
  match mx_parse 20 data with
  | Ok f => (exists l, mx_foreach f = Ok l /\
      forall q len, oid_ok 20 q -> (len <= 40)%nat ->
        match mx_find f q len with Ok e => 0 <= me_pack e < Z.of_nat (length (m_packs f)) /\ In (me_id e) l | Err e => e = -1 \/ e = -3 \/ e = -5 | _ => False end)
  | Err e => e = -1
  | _ => False
  end.
Proof.
  intros Bd Hs. pose proof (mx_parse_good data Bd) as P. destruct (mx_parse 20 data) as [f| | |]; try assumption. destruct P as [Hg Ed]. rewrite <- Ed in Hs.
  pose proof Hg as (_ & Eo & Hn & _). destruct (ids_loop_safe f Hg (Z.to_nat (m_num f)) 0 ltac:(lia) ltac:(lia)) as (l & El & Ll & Hj).
  exists l. unfold mx_foreach. destruct (Z.eqb_spec (m_num f) 0); [lia|]. split; [exact El|]. intros q len Hq Hlen. unfold mx_find.
  pose proof (mx_locate_safe f q len Hg Hs Hq Hlen) as L. destruct (mx_locate f q len) as [p|e| |]; cbn [bindr]; try assumption; [|tauto].
  pose proof (mx_entry_safe f p Hg Hs L) as E. destruct (mx_entry f p) as [e|e| |]; try assumption; [|tauto]. destruct E as [Hp He]. split; [exact Hp|].
  destruct (Hj (Z.to_nat p) ltac:(lia)) as (id & Hid & Rid). apply nth_error_In in Hid. replace (0 + Z.of_nat (Z.to_nat p)) with p in Rid by lia. rewrite He in Rid. apply ReflogProofs.Ok_inj in Rid. congruence.
Qed.
