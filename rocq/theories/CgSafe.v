(** Reading any file as a commit-graph stays inside it. *)
From Verif Require Import Base Arr CStr OidModel OidSpec OidProofs IdxFileModel IdxFileProofs PackIdxModel PackIdxSpec PackIdxProofs PackIdxMain PrefsFind CgModel CgSpec ShortenProofs.

Definition fits (lim : Z) (c : Z * Z) : Prop := 0 <= fst c /\ 0 <= snd c /\ fst c + snd c <= lim.
Lemma nth_set {A} (l : list A) k j x d : nth j (upd l k x) d = if (j =? k)%nat && (k <? length l)%nat then x else nth j l d.
Proof.
  revert k j. induction l as [|a l IH]; intros [|k] [|j]; cbn [upd nth length]; try reflexivity.
  - cbn. destruct (j =? k)%nat; reflexivity.
  - rewrite IH. cbn. reflexivity.
Qed.
Lemma slot_lt id k : chunk_slot id = Some k -> (k < 5)%nat.
Proof. unfold chunk_slot. repeat (match goal with |- context [if ?b then _ else _] => destruct b end); intros Q; inversion Q; lia. Qed.

Lemma chunk_loop_ok data trailer : bytes data -> trailer <= Z.of_nat (length data) -> forall n hdr lastoff last cs,
  0 <= hdr -> hdr + 12 * Z.of_nat n <= Z.of_nat (length data) -> 0 <= lastoff <= trailer -> length cs = 5%nat ->
  (last = None -> (0 < n)%nat) -> (forall k, last = Some k -> (k < 5)%nat /\ fst (nth k cs (0, 0)) = lastoff) ->
  (forall k, last <> Some k -> fits lastoff (nth k cs (0, 0))) ->
  match chunk_loop data trailer n hdr lastoff last cs with
  | Ok cs' => forall k, fits trailer (nth k cs' (0, 0))
  | Err e => e = -1
  | _ => False
  end.
Proof.
  intros Bd Ht. induction n as [|n IH]; intros hdr lastoff last cs Hh Hn Hl L Hlast Hk Hfit; cbn [chunk_loop].
  - destruct last as [k|]; [|specialize (Hlast eq_refl); lia]. destruct (Hk k eq_refl) as [Hk5 Ho]. intros j. unfold set_length. rewrite nth_set.
    destruct (Nat.eqb_spec j k) as [->|Nj]; cbn [andb].
    + destruct (Nat.ltb_spec k (length cs)); [|lia]. unfold fits. cbn [fst snd]. lia.
    + assert (F : fits lastoff (nth j cs (0, 0))) by (apply Hfit; congruence). destruct F as (F1 & F2 & F3). unfold fits. lia.
  - destruct (rd32_some data (hdr + 4) Bd ltac:(lia) ltac:(lia)) as (h & -> & Rh). cbn [bindr].
    destruct (rd32_some data (hdr + 8) Bd ltac:(lia) ltac:(lia)) as (l & -> & Rl). cbn [bindr].
    set (off := Z.lor (Z.shiftl h 32) l). destruct (Z.ltb_spec off lastoff); [reflexivity|]. destruct (Z.leb_spec trailer off); [reflexivity|].
    destruct (rd32_some data hdr Bd ltac:(lia) ltac:(lia)) as (id & -> & _). cbn [bindr]. destruct (chunk_slot id) as [k'|] eqn:Es; [|reflexivity].
    pose proof (slot_lt _ _ Es) as Hk'.
    set (cs1 := match last with None => cs | Some k => set_length cs k (off - lastoff) end).
    assert (L1 : length cs1 = 5%nat) by (unfold cs1; destruct last; [unfold set_length; rewrite upd_length|]; exact L).
    assert (F1 : forall j, fits off (nth j cs1 (0, 0))).
    { intros j. unfold cs1. destruct last as [k|].
      - destruct (Hk k eq_refl) as [Hk5 Ho]. unfold set_length. rewrite nth_set. destruct (Nat.eqb_spec j k) as [->|Nj]; cbn [andb].
        + destruct (Nat.ltb_spec k (length cs)); [|lia]. unfold fits. cbn [fst snd]. lia.
        + assert (F : fits lastoff (nth j cs (0, 0))) by (apply Hfit; congruence). destruct F as (G1 & G2 & G3). unfold fits. lia.
      - destruct (Hfit j) as (G1 & G2 & G3); [discriminate|]. unfold fits. lia. }
    apply IH; try lia.
    + unfold set_offset. rewrite upd_length. exact L1.
    + discriminate.
    + intros k Ek. injection Ek as <-. split; [exact Hk'|]. unfold set_offset. rewrite nth_set, Nat.eqb_refl, L1. destruct (Nat.ltb_spec k' 5); [|lia]. reflexivity.
    + intros k Nk. unfold set_offset. rewrite nth_set. destruct (Nat.eqb_spec k k') as [->|]; [congruence|]. cbn [andb]. apply F1.
Qed.

(** What parsing establishes. *)
Definition good (f : cgfile) : Prop :=
  let size := Z.of_nat (length (c_data f)) in
  bytes (c_data f) /\ c_osz f = 20 /\ 0 <= c_num f /\ 0 <= c_fan f /\ 0 <= c_lookup f /\ 0 <= c_cdata f /\ 0 <= c_edges f /\ 0 <= c_nedges f /\
  fan_check (c_data f) (c_fan f) 256 0 = Ok (c_num f) /\
  c_fan f + 1024 <= size - 20 /\ c_lookup f + c_num f * 20 <= size - 20 /\ c_cdata f + c_num f * 36 <= size - 20 /\
  (0 < c_nedges f -> c_edges f + c_nedges f * 4 <= size - 20).

Lemma fan_safe data : bytes data -> forall i base nr, 0 <= base -> base + 4 * Z.of_nat i <= Z.of_nat (length data) ->
  match fan_check data base i nr with Ok _ => True | Err e => e = -1 | _ => False end.
Proof.
  intros Bd. induction i as [|i IH]; intros base nr Hb Hl; cbn [fan_check]; [exact I|].
  destruct (rd32_some data base Bd Hb ltac:(lia)) as (v & -> & _). cbn [bindr]. destruct (v <? nr); [reflexivity|]. apply IH; lia.
Qed.
Lemma lookup_check_safe data osz : 0 <= osz -> forall n off prev, 0 <= off -> off + osz * Z.of_nat n <= Z.of_nat (length data) -> (Z.to_nat osz <= length prev)%nat ->
  match lookup_check data osz n off prev with Ok _ => True | Err e => e = -1 | _ => False end.
Proof.
  intros Ho. induction n as [|n IH]; intros off prev Hoff Hl Hp; cbn [lookup_check]; [exact I|].
  assert (Lk : (Z.to_nat osz <= length (skipn (Z.to_nat off) data))%nat) by (rewrite skipn_length; lia).
  destruct (memcmp_ok prev (skipn (Z.to_nat off) data) (Z.to_nat osz) Hp Lk) as (z & ->). cbn [bindr]. destruct (0 <=? z); [reflexivity|]. apply IH; lia.
Qed.

Lemma rd_some data i : (i < length data)%nat -> exists v, rd data i = Ok v.
Proof. intros H. unfold rd. destruct (nth_error data i) eqn:E; [eauto|]. apply nth_error_None in E. lia. Qed.
Lemma rd_byte data i v : bytes data -> rd data i = Ok v -> 0 <= v < 256.
Proof. unfold rd. intros B H. destruct (nth_error data i) eqn:E; [|discriminate]. injection H as <-. unfold bytes in B. rewrite Forall_forall in B. apply B. eapply nth_error_In. exact E. Qed.

Lemma parse_good data : bytes data -> match cg_parse 20 data with Ok f => good f /\ c_data f = data | Err e => e = -1 | _ => False end.
Proof.
  intros Bd. unfold cg_parse. destruct (Z.ltb_spec (Z.of_nat (length data)) (8 + 20)); [reflexivity|].
  destruct (rd32_some data 0 Bd ltac:(lia) ltac:(lia)) as (sig & -> & _). cbn [bindr].
  destruct (rd_some data 4 ltac:(lia)) as (v4 & ->). destruct (rd_some data 5 ltac:(lia)) as (v5 & ->). destruct (rd_some data 6 ltac:(lia)) as (ch & Ech). rewrite Ech. cbn [bindr].
  destruct (negb (sig =? CG_SIG) || negb (v4 =? 1) || negb (v5 =? 1)); [reflexivity|]. destruct (Z.eqb_spec ch 0); [reflexivity|].
  pose proof (rd_byte _ _ _ Bd Ech) as Rch. cbv zeta. destruct (Z.ltb_spec (Z.of_nat (length data) - 20) (8 + (1 + ch) * 12)); [reflexivity|].
  change (CHECKSUM_BUF <? 20) with false. cbv iota. rewrite rdn_ok by lia. cbn [bindr].
  pose proof (chunk_loop_ok data (Z.of_nat (length data) - 20) Bd ltac:(lia) (Z.to_nat ch) 8 (8 + (1 + ch) * 12) None (repeat (0, 0) 5)) as CL.
  specialize (CL ltac:(lia) ltac:(lia) ltac:(lia) eq_refl ltac:(lia) ltac:(discriminate)).
  assert (F0 : forall k, None <> Some k -> fits (8 + (1 + ch) * 12) (nth k (repeat (0, 0) 5) (0, 0))).
  { intros k _. replace (nth k (repeat (0, 0) 5) (0, 0)) with (0, 0) by (destruct k as [|[|[|[|[|k]]]]]; try reflexivity; cbn; destruct k; reflexivity). unfold fits. cbn. lia. }
  specialize (CL F0). destruct (chunk_loop _ _ _ _ _ _ _) as [cs| | |]; try (cbn [bindr]; assumption). cbn [bindr].
  unfold parse_fanout. destruct (CL 0%nat) as (A1 & A2 & A3). destruct (Z.eqb_spec (fst (nth 0 cs (0, 0))) 0); [reflexivity|].
  destruct (Z.eqb_spec (snd (nth 0 cs (0, 0))) 0); [reflexivity|]. destruct (Z.eqb_spec (snd (nth 0 cs (0, 0))) (256 * 4)); [|reflexivity]. cbn [negb].
  pose proof (fan_safe data Bd 256 (fst (nth 0 cs (0, 0))) 0 A1 ltac:(lia)) as FS.
  destruct (fan_check data (fst (nth 0 cs (0, 0))) 256 0) as [num| | |] eqn:Efan; try (cbn [bindr]; assumption). cbn [bindr].
  destruct (fan_check_inv data Bd 256 _ 0 num A1 Efan) as (Hnum & _).
  unfold parse_lookup. destruct (CL 1%nat) as (B1 & B2 & B3). destruct (Z.eqb_spec (fst (nth 1 cs (0, 0))) 0); [reflexivity|].
  destruct (Z.eqb_spec (snd (nth 1 cs (0, 0))) 0); [reflexivity|]. destruct (Z.eqb_spec (snd (nth 1 cs (0, 0))) (num * 20)); [|reflexivity]. cbn [negb].
  pose proof (lookup_check_safe data 20 ltac:(lia) (Z.to_nat num) (fst (nth 1 cs (0, 0))) (repeat 0 32) B1 ltac:(lia) ltac:(cbn; lia)) as LS.
  destruct (lookup_check data 20 _ _ _) as [[]| | |]; try (cbn [bindr]; assumption). cbn [bindr].
  unfold parse_cdata. destruct (CL 2%nat) as (C1 & C2 & C3). destruct (Z.eqb_spec (fst (nth 2 cs (0, 0))) 0); [reflexivity|].
  destruct (Z.eqb_spec (snd (nth 2 cs (0, 0))) 0); [reflexivity|]. destruct (Z.eqb_spec (snd (nth 2 cs (0, 0))) (num * (20 + 16))); [|reflexivity]. cbn [negb bindr].
  unfold parse_edges. destruct (CL 3%nat) as (D1 & D2 & D3). destruct (Z.eqb_spec (snd (nth 3 cs (0, 0))) 0).
  - cbn [bindr]. unfold good. cbn [c_data c_osz c_num c_fan c_lookup c_cdata c_edges c_nedges]. repeat split; auto; lia.
  - destruct (Z.eqb_spec (snd (nth 3 cs (0, 0)) mod 4) 0); [|reflexivity]. cbn [negb bindr]. unfold good. cbn [c_data c_osz c_num c_fan c_lookup c_cdata c_edges c_nedges].
    repeat split; auto; try lia; try (apply Z.div_pos; lia).
Qed.

Lemma edge_scan_safe data edges : bytes data -> 0 <= edges -> forall n pos count, 0 <= pos -> edges + (pos + Z.of_nat n) * 4 <= Z.of_nat (length data) ->
  exists c, edge_scan data edges n pos count = Ok c /\ count <= c <= count + Z.of_nat n.
Proof.
  intros Bd He. induction n as [|n IH]; intros pos count Hp Hl; cbn [edge_scan]; [exists count; split; [reflexivity|lia]|].
  destruct (rd32_some data (edges + pos * 4) Bd ltac:(lia) ltac:(lia)) as (v & -> & _). cbn [bindr]. destruct (Z.land v TOPBIT =? 0); [|exists count; split; [reflexivity|lia]].
  destruct (IH (pos + 1) (count + 1) ltac:(lia) ltac:(lia)) as (c & E & R). exists c. split; [exact E|lia].
Qed.

Definition sound (f : cgfile) (e : cgentry) : Prop :=
  0 <= e_p0 e /\ 0 <= e_p1 e /\
  match e_extra e with
  | None => e_count e <= 2
  | Some x => 0 <= x /\ 0 < c_nedges f /\ x + (e_count e - 2) <= c_nedges f
  end.
Lemma get_safe f pos : good f -> 0 <= pos -> match get_byindex f pos with Ok e => sound f e | Err e => e = -3 | _ => False end.
Proof.
  intros (Bd & Eo & Hn & Hf & Hl & Hc & He & Hne & Efan & S1 & S2 & S3 & S4) Hp. unfold get_byindex. rewrite Eo.
  destruct (Z.leb_spec (c_num f) pos); [reflexivity|]. cbv zeta. set (cd := c_cdata f + pos * (20 + 16)).
  assert (Hcd : 0 <= cd /\ cd + 36 <= Z.of_nat (length (c_data f)) - 20) by (unfold cd; nia).
  rewrite rdn_ok by lia. cbn [bindr].
  destruct (rd32_some (c_data f) (cd + 20) Bd ltac:(lia) ltac:(lia)) as (p0 & -> & R0). cbn [bindr].
  destruct (rd32_some (c_data f) (cd + 20 + 4) Bd ltac:(lia) ltac:(lia)) as (p1 & -> & R1). cbn [bindr].
  destruct (rd32_some (c_data f) (cd + 20 + 8) Bd ltac:(lia) ltac:(lia)) as (g & -> & _). cbn [bindr].
  destruct (rd32_some (c_data f) (cd + 20 + 12) Bd ltac:(lia) ltac:(lia)) as (t & -> & _). cbn [bindr].
  set (count := (if p0 =? MISSING_PARENT then 0 else 1) + (if p1 =? MISSING_PARENT then 0 else 1)).
  assert (Hcount : count <= 2) by (unfold count; destruct (p0 =? MISSING_PARENT), (p1 =? MISSING_PARENT); lia).
  assert (Hid : (Z.to_nat (c_lookup f + pos * 20) + Z.to_nat 20 <= length (c_data f))%nat) by nia.
  destruct (negb (Z.land p1 TOPBIT =? 0)).
  - pose proof (Z.land_nonneg p1 2147483647). set (ep := Z.land p1 2147483647) in *. assert (0 <= ep) by lia.
    destruct (Z.leb_spec (c_nedges f) ep); [reflexivity|].
    destruct (edge_scan_safe (c_data f) (c_edges f) Bd He (Z.to_nat (c_nedges f - ep)) ep count ltac:(lia) ltac:(lia)) as (c & -> & Rc). cbn [bindr].
    rewrite rdn_ok by exact Hid. cbn [bindr]. unfold sound. cbn [e_p0 e_p1 e_extra e_count]. lia.
  - cbn [bindr]. rewrite rdn_ok by exact Hid. cbn [bindr]. unfold sound. cbn [e_p0 e_p1 e_extra e_count]. lia.
Qed.

Lemma parent_safe f e n : good f -> sound f e -> 0 <= n -> match cg_parent f e n with Ok e' => sound f e' | Err x => x = -3 | _ => False end.
Proof.
  intros Hg (P0 & P1 & Hs) Hn. unfold cg_parent. destruct (Z.leb_spec (e_count e) n); [reflexivity|].
  destruct ((n =? 0) || ((n =? 1) && (e_count e =? 2))) eqn:E.
  - apply get_safe; [exact Hg|]. destruct (n =? 0); assumption.
  - apply orb_false_iff in E as [E0 E1]. apply Z.eqb_neq in E0. destruct (e_extra e) as [x|].
    + destruct Hg as (Bd & Eo & Hnn & Hf & Hl & Hc & He & Hne & Efan & S1 & S2 & S3 & S4). destruct Hs as (Hx & Hpos & Hb). specialize (S4 Hpos).
      destruct (rd32_some (c_data f) (c_edges f + (x + n - 1) * 4) Bd ltac:(lia) ltac:(lia)) as (v & -> & Rv). cbn [bindr].
      apply get_safe; [repeat split; auto|]. apply Z.land_nonneg. lia.
    + exfalso. apply andb_false_iff in E1 as [E1|E1]; apply Z.eqb_neq in E1; lia.
Qed.

Lemma ncmp_safe data off q len : bytes data -> oid_ok 20 q -> 0 <= off -> off + 20 <= Z.of_nat (length data) -> (len <= 40)%nat -> exists r, ncmp_at 20 data off q len = Ok r.
Proof. intros B Hq Ho Hl Hlen. destruct (ncmp_at_spec data off q len 20 B Hq Ho ltac:(lia) Hl) as (r & E & _); [cbn; lia|eauto]. Qed.

Lemma cg_find_safe f q len : good f -> Z.of_nat (length (c_data f)) < 42949672960 -> oid_ok 20 q -> (len <= 40)%nat ->
  match cg_find f q len with Ok e => sound f e | Err e => e = -3 \/ e = -5 | _ => False end.
Proof.
  intros Hg Hsz Hq Hlen. pose proof Hg as (Bd & Eo & Hn & Hf & Hl & Hc & He & Hne & Efan & S1 & S2 & S3 & S4). unfold cg_find. rewrite Eo.
  destruct (fan_check_inv _ Bd 256 _ 0 _ Hf Efan) as (_ & FV & FM).
  destruct q as [|b q'] eqn:Eq; [destruct Hq as [L _]; discriminate|]. rewrite <- Eq in *.
  assert (Hb : 0 <= b < 256) by (destruct Hq as [_ B]; subst q; inversion_clear B; assumption).
  assert (Er : rd q 0 = Ok b) by (subst q; reflexivity). clear Eq q'. rewrite Er. cbn [bindr].
  destruct (FV b ltac:(lia)) as (hi & Ehi & Rhi). rewrite Ehi. cbn [bindr].
  assert (Elo : exists lo, (if b =? 0 then Ok 0 else rd32 (c_data f) (c_fan f + 4 * (b - 1))) = Ok lo /\ 0 <= lo <= hi).
  { destruct (Z.eqb_spec b 0); [exists 0; split; [reflexivity|lia]|]. destruct (FV (b - 1) ltac:(lia)) as (lo & El & Rl). exists lo. split; [exact El|]. split; [lia|]. apply (FM (b - 1) b lo hi); auto; lia. }
  destruct Elo as (lo & -> & Rlo). cbn [bindr].
  destruct (lookup_safe (S (Z.to_nat (hi - lo))) (c_data f) (c_lookup f) 20 lo hi q 20) as (r & -> & Rr); try lia; [apply Hq|]. cbn [bindr].
  assert (E32 : to_int32 (c_num f) = c_num f) by (unfold to_int32; destruct (Z.ltb_spec (c_num f) 2147483648); lia). rewrite E32.
  assert (Hmid : exists found pos current,
    (if 0 <=? r then Ok (true, r, c_lookup f + r * 20)
     else if - 1 - r <? c_num f then do c <- ncmp_at 20 (c_data f) (c_lookup f + (- 1 - r) * 20) q len ;; Ok (c =? 0, - 1 - r, c_lookup f + (- 1 - r) * 20) else Ok (false, - 1 - r, 0)) = Ok (found, pos, current) /\
    (found = true -> 0 <= pos < c_num f /\ current = c_lookup f + pos * 20)).
  { destruct Rr as [(mi & Rm & -> & _)|(k & Rk & ->)].
    - destruct (Z.leb_spec 0 mi); [|lia]. exists true, mi, (c_lookup f + mi * 20). split; [reflexivity|]. intros _. lia.
    - destruct (Z.leb_spec 0 (- k - 1)); [lia|]. cbv zeta. replace (- 1 - (- k - 1)) with k by lia. destruct (Z.ltb_spec k (c_num f)).
      + destruct (ncmp_safe (c_data f) (c_lookup f + k * 20) q len Bd Hq ltac:(lia) ltac:(lia) Hlen) as (c & ->). cbn [bindr]. exists (c =? 0), k, (c_lookup f + k * 20). split; [reflexivity|]. intros _. lia.
      + exists false, k, 0. split; [reflexivity|discriminate]. }
  cbv zeta. destruct Hmid as (found & pos & current & -> & Hfound). cbn [bindr].
  assert (Hamb : exists amb : bool, (if (found : bool) && negb (Z.of_nat len =? 2 * 20) && (pos + 1 <? c_num f) then do c <- ncmp_at 20 (c_data f) (current + 20) q len ;; Ok (c =? 0) else Ok false) = Ok amb).
  { destruct found; [|exists false; reflexivity]. destruct (Hfound eq_refl) as [Hpos ->]. cbn [andb]. destruct (negb (Z.of_nat len =? 2 * 20)); [|exists false; reflexivity]. cbn [andb].
    destruct (Z.ltb_spec (pos + 1) (c_num f)); [|exists false; reflexivity].
    destruct (ncmp_safe (c_data f) (c_lookup f + pos * 20 + 20) q len Bd Hq ltac:(lia) ltac:(lia) Hlen) as (c & ->). cbn [bindr]. eauto. }
  destruct Hamb as (amb & ->). cbn [bindr]. destruct found; cbn [negb]; [|auto]. destruct amb; [auto|]. destruct (Hfound eq_refl) as [Hpos _].
  pose proof (get_safe f pos Hg ltac:(lia)) as GS. destruct (get_byindex f pos); auto.
Qed.

Lemma entry_sound f e : good f -> Z.of_nat (length (c_data f)) < 42949672960 -> entry_of f e -> sound f e.
Proof.
  intros Hg Hs. induction 1 as [q len e Hq Hl E|e0 n e _ IH Hn E].
  - pose proof (cg_find_safe f q len Hg Hs Hq Hl) as F. rewrite E in F. exact F.
  - pose proof (parent_safe f e0 n Hg IH Hn) as F. rewrite E in F. exact F.
Qed.
