(** The model's decoding of an entry agrees with the format (PackReadSpec). *)
From Verif Require Import Base PackHdrSpec PackHdrModel PackHdrProps VarintSpec VarintProofs DeltaSpec DeltaModel DeltaApplyProofs DeltaProps PackReadModel PackReadSpec.

Lemma rest_len p off : 0 <= off <= pk_size p -> Z.of_nat (length (rest_at p off)) = pk_size p - off.
Proof. intros H. unfold rest_at, pk_size in *. rewrite skipn_length. lia. Qed.
Lemma rest_bytes p off : pack_ok p -> bytes (rest_at p off).
Proof. intros H. apply Forall_forall. intros x Hx. apply (proj1 (Forall_forall _ _) (po_bytes p H)). rewrite <- (firstn_skipn (Z.to_nat off) (pk_file p)). apply in_or_app. right. exact Hx. Qed.
Lemma win_bytes p off : pack_ok p -> bytes (win_at p off).
Proof.
  intros H. apply Forall_forall. intros x Hx. apply (proj1 (Forall_forall _ _) (rest_bytes p off H)).
  unfold win_at in Hx. rewrite <- (firstn_skipn (pk_win p off) (rest_at p off)). apply in_or_app. left. exact Hx.
Qed.
Lemma rest_add p off n : 0 <= off -> rest_at p (off + Z.of_nat n) = skipn n (rest_at p off).
Proof. intros H. unfold rest_at. rewrite skipn_skipn. f_equal. lia. Qed.
(** A window shows any prefix of at most [oid_size] bytes. *)
Lemma win_prefix p off a b : pack_ok p -> 0 <= off < pk_size p -> rest_at p off = a ++ b -> (length a <= pk_oid p)%nat ->
  exists b', win_at p off = a ++ b'.
Proof.
  intros H Ho E L. pose proof (po_win p H off Ho) as W. unfold win_at. rewrite E in *. rewrite app_length in W.
  exists (firstn (pk_win p off - length a) b). rewrite firstn_app. rewrite firstn_all2 by lia. reflexivity.
Qed.
Lemma win_split p off : rest_at p off = win_at p off ++ skipn (pk_win p off) (rest_at p off).
Proof. unfold win_at. symmetry. apply firstn_skipn. Qed.
Lemma win_some p off x : window_open p off = Some x -> 0 <= off <= pk_size p - Z.of_nat (pk_oid p) /\ x = win_at p off.
Proof.
  unfold window_open. destruct (Z.ltb_spec (pk_size p - Z.of_nat (pk_oid p)) off); [discriminate|]. destruct (Z.ltb_spec off 0); [discriminate|]. intros E. split; [lia|congruence].
Qed.
Lemma win_open p off : 0 <= off <= pk_size p - Z.of_nat (pk_oid p) -> window_open p off = Some (win_at p off).
Proof.
  intros H. unfold window_open. destruct (Z.ltb_spec (pk_size p - Z.of_nat (pk_oid p)) off); [lia|]. destruct (Z.ltb_spec off 0); [lia|reflexivity].
Qed.

(** Compressed data. *)
Lemma compressed_iff p pos size d : unpack_compressed p pos (size mod 2 ^ 64) = Ok d <-> stored p pos size d.
Proof.
  unfold unpack_compressed, stored. split.
  - destruct (window_open p pos) as [w|] eqn:W; [|discriminate]. apply win_some in W as [W _].
    destruct (pk_inflate p (rest_at p pos)) as [x|x|x]; try discriminate. destruct (Z.eqb_spec (Z.of_nat (length x)) (size mod 2 ^ 64)); [|discriminate].
    intros E. injection E as ->. auto.
  - intros (W & E & L). rewrite win_open by exact W. rewrite E, L, Z.eqb_refl. reflexivity.
Qed.

(** Headers. *)
Lemma header_ok p off size ty pos : pack_ok p -> 0 <= off -> unpack_header p off = Ok (size, ty, pos) ->
  off < pk_size p /\ exists h rest den, rest_at p off = h ++ rest /\ (length h <= 10)%nat /\ header_code h ty den /\ size = den mod 2 ^ 64 /\ pos = off + Z.of_nat (length h).
Proof.
  intros P Ho. unfold unpack_header. destruct (Z.ltb_spec off (pk_size p)) as [Hl|Hl].
  2:{ destruct (_ <? _); discriminate. }
  destruct (unpack_header1 (win_at p off)) as [[[u s] t]| | |] eqn:E; cbn [bindr]; try discriminate. intros X. injection X as <- <- <-.
  split; [exact Hl|]. pose proof E as E'. apply C25_header_sound in E as (h & rest & den & Eb & -> & Hc & ->); [|apply win_bytes; exact P].
  exists h, (rest ++ skipn (pk_win p off) (rest_at p off)), den. rewrite app_assoc, <- Eb, <- win_split.
  rewrite Eb, (C25_header_exact h t den rest Hc) in E'. destruct (Nat.leb_spec (length h) 10); [|discriminate].
  repeat split; auto; apply Hc.
Qed.
Lemma header_find p off h rest ty den : pack_ok p -> 0 <= off < pk_size p -> rest_at p off = h ++ rest -> (length h <= 10)%nat -> header_code h ty den ->
  unpack_header p off = Ok (den mod 2 ^ 64, ty, off + Z.of_nat (length h)).
Proof.
  intros P Ho E L Hc. unfold unpack_header. destruct (Z.ltb_spec off (pk_size p)); [|lia].
  destruct (win_prefix p off h rest P Ho E) as (b' & W); [pose proof (po_oid p P); lia|]. rewrite W, (C25_header_exact h ty den b' Hc).
  destruct (Nat.leb_spec (length h) 10); [reflexivity|lia].
Qed.

(** Base names. *)
Lemma base_ok p off pos ty npos base : pack_ok p -> 0 <= off < 2 ^ 63 -> 0 <= pos -> get_delta_base p pos ty off = Ok (npos, base) ->
  pos <= pk_size p - Z.of_nat (pk_oid p) /\ exists nm rest, rest_at p pos = nm ++ rest /\ base_name p off ty nm base /\ npos = pos + Z.of_nat (length nm).
Proof.
  intros P Ho Hp. unfold get_delta_base. destruct (window_open p pos) as [w|] eqn:W; [|discriminate]. apply win_some in W as [Hw ->].
  unfold OFS_DELTA, REF_DELTA. destruct (Z.eqb_spec ty 6) as [->|N6].
  - destruct (delta_base_ofs (win_at p pos) off) as [[u b]| | |] eqn:E; cbn [bindr]; try discriminate. intros X. injection X as <- <-.
    apply C25_ofs_sound in E as (Hb & code & rest & Ew & -> & Hc); [|apply win_bytes; exact P|change (2 ^ 63) with 9223372036854775808 in Ho; exact Ho].
    split; [lia|]. exists code, (rest ++ skipn (pk_win p pos) (rest_at p pos)). rewrite app_assoc, <- Ew, <- win_split. repeat split. constructor; assumption.
  - destruct (Z.eqb_spec ty 7) as [->|N7]; [|discriminate].
    destruct (pk_find p (firstn (pk_oid p) (win_at p pos))) as [b| | |] eqn:F; try discriminate. destruct (Z.eqb_spec b 0); [discriminate|]. intros X. injection X as <- <-.
    split; [lia|]. pose proof (rest_len p pos ltac:(lia)) as RL. pose proof (po_oid p P) as O20. pose proof (po_win p P pos ltac:(lia)) as PW.
    assert (EF : firstn (pk_oid p) (win_at p pos) = firstn (pk_oid p) (rest_at p pos)).
    { unfold win_at. rewrite firstn_firstn. f_equal. lia. }
    rewrite EF in F. exists (firstn (pk_oid p) (rest_at p pos)), (skipn (pk_oid p) (rest_at p pos)). split; [symmetry; apply firstn_skipn|].
    assert (L : length (firstn (pk_oid p) (rest_at p pos)) = pk_oid p) by (rewrite firstn_length; lia). split; [|rewrite L; reflexivity].
    constructor; assumption.
Qed.
Lemma base_find p off pos ty nm rest base : pack_ok p -> 0 <= off < 2 ^ 63 -> 0 <= pos <= pk_size p - Z.of_nat (pk_oid p) ->
  rest_at p pos = nm ++ rest -> base_name p off ty nm base -> get_delta_base p pos ty off = Ok (pos + Z.of_nat (length nm), base).
Proof.
  intros P Ho Hp E B. unfold get_delta_base. rewrite win_open by exact Hp. pose proof (po_oid p P) as O20. unfold OFS_DELTA, REF_DELTA.
  destruct B as [nm base Hc Hb|nm base L F N].
  - change (6 =? 6) with true. cbn iota. change (2 ^ 63) with 9223372036854775808 in Ho.
    destruct (win_prefix p pos nm rest P ltac:(lia) E) as (b' & W). { pose proof (code_len_64 _ _ Hc ltac:(unfold two64; lia)). lia. }
    rewrite W, (C25_ofs_exact nm (off - base) b' off Hc) by (unfold two64; lia). destruct (Z.ltb_spec 0 (off - base)), (Z.ltb_spec (off - base) off); try lia. cbn [andb bindr]. do 2 f_equal. lia.
  - change (7 =? 6) with false. change (7 =? 7) with true. cbn iota. destruct (win_prefix p pos nm rest P ltac:(lia) E ltac:(lia)) as (b' & W).
    rewrite W, <- L, firstn_app, Nat.sub_diag, firstn_all2, firstn_O, app_nil_r, F by lia. destruct (Z.eqb_spec base 0); [contradiction|]. reflexivity.
Qed.
Lemma base_type p off ty nm base : base_name p off ty nm base -> is_delta ty = true.
Proof. intros []; reflexivity. Qed.
Lemma header_ty h ty den : header_code h ty den -> 0 <= ty < 8.
Proof. intros (_ & b & r & _ & -> & _). apply Z.mod_pos_bound. lia. Qed.

(** One entry. *)
Lemma plain_iff p off ty d : pack_ok p -> 0 <= off ->
  (exists e, chain_elem p off = Ok (e, None) /\ e_type e = ty /\ 1 <= ty <= 4 /\ unpack_compressed p (e_pos e) (e_size e) = Ok d) <-> plain_entry p off ty d.
Proof.
  intros P Ho. unfold chain_elem. split.
  - intros (e & C & T & R & U). destruct (unpack_header p off) as [[[s t] c]| | |] eqn:E; cbn [bindr] in C; try discriminate.
    destruct (is_delta t) eqn:D. { destruct (get_delta_base p c t off) as [[? ?]| | |]; discriminate. }
    injection C as <-. cbn [e_type e_pos e_size] in *. subst t. apply header_ok in E as (Hl & h & rest & den & Er & L & Hc & -> & ->); [|exact P|exact Ho].
    split; [lia|]. exists h, den, rest. apply compressed_iff in U. auto.
  - intros (Hl & h & size & rest & Er & L & Hc & R & U). rewrite (header_find p off h rest ty size P Hl Er L Hc). cbn [bindr].
    assert (D : is_delta ty = false). { unfold is_delta, OFS_DELTA, REF_DELTA. destruct (Z.eqb_spec ty 6), (Z.eqb_spec ty 7); try lia; reflexivity. }
    rewrite D. eexists. split; [reflexivity|]. cbn [e_type e_pos e_size]. split; [reflexivity|]. split; [exact R|]. apply compressed_iff. exact U.
Qed.
Lemma delta_iff p off base dl : pack_ok p -> 0 <= off ->
  (exists e, chain_elem p off = Ok (e, Some base) /\ unpack_compressed p (e_pos e) (e_size e) = Ok dl) <-> delta_entry p off base dl.
Proof.
  intros P Ho. unfold chain_elem. pose proof (po_size p P) as PS. split.
  - intros (e & C & U). destruct (unpack_header p off) as [[[s t] c]| | |] eqn:E; cbn [bindr] in C; try discriminate.
    apply header_ok in E as (Hl & h & rest & den & Er & L & Hc & -> & ->); [|exact P|exact Ho].
    destruct (is_delta t) eqn:D; [|discriminate]. destruct (get_delta_base p (off + Z.of_nat (length h)) t off) as [[npos b]| | |] eqn:B; cbn [bindr] in C; try discriminate.
    injection C as <- <-. cbn [e_pos e_size] in U. apply base_ok in B as (HB & nm & rest' & Er' & Bn & ->); [|exact P|lia|lia].
    split; [lia|]. exists h, t, den, nm, rest'. rewrite rest_add, Er, skipn_app, skipn_all, Nat.sub_diag in Er' by exact Ho. cbn [app skipn] in Er'. subst rest.
    apply compressed_iff in U. auto 8.
  - intros (Hl & h & ty & size & nm & rest & Er & L & Hc & Bn & Hp & U). rewrite (header_find p off h (nm ++ rest) ty size P Hl Er L Hc). cbn [bindr].
    rewrite (base_type _ _ _ _ _ Bn). rewrite (base_find p off (off + Z.of_nat (length h)) ty nm rest base); try exact P; try lia; try exact Bn.
    + cbn [bindr]. eexists. split; [reflexivity|]. cbn [e_pos e_size]. apply compressed_iff. exact U.
    + rewrite rest_add, Er, skipn_app, skipn_all, Nat.sub_diag by exact Ho. reflexivity.
Qed.
(** Deltas always have a base at a non-negative offset. *)
Lemma base_nonneg p off e base : pack_ok p -> 0 <= off -> chain_elem p off = Ok (e, Some base) -> 0 <= base /\ e_key e = off.
Proof.
  intros P Ho. unfold chain_elem. pose proof (po_size p P) as PS. intros C. destruct (unpack_header p off) as [[[s t] c]| | |] eqn:E; cbn [bindr] in C; try discriminate.
  apply header_ok in E as (Hl & h & rest & den & Er & L & Hc & -> & ->); [|exact P|exact Ho].
  destruct (is_delta t) eqn:D; [|discriminate]. destruct (get_delta_base p (off + Z.of_nat (length h)) t off) as [[npos b]| | |] eqn:B; cbn [bindr] in C; try discriminate.
  injection C as <- <-. split; [|reflexivity]. apply base_ok in B as (_ & nm & rest' & _ & Bn & _); [|exact P|lia|lia]. destruct Bn as [? ? ? ?|? ? ? F ?]; [lia|]. apply (po_find p P) in F. exact F.
Qed.
Lemma elem_key p off e b : chain_elem p off = Ok (e, b) -> e_key e = off.
Proof.
  unfold chain_elem. intros C. destruct (unpack_header p off) as [[[s t] c]| | |]; cbn [bindr] in C; try discriminate.
  destruct (is_delta t). - destruct (get_delta_base p c t off) as [[? ?]| | |]; cbn [bindr] in C; try discriminate. injection C as <- <-. reflexivity.
  - injection C as <- <-. reflexivity.
Qed.

(** Deltas. *)
Lemma means_iff b dl d : bytes dl -> Z.of_nat (length b) < 2 ^ 64 -> (delta_apply b dl = Ok d <-> delta_means b dl d).
Proof.
  intros Hd Hb. change (2 ^ 64) with two64 in Hb. unfold delta_means. change (2 ^ 32) with two32. split.
  - intros E. pose proof E as E0. unfold delta_apply in E.
    destruct (hdr_sz dl 0 0) as [[b1 d1]| | |] eqn:E1; cbn [bindr] in E; try discriminate. destruct (negb _); [discriminate|].
    destruct (hdr_sz d1 0 0) as [[r1 d2]| | |] eqn:E2; cbn [bindr] in E; try discriminate. clear E.
    destruct (hdr_inv _ _ _ Hd E1) as (h1 & b0 & -> & C1 & L1 & ->). pose proof (bytes_app_r _ _ Hd) as Hd'. destruct (hdr_inv _ _ _ Hd' E2) as (h2 & r & -> & C2 & L2 & ->).
    pose proof (bytes_app_r _ _ Hd') as Hd''.
    destruct (delta_apply_wf b h1 b0 h2 r d2 C1 C2 L1 L2 Hd'' Hb) as [(o & Eo & HB & HR & Hbo)|(Eo & _)]; rewrite E0 in Eo; [|discriminate].
    injection Eo as <-. exists h1, b0, h2, r, d2. auto 12.
  - intros (h1 & b0 & h2 & r & body & -> & C1 & C2 & L1 & L2 & HB & HR & Hbo).
    pose proof (bytes_app_r _ _ (bytes_app_r _ _ Hd)) as Hbd.
    destruct (delta_apply_wf b h1 b0 h2 r body C1 C2 L1 L2 Hbd Hb) as [(o & Eo & _ & _ & Hbo')|(_ & X)].
    + rewrite Eo. f_equal. eapply delta_body_deterministic; eassumption.
    + destruct (X d Hbo); contradiction.
Qed.
Lemma means_len b dl d : delta_means b dl d -> Z.of_nat (length d) < 2 ^ 64.
Proof. intros (h1 & b0 & h2 & r & body & _ & _ & _ & _ & _ & _ & HR & _). rewrite <- HR. pose proof (Z.mod_pos_bound r (2 ^ 32)). lia. Qed.
Lemma denotes_len p off ty d : inflates_bytes p -> denotes p off ty d -> Z.of_nat (length d) < 2 ^ 64.
Proof.
  intros Z0 []. - destruct H as (_ & h & s & r & _ & _ & _ & _ & _ & E & _). apply (Z0 _ _ E). - eapply means_len. eassumption.
Qed.
Lemma entry_bytes p off base dl : inflates_bytes p -> delta_entry p off base dl -> bytes dl.
Proof. intros Z0 (_ & h & t & s & nm & r & _ & _ & _ & _ & _ & _ & E & _). apply (Z0 _ _ E). Qed.
