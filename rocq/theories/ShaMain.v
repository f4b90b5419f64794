From Verif Require Import Base ShaModel ShaSpec ShaProofs.
Local Open Scope Z_scope.

Section Two.
Variables (p : list Z -> list Z -> list Z) (iv : list Z).
Definition block_part (m : list Z) (c : sha256) : Prop := exists bs t, m = concat bs ++ t /\ Forall (fun b => length b = 64%nat) bs /\ (length t < 64)%nat /\
  hash c = fold_left p bs iv /\ length (blk c) = 64%nat /\ firstn (length t) (blk c) = t /\ idx c = length t.
Definition holds2 (m : list Z) (c : sha256) : Prop := block_part m c /\ 0 <= len_low c < 2 ^ 32 /\ 0 <= len_high c < 2 ^ 32 /\
  len_high c * 2 ^ 32 + len_low c = 8 * size m /\ computed c = false /\ corrupted c = false.
Lemma holds2_init g : length g = 64%nat -> holds2 [] (sha256_init iv g).
Proof. intros L. split; [exists [], []; repeat split; auto; cbn; lia|]. cbn. repeat split; try lia. Qed.
Lemma firstn_upd (l : list Z) i x t : (i < length l)%nat -> firstn i l = t -> firstn (S i) (upd l i x) = t ++ [x].
Proof. revert i t. induction l as [|y l IH]; intros [|i] t L E; cbn in L; try lia; cbn in *; subst; [reflexivity|]. cbn. f_equal. apply IH; [lia|reflexivity]. Qed.
(** One byte. *)
Lemma step_block m c b : block_part m c -> let c1 := put c b in forall hi lo cp co,
  block_part (m ++ [b]) (let c2 := mksha256 (hash c1) hi lo (idx c1) (blk c1) cp co in if (idx c2 =? 64)%nat then process_block p c2 else c2).
Proof.
  intros (bs & t & E & F & Lt & Eh & Lb & Eb & Ei) c1 hi lo cp co. cbn [idx c1 put hash blk]. rewrite Ei.
  assert (Fu : firstn (S (length t)) (upd (blk c) (length t) b) = t ++ [b]) by (apply firstn_upd; auto; lia).
  assert (Lu : length (upd (blk c) (length t) b) = 64%nat) by (now rewrite upd_length).
  destruct (Nat.eqb_spec (S (length t)) 64) as [G|G].
  - exists (bs ++ [t ++ [b]]), []. rewrite G, firstn_all2 in Fu by lia. unfold process_block. cbn [hash blk idx]. rewrite Fu, app_nil_r. repeat split; auto.
    + rewrite concat_app. cbn. rewrite E, app_nil_r, app_assoc. reflexivity.
    + apply Forall_app. split; auto. constructor; auto. rewrite app_length. cbn. lia.
    + cbn. lia.
    + now rewrite fold_left_app, Eh.
    + rewrite app_length. cbn. lia.
  - exists bs, (t ++ [b]). cbn [hash blk idx]. rewrite app_length. cbn [length]. replace (length t + 1)%nat with (S (length t)) by lia. repeat split; auto; try lia. rewrite E, app_assoc. reflexivity.
Qed.
Lemma input_holds d : forall m c, holds2 m c -> size (m ++ d) < 2 ^ 61 -> exists c', input_loop p c d = Ok c' /\ holds2 (m ++ d) c'.
Proof.
  induction d as [|b d IH]; intros m c H L; cbn [input_loop]; [exists c; rewrite app_nil_r; auto|].
  destruct H as (B & Hl & Hh & He & Hc & Hx).
  assert (Ix : (idx c < 64)%nat) by (destruct B as (bs & t & _ & _ & Lt & _ & _ & _ & ->); auto).
  destruct (Nat.leb_spec 64 (idx c)); [lia|]. pose proof (step_block m c b B) as SB. cbn zeta in SB.
  replace (m ++ b :: d) with ((m ++ [b]) ++ d) in * by (now rewrite <- app_assoc).
  assert (Ls : size (m ++ [b]) = size m + 1) by (unfold size; rewrite app_length; cbn; lia).
  assert (Lt : size (m ++ [b]) <= size ((m ++ [b]) ++ d)) by (unfold size; rewrite (app_length (m ++ [b])); lia).
  apply IH; auto. unfold add_length. cbn [len_low len_high put computed corrupted]. unfold u32.
  destruct (Z.ltb_spec ((len_low c + 8) mod 2 ^ 32) (len_low c)) as [W|W].
  - assert (Ov : 2 ^ 32 <= len_low c + 8) by (destruct (Z_lt_dec (len_low c + 8) (2 ^ 32)); [rewrite Z.mod_small in W by lia; lia|lia]).
    assert (Ew : (len_low c + 8) mod 2 ^ 32 = len_low c + 8 - 2 ^ 32) by (symmetry; apply Z.mod_unique with (q := 1); pose proof (Z.mod_small (len_low c + 8) (2 ^ 32)); lia).
    assert (Eh : (len_high c + 1) mod 2 ^ 32 = len_high c + 1) by (apply Z.mod_small; lia).
    rewrite Ew, Eh, Hx. destruct (Z.eqb_spec (len_high c + 1) 0); [lia|]. cbn [orb corrupted negb andb].
    specialize (SB (len_high c + 1) (len_low c + 8 - 2 ^ 32) (computed c) false). split; [exact SB|].
    match goal with |- context [if ?q then process_block p ?c2 else ?c2] => set (cc := c2); destruct (idx cc =? 64)%nat end; cbn [process_block len_low len_high computed corrupted cc]; repeat split; auto; lia.
  - assert (Ew : (len_low c + 8) mod 2 ^ 32 = len_low c + 8).
    { apply Z.mod_small. destruct (Z_lt_dec (len_low c + 8) (2 ^ 32)); [lia|]. exfalso. assert ((len_low c + 8) mod 2 ^ 32 = len_low c + 8 - 2 ^ 32) by (symmetry; apply Z.mod_unique with (q := 1); lia). lia. }
    rewrite Ew, Hx. cbn [corrupted negb andb].
    specialize (SB (len_high c) (len_low c + 8) (computed c) false). split; [exact SB|].
    match goal with |- context [if ?q then process_block p ?c2 else ?c2] => set (cc := c2); destruct (idx cc =? 64)%nat end; cbn [process_block len_low len_high computed corrupted cc]; repeat split; auto; lia.
Qed.
Lemma update_holds fuel : forall m c d, (length d <= fuel)%nat -> holds2 m c -> size (m ++ d) < 2 ^ 61 -> exists c', sha256_update p fuel c d = Ok c' /\ holds2 (m ++ d) c'.
Proof.
  induction fuel as [|n IH]; intros m c d Lf H L; [destruct d; [|cbn in Lf; lia]; exists c; rewrite app_nil_r; auto|].
  destruct d as [|x xs]; [exists c; rewrite app_nil_r; auto|]. cbn [sha256_update]. set (d := x :: xs) in *. set (k := Z.to_nat (Z.min (Z.of_nat (length d)) 4294967295)).
  assert (Lk : (1 <= k <= length d)%nat) by (unfold k, d; cbn [length]; lia).
  assert (E1 : m ++ d = (m ++ firstn k d) ++ skipn k d) by (rewrite <- app_assoc, firstn_skipn; reflexivity). rewrite E1 in L |- *.
  assert (L1 : size (m ++ firstn k d) < 2 ^ 61) by (unfold size in *; rewrite app_length in L; lia).
  destruct (input_holds (firstn k d) m c H L1) as (c1 & I1 & H1).
  assert (sha256_input p c (firstn k d) = Ok c1) as ->. { unfold sha256_input. destruct (firstn k d) eqn:Q; [injection I1 as <-; reflexivity|]. destruct H as (_ & _ & _ & _ & -> & ->). exact I1. }
  cbn [bindr]. assert (corrupted c1 = false) as -> by apply H1. apply IH; auto. rewrite skipn_length. lia.
Qed.

(** Padding. *)
Definition same_len (c c' : sha256) : Prop := len_high c' = len_high c /\ len_low c' = len_low c.
Lemma zeros_spec k : forall c, (idx c + k <= 64)%nat -> length (blk c) = 64%nat -> let c' := zeros_to k c in
  hash c' = hash c /\ length (blk c') = 64%nat /\ idx c' = (idx c + k)%nat /\ firstn (idx c') (blk c') = firstn (idx c) (blk c) ++ repeat 0 k /\ same_len c c'.
Proof.
  induction k as [|k IH]; intros c Li Lb; cbn [zeros_to]; [repeat split; auto; cbn [repeat]; rewrite ?app_nil_r; auto|].
  destruct (IH (put c 0)) as (H1 & H2 & H3 & H4 & H5 & H6); [cbn; lia|cbn; now rewrite upd_length|]. cbn [put hash idx blk len_high len_low] in *. split; [exact H1|]. split; [exact H2|]. split; [rewrite H3; lia|]. split; [|split; auto].
  rewrite H4. rewrite (firstn_upd (blk c) (idx c) 0 (firstn (idx c) (blk c))) by (auto; lia). cbn [repeat]. now rewrite <- app_assoc.
Qed.
Lemma result_spec m c : holds2 m c -> size m < 2 ^ 61 -> hash (pad_message p c) = digest p iv m.
Proof.
  intros ((bs & t & E & F & Lt & Eh & Lb & Eb & Ei) & Hl & Hh & He & _ & _) Lm.
  assert (Rt : Z.of_nat (length t) = size m mod 64) by (eapply rem_unique; eauto). pose proof (Z_div_mod_eq_full (size m) 64) as Dm.
  assert (W : forall hi lo, hi = len_high c -> lo = len_low c -> map (fun k => u8 (Z.shiftr hi k)) [24; 16; 8; 0] ++ map (fun k => u8 (Z.shiftr lo k)) [24; 16; 8; 0] = be64 ((8 * size m) mod 2 ^ 64)).
  { intros hi lo -> ->. rewrite Z.mod_small by lia. rewrite <- He, !bytes_be by (repeat constructor; lia). unfold be64. cbn [map app].
    set (h := len_high c) in *. set (l := len_low c) in *.
    assert (Hi : forall k, 0 <= k -> (h * 2 ^ 32 + l) / 2 ^ (32 + k) = h / 2 ^ k).
    { intros k Hk. rewrite Z.pow_add_r by lia. rewrite <- Z.div_div by (try lia; apply Z.pow_pos_nonneg; lia). f_equal. rewrite Z.add_comm, Z.div_add by lia. rewrite Z.div_small by lia. lia. }
    assert (Lo : forall k, 0 <= k <= 24 -> ((h * 2 ^ 32 + l) / 2 ^ k) mod 256 = (l / 2 ^ k) mod 256).
    { intros k Hk. replace (h * 2 ^ 32 + l) with (l + (h * 2 ^ (32 - k)) * 2 ^ k) by (rewrite <- Z.mul_assoc, <- Z.pow_add_r by lia; replace (32 - k + k) with 32 by lia; lia).
      rewrite Z.div_add by (apply Z.pow_nonzero; lia). replace (h * 2 ^ (32 - k)) with (h * 2 ^ (24 - k) * 256) by (rewrite <- Z.mul_assoc; change 256 with (2 ^ 8); rewrite <- Z.pow_add_r by lia; do 2 f_equal; lia). apply Z_mod_plus_full. }
    rewrite (Lo 24), (Lo 16), (Lo 8), (Lo 0) by lia.
    rewrite <- (Hi 24), <- (Hi 16), <- (Hi 8), <- (Hi 0) by lia. reflexivity. }
  (* The last block [t'] before the length, after the blocks [bs']. *)
  assert (Fin : forall c' bs' t', length t' = 56%nat -> Forall (fun b => length b = 64%nat) bs' -> hash c' = fold_left p bs' iv -> length (blk c') = 64%nat -> firstn 56 (blk c') = t' -> same_len c c' -> idx c' = 56%nat ->
     concat bs' ++ t' = m ++ [128] ++ repeat 0 (Z.to_nat ((55 - size m) mod 64)) ->
     hash (process_block p (mksha256 (hash c') (len_high c') (len_low c') (idx c') (copy_at (blk c') 56 (map (fun k => u8 (Z.shiftr (len_high c') k)) [24; 16; 8; 0] ++ map (fun k => u8 (Z.shiftr (len_low c') k)) [24; 16; 8; 0])) (computed c') (corrupted c'))) = digest p iv m).
  { intros c' bs' t' L' F' H' B' P' [Q1 Q2] I' E'. rewrite (W _ _ Q1 Q2). cbn [process_block hash blk]. rewrite (copy_full (blk c') 56 (be64 ((8 * size m) mod 2 ^ 64)) t' B' eq_refl P'). rewrite (digest_blocks p iv m (bs' ++ [t' ++ be64 ((8 * size m) mod 2 ^ 64)])).
    - now rewrite fold_left_app, H'.
    - apply Forall_app. split; auto. constructor; auto. rewrite app_length, L'. reflexivity.
    - rewrite concat_app. cbn [concat]. rewrite app_nil_r, app_assoc, E'. unfold pad. rewrite <- !app_assoc. reflexivity. }
  unfold pad_message. rewrite Ei. destruct (Nat.leb_spec 56 (length t)) as [G|G].
  - assert (Fu : firstn (S (length t)) (upd (blk c) (length t) 128) = t ++ [128]) by (apply firstn_upd; auto; lia).
    set (c1 := put c 128). assert (I1 : idx c1 = S (length t)) by (cbn; now rewrite Ei). rewrite I1.
    destruct (zeros_spec (64 - S (length t)) c1) as (H1 & H2 & H3 & H4 & H5 & H6); [rewrite I1; lia|cbn; now rewrite upd_length|]. set (c2 := zeros_to _ c1) in *. rewrite H3, I1 in H4. rewrite I1 in H3. replace (S (length t) + (64 - S (length t)))%nat with 64%nat in * by lia. rewrite firstn_all2 in H4 by lia. cbn [c1 put blk hash len_high len_low] in *. rewrite Ei, Fu in H4.
    set (c3 := process_block p c2). destruct (zeros_spec (56 - idx c3) c3) as (J1 & J2 & J3 & J4 & J5 & J6); [cbn; lia|cbn; auto|]. cbn [c3 process_block idx Nat.sub] in *. set (c4 := zeros_to 56 _) in *. cbn [blk hash len_high len_low] in *.
    apply (Fin c4 (bs ++ [(t ++ [128]) ++ repeat 0 (64 - S (length t))]) (repeat 0 56)); auto.
    + apply Forall_app. split; auto. constructor; auto. rewrite !app_length, repeat_length. cbn [length]. lia.
    + rewrite fold_left_app, <- Eh. cbn [fold_left]. rewrite J1. change (p (hash c2) (blk c2) = p (hash c) ((t ++ [128]) ++ repeat 0 (64 - S (length t)))). rewrite H4. f_equal. exact H1.
    + split; [etransitivity; [exact J5|exact H5]|etransitivity; [exact J6|exact H6]].
    + rewrite concat_app. cbn [concat]. rewrite app_nil_r. rewrite E at 1. rewrite <- !app_assoc. f_equal. f_equal. cbn [app]. f_equal.
      replace (Z.to_nat ((55 - size m) mod 64)) with ((64 - S (length t)) + 56)%nat; [now rewrite repeat_app|].
      rewrite <- (Z.mod_unique (55 - size m) 64 (- (size m / 64) - 1) (119 - size m mod 64)); lia.
  - assert (Fu : firstn (S (length t)) (upd (blk c) (length t) 128) = t ++ [128]) by (apply firstn_upd; auto; lia).
    set (c1 := put c 128). assert (I1 : idx c1 = S (length t)) by (cbn; now rewrite Ei). rewrite I1.
    destruct (zeros_spec (56 - S (length t)) c1) as (H1 & H2 & H3 & H4 & H5 & H6); [rewrite I1; lia|cbn; now rewrite upd_length|]. set (c2 := zeros_to _ c1) in *. rewrite H3, I1 in H4. rewrite I1 in H3. replace (S (length t) + (56 - S (length t)))%nat with 56%nat in * by lia. cbn [c1 put blk hash len_high len_low] in *. rewrite Ei, Fu in H4.
    apply (Fin c2 bs ((t ++ [128]) ++ repeat 0 (56 - S (length t)))); auto.
    + rewrite !app_length, repeat_length. cbn [length]. lia.
    + congruence.
    + split; auto.
    + rewrite E at 1. rewrite <- !app_assoc. f_equal. f_equal. cbn [app]. f_equal. f_equal. rewrite <- (Z.mod_unique (55 - size m) 64 (- (size m / 64)) (55 - size m mod 64)); lia.
Qed.
End Two.
