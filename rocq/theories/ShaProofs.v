From Verif Require Import Base ShaModel ShaSpec.
Local Open Scope Z_scope.

Lemma copy_length b off d : length b = 64%nat -> (off + length d <= 64)%nat -> length (copy_at b off d) = 64%nat.
Proof. intros L H. unfold copy_at. rewrite !app_length, firstn_length_le, skipn_length by lia. lia. Qed.
Lemma copy_prefix b off d t : length b = 64%nat -> (off + length d <= 64)%nat -> firstn off b = t -> firstn (off + length d) (copy_at b off d) = t ++ d.
Proof.
  intros L H E. unfold copy_at. rewrite E. assert (Lt : length t = off) by (rewrite <- E; apply firstn_length_le; lia).
  rewrite app_assoc, firstn_app, app_length, Lt, Nat.sub_diag. cbn [firstn]. rewrite app_nil_r. apply firstn_all2. rewrite app_length. lia.
Qed.
Lemma copy_full b off d t : length b = 64%nat -> (off + length d = 64)%nat -> firstn off b = t -> copy_at b off d = t ++ d.
Proof. intros L H E. rewrite <- (copy_prefix b off d t) by (auto; lia). symmetry. apply firstn_all2. rewrite copy_length; lia. Qed.
Lemma land63 n : 0 <= n -> Z.land (n mod 2 ^ 64) 63 = n mod 64.
Proof. intros H. change 63 with (Z.ones 6). rewrite Z.land_ones by lia. change (2 ^ 6) with 64. symmetry. apply Znumtheory.Zmod_div_mod; try lia. exists (2 ^ 58). reflexivity. Qed.
Lemma cut_concat bs : Forall (fun b => length b = 64%nat) bs -> forall r, cut (length bs) (concat bs ++ r) = bs.
Proof.
  induction 1 as [|b bs L H IH]; intros r; [reflexivity|]. cbn [length cut concat]. rewrite <- app_assoc. rewrite <- L at 1. rewrite firstn_app, Nat.sub_diag, firstn_all. cbn [firstn]. rewrite app_nil_r. f_equal.
  rewrite <- L, skipn_app, Nat.sub_diag, skipn_all. apply IH.
Qed.
Lemma concat_length bs : Forall (fun b : list Z => length b = 64%nat) bs -> length (concat bs) = (64 * length bs)%nat.
Proof. induction 1 as [|b bs L H IH]; [reflexivity|]. cbn [concat length]. rewrite app_length, IH. lia. Qed.
(** The digest from the blocks. *)
Lemma digest_blocks {T} (p : T -> list Z -> T) iv m bs : Forall (fun b => length b = 64%nat) bs -> pad m = concat bs -> digest p iv m = fold_left p bs iv.
Proof. intros F E. unfold digest. rewrite E, concat_length by auto. rewrite Nat.mul_comm, Nat.div_mul by lia. rewrite <- (app_nil_r (concat bs)). now rewrite cut_concat. Qed.
Lemma bytes_be n ks : Forall (fun k => 0 <= k) ks -> map (fun k => u8 (Z.shiftr n k)) ks = map (fun k => (n / 2 ^ k) mod 256) ks.
Proof. intros F. apply map_ext_in. intros k I. rewrite Forall_forall in F. unfold u8. rewrite Z.shiftr_div_pow2 by auto. change 255 with (Z.ones 8). now rewrite Z.land_ones. Qed.
Lemma rem_unique bs (t : list Z) m : Forall (fun b => length b = 64%nat) bs -> (length t < 64)%nat -> m = concat bs ++ t -> Z.of_nat (length t) = size m mod 64.
Proof. intros F L ->. unfold size. rewrite app_length, concat_length by auto. apply Z.mod_unique with (q := Z.of_nat (length bs)); lia. Qed.

Section One.
Context {S : Type}.
Variables (p : S -> list Z -> S) (un : bool) (iv : S).
(** After the bytes [m]: the whole blocks are processed, the rest is in the buffer. *)
Definition holds (m : list Z) (c : sha1) : Prop := exists bs t, m = concat bs ++ t /\ Forall (fun b => length b = 64%nat) bs /\ (length t < 64)%nat /\
  st c = fold_left p bs iv /\ length (buf c) = 64%nat /\ firstn (length t) (buf c) = t /\ total c = size m mod 2 ^ 64.
Lemma holds_init g : length g = 64%nat -> holds [] (sha1_init iv g).
Proof. intros L. exists [], []. repeat split; auto. cbn. lia. Qed.
Lemma holds_block m c b bf : holds m c -> length b = 64%nat -> size m mod 64 = 0 -> length bf = 64%nat -> holds (m ++ b) (mksha1 (u64 (total c + 64)) (p (st c) b) bf).
Proof.
  intros (bs & t & E & F & Lt & Es & Lb & Eb & Et) L M Lf. assert (t = []) as ->. { pose proof (rem_unique bs t m F Lt E) as R. rewrite M in R. destruct t; auto. cbn in R. lia. }
  exists (bs ++ [b]), []. rewrite app_nil_r in E. subst m. cbn [length firstn]. repeat split; auto; try lia.
  - rewrite concat_app. cbn. now rewrite !app_nil_r.
  - apply Forall_app. auto.
  - cbn [st]. now rewrite fold_left_app, Es.
  - cbn [total]. rewrite Et. unfold u64, size. rewrite Zplus_mod_idemp_l, app_length, L. f_equal. lia.
Qed.
Lemma loop_short fuel c d : (length d < 64)%nat -> blocks_loop p un fuel c d = (c, d).
Proof. intros L. destruct fuel; [reflexivity|]. cbn [blocks_loop]. destruct (Nat.leb_spec 64 (length d)); [lia|reflexivity]. Qed.
Lemma holds_loop fuel : forall m c d, holds m c -> size m mod 64 = 0 -> (length d <= fuel)%nat ->
  let '(c', d') := blocks_loop p un fuel c d in exists e, d = e ++ d' /\ (length d' < 64)%nat /\ holds (m ++ e) c' /\ size (m ++ e) mod 64 = 0.
Proof.
  induction fuel as [|n IH]; intros m c d H M L; cbn [blocks_loop].
  - exists []. destruct d; [|cbn in L; lia]. rewrite !app_nil_r. repeat split; auto. cbn. lia.
  - destruct (Nat.leb_spec 64 (length d)) as [G|G]; [|exists []; rewrite app_nil_r; auto].
    assert (Lf : length (firstn 64 d) = 64%nat) by (apply firstn_length_le; lia).
    assert (Lbuf : length (buf c) = 64%nat) by (destruct H as (bs & t & H); tauto).
    pose proof (holds_block m c (firstn 64 d) (if un then buf c else copy_at (buf c) 0 (firstn 64 d)) H Lf M) as H1.
    specialize (H1 ltac:(destruct un; [auto|apply copy_length; rewrite ?Lf; lia])).
    assert (M1 : size (m ++ firstn 64 d) mod 64 = 0) by (unfold size; rewrite app_length, Lf; rewrite Nat2Z.inj_add; change (Z.of_nat 64) with (1 * 64); rewrite Z_mod_plus_full; exact M).
    specialize (IH _ _ (skipn 64 d) H1 M1 ltac:(rewrite skipn_length; lia)). destruct (blocks_loop p un n _ (skipn 64 d)) as [c' d']. destruct IH as (e & Ed & Ld & He & Me).
    exists (firstn 64 d ++ e). rewrite <- app_assoc in He, Me. repeat split; auto. rewrite <- app_assoc, <- Ed. now rewrite firstn_skipn.
Qed.
Lemma holds_rest m c d bf : holds m c -> (Z.to_nat (size m mod 64) + length d < 64)%nat -> bf = copy_at (buf c) (Z.to_nat (size m mod 64)) d -> holds (m ++ d) (mksha1 (u64 (total c + Z.of_nat (length d))) (st c) bf).
Proof.
  intros (bs & t & E & F & Lt & Es & Lb & Eb & Et) L ->. rewrite <- (rem_unique bs t m F Lt E), Nat2Z.id in *. exists bs, (t ++ d). cbn [st buf total]. rewrite app_length. repeat split; auto.
  - rewrite E. now rewrite <- app_assoc.
  - apply copy_length; lia.
  - apply copy_prefix; auto. lia.
  - rewrite Et. unfold u64, size. rewrite Zplus_mod_idemp_l, app_length. f_equal. lia.
Qed.
Lemma holds_update m c d : holds m c -> holds (m ++ d) (sha1_update p un c d).
Proof.
  intros H. unfold sha1_update. destruct d as [|x xs]; [now rewrite app_nil_r|]. set (d := x :: xs).
  assert (El : Z.land (total c) 63 = size m mod 64) by (destruct H as (bs & t & _ & _ & _ & _ & _ & _ & ->); apply land63; unfold size; lia). rewrite El.
  pose proof (Z.mod_pos_bound (size m) 64 ltac:(lia)) as Bm. set (l := Z.to_nat (size m mod 64)).
  assert (Fin : forall m' c' d' l', holds m' c' -> l' = Z.to_nat (size m' mod 64) -> (l' = 0 \/ length d' < 64 - l')%nat ->
     holds (m' ++ d') (let '(c2, d2) := blocks_loop p un (length d') c' d' in match d2 with [] => c2 | _ => mksha1 (u64 (total c2 + Z.of_nat (length d2))) (st c2) (copy_at (buf c2) l' d2) end)).
  { intros m' c' d' l' H' El' Cs. pose proof (Z.mod_pos_bound (size m') 64 ltac:(lia)). destruct (Nat.eq_dec l' 0) as [Z0|NZ].
    - pose proof (holds_loop (length d') m' c' d' H' ltac:(lia) ltac:(lia)) as Lp. destruct (blocks_loop p un (length d') c' d') as [c2 d2]. destruct Lp as (e & -> & L2 & H2 & M2). rewrite app_assoc.
      destruct d2 as [|y ys]; [now rewrite app_nil_r|]. apply holds_rest; auto; rewrite M2; [cbn [Z.to_nat]; lia|]. now rewrite Z0.
    - destruct Cs as [|Cs]; [congruence|]. assert (blocks_loop p un (length d') c' d' = (c', d')) as -> by (apply loop_short; lia).
      destruct d' as [|y ys]; [now rewrite app_nil_r|]. apply holds_rest; auto; [lia|now subst l']. }
  destruct (Nat.eqb_spec l 0) as [Z0|NZ]; cbn [negb andb].
  - apply (Fin m c d l H eq_refl). auto.
  - destruct (Nat.leb_spec (64 - l) (length d)) as [G|G].
    + rewrite <- (firstn_skipn (64 - l) d) at 1. rewrite app_assoc.
      assert (Lf : length (firstn (64 - l) d) = (64 - l)%nat) by (apply firstn_length_le; lia).
      assert (H1 : holds (m ++ firstn (64 - l) d) (mksha1 (u64 (total c + Z.of_nat (64 - l))) (p (st c) (copy_at (buf c) l (firstn (64 - l) d))) (copy_at (buf c) l (firstn (64 - l) d)))).
      { destruct H as (bs & t & E & F & Lt & Es & Lb & Eb & Et). assert (Ll : l = length t) by (unfold l; rewrite <- (rem_unique bs t m F Lt E); lia).
        exists (bs ++ [t ++ firstn (64 - l) d]), []. rewrite (copy_full (buf c) l _ t) by (try lia; rewrite ?Ll; auto). cbn [st buf total]. repeat split; auto.
        - rewrite concat_app. cbn. rewrite E, !app_nil_r, <- !app_assoc. reflexivity.
        - apply Forall_app. split; auto. constructor; auto. rewrite app_length. lia.
        - cbn. lia.
        - now rewrite fold_left_app, Es.
        - rewrite app_length. lia.
        - rewrite Et. unfold u64, size. rewrite Zplus_mod_idemp_l, app_length. f_equal. lia. }
      apply (Fin _ _ _ 0%nat H1); [|auto]. unfold size. rewrite app_length, Lf.
      replace (Z.of_nat (length m + (64 - l))) with (0 + (size m / 64 + 1) * 64); [rewrite Z_mod_plus_full; reflexivity|]. unfold l, size in *. pose proof (Z_div_mod_eq_full (Z.of_nat (length m)) 64). lia.
    + apply (Fin m c d l H eq_refl). auto.
Qed.
Lemma final_spec m c : holds m c -> sha1_final p un c = digest p iv m.
Proof.
  intros H. unfold sha1_final.
  assert (El : Z.land (total c) 63 = size m mod 64) by (destruct H as (bs & t & _ & _ & _ & _ & _ & _ & ->); apply land63; unfold size; lia). rewrite El.
  pose proof (Z.mod_pos_bound (size m) 64 ltac:(lia)) as Bm. set (padn := if size m mod 64 <? 56 then _ else _).
  assert (Pn : padn = 1 + (55 - size m) mod 64).
  { unfold padn. pose proof (Z_div_mod_eq_full (size m) 64). destruct (Z.ltb_spec (size m mod 64) 56).
    - rewrite <- (Z.mod_unique (55 - size m) 64 (- (size m / 64)) (55 - size m mod 64)); lia.
    - rewrite <- (Z.mod_unique (55 - size m) 64 (- (size m / 64) - 1) (119 - size m mod 64)); lia. }
  pose proof (Z.mod_pos_bound (55 - size m) 64 ltac:(lia)) as Bk. set (k := (55 - size m) mod 64) in *. rewrite Pn.
  assert (Ep : firstn (Z.to_nat (1 + k)) sha1_padding = [128] ++ repeat 0 (Z.to_nat k)).
  { replace (Z.to_nat (1 + k)) with (Datatypes.S (Z.to_nat k)) by lia. unfold sha1_padding. cbn [firstn app]. f_equal. replace 63%nat with (Z.to_nat k + (63 - Z.to_nat k))%nat by lia. rewrite repeat_app, firstn_app, repeat_length, Nat.sub_diag. cbn [firstn]. rewrite app_nil_r. apply firstn_all2. rewrite repeat_length. lia. }
  rewrite Ep. pose proof (holds_update m c ([128] ++ repeat 0 (Z.to_nat k)) H) as H1. set (P := [128] ++ repeat 0 (Z.to_nat k)) in *. set (c1 := sha1_update p un c P) in *.
  assert (LP : Z.of_nat (length P) = 1 + k) by (unfold P; cbn [length app]; rewrite repeat_length; lia).
  destruct H1 as (bs & t & E & F & Lt & Es & Lb & Eb & Et).
  assert (St : size (m ++ P) = size m + 1 + k) by (unfold size in *; rewrite app_length; lia).
  assert (L56 : length t = 56%nat).
  { pose proof (rem_unique bs t _ F Lt E) as R. rewrite St in R. assert ((size m + 1 + k) mod 64 = 56); [|lia]. unfold k. pose proof (Z_div_mod_eq_full (55 - size m) 64).
    symmetry. apply Z.mod_unique with (q := - ((55 - size m) / 64)); lia. }
  assert (Ew : u64 (Z.shiftl (u64 (total c1 - (1 + k))) 3) = (8 * size m) mod 2 ^ 64).
  { rewrite Et, St. unfold u64. rewrite Z.shiftl_mul_pow2 by lia. rewrite Zminus_mod_idemp_l. replace (size m + 1 + k - (1 + k)) with (size m) by lia. rewrite Zmult_mod_idemp_l. f_equal. lia. }
  rewrite Ew. rewrite bytes_be by (repeat constructor; lia). change (map _ [56; 48; 40; 32; 24; 16; 8; 0]) with (be64 ((8 * size m) mod 2 ^ 64)). set (w := be64 _).
  assert (Lw : length w = 8%nat) by reflexivity.
  assert (E56 : firstn 56 (buf c1) = t) by (rewrite <- L56; exact Eb). rewrite (copy_full (buf c1) 56 w t Lb ltac:(rewrite Lw; reflexivity) E56).
  rewrite (digest_blocks p iv m (bs ++ [t ++ w])).
  - now rewrite fold_left_app, Es.
  - apply Forall_app. split; auto. constructor; auto. rewrite app_length. lia.
  - rewrite concat_app. cbn [concat]. rewrite app_nil_r, app_assoc, <- E. unfold pad. fold k. unfold P, w. rewrite <- !app_assoc. reflexivity.
Qed.
End One.
