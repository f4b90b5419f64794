(** The offset tables of a written multi-pack-index. *)
From Verif Require Import Base Arr CStr OidModel OidSpec IdxFileModel IdxFileProofs PackIdxModel PackIdxSpec PackIdxMain CgModel CgWrite MidxModel.

Definition entry_ok (e : mentry) : Prop := oid_ok 20 (me_id e) /\ 0 <= me_pack e < two32 /\ 0 <= me_off e < 9223372036854775808.
(** What is stored for an entry: the word [w], and the row of the large table it refers to. *)
Definition stored (l : list Z) (count : Z) (e : mentry) (w : Z) : Prop :=
  (me_off e < TOPBIT /\ w = me_off e) \/
  (TOPBIT <= me_off e /\ exists k, w = Z.lor TOPBIT (count + Z.of_nat k) /\ (8 * k + 8 <= length l)%nat /\ sub l (8 * k) 8 = be 4 (Z.shiftr (me_off e) 32) ++ be 4 (me_off e)).
Lemma sub_hd {A} (a b : list A) n : length a = n -> sub (a ++ b) 0 n = a.
Proof. intros <-. apply sub_app_l. Qed.
Lemma off_tables_spec : forall es count, 0 <= count -> count + Z.of_nat (length es) < 2147483648 -> Forall entry_ok es ->
  length (fst (off_tables es count)) = (8 * length es)%nat /\
  (exists m, length (snd (off_tables es count)) = (8 * m)%nat /\ (m <= length es)%nat) /\
  forall i e, nth_error es i = Some e -> exists w, sub (fst (off_tables es count)) (8 * i) 8 = be 4 (me_pack e) ++ be 4 w /\ stored (snd (off_tables es count)) count e w.
Proof.
  induction es as [|a es IH]; intros count Hc Hn HF.
  { split; [reflexivity|]. split; [exists 0%nat; split; [reflexivity|lia]|]. intros [|i] e Hi; discriminate. }
  inversion_clear HF as [|? ? HA HF']. destruct HA as (_ & Hp & Ho). cbn [length] in Hn. cbn [off_tables]. pose proof (be_length 4) as L4.
  destruct (Z.leb_spec TOPBIT (me_off a)) as [Hb|Hb].
  - destruct (IH (count + 1) ltac:(lia) ltac:(lia) HF') as (L1 & (m & L2 & Hm) & Hi). rewrite (Z.mod_small (count + 1)) by (unfold two32; lia).
    destruct (off_tables es (count + 1)) as [o l]. cbn [fst snd] in *. rewrite !app_assoc.
    set (x := be 4 (me_pack a) ++ be 4 (Z.lor TOPBIT count)). set (y := be 4 (Z.shiftr (me_off a) 32) ++ be 4 (me_off a)).
    assert (Lx : length x = 8%nat) by (unfold x; rewrite app_length, !L4; reflexivity). assert (Ly : length y = 8%nat) by (unfold y; rewrite app_length, !L4; reflexivity).
    split; [rewrite app_length, Lx, L1; cbn [length]; lia|]. split; [exists (S m); split; [rewrite app_length, Ly, L2; lia|cbn [length]; lia]|].
    intros [|i] e Hie; cbn [nth_error] in Hie.
    + injection Hie as <-. exists (Z.lor TOPBIT count). split; [apply (sub_hd x o 8 Lx)|].
      right. split; [exact Hb|]. exists 0%nat. split; [f_equal; lia|]. split; [rewrite app_length; lia|]. change (8 * 0)%nat with 0%nat. apply (sub_hd y l 8 Ly).
    + destruct (Hi i e Hie) as (w & Ew & Hw). exists w. split; [replace (8 * S i)%nat with (length x + 8 * i)%nat by lia; rewrite sub_app_r; exact Ew|].
      destruct Hw as [Hw|(H1 & k & H2 & H3 & H4)]; [left; exact Hw|]. right. split; [exact H1|]. exists (S k). split; [rewrite H2; f_equal; lia|].
      split; [rewrite app_length; lia|]. replace (8 * S k)%nat with (length y + 8 * k)%nat by lia. rewrite sub_app_r. exact H4.
  - destruct (IH count Hc ltac:(lia) HF') as (L1 & (m & L2 & Hm) & Hi).
    destruct (off_tables es count) as [o l]. cbn [fst snd] in *. rewrite !app_assoc. unfold TOPBIT in Hb. rewrite low31, Z.mod_small by lia.
    set (x := be 4 (me_pack a) ++ be 4 (me_off a)).
    assert (Lx : length x = 8%nat) by (unfold x; rewrite app_length, !L4; reflexivity).
    split; [rewrite app_length, Lx, L1; cbn [length]; lia|]. split; [exists m; split; [exact L2|cbn [length]; lia]|].
    intros [|i] e Hie; cbn [nth_error] in Hie.
    + injection Hie as <-. exists (me_off a). split; [apply (sub_hd x o 8 Lx)|]. left. unfold TOPBIT. auto.
    + destruct (Hi i e Hie) as (w & Ew & Hw). exists w. split; [replace (8 * S i)%nat with (length x + 8 * i)%nat by lia; rewrite sub_app_r; exact Ew|exact Hw].
Qed.
Lemma sub_app_in {A} (a b : list A) i n : (i + n <= length a)%nat -> sub (a ++ b) i n = sub a i n.
Proof. intros H. unfold sub. rewrite skipn_app, firstn_app, skipn_length. replace (n - (length a - i))%nat with 0%nat by lia. cbn [firstn]. apply app_nil_r. Qed.
Lemma two_words data o a b : 0 <= o -> sub data (Z.to_nat o) 8 = be 4 a ++ be 4 b -> rd32 data o = Ok (a mod two32) /\ rd32 data (o + 4) = Ok (b mod two32).
Proof.
  intros Ho E. pose proof (be_length 4) as L4. split; (apply rd32_sub; [unfold two32; apply Z.mod_pos_bound; lia|]).
  - replace (Z.to_nat o) with (Z.to_nat o + 0)%nat by lia. rewrite <- (sub_sub_at data (Z.to_nat o) 8) by lia. rewrite E. rewrite (sub_hd _ _ 4 (L4 a)). apply be_mod.
  - replace (Z.to_nat (o + 4)) with (Z.to_nat o + 4)%nat by lia. rewrite <- (sub_sub_at data (Z.to_nat o) 8) by lia. rewrite E. transitivity (be 4 b); [|apply be_mod]. rewrite <- (app_nil_r (be 4 b)) at 1. apply sub_mid; apply L4.
Qed.
Lemma off_tables_bytes : forall es count, bytes (fst (off_tables es count)) /\ bytes (snd (off_tables es count)).
Proof.
  induction es as [|a es IH]; intros count; cbn [off_tables]; [split; constructor|].
  destruct (TOPBIT <=? me_off a).
  - destruct (IH ((count + 1) mod two32)) as [A B]. destruct (off_tables es ((count + 1) mod two32)) as [o l]. cbn [fst snd] in *. split; apply Forall_app; (split; [apply be_bytes|apply Forall_app; split; [apply be_bytes|assumption]]).
  - destruct (IH count) as [A B]. destruct (off_tables es count) as [o l]. cbn [fst snd] in *. split; [|exact B]. apply Forall_app; (split; [apply be_bytes|apply Forall_app; split; [apply be_bytes|assumption]]).
Qed.
