From Verif Require Import Base Str IntModel IntSpec.

Lemma isspc_spec c : isspc c = true <-> space c.
Proof. unfold isspc, space. cbn. lia. Qed.

Lemma digit_spec b c v : 0 <= b <= 36 -> (digit_is b c v <-> digit b c = v /\ v < b).
Proof.
  intros Hb. unfold digit_is, digit. change (ch "0") with 48. change (ch "9") with 57. change (ch "a") with 97. change (ch "z") with 122. change (ch "A") with 65. change (ch "Z") with 90.
  destruct ((48 <=? c) && (c <=? 57)) eqn:E1; [lia|]. destruct ((97 <=? c) && (c <=? 122)) eqn:E2; [lia|]. destruct ((65 <=? c) && (c <=? 90)) eqn:E3; lia.
Qed.
Lemma digit_nonneg b c : 0 <= b -> 0 <= digit b c.
Proof. intros. unfold digit. destruct ((48 <=? c) && (c <=? 57)) eqn:E1; [lia|]. destruct ((97 <=? c) && (c <=? 122)) eqn:E2; [lia|]. destruct ((65 <=? c) && (c <=? 90)) eqn:E3; lia. Qed.

(** Value of a digit string from an accumulator. *)
Fixpoint evalz (b : Z) (acc : Z) (ds : list Z) : Z := match ds with [] => acc | c :: r => evalz b (acc * b + digit b c) r end.
Lemma evalz_app b acc x y : evalz b acc (x ++ y) = evalz b (evalz b acc x) y.
Proof. revert acc. induction x as [|c x IH]; intros acc; cbn; [reflexivity|apply IH]. Qed.
Definition alldig (b : Z) (ds : list Z) : Prop := Forall (fun c => digit b c < b) ds.
Lemma digits_eval b ds m : 0 <= b <= 36 -> (digits b ds m <-> ds <> [] /\ alldig b ds /\ m = evalz b 0 ds).
Proof.
  intros Hb. split.
  - induction 1 as [c v H|s n c v Hs IH H].
    + apply digit_spec in H; [|exact Hb]. destruct H as [E L]. split; [discriminate|]. split; [constructor; [lia|constructor]|]. cbn. lia.
    + apply digit_spec in H; [|exact Hb]. destruct H as [E L]. destruct IH as (_ & IH1 & ->). split; [destruct s; discriminate|].
      split; [apply Forall_app; split; [exact IH1|constructor; [lia|constructor]]|]. rewrite evalz_app. cbn. lia.
  - intros (Hn & Hd & ->). induction ds as [|c s IH] using rev_ind; [congruence|].
    apply Forall_app in Hd. destruct Hd as [Hd Hc]. inversion Hc as [|? ? Hc' _]; subst.
    rewrite evalz_app. cbn. assert (HD : digit_is b c (digit b c)) by (apply digit_spec; auto).
    destruct s as [|c0 s']; [cbn; apply (D1 b c (digit b c)) in HD; exact HD|].
    apply DS; [|exact HD]. apply IH; [discriminate|exact Hd].
Qed.
Lemma evalz_mono b acc ds : 0 < b -> 0 <= acc -> acc <= evalz b acc ds.
Proof.
  intros Hb. revert acc. induction ds as [|c r IH]; intros acc Ha; cbn; [lia|].
  pose proof (digit_nonneg b c ltac:(lia)). specialize (IH (acc * b + digit b c) ltac:(nia)). nia.
Qed.

Definition sg (neg : bool) (v : Z) : Z := if neg then - v else v.

Lemma fits64_sg_mono neg a b : 0 <= a <= b -> fits64 (sg neg b) = true -> fits64 (sg neg a) = true.
Proof. unfold fits64, sg, int64_min, int64_max. destruct neg; lia. Qed.

(** The digit loop: it stops at the first non-digit; without overflow it has the value. *)
Lemma digits_loop_ovfl neg b : forall s n k, exists n' k' , digits_loop neg b s n true k = (n', true, k', snd (digits_loop neg b s n true k)) /\ (k <= k')%nat.
Proof.
  induction s as [|c r IH]; intros n k; cbn [digits_loop]; [exists n, k; auto|].
  destruct (b <=? digit b c); [exists n, k; auto|].
  destruct (negb (fits64 (n * b))).
  - destruct (IH n (S k)) as (n' & k' & -> & H). exists n', k'. split; [reflexivity|lia].
  - destruct (negb (fits64 _)).
    + destruct (IH (wrap64 (n * b + (if neg then - digit b c else digit b c))) (S k)) as (n' & k' & -> & H). exists n', k'. split; [reflexivity|lia].
    + destruct (IH (n * b + (if neg then - digit b c else digit b c)) (S k)) as (n' & k' & -> & H). exists n', k'. split; [reflexivity|lia].
Qed.

Lemma digits_loop_spec neg b : 0 < b <= 36 -> forall ds rest a k, alldig b ds -> (forall c r, rest = c :: r -> b <= digit b c) ->
  0 <= a -> fits64 (sg neg a) = true ->
  exists n o, digits_loop neg b (ds ++ rest) (sg neg a) false k = (n, o, (k + length ds)%nat, rest) /\
   if fits64 (sg neg (evalz b a ds)) then o = false /\ n = sg neg (evalz b a ds) else o = true.
Proof.
  intros Hb. induction ds as [|c ds IH]; intros rest a k Hd Hr Ha Hf.
  - cbn [app evalz length]. rewrite Nat.add_0_r, Hf. exists (sg neg a), false. split; [|auto].
    destruct rest as [|c r]; cbn [digits_loop]; [reflexivity|]. specialize (Hr c r eq_refl). destruct (Z.leb_spec b (digit b c)); [reflexivity|lia].
  - inversion Hd as [|? ? Hc Hd']; subst. cbn [app digits_loop evalz length]. destruct (Z.leb_spec b (digit b c)) as [L|L]; [lia|].
    pose proof (digit_nonneg b c ltac:(lia)) as Hn.
    pose proof (evalz_mono b (a * b + digit b c) ds ltac:(lia) ltac:(nia)) as Hm.
    assert (HO : forall x y, exists n o, digits_loop neg b (ds ++ rest) x true y = (n, o, (y + length ds)%nat, rest) /\ o = true).
    { clear - Hd' Hr Hb. induction ds as [|c ds IH]; intros x y.
      - cbn [app length]. rewrite Nat.add_0_r. destruct rest as [|c r]; cbn [digits_loop]; [eauto|]. specialize (Hr c r eq_refl). destruct (Z.leb_spec b (digit b c)); [eauto|lia].
      - inversion Hd' as [|? ? Hc Hd2]; subst. specialize (IH Hd2). cbn [app digits_loop length]. destruct (Z.leb_spec b (digit b c)) as [L|L]; [lia|].
        rewrite <- Nat.add_succ_comm. destruct (negb _); [apply IH|]. destruct (negb _); apply IH. }
    rewrite <- Nat.add_succ_comm.
    destruct (fits64 (sg neg a * b)) eqn:E1; cbn [negb].
    + destruct (fits64 (sg neg a * b + (if neg then - digit b c else digit b c))) eqn:E2; cbn [negb].
      * replace (sg neg a * b + (if neg then - digit b c else digit b c)) with (sg neg (a * b + digit b c)) in * by (unfold sg; destruct neg; lia).
        apply IH; auto. nia.
      * destruct (HO (wrap64 (sg neg a * b + (if neg then - digit b c else digit b c))) (S k)) as (n & o & E & ->). exists n, true. split; [exact E|].
        destruct (fits64 (sg neg (evalz b (a * b + digit b c) ds))) eqn:E3; [|reflexivity]. exfalso.
        apply (fits64_sg_mono neg (a * b + digit b c)) in E3; [|nia]. replace (sg neg (a * b + digit b c)) with (sg neg a * b + (if neg then - digit b c else digit b c)) in E3 by (unfold sg; destruct neg; lia). congruence.
    + destruct (HO (sg neg a) (S k)) as (n & o & E & ->). exists n, true. split; [exact E|].
      destruct (fits64 (sg neg (evalz b (a * b + digit b c) ds))) eqn:E3; [|reflexivity]. exfalso.
      apply (fits64_sg_mono neg (a * b)) in E3; [|nia]. replace (sg neg (a * b)) with (sg neg a * b) in E3 by (unfold sg; destruct neg; lia). congruence.
Qed.

(** Every text is a run of digits and a rest. *)
Lemma split_digits b s : exists ds rest, s = ds ++ rest /\ alldig b ds /\ (forall c r, rest = c :: r -> b <= digit b c).
Proof.
  induction s as [|c s IH]; [exists [], []; repeat split; [constructor|discriminate]|].
  destruct (Z_lt_le_dec (digit b c) b) as [L|L].
  - destruct IH as (ds & rest & -> & H1 & H2). exists (c :: ds), rest. repeat split; auto. constructor; auto.
  - exists [], (c :: s). repeat split; [constructor|]. intros ? ? [= <- <-]. exact L.
Qed.
Lemma split_digits_unique b ds rest ds' rest' : ds ++ rest = ds' ++ rest' -> alldig b ds -> alldig b ds' ->
  (forall c r, rest = c :: r -> b <= digit b c) -> (forall c r, rest' = c :: r -> b <= digit b c) -> ds = ds' /\ rest = rest'.
Proof.
  revert ds'. induction ds as [|x ds IH]; intros [|y ds'] E H1 H2 H3 H4; cbn in E.
  - auto.
  - inversion H2 as [|? ? Hy _]; subst. specialize (H3 y (ds' ++ rest') eq_refl). cbn in Hy. lia.
  - inversion H1 as [|? ? Hy _]; subst. specialize (H4 x (ds ++ rest) eq_refl). cbn in Hy. lia.
  - injection E as -> E. inversion H1; inversion H2; subst. destruct (IH ds' E) as [-> ->]; auto.
Qed.

Lemma skip_ws_app ws r : Forall space ws -> (forall c t, r = c :: t -> ~ space c) -> skip_ws (ws ++ r) = r.
Proof.
  induction ws as [|c ws IH]; cbn; intros H Hr.
  - destruct r as [|c t]; [reflexivity|]. cbn. destruct (isspc c) eqn:E; [|reflexivity]. apply isspc_spec in E. exfalso. exact (Hr c t eq_refl E).
  - inversion H; subst. assert (E : isspc c = true) by (apply isspc_spec; assumption). rewrite E. auto.
Qed.
Lemma skip_ws_split s : exists ws, s = ws ++ skip_ws s /\ Forall space ws /\ (forall c t, skip_ws s = c :: t -> ~ space c).
Proof.
  induction s as [|c s IH]; cbn; [exists []; repeat split; [constructor|discriminate]|].
  destruct (isspc c) eqn:E.
  - destruct IH as (ws & E1 & H1 & H2). exists (c :: ws). cbn. rewrite <- E1. repeat split; auto. constructor; [apply isspc_spec; exact E|exact H1].
  - exists []. repeat split; [constructor|]. intros ? ? [= <- <-] H. apply isspc_spec in H. congruence.
Qed.
Lemma space_not_digit b c : 0 <= b <= 36 -> digit b c < b -> ~ space c.
Proof. intros Hb. unfold digit, space. cbn. destruct ((48 <=? c) && (c <=? 57)) eqn:E1; [lia|]. destruct ((97 <=? c) && (c <=? 122)) eqn:E2; [lia|]. destruct ((65 <=? c) && (c <=? 90)) eqn:E3; lia. Qed.
Lemma digit_not_sign b c : 0 <= b <= 36 -> digit b c < b -> c <> 43 /\ c <> 45.
Proof. intros Hb. unfold digit. destruct ((48 <=? c) && (c <=? 57)) eqn:E1; [lia|]. destruct ((97 <=? c) && (c <=? 122)) eqn:E2; [lia|]. destruct ((65 <=? c) && (c <=? 90)) eqn:E3; lia. Qed.

(** The part after spaces and sign. *)
Definition xmark (p : list Z) : bool := (2 <? length p)%nat && ((nth 1 p 0 =? 120) || (nth 1 p 0 =? 88)).
Definition eff_base (base : Z) (p : list Z) : Z :=
  if base =? 0 then (if negb (hd 0 p =? 48) then 10 else if xmark p then 16 else 8) else base.
Definition eff_px (b : Z) (p : list Z) : list Z := if (b =? 16) && xmark p && (hd 0 p =? 48) then firstn 2 p else [].

Lemma hexprefix_spec p : hexprefix p <-> xmark p = true /\ hd 0 p = 48.
Proof.
  unfold hexprefix, xmark. change (ch "0") with 48. change (ch "x") with 120. change (ch "X") with 88. split.
  - intros (c & r & -> & Hc & Hr). destruct r as [|d r]; [congruence|]. cbn. lia.
  - intros [H1 H2]. destruct p as [|a [|c [|d r]]]; cbn in H1; try discriminate. cbn in H2. subst a. exists c, (d :: r). split; [reflexivity|]. split; [lia|discriminate].
Qed.
Lemma starts0_spec p : starts_with (bs "0") p <-> hd 0 p = 48.
Proof. split; [intros [v ->]; reflexivity|]. destruct p as [|c r]; cbn; [discriminate|]. intros ->. exists r. reflexivity. Qed.

Lemma base_of_spec base p b px : base_of base p b px <-> b = eff_base base p /\ 0 <= b <= 36 /\ px = eff_px b p.
Proof.
  unfold base_of, eff_base, eff_px. rewrite !hexprefix_spec, !starts0_spec.
  destruct (Z.eqb_spec base 0) as [->|N0]; destruct (xmark p); destruct (Z.eqb_spec (hd 0 p) 48) as [E|N]; cbn [negb];
    split; intros H.
  all: repeat match goal with
    | H : _ /\ _ |- _ => destruct H
    | H : ?x = ?x -> _ |- _ => specialize (H eq_refl)
    | H : ?b <> 0 -> _, N : ?b <> 0 |- _ => specialize (H N)
    end.
  all: try (destruct (Z.eqb_spec b 16) as [E16|N16]; cbn [andb] in *).
  all: intuition (subst; try congruence; try lia; auto).
Qed.
