From Verif Require Import Base Str IntModel IntSpec IntProps TreeModel TreeProofs WtreeModel ReflogProofs IxextModel IxextSpec IxextProofs.

(** *** REUC *)
Fixpoint blanks (osz : nat) (ms : list Z) (os : list (list Z)) : list (list Z) :=
  match ms, os with m :: ms, o :: os => (if m =? 0 then repeat 0 osz else o) :: blanks osz ms os | _, _ => [] end.
Definition blank_ru (osz : nat) (r : reuc) : reuc := mkreuc (ru_path r) (ru_modes r) (blanks osz (ru_modes r) (ru_oids r)).
Lemma blanks_nth osz ms : forall os i m, length os = length ms -> nth_error ms i = Some m -> m <> 0 -> nth_error os i = nth_error (blanks osz ms os) i.
Proof.
  induction ms as [|a ms IH]; intros [|o os] i m HL H N; cbn [length] in HL; try discriminate; [destruct i; discriminate|]. cbn [blanks]. destruct i as [|i]; cbn [nth_error] in *.
  - injection H as ->. destruct (Z.eqb_spec m 0); [congruence|reflexivity].
  - apply (IH os i m); auto.
Qed.
Lemma blank_ru_same osz r : reuc_ok osz r -> same_reuc r (blank_ru osz r).
Proof.
  intros (_ & M & _ & O & _). split; [reflexivity|]. split; [reflexivity|]. intros i m H N. cbn [blank_ru ru_oids]. apply (blanks_nth osz _ _ _ m); congruence.
Qed.

Definition mode_text (ms : list Z) : list Z := concat (map (fun m => oct_loop 11 m [] ++ [0]) ms).
Definition oid_text (ms : list Z) (os : list (list Z)) : list Z := concat (map (fun mo : Z * list Z => if fst mo =? 0 then [] else snd mo) (combine ms os)).
Lemma mode_step aft k m rest : 0 <= m < 2 ^ 32 -> reuc_modes (S k) aft (oct_loop 11 m [] ++ 0 :: rest) =
  if (length rest <=? 0)%nat then Err (-1) else do q <- reuc_modes k aft rest ;; Ok (m :: fst q, snd q).
Proof.
  intros Hm. cbn [reuc_modes]. rewrite read_oct by exact Hm. cbn [bindr deref app]. set (t := oct_loop 11 m []).
  assert (Ht : t <> []) by (unfold t; destruct (oct_loop_spec 11 m []) as (d & -> & D & _); [change (8 ^ Z.of_nat 11) with 8589934592; lia|lia|]; rewrite app_nil_r; apply (digits_not_nil 8 _ m D)).
  assert (Lt : (1 <= length t)%nat) by (destruct t; [congruence|cbn [length]; lia]).
  rewrite app_length. cbn [length]. destruct (Nat.eqb_spec (S (length rest)) (length t + S (length rest))); [lia|]. replace (negb (0 =? 0)) with false by reflexivity.
  destruct (Z.ltb_spec m 0); [lia|]. destruct (Z.ltb_spec 4294967295 m); [lia|]. cbn [orb].
  destruct (Nat.leb_spec (length rest) 0); destruct (Nat.leb_spec (length t + S (length rest)) (length t + S (length rest) - S (length rest) + 1)); try lia; [reflexivity|].
  replace (length t + S (length rest) - S (length rest) + 1)%nat with (length (t ++ [0%Z]) + 0)%nat by (rewrite app_length; cbn [length]; lia).
  replace (t ++ 0 :: rest) with ((t ++ [0]) ++ rest) by (rewrite <- app_assoc; reflexivity). rewrite skipn_app, skipn_all2 by lia.
  replace (length (t ++ [0%Z]) + 0 - length (t ++ [0%Z]))%nat with 0%nat by lia. reflexivity.
Qed.
Lemma mode_text_cons m ms rest : mode_text (m :: ms) ++ rest = oct_loop 11 m [] ++ 0 :: mode_text ms ++ rest.
Proof. unfold mode_text. cbn [map concat]. rewrite <- !app_assoc. reflexivity. Qed.
Lemma mode_text_pos m ms rest : mode_text (m :: ms) ++ rest <> [].
Proof. rewrite mode_text_cons. destruct (oct_loop 11 m []); discriminate. Qed.
Lemma modes_read aft ms rest : Forall (fun m => 0 <= m < 2 ^ 32) ms -> rest <> [] -> reuc_modes (length ms) aft (mode_text ms ++ rest) = Ok (ms, rest).
Proof.
  intros H Hr. induction H as [|m ms Hm _ IH]; [reflexivity|]. rewrite mode_text_cons. cbn [length]. rewrite mode_step by exact Hm.
  destruct (Nat.leb_spec (length (mode_text ms ++ rest)) 0) as [L|_]; [rewrite app_length in L; destruct rest; [congruence|cbn [length] in L; lia]|]. rewrite IH. reflexivity.
Qed.
Lemma modes_end aft ms : Forall (fun m => 0 <= m < 2 ^ 32) ms -> ms <> [] -> reuc_modes (length ms) aft (mode_text ms) = Err (-1).
Proof.
  intros H. induction H as [|m ms Hm Hms IH]; [congruence|]. intros _. rewrite <- (app_nil_r (mode_text (m :: ms))), mode_text_cons, app_nil_r. cbn [length]. rewrite mode_step by exact Hm.
  destruct ms as [|m2 ms]; [reflexivity|]. rewrite IH by discriminate. destruct (_ <=? 0)%nat; reflexivity.
Qed.
Lemma oids_read osz ms : forall os rest, length os = length ms -> Forall (fun o => length o = osz) os ->
  reuc_oids osz ms (oid_text ms os ++ rest) = Ok (blanks osz ms os, rest).
Proof.
  unfold oid_text. induction ms as [|m ms IH]; intros [|o os] rest HL HO; cbn [length] in HL; try discriminate; [reflexivity|]. cbn [combine map concat fst snd reuc_oids blanks].
  inversion HO as [|? ? Ho HO2]; subst. destruct (m =? 0).
  - cbn [app]. rewrite IH by (auto; lia). reflexivity.
  - rewrite <- app_assoc. rewrite app_length. match goal with |- context [(?a <? ?b)%nat] => destruct (Nat.ltb_spec a b) as [L|_]; [lia|] end.
    rewrite skipn_app, skipn_all, Nat.sub_diag, firstn_app, firstn_all, Nat.sub_diag. cbn [skipn firstn app]. rewrite app_nil_r. rewrite IH by (auto; lia). reflexivity.
Qed.
Lemma oid_text_some osz ms os : (1 <= osz)%nat -> length os = length ms -> Forall (fun o => length o = osz) os -> Exists (fun m => m <> 0) ms -> oid_text ms os <> [].
Proof.
  intros Hz. unfold oid_text. revert os. induction ms as [|m ms IH]; intros [|o os] HL HO HE; cbn [length] in HL; try discriminate; [inversion HE|].
  inversion HO as [|? ? Ho HO2]; subst. cbn [combine map concat fst snd]. destruct (Z.eqb_spec m 0) as [->|N].
  - cbn [app]. apply IH; auto. inversion HE; subst; congruence.
  - destruct o; [cbn [length] in Hz; lia|discriminate].
Qed.
Lemma oid_text_none ms os : ~ Exists (fun m => m <> 0) ms -> oid_text ms os = [].
Proof.
  unfold oid_text. revert os. induction ms as [|m ms IH]; intros [|o os] H; cbn [combine map concat fst]; try reflexivity.
  destruct (Z.eqb_spec m 0) as [->|N]; [|exfalso; apply H; constructor; exact N]. cbn [app]. apply IH. intros E. apply H. constructor 2. exact E.
Qed.
Lemma reuc_write1_eq r rest : reuc_write1 r ++ rest = ru_path r ++ 0 :: mode_text (ru_modes r) ++ oid_text (ru_modes r) (ru_oids r) ++ rest.
Proof. unfold reuc_write1, mode_text, oid_text. rewrite <- !app_assoc. reflexivity. Qed.
Lemma reuc_write_cons r l : reuc_write (r :: l) = ru_path r ++ 0 :: mode_text (ru_modes r) ++ oid_text (ru_modes r) (ru_oids r) ++ reuc_write l.
Proof. apply reuc_write1_eq. Qed.
Lemma reuc_write_pos r l : reuc_write (r :: l) <> [].
Proof. rewrite reuc_write_cons. destruct (ru_path r); discriminate. Qed.
Lemma reuc_loop_eq f osz aft s : s <> [] -> reuc_loop (S f) osz aft s = do p <- reuc_entry osz aft s ;; do r <- reuc_loop f osz aft (snd p) ;; Ok (fst p :: r).
Proof. destruct s; [congruence|reflexivity]. Qed.
Lemma reuc_step f osz aft r l : reuc_ok osz r -> oid_text (ru_modes r) (ru_oids r) ++ reuc_write l <> [] ->
  reuc_loop (S f) osz aft (reuc_write (r :: l)) = do q <- reuc_loop f osz aft (reuc_write l) ;; Ok (blank_ru osz r :: q).
Proof.
  intros (Hn & M & Hm & O & Ho) N. rewrite reuc_loop_eq by apply reuc_write_pos. unfold reuc_entry. rewrite reuc_write_cons, cut_nul_app by exact Hn.
  assert (P : mode_text (ru_modes r) ++ oid_text (ru_modes r) (ru_oids r) ++ reuc_write l <> []) by (intros E; apply app_eq_nil in E; tauto).
  destruct (mode_text (ru_modes r) ++ oid_text (ru_modes r) (ru_oids r) ++ reuc_write l) as [|z zs] eqn:Ez; [congruence|]. rewrite <- Ez. clear P Ez z zs.
  replace 3%nat with (length (ru_modes r)). rewrite modes_read by assumption. cbn [bindr fst snd]. rewrite oids_read by (auto; congruence). cbn [bindr fst snd]. reflexivity.
Qed.
Lemma last_cons r r2 l : last_has_mode (r :: r2 :: l) -> last_has_mode (r2 :: l).
Proof. intros H pre x E. apply (H (r :: pre) x). rewrite E. reflexivity. Qed.
Lemma reuc_loop_write osz aft l : (1 <= osz)%nat -> forall f, Forall (reuc_ok osz) l -> last_has_mode l -> (length l < f)%nat -> reuc_loop f osz aft (reuc_write l) = Ok (map (blank_ru osz) l).
Proof.
  intros Hz. induction l as [|r l IH]; intros f H HL Hf; [destruct f; reflexivity|]. destruct f as [|f]; [lia|]. inversion H as [|? ? Hr Hl]; subst.
  rewrite reuc_step.
  - rewrite IH; [reflexivity|exact Hl| |cbn [length] in Hf; lia]. destruct l; [intros [|] ? E; discriminate|eapply last_cons; eassumption].
  - exact Hr.
  - destruct l as [|r2 l].
    + intros E. apply app_eq_nil in E. destruct E as [E _]. destruct Hr as (_ & M & _ & O & Ho). revert E. apply (oid_text_some osz); auto; [congruence|]. apply (HL [] r). reflexivity.
    + intros E. apply app_eq_nil in E. destruct E as [_ E]. now apply reuc_write_pos in E.
Qed.
Lemma reuc_loop_zero osz aft l r : (1 <= osz)%nat -> ~ some_mode r -> reuc_ok osz r -> forall f, Forall (reuc_ok osz) l -> (length l < f)%nat ->
  reuc_loop f osz aft (reuc_write (l ++ [r])) = Err (-1).
Proof.
  intros Hz Hno Hr. induction l as [|r2 l IH]; intros f H Hf; (destruct f as [|f]; [lia|]).
  - cbn [app]. destruct Hr as (Hn & M & Hm & O & Ho). rewrite reuc_loop_eq by apply reuc_write_pos. unfold reuc_entry. rewrite reuc_write_cons, cut_nul_app by exact Hn. rewrite oid_text_none by exact Hno.
    change (reuc_write []) with (@nil Z). rewrite !app_nil_r. destruct (mode_text (ru_modes r)) as [|z zs] eqn:Ez; [reflexivity|]. rewrite <- Ez. replace 3%nat with (length (ru_modes r)).
    rewrite modes_end; [reflexivity|exact Hm|]. intros E. rewrite E in M. discriminate.
  - inversion H as [|? ? Hr2 Hl]; subst. cbn [app]. rewrite reuc_step; [rewrite IH; [reflexivity|exact Hl|cbn [length] in Hf; lia]|exact Hr2|].
    intros E. apply app_eq_nil in E. destruct E as [_ E]. destruct l; now apply reuc_write_pos in E.
Qed.
Lemma reuc_write_len l : (length l <= length (reuc_write l))%nat.
Proof.
  induction l as [|r l IH]; [cbn; lia|]. rewrite reuc_write_cons. rewrite app_length. cbn [length]. rewrite !app_length. lia.
Qed.

(** Reading any bytes. *)
Lemma modes_safe aft : aft <> [] -> forall k s, (exists ms s', reuc_modes k aft s = Ok (ms, s') /\ length ms = k /\ Forall (fun m => 0 <= m < 2 ^ 32) ms /\ (exists pre, s = pre ++ s')) \/ reuc_modes k aft s = Err (-1).
Proof.
  intros Ha. induction k as [|k IH]; intros s; cbn [reuc_modes].
  { left. exists [], s. split; [reflexivity|]. split; [reflexivity|]. split; [constructor|exists []; reflexivity]. }
  destruct (tol64_safe s 8) as [(m & e & -> & (pre & E & N))| ->]; cbn [bindr]; [|auto]. destruct (length e =? length s)%nat; [auto|].
  destruct (deref_ok e aft Ha) as [c ->]. cbn [bindr]. destruct (negb (c =? 0) || (m <? 0) || (4294967295 <? m)) eqn:B; [auto|]. destruct (_ <=? _)%nat; [auto|].
  destruct (IH (skipn (length s - length e + 1) s)) as [(ms & s' & -> & L & F & [p P])| ->]; cbn [bindr fst snd]; [|auto]. left. exists (m :: ms), s'.
  split; [reflexivity|]. split; [cbn [length]; lia|]. split; [constructor; [apply orb_false_elim in B; destruct B as [B ?]; apply orb_false_elim in B; lia|exact F]|].
  exists (firstn (length s - length e + 1) s ++ p). rewrite <- app_assoc, <- P. symmetry. apply firstn_skipn.
Qed.
Lemma oids_safe osz ms : forall s, (exists os s', reuc_oids osz ms s = Ok (os, s') /\ length os = length ms /\ Forall (fun o => length o = osz) os /\ (exists pre, s = pre ++ s')) \/ reuc_oids osz ms s = Err (-1).
Proof.
  induction ms as [|m ms IH]; intros s; cbn [reuc_oids].
  { left. exists [], s. split; [reflexivity|]. split; [reflexivity|]. split; [constructor|exists []; reflexivity]. }
  destruct (m =? 0).
  - destruct (IH s) as [(os & s' & -> & L & F & P)| ->]; cbn [bindr fst snd]; [|auto]. left. eexists _, s'. split; [reflexivity|]. split; [cbn [length]; lia|]. split; [constructor; [apply repeat_length|exact F]|exact P].
  - destruct (Nat.ltb_spec (length s) osz); [auto|]. destruct (IH (skipn osz s)) as [(os & s' & -> & L & F & [p P])| ->]; cbn [bindr fst snd]; [|auto]. left. eexists _, s'.
    split; [reflexivity|]. split; [cbn [length]; lia|]. split; [constructor; [rewrite firstn_length; lia|exact F]|]. exists (firstn osz s ++ p). rewrite <- app_assoc, <- P. symmetry. apply firstn_skipn.
Qed.
Lemma reuc_loop_safe osz aft : aft <> [] -> forall f s, (length s < f)%nat -> (exists l, reuc_loop f osz aft s = Ok l /\ Forall (reuc_ok osz) l /\ (length l <= length s)%nat) \/ reuc_loop f osz aft s = Err (-1).
Proof.
  intros Ha. induction f as [|f IH]; intros s Hs; [lia|]. destruct s as [|z s0] eqn:Es; [left; exists []; cbn; auto|]. rewrite <- Es in *. assert (N : s <> []) by (rewrite Es; discriminate). clear Es z s0.
  rewrite reuc_loop_eq by exact N. unfold reuc_entry. destruct (cut_nul s) as [[path s1]|] eqn:C; [|auto]. apply cut_nul_inv in C. destruct C as [E1 Hn]. destruct s1 as [|z s2] eqn:Es; [auto|]. rewrite <- Es in *. clear Es z s2.
  destruct (modes_safe aft Ha 3 s1) as [(ms & s2 & -> & L2 & F2 & [p2 P2])| ->]; cbn [bindr fst snd]; [|auto].
  destruct (oids_safe osz ms s2) as [(os & s3 & -> & L3 & F3 & [p3 P3])| ->]; cbn [bindr fst snd]; [|auto].
  assert (L : (S (length s3) <= length s)%nat) by (rewrite E1, P2, P3; rewrite app_length; cbn [length]; rewrite !app_length; lia).
  destruct (IH s3 ltac:(lia)) as [(l & -> & Fl & Ll)| ->]; cbn [bindr]; [|auto]. left. eexists. split; [reflexivity|]. split; [|cbn [length]; lia]. constructor; [|exact Fl].
  unfold reuc_ok. cbn [ru_path ru_modes ru_oids]. repeat split; auto. congruence.
Qed.
Lemma modes_after a a' : a <> [] -> a' <> [] -> forall k s, reuc_modes k a s = reuc_modes k a' s.
Proof.
  intros Ha Ha'. induction k as [|k IH]; intros s; cbn [reuc_modes]; [reflexivity|]. destruct (strntol64 s 8) as [[m e]| | |]; cbn [bindr]; try reflexivity.
  destruct (length e =? length s)%nat; [reflexivity|]. destruct e as [|x e].
  - destruct (deref_ok [] a Ha) as [y ->]. destruct (deref_ok [] a' Ha') as [y' ->]. cbn [bindr length].
    destruct (Nat.leb_spec (length s) (length s - 0 + 1)); [|lia]. destruct (negb (y =? 0) || (m <? 0) || (4294967295 <? m)), (negb (y' =? 0) || (m <? 0) || (4294967295 <? m)); reflexivity.
  - cbn [deref app bindr]. rewrite IH. reflexivity.
Qed.
Lemma reuc_after osz a a' s : a <> [] -> a' <> [] -> reuc_read osz a s = reuc_read osz a' s.
Proof.
  intros Ha Ha'. unfold reuc_read. generalize (S (length s)). intros f. revert s. induction f as [|f IH]; intros s; [destruct s; reflexivity|].
  destruct s as [|z s]; [reflexivity|]. rewrite !reuc_loop_eq by discriminate. unfold reuc_entry. destruct (cut_nul (z :: s)) as [[path s1]|]; [|reflexivity]. destruct s1; [reflexivity|].
  rewrite (modes_after a a' Ha Ha'). destruct (reuc_modes 3 a' _) as [[ms s2]| | |]; cbn [bindr fst snd]; try reflexivity. destruct (reuc_oids osz ms s2) as [[os s3]| | |]; cbn [bindr fst snd]; try reflexivity.
  rewrite IH. reflexivity.
Qed.

(** *** NAME *)
Lemma name1_iff s o rest : name_read1 s = Ok (o, rest) <-> opt_ok o /\ s = name_write1 o ++ rest.
Proof.
  unfold name_read1. split.
  - destruct (cut_nul s) as [[n r]|] eqn:C; [|discriminate]. apply cut_nul_inv in C. destruct C as [E N]. destruct n as [|z n]; intros H; injection H as <- <-; cbn [opt_ok name_write1].
    + auto.
    + rewrite <- app_assoc. split; [split; [exact N|discriminate]|exact E].
  - intros [H ->]. destruct o as [n|]; cbn [opt_ok name_write1] in *; [|reflexivity]. rewrite <- app_assoc. cbn [app]. rewrite cut_nul_app by tauto. destruct n; [tauto|reflexivity].
Qed.
Lemma name1_safe s : (exists o rest, name_read1 s = Ok (o, rest)) \/ name_read1 s = Err (-1).
Proof. unfold name_read1. destruct (cut_nul s) as [[[|] r]|]; eauto. Qed.
Lemma name_write_cons c l : name_write (c :: l) = name_write1 (fst (fst c)) ++ name_write1 (snd (fst c)) ++ name_write1 (snd c) ++ name_write l.
Proof. unfold name_write. destruct c as [[a b] c]. cbn [map concat fst snd]. rewrite <- !app_assoc. reflexivity. Qed.
Lemma name_w1_pos o : (1 <= length (name_write1 o))%nat.
Proof. destruct o; cbn [name_write1]; [rewrite app_length|]; cbn [length]; lia. Qed.
Lemma name_loop_eq f s : s <> [] -> name_loop (S f) s = do p <- name_entry s ;; do r <- name_loop f (snd p) ;; Ok (fst p :: r).
Proof. destruct s; [congruence|reflexivity]. Qed.
Lemma name_loop_ok f : forall s, (length s < f)%nat -> (exists l, name_loop f s = Ok l /\ Forall cname_ok l /\ s = name_write l) \/ (name_loop f s = Err (-1) /\ forall l, Forall cname_ok l -> s <> name_write l).
Proof.
  induction f as [|f IH]; intros s Hs; [lia|]. destruct s as [|z s0] eqn:Es; [left; exists []; cbn; auto|]. rewrite <- Es in *. assert (N : s <> []) by (rewrite Es; discriminate). clear Es z s0.
  rewrite name_loop_eq by exact N. unfold name_entry.
  assert (D : forall l, Forall cname_ok l -> s = name_write l -> exists c l', name_read1 s = Ok (fst (fst c), name_write1 (snd (fst c)) ++ name_write1 (snd c) ++ name_write l') /\
    name_read1 (name_write1 (snd (fst c)) ++ name_write1 (snd c) ++ name_write l') = Ok (snd (fst c), name_write1 (snd c) ++ name_write l') /\ name_read1 (name_write1 (snd c) ++ name_write l') = Ok (snd c, name_write l') /\ Forall cname_ok l').
  { intros [|c l] H E; [now subst|]. inversion H as [|? ? (H1 & H2 & H3) Hl]; subst. exists c, l. rewrite name_write_cons. rewrite !name1_iff. auto. }
  destruct (name1_safe s) as [(a & sa & Ea)|Ea]; rewrite Ea; cbn [bindr fst snd]; [|right; split; [reflexivity|intros l H E; destruct (D l H E) as (c & l' & D1 & _); congruence]].
  destruct (name1_safe sa) as [(b & sb & Eb)|Eb]; rewrite Eb; cbn [bindr fst snd]; [|right; split; [reflexivity|intros l H E; destruct (D l H E) as (c & l' & D1 & D2 & _); congruence]].
  destruct (name1_safe sb) as [(c & sc & Ec)|Ec]; rewrite Ec; cbn [bindr fst snd]; [|right; split; [reflexivity|intros l H E; destruct (D l H E) as (c & l' & D1 & D2 & D3 & _); congruence]].
  pose proof (proj1 (name1_iff _ _ _) Ea) as [Ha Pa]. pose proof (proj1 (name1_iff _ _ _) Eb) as [Hb Pb]. pose proof (proj1 (name1_iff _ _ _) Ec) as [Hc Pc].
  pose proof (name_w1_pos a) as La. assert (Lc : (length sc < f)%nat) by (rewrite Pa, Pb, Pc, !app_length in Hs; lia).
  destruct (IH sc Lc) as [(l & -> & Hl & Pl)|[-> Hl]]; cbn [bindr].
  - left. eexists. split; [reflexivity|]. split; [constructor; [split; [exact Ha|split; [exact Hb|exact Hc]]|exact Hl]|]. rewrite name_write_cons. cbn [fst snd]. rewrite <- Pl, <- Pc, <- Pb. exact Pa.
  - right. split; [reflexivity|]. intros l H E. destruct (D l H E) as (c' & l' & D1 & D2 & D3 & D4). rewrite Ea in D1. apply Ok_inj in D1. injection D1 as -> ->. rewrite Eb in D2. apply Ok_inj in D2. injection D2 as -> ->.
    rewrite Ec in D3. apply Ok_inj in D3. injection D3 as -> ->. exact (Hl l' D4 eq_refl).
Qed.
