(** Lemmas about the path checks of PathModel. *)
From Verif Require Import Base Str WildModel Utf8Model Utf8Spec Utf8Props PathModel PathSpec.

Ltac inv H := inversion H; clear H; subst.

Lemma tolower_lower c : tolower c = lower1 c.
Proof. reflexivity. Qed.
Lemma gtolower_byte c : 0 <= c < 256 -> gtolower c = lower1 c.
Proof. intros H. unfold gtolower. rewrite Z.mod_small by exact H. reflexivity. Qed.
Lemma lower_app a b : lower (a ++ b) = lower a ++ lower b.
Proof. apply map_app. Qed.
Lemma lower_length a : length (lower a) = length a.
Proof. apply map_length. Qed.
Lemma lower_firstn n a : lower (firstn n a) = firstn n (lower a).
Proof. unfold lower. symmetry. apply firstn_map. Qed.

Lemma ncase_eq_spec s j : cstr s -> forall b n, (n <= length b)%nat -> Forall (fun c => lower1 c <> 0) b ->
  exists r, ncase_eq (s ++ 0 :: j) b n = Ok r /\ (r = true <-> lower (firstn n s) = lower (firstn n b)).
Proof.
  intros Hs. induction Hs as [|x s Hx Hs IH]; intros b n Hn Hb.
  - destruct n as [|n]; [exists true; split; [reflexivity|tauto]|].
    destruct b as [|y b]; [cbn in Hn; lia|]. inv Hb. cbn [ncase_eq app firstn lower map].
    change tolower with lower1. change (lower1 0) with 0. destruct (Z.eqb_spec 0 (lower1 y)); [congruence|].
    exists false. split; [reflexivity|]. split; discriminate.
  - destruct n as [|n]; [exists true; split; [reflexivity|tauto]|].
    destruct b as [|y b]; [cbn in Hn; lia|]. inv Hb. cbn [ncase_eq app firstn lower map].
    change tolower with lower1. destruct (Z.eqb_spec (lower1 x) (lower1 y)) as [E|E].
    + destruct (Z.eqb_spec x 0); [lia|]. destruct (IH b n ltac:(cbn in Hn; lia) H2) as (r & -> & R).
      exists r. split; [reflexivity|]. rewrite R. unfold lower in *. rewrite E. split; [intros ->; reflexivity|congruence].
    + exists false. split; [reflexivity|]. split; [discriminate|congruence].
Qed.

Lemma rd_str s j i : rd (s ++ 0 :: j) i = if (i <=? length s)%nat then Ok (nth i s 0) else rd (s ++ 0 :: j) i.
Proof.
  destruct (Nat.leb_spec i (length s)); [|reflexivity]. unfold rd. destruct (Nat.eq_dec i (length s)) as [->|].
  - rewrite nth_error_app2, Nat.sub_diag by lia. cbn. rewrite nth_overflow by lia. reflexivity.
  - rewrite nth_error_app1 by lia. rewrite (nth_error_nth' s 0) by lia. reflexivity.
Qed.
Lemma rd_str' s j i : (i <= length s)%nat -> rd (s ++ 0 :: j) i = Ok (nth i s 0).
Proof. intros H. rewrite rd_str. destruct (Nat.leb_spec i (length s)); [reflexivity|lia]. Qed.
Lemma skipn_str s j n : (n <= length s)%nat -> skipn n (s ++ 0 :: j) = skipn n s ++ 0 :: j.
Proof. intros H. rewrite skipn_app. replace (n - length s)%nat with O by lia. reflexivity. Qed.
Lemma cstr_skipn n s : cstr s -> cstr (skipn n s).
Proof. intros H. unfold cstr in *. rewrite <- (firstn_skipn n s) in H. apply Forall_app in H. tauto. Qed.
Lemma cstr_firstn n s : cstr s -> cstr (firstn n s).
Proof. intros H. unfold cstr in *. rewrite <- (firstn_skipn n s) in H. apply Forall_app in H. tauto. Qed.
Lemma cstr_bytes s : cstr s -> bytes s.
Proof. apply Forall_impl. unfold is_byte. intros; lia. Qed.

(** *** NTFS names of .git *)

Lemma only_dots_spec m n : (n <= length m)%nat ->
  exists b, only_dots m n = Ok b /\ (b = true <-> Forall dot_or_space (firstn n m)).
Proof.
  revert m. induction n as [|n IH]; intros m H; cbn.
  - exists true. split; [reflexivity|]. split; [constructor|reflexivity].
  - destruct m as [|c m]; [cbn in H; lia|]. unfold dot_or_space in *.
    destruct (Z.eqb_spec c 32), (Z.eqb_spec c 46); cbn [negb andb];
      try (destruct (IH m ltac:(cbn in H; lia)) as (b & -> & B); exists b; split; [reflexivity|];
           rewrite B; cbn [firstn]; split; [intros; constructor; [lia|assumption]|intros F; inv F; assumption]).
    exists false. split; [reflexivity|]. split; [discriminate|]. cbn [firstn]. intros F. inv F. lia.
Qed.

Lemma firstn_split n (s : list Z) : (n <= length s)%nat -> exists b t, s = b ++ t /\ length b = n /\ b = firstn n s /\ t = skipn n s.
Proof. intros H. exists (firstn n s), (skipn n s). rewrite firstn_skipn, firstn_length. repeat split; lia. Qed.

(** A component: [s] is the path from its start, [len] its length. *)
Definition at_component (s : list Z) (len : nat) : Prop :=
  (len <= length s)%nat /\ ~ In 47 (firstn len s) /\ (nth len s 0 = 47 \/ nth len s 0 = 0).

Lemma starts_firstn n (c b : list Z) : (n <= length c)%nat -> length b = n ->
  (firstn n c = b <-> exists t, c = b ++ t).
Proof.
  intros H L. split.
  - intros <-. exists (skipn n c). symmetry. apply firstn_skipn.
  - intros [t ->]. rewrite firstn_app, L, Nat.sub_diag. cbn. rewrite app_nil_r, <- L. apply firstn_all.
Qed.

Lemma dotgit_ntfs_spec s j len : cstr s -> at_component s len ->
  exists r, dotgit_ntfs (s ++ 0 :: j) len = Ok r /\ (r = false <-> ntfs_dotgit (firstn len s)).
Proof.
  intros Hs (Hl & Hn & Hnext). set (c := firstn len s). assert (Lc : length c = len) by (unfold c; rewrite firstn_length; lia).
  assert (P : forall b t, c = b ++ t -> firstn (length b) s = b).
  { intros b t E. assert (firstn (length b) c = b) by (rewrite E; rewrite firstn_app, Nat.sub_diag; cbn; rewrite app_nil_r; apply firstn_all).
    rewrite <- H at 2. unfold c. rewrite firstn_firstn. f_equal. rewrite <- Lc, E, app_length. lia. }
  assert (A : forall base k, length base = k -> (k <= len)%nat -> lower (firstn k s) = base ->
     (exists r, (do x <- rd (s ++ 0 :: j) k ;; if (x =? 92) || (x =? 58) then Ok false
               else do o <- only_dots (skipn k (s ++ 0 :: j)) (len - k) ;; Ok (negb o)) = Ok r /\
       (r = false <-> ntfs_alias base c))).
  { intros base k Lb Hk E. rewrite rd_str' by lia. cbn [bindr].
    assert (Eb : forall b t, c = b ++ t -> lower b = base -> b = firstn k s /\ t = skipn k c).
    { intros b t Ec El. assert (length b = k) by (rewrite <- Lb, <- El, lower_length; reflexivity).
      split; [symmetry; rewrite <- H; eapply P; exact Ec|]. rewrite Ec, skipn_app, skipn_all2, H, Nat.sub_diag by lia. reflexivity. }
    assert (Ec : c = firstn k s ++ skipn k c).
    { rewrite <- (firstn_skipn k c) at 1. f_equal. unfold c. rewrite firstn_firstn. f_equal. lia. }
    assert (Nx : (k < len)%nat -> exists t', skipn k c = nth k s 0 :: t').
    { intros Hlt. exists (skipn (S k) c). assert (nth k c 0 = nth k s 0).
      { rewrite <- (firstn_skipn len s) at 1. fold c. rewrite app_nth1 by lia. reflexivity. }
      rewrite <- H. clear -Hlt Lc. rewrite <- Lc in Hlt. revert k Hlt. clear Lc. induction c as [|x c IH]; intros k Hk; [cbn in Hk; lia|].
      destruct k as [|k]; [reflexivity|]. cbn [skipn nth]. apply IH. cbn in Hk. lia. }
    destruct ((nth k s 0 =? 92) || (nth k s 0 =? 58)) eqn:Eq.
    - exists false. split; [reflexivity|]. split; [intros _|reflexivity].
      exists (firstn k s), (skipn k c). split; [exact Ec|]. split; [exact E|]. right.
      assert (k < len)%nat. { destruct (Nat.eq_dec k len) as [->|]; [|lia]. lia. }
      destruct (Nx H) as [t' T]. exists (nth k s 0), t'. split; [exact T|lia].
    - rewrite skipn_str by lia.
      destruct (only_dots_spec (skipn k s ++ 0 :: j) (len - k)) as (o & -> & Od). { rewrite app_length, skipn_length. lia. }
      cbn [bindr]. exists (negb o). split; [reflexivity|].
      assert (F : firstn (len - k) (skipn k s ++ 0 :: j) = skipn k c).
      { rewrite firstn_app, skipn_length. replace (len - k - (length s - k))%nat with O by lia. cbn. rewrite app_nil_r.
        unfold c. rewrite skipn_firstn_comm. reflexivity. }
      rewrite F in Od. rewrite negb_false_iff, Od. split.
      + intros D. exists (firstn k s), (skipn k c). split; [exact Ec|]. split; [exact E|]. left. exact D.
      + intros (b & t & Ec' & El & [D|(x & t' & Et & Hx)]); destruct (Eb b t Ec' El) as [-> ->]; [exact D|].
        exfalso. assert (k < len)%nat.
        { assert (length (skipn k c) = length (x :: t')) by (rewrite Et; reflexivity). rewrite skipn_length in H. cbn in H. lia. }
        destruct (Nx H) as [t2 T2]. rewrite Et in T2. injection T2 as -> _. lia. }
  unfold dotgit_ntfs, reserved_names, reserved_start.
  change (length (bs ".git")) with 4%nat. change (length (bs "GIT~1")) with 5%nat.
  assert (NG : forall base k, length base = k -> ((len < k)%nat \/ lower (firstn k s) <> base) -> ~ ntfs_alias base c).
  { intros base k Lb H (b & t & Ec & El & _). assert (length b = k) by (rewrite <- Lb, <- El, lower_length; reflexivity).
    destruct H as [H|H].
    - rewrite Ec, app_length in Lc. lia.
    - apply H. rewrite <- H0, (P b t Ec). exact El. }
  assert (Second : exists r, (do start <- (if (5 <=? len)%nat
       then do e <- ncase_eq (s ++ 0 :: j) (bs "GIT~1") 5 ;; (if e then Ok 5%nat else Ok 0%nat) else Ok 0%nat) ;;
      (if (start =? 0)%nat then Ok true else do c0 <- rd (s ++ 0 :: j) start ;; (if (c0 =? 92) || (c0 =? 58) then Ok false
        else do o <- only_dots (skipn start (s ++ 0 :: j)) (len - start) ;; Ok (negb o)))) = Ok r /\ (r = false <-> ntfs_alias (bs "git~1") c)).
  { destruct (Nat.leb_spec 5 len) as [H5|H5].
    - destruct (ncase_eq_spec s j Hs (bs "GIT~1") 5) as (e & -> & E); [cbn; lia|repeat constructor; discriminate|]. cbn [bindr].
      change (lower (firstn 5 (bs "GIT~1"))) with (bs "git~1") in E. destruct e.
      + cbn [bindr]. destruct (A (bs "git~1") 5%nat eq_refl H5 ltac:(apply E; reflexivity)) as (r & R & Q). exists r. split; [exact R|exact Q].
      + cbn [bindr Nat.eqb]. exists true. split; [reflexivity|]. split; [discriminate|]. intros X. exfalso.
        apply (NG (bs "git~1") 5%nat eq_refl ltac:(right; intros Y; apply E in Y; discriminate) X).
    - cbn [bindr Nat.eqb]. exists true. split; [reflexivity|]. split; [discriminate|]. intros X. exfalso.
      apply (NG (bs "git~1") 5%nat eq_refl ltac:(left; lia) X). }
  destruct (Nat.leb_spec 4 len) as [H4|H4].
  - destruct (ncase_eq_spec s j Hs (bs ".git") 4) as (e & -> & E); [cbn; lia|repeat constructor; discriminate|]. cbn [bindr].
    change (lower (firstn 4 (bs ".git"))) with (bs ".git") in E. destruct e.
    + cbn [bindr Nat.eqb]. assert (E4 := proj1 E eq_refl). destruct (A (bs ".git") 4%nat eq_refl H4 E4) as (r & R & Q).
      exists r. split; [exact R|]. rewrite Q. unfold ntfs_dotgit. split; [tauto|]. intros [X|X]; [exact X|].
      exfalso. destruct X as (b & t & Ec & El & _).
      assert (Hb : firstn 4 s = firstn 4 b).
      { assert (Lb5 : length b = 5%nat) by (rewrite <- (lower_length b), El; reflexivity). assert (Eb := P b t Ec). rewrite Lb5 in Eb. rewrite <- Eb, firstn_firstn. reflexivity. }
      rewrite Hb, lower_firstn, El in E4. discriminate.
    + assert (N1 : ~ ntfs_alias (bs ".git") c) by (apply (NG (bs ".git") 4%nat eq_refl); right; intros Y; apply E in Y; discriminate).
      destruct Second as (r & R & Q). exists r. split; [exact R|]. unfold ntfs_dotgit. rewrite Q. tauto.
  - assert (N1 : ~ ntfs_alias (bs ".git") c) by (apply (NG (bs ".git") 4%nat eq_refl); left; exact H4).
    destruct Second as (r & R & Q). exists r. split; [exact R|]. unfold ntfs_dotgit. rewrite Q. tauto.
Qed.

(** *** HFS+ names *)

Lemma hfs_ignored_spec u : hfs_ignored u = true <-> ignorable u.
Proof. unfold hfs_ignored, ignorable. lia. Qed.

Lemma encode_len u : accepted u -> (1 <= length (encode_cp u) <= 4)%nat.
Proof. intros _. unfold encode_cp. destruct (u <? 128), (u <? 2048), (u <? 65536); cbn; lia. Qed.

Lemma encode_bytes u : accepted u -> bytes (encode_cp u).
Proof.
  intros [[H _] _]. unfold encode_cp, bytes.
  destruct (Z.ltb_spec u 128); [repeat constructor; unfold is_byte; lia|].
  destruct (Z.ltb_spec u 2048); [repeat constructor; unfold is_byte; lia|].
  destruct (Z.ltb_spec u 65536); repeat constructor; unfold is_byte; lia.
Qed.

Lemma iterate_step u c rest : accepted u -> bytes c -> bytes rest ->
  iterate (encode_cp u ++ c ++ rest) (length (encode_cp u ++ c)) = Ok (Z.of_nat (length (encode_cp u)), u).
Proof.
  intros Ha Hc Hr. assert (L := encode_len u Ha).
  assert (B : bytes (encode_cp u ++ c ++ rest)).
  { unfold bytes in *. rewrite !Forall_app. repeat split; auto. apply (encode_bytes u Ha). }
  destruct (C40_iterate_exact _ (length (encode_cp u ++ c)) B) as [P _]. { rewrite !app_length. lia. }
  apply P; [lia|]. split; [exact Ha|]. split; [reflexivity|]. rewrite app_length. split; [lia|].
  rewrite Nat2Z.id, firstn_app, Nat.sub_diag. cbn [firstn]. rewrite app_nil_r. apply firstn_all.
Qed.

Definition encs (us : list Z) : list Z := concat (map encode_cp us).
Lemma encs_bytes us : Forall accepted us -> bytes (encs us).
Proof. induction 1; [constructor|]. unfold encs; cbn. apply Forall_app. split; [apply encode_bytes; assumption|assumption]. Qed.

(** What next_hfs_char finds. *)
Inductive next_case (c rest : list Z) : Z * (list Z * nat) -> Prop :=
| next_end ig : c = encs ig -> Forall accepted ig -> Forall ignorable ig -> next_case c rest (0, (rest, O))
| next_char ig u c' : c = encs ig ++ encode_cp u ++ c' -> Forall accepted ig -> Forall ignorable ig -> accepted u -> ~ ignorable u ->
    next_case c rest (gtolower u, (c' ++ rest, length c'))
| next_bad ig c' : c = encs ig ++ c' -> Forall accepted ig -> Forall ignorable ig -> c' <> [] ->
    (forall u r, accepted u -> c' <> encode_cp u ++ r) -> next_case c rest (-1, (c' ++ rest, length c')).

Lemma next_hfs_spec fuel : forall c rest, bytes c -> bytes rest -> (length c < fuel)%nat ->
  exists r, next_hfs_char fuel (c ++ rest) (length c) = Ok r /\ next_case c rest r.
Proof.
  induction fuel as [|f IH]; intros c rest Hc Hr Hf; [lia|]. cbn [next_hfs_char].
  destruct (Nat.eqb_spec (length c) 0) as [E|E].
  - destruct c; [|discriminate]. exists (0, (rest, O)). split; [reflexivity|]. apply next_end with (ig := []); [reflexivity|constructor|constructor].
  - assert (B : bytes (c ++ rest)) by (apply Forall_app; split; assumption).
    destruct (C40_iterate_exact (c ++ rest) (length c) B) as [P T]. { rewrite app_length. lia. }
    destruct T as [(n & u & Hn & Ei)|Ei]; rewrite Ei; cbn [bindr].
    + destruct (proj1 (P n u Hn) Ei) as (Ha & En & Hle & Ef). assert (L := encode_len u Ha).
      rewrite En, Nat2Z.id in *. destruct (Z.ltb_spec (Z.of_nat (length (encode_cp u))) 0); [lia|].
      set (c' := skipn (length (encode_cp u)) c).
      assert (Ec : c = encode_cp u ++ c').
      { rewrite <- (firstn_skipn (length (encode_cp u)) c) at 1. fold c'. f_equal. transitivity (firstn (length (encode_cp u)) (c ++ rest)); [|exact Ef]. rewrite firstn_app.
        replace (length (encode_cp u) - length c)%nat with O by lia. cbn. rewrite app_nil_r. reflexivity. }
      assert (Bc' : bytes c') by (rewrite Ec in Hc; apply Forall_app in Hc; tauto).
      assert (Es : skipn (length (encode_cp u)) (c ++ rest) = c' ++ rest).
      { rewrite skipn_app. replace (length (encode_cp u) - length c)%nat with O by lia. reflexivity. }
      assert (El : (length c - length (encode_cp u))%nat = length c') by (unfold c'; rewrite skipn_length; lia).
      rewrite Es, El. destruct (hfs_ignored u) eqn:Eg.
      * destruct (IH c' rest Bc' Hr) as (r & -> & N). { rewrite Ec, app_length in Hf. lia. }
        exists r. split; [reflexivity|]. apply hfs_ignored_spec in Eg.
        destruct N as [ig Ec2 A G|ig v c2 Ec2 A G Av Nv|ig c2 Ec2 A G Nn Nv].
        -- apply next_end with (ig := u :: ig); [rewrite Ec, Ec2; reflexivity|constructor; assumption|constructor; assumption].
        -- apply next_char with (ig := u :: ig); [rewrite Ec, Ec2; unfold encs; cbn; rewrite <- app_assoc; reflexivity|constructor; assumption|constructor; assumption|assumption|assumption].
        -- apply next_bad with (ig := u :: ig); [rewrite Ec, Ec2; unfold encs; cbn; rewrite <- app_assoc; reflexivity|constructor; assumption|constructor; assumption|assumption|assumption].
      * eexists. split; [reflexivity|]. apply next_char with (ig := []); [exact Ec|constructor|constructor|exact Ha|].
        intros X. apply hfs_ignored_spec in X. congruence.
    + eexists. split; [reflexivity|]. apply next_bad with (ig := []); [reflexivity|constructor|constructor|destruct c; [cbn in E; lia|discriminate]|].
      intros u r Ha Ec.
      assert (X : iterate (c ++ rest) (length c) = Ok (Z.of_nat (length (encode_cp u)), u)).
      { rewrite Ec. rewrite <- app_assoc. rewrite Ec in Hc. apply Forall_app in Hc. apply iterate_step; tauto. }
      rewrite Ei in X. injection X as X _. lia.
Qed.

(** What the needle comparison accepts: low bytes only, and a code point that
    is a multiple of 256 ends the name. *)
Inductive seen : list Z -> list Z -> Prop :=
| seen_nil : seen [] []
| seen_skip u us vs : ignorable u -> seen us vs -> seen (u :: us) vs
| seen_keep u us vs : ~ ignorable u -> seen us vs -> seen (u :: us) (lower1 (u mod 256) :: vs).
Definition hfs_seen (base c : list Z) : Prop :=
  exists us rest, Forall accepted us /\ c = encs us ++ rest /\ seen us base /\
    (rest = [] \/ exists u r, accepted u /\ ~ ignorable u /\ u mod 256 = 0 /\ rest = encode_cp u ++ r).

Lemma seen_app ig us vs : Forall ignorable ig -> seen us vs -> seen (ig ++ us) vs.
Proof. induction 1; intros; cbn; auto using seen. Qed.

Lemma encode_app_inj u r v t : accepted u -> accepted v -> bytes r -> bytes t -> encode_cp u ++ r = encode_cp v ++ t -> u = v /\ r = t.
Proof.
  intros Hu Hv Hr Ht E.
  assert (X := iterate_step u r [] Hu Hr (Forall_nil _)). assert (Y := iterate_step v t [] Hv Ht (Forall_nil _)).
  rewrite app_nil_r in X, Y. rewrite E in X. rewrite X in Y. injection Y as _ ->. split; [reflexivity|].
  apply app_inv_head in E. exact E.
Qed.

(** Reading off an [hfs_seen] component one character at a time. *)
Lemma seen_step x base c : hfs_seen (x :: base) c -> exists ig u c', c = encs ig ++ encode_cp u ++ c' /\ Forall accepted ig /\ Forall ignorable ig /\ accepted u /\ ~ ignorable u /\ gtolower u = x /\ hfs_seen base c'.
Proof.
  intros (us & rest & A & -> & S & R). revert A. remember (x :: base) as b. induction S as [|u us vs G S IH|u us vs G S IH]; intros A; [discriminate| |].
  - inv A. destruct (IH eq_refl H2) as (ig & v & c' & E & Aig & Gig & Av & Nv & Ev & Sb).
    exists (u :: ig), v, c'. split; [unfold encs in *; cbn; rewrite <- !app_assoc; f_equal; exact E|].
    repeat (split; [first [assumption|constructor; assumption]|]). exact Sb.
  - injection Heqb as <- ->. inv A. exists [], u, (encs us ++ rest). cbn.
    split; [unfold encs; cbn; rewrite <- app_assoc; reflexivity|]. repeat (split; [first [assumption|constructor|reflexivity]|]).
    exists us, rest. repeat (split; [first [assumption|reflexivity]|]). exact R.
Qed.

Lemma seen_cons x base ig u c' : Forall accepted ig -> Forall ignorable ig -> accepted u -> ~ ignorable u -> gtolower u = x -> hfs_seen base c' ->
  hfs_seen (x :: base) (encs ig ++ encode_cp u ++ c').
Proof.
  intros Aig Gig Au Nu <- (us & rest & A & -> & S & R). exists (ig ++ u :: us), rest.
  split; [apply Forall_app; split; [assumption|constructor; assumption]|].
  split; [unfold encs; rewrite map_app, concat_app; cbn; rewrite <- !app_assoc; reflexivity|].
  split; [|exact R]. apply seen_app; [exact Gig|]. constructor; assumption.
Qed.

Lemma encs_uniq ig : forall ig' u c' v t, Forall accepted ig -> Forall ignorable ig -> Forall accepted ig' -> Forall ignorable ig' ->
  accepted u -> ~ ignorable u -> accepted v -> ~ ignorable v -> bytes c' -> bytes t ->
  encs ig ++ encode_cp u ++ c' = encs ig' ++ encode_cp v ++ t -> u = v /\ c' = t.
Proof.
  induction ig as [|i ig IH]; intros [|i' ig'] u c' v t A G A' G' Au Nu Av Nv Hc Ht E.
  - cbn in E. apply encode_app_inj; assumption.
  - exfalso. inv A'. inv G'. unfold encs in E; cbn in E. rewrite <- app_assoc in E. apply encode_app_inj in E; try assumption.
    + destruct E as [-> _]. contradiction.
    + apply Forall_app. split; [apply (encs_bytes ig'); assumption|]. apply Forall_app. split; [apply encode_bytes; assumption|assumption].
  - exfalso. inv A. inv G. unfold encs in E; cbn in E. rewrite <- app_assoc in E. apply encode_app_inj in E; try assumption.
    + destruct E as [-> _]. contradiction.
    + apply Forall_app. split; [apply (encs_bytes ig); assumption|]. apply Forall_app. split; [apply encode_bytes; assumption|assumption].
  - inv A. inv A'. inv G. inv G'. unfold encs in E; cbn in E. rewrite <- !app_assoc in E. apply encode_app_inj in E; try assumption.
    + destruct E as [-> E]. eapply IH; eassumption.
    + apply Forall_app. split; [apply (encs_bytes ig); assumption|]. apply Forall_app. split; [apply encode_bytes; assumption|assumption].
    + apply Forall_app. split; [apply (encs_bytes ig'); assumption|]. apply Forall_app. split; [apply encode_bytes; assumption|assumption].
Qed.

(** No accepted, visible character follows the ignorables of a [next_end] or
    [next_bad] component. *)
Lemma no_char ig r : forall ig' v t, Forall accepted ig -> Forall ignorable ig -> Forall accepted ig' -> Forall ignorable ig' -> accepted v -> ~ ignorable v ->
  bytes r -> bytes t -> (forall u q, accepted u -> r <> encode_cp u ++ q) -> encs ig ++ r <> encs ig' ++ encode_cp v ++ t.
Proof.
  induction ig as [|i ig IH]; intros [|i' ig'] v t A G A' G' Av Nv Hr Ht N E.
  - exact (N v t Av E).
  - inv A'. unfold encs in E; cbn in E. rewrite <- app_assoc in E. exact (N i' _ H1 E).
  - inv A. inv G. unfold encs in E; cbn in E. rewrite <- app_assoc in E. apply encode_app_inj in E; try assumption.
    + destruct E as [-> _]. contradiction.
    + apply Forall_app. split; [apply (encs_bytes ig); assumption|assumption].
  - inv A. inv A'. inv G. inv G'. unfold encs in E; cbn in E. rewrite <- !app_assoc in E. apply encode_app_inj in E; try assumption.
    + destruct E as [-> E]. revert E. apply IH; assumption.
    + apply Forall_app. split; [apply (encs_bytes ig); assumption|assumption].
    + apply Forall_app. split; [apply (encs_bytes ig'); assumption|]. apply Forall_app. split; [apply encode_bytes; assumption|assumption].
Qed.
Lemma enc_nonnil u q : accepted u -> [] <> encode_cp u ++ q.
Proof. intros A E. assert (L := encode_len u A). destruct (encode_cp u); [cbn in L; lia|discriminate]. Qed.

(** The remainder is over: only ignorables, or a code point = 0 mod 256. *)
Lemma seen_nil_end c : hfs_seen [] c <-> exists ig rest, Forall accepted ig /\ Forall ignorable ig /\ c = encs ig ++ rest /\
    (rest = [] \/ exists u r, accepted u /\ ~ ignorable u /\ u mod 256 = 0 /\ rest = encode_cp u ++ r).
Proof.
  split.
  - intros (us & rest & A & -> & S & R). exists us, rest. split; [exact A|]. split; [|split; [reflexivity|exact R]].
    clear -S. remember [] as b. induction S; [constructor|constructor; auto|discriminate].
  - intros (ig & rest & A & G & -> & R). exists ig, rest. split; [exact A|]. split; [reflexivity|]. split; [|exact R].
    rewrite <- (app_nil_r ig). apply seen_app; [exact G|constructor].
Qed.

Lemma gtolower_range u : 0 <= gtolower u < 256.
Proof. unfold gtolower, tolower, isupper. destruct ((65 <=? u mod 256) && (u mod 256 <=? 90)) eqn:E; lia. Qed.
Lemma gtolower_0 u : gtolower u = 0 <-> u mod 256 = 0.
Proof. unfold gtolower, tolower, isupper. destruct ((65 <=? u mod 256) && (u mod 256 <=? 90)) eqn:E; lia. Qed.

Lemma hfs_needle_spec needle : forall c rest, bytes c -> bytes rest -> Forall (fun x => 0 < x < 128) needle ->
  exists r, hfs_needle (c ++ rest) (length c) needle = Ok r /\ (r = false <-> hfs_seen needle c).
Proof.
  induction needle as [|x needle IH]; intros c rest Hc Hr Hn; cbn [hfs_needle];
    destruct (next_hfs_spec (S (length c)) c rest Hc Hr ltac:(lia)) as (r & -> & N); cbn [bindr].
  - destruct N as [ig Ec A G|ig u c' Ec A G Au Nu|ig c' Ec A G Nn Nv]; cbn [bindr].
    + exists false. split; [reflexivity|]. split; [intros _|reflexivity]. apply seen_nil_end. exists ig, []. rewrite app_nil_r. tauto.
    + exists (negb (gtolower u =? 0)). split; [reflexivity|]. rewrite negb_false_iff, Z.eqb_eq, gtolower_0. split.
      * intros E. apply seen_nil_end. exists ig, (encode_cp u ++ c'). rewrite Ec. repeat (split; [first [assumption|reflexivity]|]).
        right. exists u, c'. tauto.
      * intros S. apply seen_nil_end in S. destruct S as (ig' & rst & A' & G' & Ec' & [->|(v & t & Av & Nv & Ev & ->)]).
        -- exfalso. rewrite app_nil_r in Ec'. rewrite Ec in Ec', Hc. apply Forall_app in Hc as [_ Hc]. apply Forall_app in Hc as [_ Hc].
           symmetry in Ec'. rewrite <- (app_nil_r (encs ig')) in Ec'. revert Ec'. apply no_char; try assumption; [constructor|].
           intros; apply enc_nonnil; assumption.
        -- assert (Bt : bytes t) by (rewrite Ec' in Hc; apply Forall_app in Hc as [_ Hc]; apply Forall_app in Hc; tauto).
           rewrite Ec in Ec', Hc. apply Forall_app in Hc as [_ Hc]. apply Forall_app in Hc as [_ Hc].
           apply encs_uniq in Ec'; try assumption. destruct Ec' as [-> _]. exact Ev.
    + exists true. split; [reflexivity|]. split; [discriminate|]. intros S. exfalso. apply seen_nil_end in S.
      destruct S as (ig' & rst & A' & G' & Ec' & R).
      assert (Bc' : bytes c') by (rewrite Ec in Hc; apply Forall_app in Hc; tauto).
      destruct R as [->|(v & t & Av & Nv' & Ev & ->)].
      * rewrite app_nil_r, Ec in Ec'. clear -Ec' A G A' G' Nn Nv Bc'. revert ig' A' G' Ec'. induction ig as [|i ig IH]; intros ig' A' G' E.
        -- destruct ig' as [|i' ig']; [cbn in E; congruence|]. inv A'. exact (Nv i' _ H1 E).
        -- inv A. inv G. destruct ig' as [|i' ig'].
           ++ unfold encs in E; cbn in E. rewrite <- app_assoc in E. exact (enc_nonnil _ _ H1 (eq_sym E)).
           ++ inv A'. inv G'. unfold encs in E; cbn in E. rewrite <- app_assoc in E. apply encode_app_inj in E; try assumption.
              ** destruct E as [-> E]. eapply IH; eassumption.
              ** apply Forall_app. split; [apply (encs_bytes ig); assumption|assumption].
              ** apply (encs_bytes ig'); assumption.
      * assert (Bt : bytes t) by (rewrite Ec' in Hc; apply Forall_app in Hc as [_ Hc]; apply Forall_app in Hc; tauto).
        rewrite Ec in Ec'. revert Ec'. apply no_char; assumption.
  - inv Hn. destruct N as [ig Ec A G|ig u c' Ec A G Au Nu|ig c' Ec A G Nn Nv]; cbn [bindr].
    + change (0 mod 256) with 0. destruct (Z.eqb_spec 0 x); [lia|]. exists true. split; [reflexivity|]. split; [discriminate|].
      intros S. exfalso. apply seen_step in S. destruct S as (ig' & v & c' & Ec' & A' & G' & Av & Nv & _ & _).
      assert (Bt : bytes c') by (rewrite Ec' in Hc; apply Forall_app in Hc as [_ Hc]; apply Forall_app in Hc; tauto).
      rewrite Ec in Ec'. rewrite <- (app_nil_r (encs ig)) in Ec'. revert Ec'. apply no_char; try assumption; [constructor|].
      intros; apply enc_nonnil; assumption.
    + rewrite (Z.mod_small _ 256) by apply gtolower_range.
      assert (Bc' : bytes c') by (rewrite Ec in Hc; apply Forall_app in Hc as [_ Hc]; apply Forall_app in Hc; tauto).
      assert (U : hfs_seen (x :: needle) c -> gtolower u = x /\ hfs_seen needle c').
      { intros S. apply seen_step in S. destruct S as (ig' & v & c2 & Ec' & A' & G' & Av & Nv & Ev & S).
        assert (Bt : bytes c2) by (rewrite Ec' in Hc; apply Forall_app in Hc as [_ Hc]; apply Forall_app in Hc; tauto).
        rewrite Ec in Ec'. apply encs_uniq in Ec'; try assumption. destruct Ec' as [-> ->]. tauto. }
      destruct (Z.eqb_spec (gtolower u) x) as [E|E].
      * destruct (IH c' rest Bc' Hr H2) as (r & -> & R). exists r. split; [reflexivity|]. rewrite R. split; [|tauto].
        intros S. rewrite Ec. apply seen_cons; assumption.
      * exists true. split; [reflexivity|]. split; [discriminate|]. tauto.
    + change (-1 mod 256) with 255. destruct (Z.eqb_spec 255 x); [lia|]. exists true. split; [reflexivity|]. split; [discriminate|].
      intros S. exfalso. apply seen_step in S. destruct S as (ig' & v & c2 & Ec' & A' & G' & Av & Nv' & _ & _).
      assert (Bt : bytes c2) by (rewrite Ec' in Hc; apply Forall_app in Hc as [_ Hc]; apply Forall_app in Hc; tauto).
      assert (Bc' : bytes c') by (rewrite Ec in Hc; apply Forall_app in Hc; tauto).
      rewrite Ec in Ec'. revert Ec'. apply no_char; assumption.
Qed.

Lemma dotgit_hfs_is_needle mem len needle : dotgit_hfs_generic mem len needle = hfs_needle mem len (46 :: needle) \/
  exists c m l, next_hfs_char (S len) mem len = Ok (c, (m, l)) /\ (c mod 256 <> c).
Proof.
  unfold dotgit_hfs_generic. cbn [hfs_needle]. destruct (next_hfs_char (S len) mem len) as [[c [m l]]| | |]; cbn [bindr]; auto.
  destruct (Z.eq_dec (c mod 256) c) as [->|N]; [left; reflexivity|right; eauto 6].
Qed.

Lemma dotgit_hfs_spec s rest len needle : bytes s -> bytes rest -> (len <= length s)%nat -> Forall (fun x => 0 < x < 128) needle ->
  exists r, dotgit_hfs_generic (s ++ rest) len needle = Ok r /\ (r = false <-> hfs_seen (46 :: needle) (firstn len s)).
Proof.
  intros Hs Hr Hl Hn. set (c := firstn len s). assert (Lc : length c = len) by (unfold c; rewrite firstn_length; lia).
  assert (Es : s ++ rest = c ++ (skipn len s ++ rest)) by (rewrite app_assoc; unfold c; rewrite firstn_skipn; reflexivity).
  assert (Bc : bytes c /\ bytes (skipn len s ++ rest)).
  { rewrite <- (firstn_skipn len s) in Hs. apply Forall_app in Hs. destruct Hs. split; [assumption|]. apply Forall_app. split; assumption. }
  rewrite Es. destruct Bc as [Bc Br]. remember (skipn len s ++ rest) as d eqn:Ed. clear Ed. clearbody c. subst len. destruct (hfs_needle_spec (46 :: needle) c _ Bc Br) as (r & E & R). { constructor; [lia|assumption]. }
  exists r. split; [|exact R]. rewrite <- E. unfold dotgit_hfs_generic. cbn [hfs_needle].
  destruct (next_hfs_spec (S (length c)) c _ Bc Br ltac:(lia)) as (q & -> & N); cbn [bindr].
  destruct N as [ig|ig u c'|ig c']; cbn [bindr]; [reflexivity| |reflexivity]. rewrite (Z.mod_small (gtolower u)) by apply gtolower_range. reflexivity.
Qed.

(** A true HFS+ alias is recognised. *)
Lemma alias_seen base c : Forall (fun x => 0 < x < 128) base -> hfs_alias base c -> hfs_seen base c.
Proof.
  intros Hb (us & A & -> & V). exists us, []. split; [exact A|]. split; [rewrite app_nil_r; reflexivity|]. split; [|left; reflexivity].
  induction V; [constructor|inv A; constructor; auto|].
  inv A. inv Hb. assert (Eu : u mod 256 = u). { destruct H2 as [[Hu _] _]. unfold lower1 in H4. destruct ((65 <=? u) && (u <=? 90)) eqn:E; rewrite Z.mod_small; lia. }
  rewrite <- Eu at 2. apply seen_keep; auto.
Qed.

(** *** NTFS names of other git files *)

Lemma ntfs_eof_spec s j : cstr s -> exists b, ntfs_eof (s ++ 0 :: j) = Ok b /\ (b = true <-> ntfs_tail s).
Proof.
  induction 1 as [|c s Hc Hs IH]; cbn [app ntfs_eof].
  - exists true. split; [reflexivity|]. split; [intros _|reflexivity]. exists [], []. repeat split; auto.
  - destruct (Z.eqb_spec c 0); [lia|]. cbn [orb]. destruct (Z.eqb_spec c 58) as [->|N58].
    + exists true. split; [reflexivity|]. split; [intros _|reflexivity]. exists [], (58 :: s). split; [reflexivity|]. split; [constructor|]. right. eauto.
    + destruct IH as (b & E & B).
      assert (K : c = 32 \/ c = 46 -> (ntfs_tail s <-> ntfs_tail (c :: s))).
      { intros K. split.
        - intros (u & v & -> & F & V). exists (c :: u), v. split; [reflexivity|]. split; [|exact V]. constructor; [unfold dot_or_space; lia|exact F].
        - intros ([|x u] & v & Ec & F & V).
          + exfalso. cbn in Ec. subst v. destruct V as [V|[v' V]]; [discriminate|]. injection V as -> _. lia.
          + injection Ec as -> ->. inv F. exists u, v. tauto. }
      destruct (Z.eqb_spec c 32), (Z.eqb_spec c 46); cbn [negb andb];
        try (exists b; split; [exact E|]; rewrite <- K by lia; exact B).
      exists false. split; [reflexivity|]. split; [discriminate|]. intros ([|x u] & v & Ec & F & V); exfalso.
      * cbn in Ec. subst v. destruct V as [V|[v' V]]; [discriminate|]. injection V as -> _. lia.
      * injection Ec as -> ->. inv F. unfold dot_or_space in H1. lia.
Qed.

Lemma lower1_small c : lower1 c = 126 -> c = 126.
Proof. unfold lower1. destruct ((65 <=? c) && (c <=? 90)) eqn:E; lia. Qed.
Lemma lower1_digit c : 48 <= lower1 c <= 57 <-> 48 <= c <= 57.
Proof. unfold lower1. destruct ((65 <=? c) && (c <=? 90)) eqn:E; lia. Qed.
Lemma lower1_id c : 48 <= c <= 57 -> lower1 c = c.
Proof. unfold lower1. destruct ((65 <=? c) && (c <=? 90)) eqn:E; lia. Qed.

(** The counter digits. *)
Lemma fallback_digits pfix j n : forall s i, cstr s ->
  exists r, ntfs_fallback (s ++ 0 :: j) i n true pfix = Ok r /\
    (r = false <-> exists b t, s = b ++ t /\ length b = n /\ Forall digit b /\ ntfs_tail t).
Proof.
  induction n as [|n IH]; intros s i Hs; cbn [ntfs_fallback].
  - destruct (ntfs_eof_spec s j Hs) as (e & -> & E). cbn [bindr]. exists (negb e). split; [reflexivity|].
    rewrite negb_false_iff, E. split.
    + intros T. exists [], s. repeat split; auto.
    + intros (b & t & -> & Lb & _ & T). destruct b; [exact T|discriminate].
  - destruct Hs as [|c s Hc Hs]; cbn [app].
    + change (0 =? 0) with true. cbn iota. exists true. split; [reflexivity|]. split; [discriminate|].
      intros (b & t & Eb & Lb & _). destruct b; discriminate.
    + destruct (Z.eqb_spec c 0); [lia|]. destruct ((c <? 48) || (57 <? c)) eqn:D.
      * exists true. split; [reflexivity|]. split; [discriminate|]. intros (b & t & Eb & Lb & Fb & _). destruct b; [discriminate|].
        injection Eb as <- ->. inv Fb. unfold digit in H1. lia.
      * destruct (IH s (S i) Hs) as (r & -> & R). exists r. split; [reflexivity|]. rewrite R. split.
        -- intros (b & t & -> & Lb & Fb & T). exists (c :: b), t. cbn. repeat split; auto. constructor; [unfold digit; lia|exact Fb].
        -- intros (b & t & Eb & Lb & Fb & T). destruct b as [|x b]; [discriminate|]. injection Eb as <- ->. inv Fb.
           exists b, t. cbn in Lb. repeat split; auto.
Qed.

(** A hashed short name from position [i] on. *)
Definition short_from (i n : nat) (hash s : list Z) : Prop :=
  exists b t, s = b ++ t /\ ntfs_tail t /\ length b = n /\
    exists k d ds, (i + k <= 6)%nat /\ 49 <= d <= 57 /\ Forall digit ds /\ lower b = firstn k (skipn i hash) ++ 126 :: d :: ds.

Lemma skipn_cons i (h : list Z) : (i < length h)%nat -> skipn i h = nth i h 0 :: skipn (S i) h.
Proof.
  revert h. induction i as [|i IH]; intros [|x h] H; cbn in *; try lia; [reflexivity|]. apply IH. lia.
Qed.

Lemma lower_cons_inv b x l : lower b = x :: l -> exists y b', b = y :: b' /\ lower1 y = x /\ lower b' = l.
Proof. destruct b as [|y b]; [discriminate|]. intros E. injection E as E1 E2. exists y, b. auto. Qed.

Lemma lower_digits b l : Forall digit l -> lower b = l -> b = l.
Proof.
  revert l. induction b as [|x b IH]; intros l F E; cbn in E; [assumption|]. subst l. inv F.
  assert (Hx := proj1 (lower1_digit x) H1). rewrite lower1_id by exact Hx. f_equal. apply IH; [assumption|reflexivity].
Qed.
Lemma digits_lower l : Forall digit l -> lower l = l.
Proof. induction 1 as [|x l Hx _ IH]; cbn; [reflexivity|]. rewrite lower1_id by exact Hx. f_equal. exact IH. Qed.

Lemma fallback_spec hash j : length hash = 6%nat -> Forall (fun h => 0 < h <= 127 /\ h <> 126) hash ->
  forall n i s, (i + n = 8)%nat -> (i <= 6)%nat -> cstr s ->
  exists r, ntfs_fallback (s ++ 0 :: j) i n false hash = Ok r /\ (r = false <-> short_from i n hash s).
Proof.
  intros Lh Hh. induction n as [|n IH]; intros i s Hi Hi6 Hs; [lia|]. cbn [ntfs_fallback].
  destruct Hs as [|c s Hc Hs]; cbn [app].
  - change (0 =? 0) with true. cbn iota. exists true. split; [reflexivity|]. split; [discriminate|].
    intros (b & t & Eb & _ & Lb & _). destruct b; discriminate.
  - destruct (Z.eqb_spec c 0); [lia|]. destruct (Z.eqb_spec c 126) as [->|N].
    + rewrite rd_str' by lia. cbn [bindr]. set (d := nth 0 s 0).
      assert (Dn : forall k d' ds b', 49 <= d' <= 57 -> lower (126 :: b') = firstn k (skipn i hash) ++ 126 :: d' :: ds -> k = O \/ skipn i hash = []).
      { intros k d' ds b' Hd E. destruct k as [|k]; [left; reflexivity|]. right. destruct (skipn i hash) as [|h hs] eqn:Eh; [reflexivity|].
        cbn in E. injection E as E _. assert (Hin : In h hash) by (rewrite <- (firstn_skipn i hash), Eh; apply in_or_app; right; left; reflexivity).
        rewrite Forall_forall in Hh. apply Hh in Hin. change (lower1 126) with 126 in E. lia. }
      destruct ((d <? 49) || (57 <? d)) eqn:D.
      * exists true. split; [reflexivity|]. split; [discriminate|]. intros (b & t & Eb & _ & Lb & k & d' & ds & Hk & Hd & Fd & El). exfalso.
        destruct b as [|x b]; [discriminate|]. injection Eb as <- Es. 
        assert (E0 : firstn k (skipn i hash) = []). { destruct (Dn k d' ds b Hd El) as [->| ->]; [reflexivity|apply firstn_nil]. }
        rewrite E0 in El. cbn in El. injection El as El. apply lower_cons_inv in El. destruct El as (y & b' & -> & Ey & _).
        cbn in Es. subst s. unfold d in D. cbn in D. assert (49 <= y <= 57). { rewrite <- Ey in Hd. unfold lower1 in Hd. destruct ((65 <=? y) && (y <=? 90)) eqn:X; lia. }
        lia.
      * destruct (fallback_digits hash j n s (S i) Hs) as (r & -> & R). exists r. split; [reflexivity|]. rewrite R. split.
        -- intros (b & t & -> & Lb & Fb & T). exists (126 :: b), t. split; [reflexivity|]. split; [exact T|]. split; [cbn; lia|].
           destruct b as [|y b]; [cbn in Lb; lia|]. exists O, y, b. split; [lia|]. unfold d in D; cbn in D. split; [lia|]. inv Fb.
           split; [assumption|]. cbn [firstn app]. change (lower (126 :: y :: b)) with (126 :: lower (y :: b)).
           rewrite digits_lower by (constructor; assumption). reflexivity.
        -- intros (b & t & Eb & T & Lb & k & d' & ds & Hk & Hd & Fd & El).
           destruct b as [|x b]; [discriminate|]. injection Eb as <- Es.
           assert (E0 : firstn k (skipn i hash) = []). { destruct (Dn k d' ds b Hd El) as [->| ->]; [reflexivity|apply firstn_nil]. }
           rewrite E0 in El. cbn [app lower map] in El. injection El as El. exists b, t. split; [exact Es|]. cbn in Lb. split; [lia|]. split; [|exact T].
           assert (Fl : Forall digit (d' :: ds)) by (constructor; [unfold digit; lia|assumption]). rewrite (lower_digits b _ Fl El). exact Fl.
    + assert (NK : forall k d' ds b t, c :: s = b ++ t -> lower b = firstn k (skipn i hash) ++ 126 :: d' :: ds ->
               exists k' hs b', k = S k' /\ skipn i hash = lower1 c :: hs /\ b = c :: b' /\ s = b' ++ t /\ lower b' = firstn k' hs ++ 126 :: d' :: ds).
      { intros k d' ds b t Eb El. destruct k as [|k].
        - exfalso. cbn [firstn app] in El. apply lower_cons_inv in El. destruct El as (y & b' & -> & Ey & _). apply lower1_small in Ey. injection Eb as -> _. lia.
        - destruct (skipn i hash) as [|h hs].
          + exfalso. cbn [firstn app] in El. apply lower_cons_inv in El. destruct El as (y & b' & -> & Ey & _). apply lower1_small in Ey. injection Eb as -> _. lia.
          + cbn [firstn app] in El. apply lower_cons_inv in El. destruct El as (y & b' & -> & Ey & El). injection Eb as <- Es. subst h.
            exists k, hs, b'. auto. }
      destruct (Nat.leb_spec 6 i).
      * exists true. split; [reflexivity|]. split; [discriminate|]. intros (b & t & Eb & _ & Lb & k & d' & ds & Hk & Hd & Fd & El).
        destruct (NK k d' ds b t Eb El) as (k' & hs & b' & -> & _). lia.
      * assert (Eh := skipn_cons i hash ltac:(lia)).
        assert (Hin : In (nth i hash 0) hash) by (apply nth_In; lia). rewrite Forall_forall in Hh. apply Hh in Hin.
        assert (Hp : rd hash i = Ok (nth i hash 0)). { unfold rd. rewrite (nth_error_nth' hash 0) by lia. reflexivity. }
        assert (Bad : nth i hash 0 <> lower1 c -> ~ short_from i (S n) hash (c :: s)).
        { intros Nq (b & t & Eb & _ & Lb & k & d' & ds & Hk & Hd & Fd & El).
          destruct (NK k d' ds b t Eb El) as (k' & hs & b' & -> & Ek & _). rewrite Eh in Ek. injection Ek as Ek _. contradiction. }
        destruct (Z.ltb_spec 127 c).
        -- exists true. split; [reflexivity|]. split; [discriminate|]. intros X. exfalso. revert X. apply Bad. unfold lower1.
           destruct ((65 <=? c) && (c <=? 90)) eqn:X; lia.
        -- rewrite Hp. cbn [bindr]. rewrite gtolower_byte by lia. destruct (Z.eqb_spec (lower1 c) (nth i hash 0)) as [E|E].
           ++ destruct (IH (S i) s ltac:(lia) ltac:(lia) Hs) as (r & -> & R). exists r. split; [reflexivity|]. rewrite R. split.
              ** intros (b & t & -> & T & Lb & k & d' & ds & Hk & Hd & Fd & El). exists (c :: b), t. split; [reflexivity|]. split; [exact T|]. split; [cbn; lia|].
                 exists (S k), d', ds. split; [lia|]. split; [lia|]. split; [assumption|]. rewrite Eh, <- E. cbn [firstn app lower map]. f_equal. exact El.
              ** intros (b & t & Eb & T & Lb & k & d' & ds & Hk & Hd & Fd & El).
                 destruct (NK k d' ds b t Eb El) as (k' & hs & b' & -> & Ek & -> & -> & El'). rewrite Eh in Ek. injection Ek as _ <-.
                 exists b', t. split; [reflexivity|]. split; [exact T|]. cbn in Lb. split; [lia|]. exists k', d', ds. split; [lia|]. split; [lia|]. split; assumption.
           ++ exists true. split; [reflexivity|]. split; [discriminate|]. intros X. exfalso. revert X. apply Bad. congruence.
Qed.

Definition good_gitfile (file hash : list Z) : Prop :=
  (6 <= length file)%nat /\ length hash = 6%nat /\
  Forall (fun h => 0 < h <= 127 /\ h <> 126) hash /\ Forall (fun h => 96 < h < 123) file /\ nth 0 hash 0 <> 46.
Lemma good_gitfiles : Forall (fun p => good_gitfile (fst p) (snd p)) gitfiles.
Proof. repeat constructor; cbn; try lia; discriminate. Qed.

Lemma lower_letters f : Forall (fun h => 96 < h < 123) f -> lower f = f.
Proof. induction 1 as [|x l Hx _ IH]; cbn; [reflexivity|]. f_equal; [|exact IH]. unfold lower1. destruct ((65 <=? x) && (x <=? 90)) eqn:X; lia. Qed.
Lemma letters_lower0 f : Forall (fun h => 96 < h < 123) f -> Forall (fun c => lower1 c <> 0) f.
Proof. apply Forall_impl. intros a H. unfold lower1. destruct ((65 <=? a) && (a <=? 90)) eqn:X; lia. Qed.

Lemma firstn_len_app (b t : list Z) n : length b = n -> firstn n (b ++ t) = b /\ skipn n (b ++ t) = t.
Proof.
  intros <-. split; [rewrite firstn_app, Nat.sub_diag; cbn; rewrite app_nil_r; apply firstn_all|].
  rewrite skipn_app, skipn_all, Nat.sub_diag. reflexivity.
Qed.
Lemma prefix_lower_length n (s l : list Z) : lower (firstn n s) = l -> length l = n -> (n <= length s)%nat.
Proof. intros E L. assert (length (firstn n s) = n) by (rewrite <- (lower_length (firstn n s)), E; exact L). rewrite firstn_length in H. lia. Qed.

Lemma dotgit_ntfs_generic_spec s j len file hash : cstr s -> at_component s len -> good_gitfile file hash ->
  exists r, dotgit_ntfs_generic (s ++ 0 :: j) len file hash = Ok r /\ (r = false <-> ntfs_gitfile file hash s).
Proof.
  intros Hs (Hl & Hslash & Hnext) (Lf & Lh & Hh & Hf & H0). assert (Lwf := lower_letters file Hf). assert (Zf := letters_lower0 file Hf).
  unfold dotgit_ntfs_generic. rewrite rd_str' by lia. cbn [bindr]. set (c0 := nth 0 s 0).
  (* the long name *)
  assert (Long : exists r, (if (c0 =? 46) && (length file <=? len)%nat then ncase_eq (skipn 1 (s ++ 0 :: j)) file (length file) else Ok false) = Ok r /\
            (r = true <-> lower (firstn (S (length file)) s) = 46 :: file)).
  { destruct (Z.eqb_spec c0 46) as [E0|E0]; cbn [andb].
    - destruct s as [|x s']; [cbn in E0; discriminate|]. unfold c0 in E0; cbn in E0. subst x. inversion Hs as [|? ? _ Hs']; subst.
      destruct (Nat.leb_spec (length file) len) as [H1|H1].
      + cbn [app skipn]. destruct (ncase_eq_spec s' j Hs' file (length file) ltac:(lia) Zf) as (r & -> & R). exists r. split; [reflexivity|].
        rewrite R. rewrite firstn_all, Lwf. cbn [firstn lower map]. change (lower1 46) with 46. split; [intros E; f_equal; exact E|].
        intros E. injection E as E. exact E.
      + exists false. split; [reflexivity|]. split; [discriminate|]. intros E. exfalso.
        assert (Le := prefix_lower_length _ _ _ E eq_refl).
        (* the byte after the component is '/' or NUL, but the name has letters there *)
        cbn [firstn lower map] in E. injection E as E.
        assert (Hin : In (lower1 (nth len (46 :: s') 0)) (46 :: file)).
        { destruct len as [|len]; [left; reflexivity|]. right. rewrite <- E. cbn [nth]. apply (in_map lower1).
          rewrite <- (firstn_skipn (length file) s'), app_nth1 at 1; [|rewrite firstn_length; cbn in Le; lia]. apply nth_In. rewrite firstn_length. cbn in Le. lia. }
        destruct Hin as [X|X].
        * destruct Hnext as [Y|Y]; rewrite Y in X; discriminate.
        * rewrite Forall_forall in Hf. apply Hf in X. destruct Hnext as [Y|Y]; rewrite Y in X; cbn in X; lia.
    - exists false. split; [reflexivity|]. split; [discriminate|]. intros E. destruct s as [|x s']; [discriminate|]. cbn [firstn lower map] in E. injection E as E _.
      exfalso. apply E0. unfold c0; cbn. unfold lower1 in E. destruct ((65 <=? x) && (x <=? 90)) eqn:X; lia. }
  destruct Long as (long & -> & LONG). cbn [bindr].
  assert (Short8 : forall b t, s = b ++ t -> length b = 8%nat -> b = firstn 8 s /\ t = skipn 8 s).
  { intros b t -> Lb. destruct (firstn_len_app b t 8 Lb) as [-> ->]. auto. }
  assert (L6 : length (firstn 6 file) = 6%nat) by (rewrite firstn_length; lia).
  destruct long.
  { assert (E := proj1 LONG eq_refl). assert (Le := prefix_lower_length _ _ _ E eq_refl).
    rewrite skipn_str by lia. destruct (ntfs_eof_spec (skipn (length file + 1) s) j (cstr_skipn _ _ Hs)) as (e & -> & EE). cbn [bindr].
    exists (negb e). split; [reflexivity|]. rewrite negb_false_iff, EE. split.
    - intros T. exists (firstn (S (length file)) s), (skipn (length file + 1) s).
      split; [rewrite Nat.add_1_r; symmetry; apply firstn_skipn|]. split; [exact T|]. left. exact E.
    - intros (b & t & Es & T & [El|[(d & Hd & El)|(k & d & ds & Hk & Hd & Fd & El & Lb)]]).
      + assert (Lb : length b = S (length file)) by (rewrite <- (lower_length b), El; reflexivity). rewrite Es, Nat.add_1_r.
        rewrite (proj2 (firstn_len_app b t _ Lb)). exact T.
      + exfalso. destruct file as [|f0 file']; [cbn in Lf; lia|]. cbn [firstn app] in El. apply lower_cons_inv in El. destruct El as (y & b' & -> & Ey & _).
        rewrite Es in E. cbn [app firstn lower map] in E. injection E as E _. inv Hf. lia.
      + exfalso. destruct hash as [|h0 hash']; [discriminate|]. destruct k as [|k]; cbn [firstn app] in El; apply lower_cons_inv in El; destruct El as (y & b' & -> & Ey & _);
          rewrite Es in E; cbn [app firstn lower map] in E; injection E as E _; cbn in H0; lia. }
  assert (NLong : lower (firstn (S (length file)) s) <> 46 :: file) by (intros E; apply LONG in E; discriminate). clear LONG.
  assert (NL : forall b t, s = b ++ t -> lower b <> 46 :: file).
  { intros b t Es El. apply NLong. assert (Lb : length b = S (length file)) by (rewrite <- (lower_length b), El; reflexivity).
    rewrite Es, (proj1 (firstn_len_app b t _ Lb)). exact El. }
  destruct (ncase_eq_spec s j Hs file 6 Lf Zf) as (short & -> & SH). cbn [bindr].
  assert (Lw6 : lower (firstn 6 file) = firstn 6 file) by (rewrite lower_firstn, Lwf; reflexivity). rewrite Lw6 in SH.
  assert (Basic : exists r, (if short then do t <- rd (s ++ 0 :: j) 6 ;; (if t =? 126 then do d <- rd (s ++ 0 :: j) 7 ;; Ok ((49 <=? d) && (d <=? 52)) else Ok false) else Ok false) = Ok r /\
            (r = true <-> exists d, 49 <= d <= 52 /\ lower (firstn 8 s) = firstn 6 file ++ [126; d])).
  { assert (Inv : forall d, lower (firstn 8 s) = firstn 6 file ++ [126; d] -> lower (firstn 6 s) = firstn 6 file /\ lower1 (nth 6 s 0) = 126 /\ lower1 (nth 7 s 0) = d).
    { intros d E. assert (Le : (8 <= length s)%nat). { eapply prefix_lower_length; [exact E|]. rewrite app_length, L6. reflexivity. }
      split.
      - transitivity (firstn 6 (lower (firstn 8 s))); [rewrite <- lower_firstn, firstn_firstn; reflexivity|]. rewrite E, firstn_app, L6, firstn_all2 by lia. cbn. apply app_nil_r.
      - assert (X : forall i, (i < 8)%nat -> lower1 (nth i s 0) = nth i (lower (firstn 8 s)) 0).
        { intros i Hi. change 0 with (lower1 0) at 2. unfold lower. rewrite map_nth. f_equal.
          rewrite <- (firstn_skipn 8 s) at 1. apply app_nth1. rewrite firstn_length. lia. }
        rewrite !X, E by lia. rewrite !app_nth2, L6 by lia. split; reflexivity. }
    destruct short.
    - assert (E := proj1 SH eq_refl). assert (Le := prefix_lower_length _ _ _ E L6). rewrite rd_str' by lia. cbn [bindr].
      destruct (Z.eqb_spec (nth 6 s 0) 126) as [E6|E6].
      + assert (Le7 : (7 <= length s)%nat). { destruct (Nat.eq_dec (length s) 6) as [X|]; [|lia]. rewrite nth_overflow in E6 by lia. discriminate. }
        rewrite rd_str' by lia. cbn [bindr]. eexists. split; [reflexivity|]. split.
        * intros D. assert (Le8 : (8 <= length s)%nat). { destruct (Nat.eq_dec (length s) 7) as [X|]; [|lia]. rewrite nth_overflow in D by lia. discriminate. }
          exists (nth 7 s 0). split; [lia|].
          assert (Es : firstn 8 s = firstn 6 s ++ [nth 6 s 0; nth 7 s 0]).
          { clear -Le8. do 8 (destruct s as [|? s]; [cbn in Le8; lia|]). reflexivity. }
          rewrite Es, lower_app. f_equal; [exact E|]. cbn [lower map]. rewrite E6. rewrite (lower1_id (nth 7 s 0)) by lia. reflexivity.
        * intros (d & Hd & Ed). destruct (Inv d Ed) as (_ & _ & E7). assert (Hd' := proj1 (lower1_digit (nth 7 s 0)) ltac:(lia)).
          rewrite lower1_id in E7 by exact Hd'. lia.
      + exists false. split; [reflexivity|]. split; [discriminate|]. intros (d & Hd & Ed). destruct (Inv d Ed) as (_ & X & _). apply lower1_small in X. contradiction.
    - exists false. split; [reflexivity|]. split; [discriminate|]. intros (d & Hd & Ed). destruct (Inv d Ed) as (X & _). apply SH in X. discriminate. }
  destruct Basic as (basic & -> & BASIC). cbn [bindr]. destruct basic.
  - destruct (proj1 BASIC eq_refl) as (d & Hd & E).
    assert (Le : (8 <= length s)%nat). { eapply prefix_lower_length; [exact E|]. rewrite app_length, L6. reflexivity. }
    rewrite skipn_str by lia. destruct (ntfs_eof_spec (skipn 8 s) j (cstr_skipn _ _ Hs)) as (e & -> & EE). cbn [bindr].
    exists (negb e). split; [reflexivity|]. rewrite negb_false_iff, EE. split.
    + intros T. exists (firstn 8 s), (skipn 8 s). split; [symmetry; apply firstn_skipn|]. split; [exact T|]. right. left. exists d. auto.
    + intros (b & t & Es & T & [El|[(d2 & Hd2 & El)|(k & d2 & ds & Hk & Hd2 & Fd & El & Lb)]]).
      * exfalso. exact (NL b t Es El).
      * assert (Lb : length b = 8%nat) by (rewrite <- (lower_length b), El, app_length, L6; reflexivity). destruct (Short8 b t Es Lb) as [_ <-]. exact T.
      * destruct (Short8 b t Es Lb) as [_ <-]. exact T.
  - destruct (fallback_spec hash j Lh Hh 8 0 s eq_refl ltac:(lia) Hs) as (r & -> & R). exists r. split; [reflexivity|]. rewrite R. split.
    + intros (b & t & Es & T & Lb & k & d & ds & Hk & Hd & Fd & El). exists b, t. split; [exact Es|]. split; [exact T|]. right. right. exists k, d, ds. auto.
    + intros (b & t & Es & T & [El|[(d2 & Hd2 & El)|(k & d2 & ds & Hk & Hd2 & Fd & El & Lb)]]).
      * exfalso. exact (NL b t Es El).
      * exfalso. assert (Lb : length b = 8%nat) by (rewrite <- (lower_length b), El, app_length, L6; reflexivity). destruct (Short8 b t Es Lb) as [-> _].
        assert (X : false = true) by (apply BASIC; exists d2; auto). discriminate.
      * exists b, t. split; [exact Es|]. split; [exact T|]. split; [exact Lb|]. exists k, d2, ds. auto.
Qed.
