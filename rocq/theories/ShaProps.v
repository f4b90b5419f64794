(** C34: hashing in pieces; C46: hashing in several threads. *)
From Verif Require Import Base Str ShaModel ShaSpec ShaProofs ShaMain.
Local Open Scope Z_scope.

(** SHA-1 with any block function (collision detection included), any splitting, any length. *)
Theorem C34_sha1_in_pieces : forall (S : Type) (process : S -> list Z -> S) unaligned iv garbage chunks, length garbage = 64%nat ->
  sha1_final process unaligned (fold_left (sha1_update process unaligned) chunks (sha1_init iv garbage)) = digest process iv (concat chunks).
Proof.
  intros S process un iv g chunks Lg. apply final_spec.
  assert (G : forall chunks m c, holds process iv m c -> holds process iv (m ++ concat chunks) (fold_left (sha1_update process un) chunks c)).
  { clear. induction chunks as [|d r IH]; intros m c H; cbn; [now rewrite app_nil_r|]. rewrite app_assoc. apply IH. now apply holds_update. }
  apply (G chunks [] _ (holds_init process iv g Lg)).
Qed.
(** Two ways to split the same bytes give the same digest. *)
Theorem C34_sha1_split_irrelevant : forall (S : Type) (process : S -> list Z -> S) unaligned iv garbage garbage' chunks chunks', length garbage = 64%nat -> length garbage' = 64%nat -> concat chunks = concat chunks' ->
  sha1_final process unaligned (fold_left (sha1_update process unaligned) chunks (sha1_init iv garbage)) =
  sha1_final process unaligned (fold_left (sha1_update process unaligned) chunks' (sha1_init iv garbage')).
Proof. intros S process un iv g g' chunks chunks' L L' E. rewrite !C34_sha1_in_pieces by auto. now rewrite E. Qed.

(** git_hash_vec, hash.c:117-143: one update for each piece, then the result. *)
Fixpoint sha256_updates (c : sha256) (chunks : list (list Z)) : res sha256 :=
  match chunks with [] => Ok c | d :: r => do c <- sha256_update compress256 (length d) c d ;; sha256_updates c r end.
Lemma round_len s kw : length s = 8%nat -> length (round256 s kw) = 8%nat.
Proof. intros L. do 9 (destruct s as [|? s]; try discriminate). reflexivity. Qed.
Lemma rounds_len kws : forall s, length s = 8%nat -> length (fold_left round256 kws s) = 8%nat.
Proof. induction kws as [|k r IH]; intros s L; cbn; auto. apply IH. now apply round_len. Qed.
Lemma compress_len h b : length h = 8%nat -> length (compress256 h b) = 8%nat.
Proof. intros L. unfold compress256. rewrite map_length, combine_length, L, rounds_len by auto. reflexivity. Qed.
Lemma digest_len bs : forall h, length h = 8%nat -> length (fold_left compress256 bs h) = 8%nat.
Proof. induction bs as [|b r IH]; intros h L; cbn; auto. apply IH. now apply compress_len. Qed.
Lemma output_bytes h : length h = 8%nat -> map (fun i => u8 (Z.shiftr (nth (Nat.div i 4) h 0) (8 * (3 - Z.of_nat (Nat.modulo i 4))))) (seq 0 32) = flat_map be32 h.
Proof.
  intros L. do 9 (destruct h as [|? h]; try discriminate). cbn [seq map flat_map app Nat.div Nat.modulo Nat.divmod fst snd nth Nat.sub be32]. 
  assert (B : forall n k, 0 <= k -> u8 (Z.shiftr n k) = (n / 2 ^ k) mod 256) by (intros n k Hk; pose proof (bytes_be n [k] ltac:(repeat constructor; auto)) as Q; cbn [map] in Q; congruence).
  rewrite !B by lia. reflexivity.
Qed.
Lemma result_ok m c : holds2 compress256 H256 m c -> size m < 2 ^ 61 -> sha256_result compress256 c = Ok (flat_map be32 (digest compress256 H256 m)).
Proof.
  intros H L. unfold sha256_result. pose proof (result_spec compress256 H256 m c H L) as R. destruct H as (B & Hl & Hh & He & Hc & Hx). rewrite Hc, Hx, R. f_equal. apply output_bytes. apply digest_len. reflexivity.
Qed.
(** SHA-256 as the standard defines it, for messages of fewer than 2^61 bytes in any pieces. *)
Theorem C34_sha256_in_pieces : forall garbage chunks, length garbage = 64%nat -> size (concat chunks) < 2 ^ 61 ->
  (do c <- sha256_updates (sha256_init H256 garbage) chunks ;; sha256_result compress256 c) = Ok (flat_map be32 (digest compress256 H256 (concat chunks))).
Proof.
  intros g chunks Lg. pose proof (holds2_init compress256 H256 g Lg) as H. change (concat chunks) with ([] ++ concat chunks). revert H. generalize (sha256_init H256 g) (@nil Z).
  induction chunks as [|d r IH]; intros c m H L; cbn [sha256_updates concat bindr].
  - rewrite app_nil_r in *. now apply result_ok.
  - cbn [concat] in L. rewrite app_assoc in *. assert (L1 : size (m ++ d) < 2 ^ 61) by (unfold size in *; rewrite app_length in L; lia).
    destruct (update_holds compress256 H256 (length d) m c d ltac:(lia) H L1) as (c' & -> & H'). cbn [bindr]. now apply IH.
Qed.
(** The standard's example, and a message of more than one block in three pieces. *)
Example ex_abc : (do c <- sha256_updates (sha256_init H256 (repeat 7 64)) [bs "a"; []; bs "bc"] ;; sha256_result compress256 c) =
  Ok [186; 120; 22; 191; 143; 1; 207; 234; 65; 65; 64; 222; 93; 174; 34; 35; 176; 3; 97; 163; 150; 23; 122; 156; 180; 16; 255; 97; 242; 0; 21; 173].
Proof. vm_compute. reflexivity. Qed.
Example ex_long : (do c <- sha256_updates (sha256_init H256 (repeat 7 64)) [repeat 97 63; repeat 97 2; repeat 97 55] ;; sha256_result compress256 c) =
  Ok (flat_map be32 (digest compress256 H256 (repeat 97 120))).
Proof. vm_compute. reflexivity. Qed.
Example ex_sha1 : sha1_final compress256 true (fold_left (sha1_update compress256 true) [repeat 97 63; repeat 97 2; repeat 97 55] (sha1_init H256 (repeat 7 64))) = digest compress256 H256 (repeat 97 120).
Proof. vm_compute. reflexivity. Qed.

(** ** Threads *)
(** If the two steps of a byte are never separated, each thread gets its digest. *)
Theorem C46_unbroken_bytes_partial : forall turns temp d1 d2 g1 g2 temp' a b, length g1 = 64%nat -> length g2 = 64%nat -> size d1 < 2 ^ 61 -> size d2 < 2 ^ 61 ->
  run_threads compress256 (flat_map (fun x => [x; x]) turns) temp (mkthread (sha256_init H256 g1) d1 false) (mkthread (sha256_init H256 g2) d2 false) = (temp', a, b) ->
  (t_data a = [] -> sha256_result compress256 (t_ctx a) = Ok (flat_map be32 (digest compress256 H256 d1))) /\
  (t_data b = [] -> sha256_result compress256 (t_ctx b) = Ok (flat_map be32 (digest compress256 H256 d2))).
Proof.
  intros turns temp d1 d2 g1 g2 temp' a b L1 L2 S1 S2.
  set (good := fun d (t : thread) => t_mid t = false /\ exists m, d = m ++ t_data t /\ holds2 compress256 H256 m (t_ctx t)).
  assert (St : forall d t temp, size d < 2 ^ 61 -> good d t -> let '(temp1, t1) := thread_step compress256 temp t in let '(temp2, t2) := thread_step compress256 temp1 t1 in good d t2).
  { clear. intros d t temp L (M & m & -> & H). unfold thread_step at 1. rewrite M. destruct (t_data t) as [|x r] eqn:D.
    - unfold thread_step. rewrite M, D. split; auto. exists m. rewrite D. auto.
    - unfold thread_step. cbn [t_mid t_ctx t_data]. split; [reflexivity|]. cbn [t_data t_ctx]. exists (m ++ [x]). split; [now rewrite <- app_assoc|].
      replace (m ++ x :: r) with ((m ++ [x]) ++ r) in L by (now rewrite <- app_assoc).
      assert (L1 : size (m ++ [x]) < 2 ^ 61) by (unfold size in *; rewrite (app_length (m ++ [x])) in L; lia).
      destruct (input_holds compress256 H256 [x] m (t_ctx t) H L1) as (c' & I' & H'). cbn [input_loop] in I'. destruct (64 <=? idx (t_ctx t))%nat; [discriminate|]. assert (E : forall u v : sha256, Ok u = Ok v -> u = v) by (intros; congruence). apply E in I'. rewrite <- I' in H'. exact H'. }
  assert (G : forall turns temp a0 b0, good d1 a0 -> good d2 b0 -> run_threads compress256 (flat_map (fun x => [x; x]) turns) temp a0 b0 = (temp', a, b) -> good d1 a /\ good d2 b).
  { induction turns0 as [|[|] r IH]; intros t0 a0 b0 Ga Gb R; cbn [flat_map app run_threads] in R.
    - assert (a0 = a /\ b0 = b) as [<- <-] by (split; congruence). auto.
    - pose proof (St d1 a0 t0 S1 Ga) as Q. destruct (thread_step compress256 t0 a0) as [t1 a1]. destruct (thread_step compress256 t1 a1) as [t2 a2]. eapply IH; eauto.
    - pose proof (St d2 b0 t0 S2 Gb) as Q. destruct (thread_step compress256 t0 b0) as [t1 a1]. destruct (thread_step compress256 t1 a1) as [t2 a2]. eapply IH; eauto. }
  intros R. assert (Gi : forall d g, length g = 64%nat -> good d (mkthread (sha256_init H256 g) d false)) by (intros d g Lg; split; [reflexivity|]; exists []; split; [reflexivity|now apply holds2_init]).
  destruct (G turns temp _ _ (Gi d1 g1 L1) (Gi d2 g2 L2) R) as [(_ & m1 & E1 & H1) (_ & m2 & E2 & H2)].
  split; intros Z0; rewrite Z0, app_nil_r in *; subst; apply result_ok; auto.
Qed.
(** Otherwise it may not: one thread hashes "a" while another hashes "abc", and the first gets a wrong digest. *)
Theorem C46_threads_refuted : exists sched a b temp, run_threads compress256 sched 0 (mkthread (sha256_init H256 (repeat 0 64)) (bs "a") false) (mkthread (sha256_init H256 (repeat 0 64)) (bs "abc") false) = (temp, a, b) /\
  t_data a = [] /\ t_mid a = false /\ t_data b = [] /\ t_mid b = false /\ sha256_result compress256 (t_ctx a) <> Ok (flat_map be32 (digest compress256 H256 (bs "a"))).
Proof.
  exists [false; false; false; false; true; false; true; false]. eexists. eexists. eexists. split; [vm_compute; reflexivity|]. repeat (split; [reflexivity|]). vm_compute. discriminate.
Qed.
