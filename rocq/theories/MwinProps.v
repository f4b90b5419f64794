From Coq Require Import Permutation.
From Verif Require Import Base ShortenProofs ReflogProofs MwinModel MwinSpec MwinProofs MwinMain MwinStep.

Lemma reached_inv n c : reached n c -> Z.of_nat n < 2 ^ 64 -> inv n c.
Proof.
  induction 1 as [|n c o a c' R IH P E]; intros Hn.
  - split; cbn; try contradiction; try (constructor; fail); try lia; auto; intros [|]; discriminate.
  - specialize (IH ltac:(lia)). destruct (mstep_ok n c o IH Hn P) as (a' & c'' & E' & J & _). rewrite E in E'. apply Ok_inj in E'. congruence.
Qed.

(** C62.  In every state reached by proper calls, whatever the order in which the threads' calls come, a
    proper call does not touch a freed window or divide by zero, and it returns.  An address that is handed
    out lies in a window of that file which maps the offset asked for, within the file, which the cursor
    then points to; the bytes left of it are reported (modulo 2^32) and are at least the bytes asked for,
    when these are no more than half a window and the file has them.  NULL is returned only when mmap
    failed twice.  The window another cursor points to goes on being mapped at the same place of the same
    file.  All windows of a file are freed, unless somebody holds one.
    Missing: mmap failing twice while the cursor points to a window, see [C62_failed_mmap_refuted]. *)
Theorem C62_windows_safe_partial c o : reachable c -> proper c o -> exists a c', mstep c o = Ok (a, c') /\
  match o, a with
  | MOpen f cu offset extra mm, AAddr id d l => exists s w, fsize c' f s /\ mapped c' f w /\ w_id w = id /\ holds c' cu id /\
       w_off w + d = offset /\ 0 <= w_off w /\ 0 <= d < w_len w /\ w_off w + w_len w <= s /\ l = (w_len w - d) mod 2 ^ 32 /\ (extra <= c_wsize c' / 2 -> offset + extra <= s -> w_len w < 2 ^ 32 -> extra <= l)
  | MOpen f cu offset extra mm, ANull => mm = (false, false)
  | MOpen _ _ _ _ _, _ => False
  | MClose cu, _ => forall id, ~ holds c' cu id
  | MFreeAll f, ACode e => (e = 0 /\ forall w, ~ mapped c' f w) \/ (e = -1 /\ exists w cu, mapped c f w /\ holds c cu (w_id w))
  | MFreeAll _, _ => False
  | _, _ => True
  end /\
  forall cu f w, holds c cu (w_id w) -> mapped c f w -> ~ about o cu ->
    holds c' cu (w_id w) /\ exists w', mapped c' f w' /\ w_id w' = w_id w /\ w_off w' = w_off w /\ w_len w' = w_len w.
Proof.
  intros (n & Hn & R) P. pose proof (reached_inv n c R ltac:(lia)) as J. destruct (mstep_ok n c o J ltac:(lia) P) as (a & c' & E & J' & K & _ & A). exists a, c'. split; [exact E|]. split.
  - destruct o as [s|u b d|f cu offset extra mm|cu|f|f|f]; auto.
    + destruct a as [|id d l| |e]; auto; [|tauto]. destruct A as [(x & w & Hx & Hw & Ei & Eo & Hd & Hb & El & Hh & Hf) _]. exists (f_size x), w. pose proof (i_bound _ _ J' f x w Hx Hw) as B.
      split; [exists x; auto|]. split; [exists x; auto|]. split; [exact Ei|]. split; [exact Hh|]. split; [exact Eo|]. split; [lia|]. split; [exact Hd|]. split; [exact Hb|]. split; [exact El|].
      intros H1 H2 H3. specialize (Hf H1 H2). rewrite El, Z.mod_small; lia.
    + destruct a as [|id d l| |e]; auto. destruct A as [[-> A]|[-> (w & Hw & Hu)]].
      * left. split; [reflexivity|]. intros w (x & Hx & Hw). rewrite (wins_of_nth _ _ _ Hx) in A. now rewrite A in Hw.
      * right. split; [reflexivity|]. pose proof (i_cnt _ _ J w (mapped_in _ _ _ Hw)) as C. destruct (cnt_pos_inv (c_curs c) (w_id w) ltac:(lia)) as (cu & Hc). exists w, cu. auto.
  - intros cu f w Hh Hm Ha. destruct (K cu (w_id w) Ha Hh) as [H1 H2]. split; [exact H1|]. destruct (H2 f w Hm eq_refl) as (w' & Hw' & Hs). exists w'. auto.
Qed.

(** C62.  When a call maps a new window ([c_next] counts them), then afterwards at most [c_limit] bytes are
    counted as mapped, or every window of every registered file is held by a cursor. *)
Theorem C62_limit c f cu offset extra mm a c' : reachable c -> proper c (MOpen f cu offset extra mm) -> mstep c (MOpen f cu offset extra mm) = Ok (a, c') -> c_next c' <> c_next c ->
  c_mapped c' <= c_limit c' \/ forall g w, In g (c_reg c') -> mapped c' g w -> exists cu', holds c' cu' (w_id w).
Proof.
  intros (n & Hn & R) P E Hne. pose proof (reached_inv n c R ltac:(lia)) as J. destruct (mstep_ok n c _ J ltac:(lia) P) as (a' & c'' & E' & J' & K & _ & A). rewrite E in E'. apply Ok_inj in E'. injection E' as <- <-.
  assert (L : limited c').
  { destruct a as [|id d l| |e]; try contradiction; [now apply A|]. exfalso. cbn [mstep] in E. destruct (mopen c f cu offset extra mm) as [[r c1]| | |] eqn:Em; try discriminate. cbn [bindr fst snd] in E. apply Ok_inj in E.
    destruct r as [[[i dd] l]|]; [discriminate|]. injection E as ->. destruct (mopen_ok n c f cu offset extra mm J ltac:(lia) P) as (r2 & c2 & E2 & _ & _ & _ & L & Rr).
    rewrite Em in E2. apply Ok_inj in E2. injection E2 as <- <-. apply Hne. clear L. 
    rewrite mopen_rest in Em. destruct Rr as [_ Rc]. rewrite Rc in Em. destruct P as ((s & (x & Hx & Es) & Ho) & He & _). subst s.
    unfold open_rest in Em. destruct (find _ (wins_of c f)); [discriminate|]. assert (Es1 : size_of c f = f_size x) by (unfold size_of; now rewrite Hx). rewrite Es1 in Em.
    destruct (new_window_ok c x offset mm (i_wsize _ _ J) Ho) as (len & c2 & S2 & R2 & N2). destruct N2 as [(En & _)|(off & En & _)]; rewrite En in Em; cbn [bindr] in Em; [|discriminate]. apply Ok_inj in Em. injection Em as <-. exact (s_next _ _ S2). }
  destruct L as [L|L]; [now left|right]. intros g w Hg (x & Hx & Hw). pose proof (L g x w Hg Hx Hw) as Hu. pose proof (i_cnt _ _ J' w (mapped_in c' g w (ex_intro _ x (conj Hx Hw)))) as C. apply cnt_pos_inv. lia.
Qed.

(** C62.  As long as mmap does not fail, the count of mapped bytes (a size_t) and of windows are right. *)
Theorem C62_accounting n c : reached_ok n c -> Z.of_nat n < 2 ^ 64 -> c_mapped c mod 2 ^ 64 = total c mod 2 ^ 64 /\ c_open c = number c.
Proof.
  intros R Hn. assert (R' : reached n c) by (clear Hn; induction R; econstructor; eauto).
  assert (D : drift c = (0, 0)).
  { clear R'. induction R as [|n c o a c' R IH P M E]; [reflexivity|]. assert (R' : reached n c) by (clear -R; induction R; econstructor; eauto).
    pose proof (reached_inv n c R' ltac:(lia)) as J. destruct (mstep_ok n c o J Hn P) as (a' & c'' & E' & J' & _ & D & _). rewrite E in E'. apply Ok_inj in E'. injection E' as <- <-. rewrite (D M). apply IH. lia. }
  unfold drift in D. injection D as D1 D2. split; [|lia]. replace (c_mapped c) with ((c_mapped c - total c) + total c) by lia. rewrite <- Zplus_mod_idemp_l, D1. reflexivity.
Qed.

(** A history: two files of 100 and 30 bytes, windows of 16 bytes, at most 40 bytes; three windows of the
    first file held by two cursors, so that the third opening closes one. *)
Definition demo : list mop := [MSettings 16 40 0; MFile 100; MFile 30; MRegister 0; MRegister 1; MOpen 0 1 5 4 (true, true); MOpen 0 2 20 4 (true, true); MOpen 0 1 50 4 (true, true);
  MOpen 1 3 0 4 (false, true); MClose 2; MClose 1; MClose 3; MFreeAll 0; MFreeAll 1].
Definition properb (c : ctl) (o : mop) : bool :=
  match o with
  | MFile s => (0 <=? s) && (s <? 2 ^ 63)
  | MSettings a _ _ => (2 <=? a) && (a <? 2 ^ 63)
  | MOpen f cu offset extra mm =>
      match nth_error (c_files c) f with
      | None => false
      | Some x => (0 <=? offset) && (offset <? f_size x) && (0 <? extra) && (offset + extra <? 2 ^ 63) &&
                  forallb (fun p => negb (fst p =? cu)%nat || (existsb (fun w => (w_id w =? snd p)%nat) (f_wins x) && (fst mm || snd mm))) (c_curs c)
      end
  | _ => true
  end.
Lemma properb_ok c o : properb c o = true -> proper c o.
Proof.
  destruct o as [s|u b d|f cu offset extra mm|cu|f|f|f]; cbn [properb proper]; try (intros; exact I).
  - rewrite andb_true_iff, Z.leb_le, Z.ltb_lt. auto.
  - rewrite andb_true_iff, Z.leb_le, Z.ltb_lt. auto.
  - destruct (nth_error (c_files c) f) as [x|] eqn:Hx; [|discriminate]. rewrite !andb_true_iff, Z.leb_le, !Z.ltb_lt. intros [[[[H1 H2] H3] H4] H5]. split; [exists (f_size x); split; [exists x; auto|lia]|]. split; [exact H3|]. split; [exact H4|].
    intros id Hh. rewrite forallb_forall in H5. specialize (H5 _ Hh). cbn [fst snd] in H5. rewrite Nat.eqb_refl in H5. cbn [negb orb] in H5. apply andb_true_iff in H5. destruct H5 as [H5 H6]. split.
    + apply existsb_exists in H5. destruct H5 as (w & Hw & Ew). exists w. split; [exists x; auto|now apply Nat.eqb_eq].
    + intros ->. discriminate.
Qed.
Fixpoint all_proper (c : ctl) (ops : list mop) : bool :=
  match ops with [] => true | o :: r => properb c o && match mstep c o with Ok (_, c') => all_proper c' r | _ => false end end.
Lemma all_proper_reached ops : forall n c, reached n c -> all_proper c ops = true -> exists a c', mrun c ops = Ok (a, c') /\ reached (n + length ops) c'.
Proof.
  induction ops as [|o r IH]; intros n c R H.
  - exists [], c. rewrite Nat.add_0_r. auto.
  - cbn [all_proper] in H. apply andb_true_iff in H. destruct H as [H1 H2]. apply properb_ok in H1. cbn [mrun]. destruct (mstep c o) as [[a c1]| | |] eqn:E; try discriminate. cbn [bindr fst snd].
    destruct (IH (S n) c1 (reached_step _ _ _ _ _ R H1 E) H2) as (l & c2 & E2 & R2). rewrite E2. cbn [bindr fst snd]. eexists _, _. split; [reflexivity|]. cbn [length]. now rewrite Nat.add_succ_r.
Qed.
(** The hypotheses of the theorems are met. *)
Example demo_reached : exists a c, mrun start demo = Ok (a, c) /\ reachable c.
Proof.
  destruct (all_proper_reached demo 0 start reached_start) as (a & c & E & R); [vm_compute; reflexivity|]. exists a, c. split; [exact E|]. exists (0 + length demo)%nat. split; [vm_compute; reflexivity|exact R].
Qed.
Example demo_next : exists a c, mrun start (firstn 7 demo) = Ok (a, c) /\ reachable c /\ proper c (MOpen 0 1 50 4 (true, true)) /\ (exists c', mstep c (MOpen 0 1 50 4 (true, true)) = Ok (AAddr 2 2 14, c') /\ c_next c' <> c_next c /\ c_mapped c' = 32).
Proof.
  destruct (all_proper_reached (firstn 7 demo) 0 start reached_start) as (a & c & E & R); [vm_compute; reflexivity|]. exists a, c. split; [exact E|]. split; [exists (0 + length (firstn 7 demo))%nat; split; [vm_compute; reflexivity|exact R]|].
  vm_compute in E. apply Ok_inj in E. injection E as <- <-. split; [apply properb_ok; vm_compute; reflexivity|]. eexists. split; [vm_compute; reflexivity|]. split; [vm_compute; discriminate|reflexivity].
Qed.

(** The whole history. *)
Example demo_answers : option_map fst (match mrun start demo with Ok r => Some r | _ => None end) =
  Some [ANone; ANone; ANone; ACode 0; ACode 0; AAddr 0 5 11; AAddr 1 4 12; AAddr 2 2 14; AAddr 3 0 16; ANone; ANone; ANone; ACode 0; ACode 0].
Proof. vm_compute. reflexivity. Qed.

(** *** What is not so *)
(** Two mmaps fail while the cursor points to a window: the window is given back, the loop that makes room
    frees it, git_mwindow_open returns NULL - and the cursor still points to it.  Closing the cursor, as
    every caller does then, writes to freed memory. *)
Definition uaf : list mop := [MSettings 16 1000 0; MFile 100; MRegister 0; MOpen 0 1 5 4 (true, true); MOpen 0 1 50 4 (false, false)].
Theorem C62_failed_mmap_refuted : exists c, mrun start uaf = Ok ([ANone; ANone; ACode 0; AAddr 0 5 11; ANull], c) /\ holds c 1 0 /\ (forall f w, ~ mapped c f w) /\ mstep c (MClose 1) = UB.
Proof.
  eexists. split; [vm_compute; reflexivity|]. split; [left; reflexivity|]. split; [|vm_compute; reflexivity]. intros f w (x & Hx & Hw). destruct f as [|[|]]; try discriminate. cbn in Hx. injection Hx as <-. exact Hw.
Qed.
(** The window that is closed to make room is not the one that was not used for longest: [-1 * last_used] is
    not negative but nearly 2^64, so the last unused window that is looked at is taken.  Here window 0 of
    the first file was used before window 1 of the second, neither is held, and window 1 is closed. *)
Definition lru : list mop := [MSettings 16 40 0; MFile 100; MFile 100; MRegister 0; MRegister 1; MOpen 0 1 0 4 (true, true); MClose 1; MOpen 1 1 0 4 (true, true); MClose 1; MOpen 0 1 40 4 (true, true)].
Theorem C62_least_recently_used_refuted : exists a c, mrun start lru = Ok (a, c) /\ (exists w, mapped c 0 w /\ w_id w = 0%nat /\ w_last w = 0 /\ w_inuse w = 0) /\ forall w, ~ mapped c 1 w.
Proof.
  eexists _, _. split; [vm_compute; reflexivity|]. split.
  - eexists. split; [eexists; split; [reflexivity|right; left; reflexivity]|]. split; [reflexivity|]. split; reflexivity.
  - intros w (x & Hx & Hw). cbn in Hx. injection Hx as <-. exact Hw.
Qed.
(** After a failed mmap the count of mapped bytes stays too high. *)
Theorem C62_accounting_refuted : exists c, mrun start [MSettings 16 1000 0; MFile 100; MRegister 0; MOpen 0 1 5 4 (false, false)] = Ok ([ANone; ANone; ACode 0; ANull], c) /\ c_mapped c = 16 /\ total c = 0.
Proof. eexists. split; [vm_compute; reflexivity|]. split; reflexivity. Qed.
(** A window size of one byte divides by zero. *)
Theorem C62_window_size_refuted : mrun start [MSettings 1 1000 0; MFile 100; MRegister 0; MOpen 0 1 5 4 (true, true)] = UB.
Proof. vm_compute. reflexivity. Qed.
(** With windows of 4 GiB or more, the number of bytes left is truncated: here it is 0. *)
Theorem C62_left_refuted : exists a c, mrun start [MSettings (2 ^ 33) (2 ^ 40) 0; MFile (2 ^ 33); MRegister 0; MOpen 0 1 (2 ^ 32) 20 (true, true)] = Ok (a, c) /\ nth 3 a ANone = AAddr 0 0 0.
Proof. eexists _, _. split; vm_compute; reflexivity. Qed.
(** Asking for no bytes at the end of a window gives the address after the window. *)
Theorem C62_no_bytes_refuted : exists a c, mrun start [MSettings 16 1000 0; MFile 100; MRegister 0; MOpen 0 1 5 4 (true, true); MOpen 0 1 16 0 (true, true)] = Ok (a, c) /\ nth 4 a ANone = AAddr 0 16 0.
Proof. eexists _, _. split; vm_compute; reflexivity. Qed.

(** *** Shared packs *)
Definition held (h : list (list Z * nat)) (p : nat) : nat := length (filter (fun e => (snd e =? p)%nat) h).
Record pinv (h : list (list Z * nat)) (s : pstate) : Prop := mkpinv {
  p_names : NoDup (map fst (p_cache s));
  p_packs : NoDup (map snd (p_cache s));
  p_held : forall e, In e h <-> In e (p_cache s) /\ In e h;
  p_holder : forall e, In e (p_cache s) -> In e h;
  p_fresh : forall e, In e (p_cache s) -> (snd e < p_next s)%nat;
  p_cnt : forall e, In e (p_cache s) -> count_of s (snd e) = Z.of_nat (held h (snd e));
  p_gone : forall p, In p (p_freed s) <-> (p < p_next s)%nat /\ ~ In p (map snd (p_cache s)) }.
Lemma pack_name_some s name p : NoDup (map fst (p_cache s)) -> pack_name s name = Some p <-> In (name, p) (p_cache s).
Proof.
  unfold pack_name. induction (p_cache s) as [|[k v] l IH]; intros N; [split; [discriminate|contradiction]|]. cbn in N. apply NoDup_cons_iff in N. destruct N as [N1 N2]. cbn [find fst].
  destruct (list_eq_dec Z.eq_dec k name) as [->|Hne].
  - cbn. split; [intros H; injection H as ->; now left|]. intros [H|H]; [injection H as ->; reflexivity|]. exfalso. apply N1. change name with (fst (name, p)). now apply in_map.
  - rewrite (IH N2). split; [now right|]. intros [H|H]; [congruence|exact H].
Qed.
Lemma pack_name_none s name : pack_name s name = None <-> ~ In name (map fst (p_cache s)).
Proof.
  unfold pack_name. induction (p_cache s) as [|[k v] l IH]; [split; auto|]. cbn [find fst map]. destruct (list_eq_dec Z.eq_dec k name) as [->|Hne].
  - split; [discriminate|]. intros H. exfalso. apply H. now left.
  - rewrite IH. cbn. split; [intros H [G|G]; auto|auto].
Qed.
Lemma find_filter l p q : (p =? q)%nat = false -> find (fun e : nat * Z => (fst e =? q)%nat) (filter (fun e => negb (fst e =? p)%nat) l) = find (fun e => (fst e =? q)%nat) l.
Proof.
  intros H. induction l as [|e l IH]; [reflexivity|]. cbn [filter find]. destruct (fst e =? p)%nat eqn:E1; cbn [negb].
  - apply Nat.eqb_eq in E1. rewrite E1, H. exact IH.
  - cbn [find]. destruct (fst e =? q)%nat; [reflexivity|exact IH].
Qed.
Lemma count_set s c k fr p n q : count_of (mkp c (set_count (p_count s) p n) k fr) q = if (p =? q)%nat then n else count_of s q.
Proof. unfold count_of, set_count. cbn [p_count find fst]. destruct (p =? q)%nat eqn:E; [reflexivity|]. now rewrite find_filter. Qed.
Lemma pinv_get h s name p s' : pinv h s -> get_pack s name = (p, s') -> pinv ((name, p) :: h) s' /\ (forall q, In (name, q) h -> p = q).
Proof.
  intros [A1 A2 A3 A4 A5 A6 A7] E. unfold get_pack in E. destruct (pack_name s name) as [q|] eqn:En.
  - injection E as <- <-. apply pack_name_some in En; [|exact A1]. split.
    + split; cbn [p_cache p_next p_freed]; auto.
      * intros e. split; [|tauto]. intros [<-|H]; [split; [exact En|now left]|]. apply A3 in H. cbn. tauto.
      * intros e H. right. auto.
      * intros e H. rewrite count_set. unfold held. cbn [filter snd]. destruct (q =? snd e)%nat eqn:Eq; [|apply (A6 e H)]. apply Nat.eqb_eq in Eq. subst q. specialize (A6 e H). unfold held in A6. cbn [length]. lia.
    + intros r Hr. apply A3 in Hr. destruct Hr as [Hr _]. apply (pack_name_some s name q A1) in En. apply (pack_name_some s name r A1) in Hr. congruence.
  - injection E as <- <-. apply pack_name_none in En. split.
    + split; cbn [p_cache p_next p_freed].
      * cbn. now constructor.
      * cbn. constructor; [|exact A2]. intros H. apply in_map_iff in H. destruct H as (e & Ee & He). specialize (A5 e He). lia.
      * intros e. split; [|tauto]. intros [<-|H]; [split; now left|]. split; [|now right]. right. now apply A3.
      * intros e [<-|H]; [now left|right; auto].
      * intros e [<-|H]; [cbn; lia|]. specialize (A5 e H). lia.
      * intros e He. rewrite count_set. unfold held. cbn [filter snd]. destruct He as [<-|He].
        -- cbn [snd]. rewrite Nat.eqb_refl. cbn [length]. assert (E0 : filter (fun e => (snd e =? p_next s)%nat) h = []).
           { destruct (filter (fun e => (snd e =? p_next s)%nat) h) as [|e r] eqn:Ef; [reflexivity|]. exfalso. assert (Hin : In e (filter (fun e => (snd e =? p_next s)%nat) h)) by (rewrite Ef; now left).
             apply filter_In in Hin. destruct Hin as [Hin Hs]. apply Nat.eqb_eq in Hs. apply A3 in Hin. destruct Hin as [Hin _]. specialize (A5 e Hin). lia. }
           rewrite E0. reflexivity.
        -- destruct (p_next s =? snd e)%nat eqn:Eq; [apply Nat.eqb_eq in Eq; specialize (A5 e He); lia|]. apply (A6 e He).
      * intros p. rewrite A7. cbn. split; [intros [H1 H2]; split; [lia|intros [H|H]; [lia|tauto]]|]. intros [H1 H2]. split; [|tauto]. destruct (Nat.eq_dec p (p_next s)); [exfalso; apply H2; now left|lia].
    + intros q Hq. exfalso. apply En. apply A3 in Hq. destruct Hq as [Hq _]. change name with (fst (name, q)). now apply in_map.
Qed.
Lemma held_app a b p : held (a ++ b) p = (held a p + held b p)%nat.
Proof. unfold held. now rewrite filter_app, app_length. Qed.
Lemma held_in h p : (0 < held h p)%nat <-> exists n, In (n, p) h.
Proof.
  unfold held. split.
  - intros H. destruct (filter _ h) as [|[n q] r] eqn:E; [cbn in H; lia|]. exists n. assert (In (n, q) (filter (fun e => (snd e =? p)%nat) h)) as Hi by (rewrite E; now left). apply filter_In in Hi. destruct Hi as [Hi Hs]. cbn in Hs. apply Nat.eqb_eq in Hs. now subst.
  - intros (n & H). assert (In (n, p) (filter (fun e => (snd e =? p)%nat) h)) as Hi by (apply filter_In; split; [exact H|cbn; apply Nat.eqb_refl]). destruct (filter _ h); [contradiction|cbn; lia].
Qed.
Lemma snd_inj (l : list (list Z * nat)) a b p : NoDup (map snd l) -> In (a, p) l -> In (b, p) l -> a = b.
Proof.
  induction l as [|e l IH]; intros N Ha Hb; [contradiction|]. cbn in N. apply NoDup_cons_iff in N. destruct N as [N1 N2]. destruct Ha as [->|Ha], Hb as [Hb|Hb]; [congruence| | |auto].
  - exfalso. apply N1. exact (in_map snd _ _ Hb).
  - subst e. exfalso. apply N1. exact (in_map snd _ _ Ha).
Qed.
Lemma pinv_put h1 h2 s name p : pinv (h1 ++ (name, p) :: h2) s -> exists s', put_pack s name p = Ok (0, s') /\ pinv (h1 ++ h2) s' /\ (In p (p_freed s') <-> ~ exists n, In (n, p) (h1 ++ h2)).
Proof.
  intros [A1 A2 A3 A4 A5 A6 A7].
  assert (Hin : In (name, p) (p_cache s)) by (apply A3, in_or_app; right; now left).
  assert (Hnf : ~ In p (p_freed s)) by (rewrite A7; intros [_ H]; apply H; change p with (snd (name, p)); now apply in_map).
  unfold put_pack. destruct (existsb (fun q => (q =? p)%nat) (p_freed s)) eqn:Ex.
  { exfalso. apply existsb_exists in Ex. destruct Ex as (q & Hq & E). apply Nat.eqb_eq in E. subst. tauto. }
  pose proof Hin as Hin'. apply (pack_name_some s name p A1) in Hin'. rewrite Hin'. pose proof (A6 _ Hin) as C. cbn [snd] in C.
  assert (Hh : held (h1 ++ (name, p) :: h2) p = S (held (h1 ++ h2) p)).
  { rewrite !held_app. unfold held at 2. cbn [filter snd]. rewrite Nat.eqb_refl. cbn [length]. unfold held. lia. }
  assert (Hh' : forall q, q <> p -> held (h1 ++ (name, p) :: h2) q = held (h1 ++ h2) q).
  { intros q Hq. rewrite !held_app. f_equal. unfold held. cbn [filter snd]. destruct (p =? q)%nat eqn:E; [apply Nat.eqb_eq in E; congruence|reflexivity]. }
  rewrite Hh in C. destruct (count_of s p - 1 =? 0) eqn:E0.
  - apply Z.eqb_eq in E0. assert (H0 : held (h1 ++ h2) p = 0%nat) by lia. assert (Hno : ~ exists n, In (n, p) (h1 ++ h2)) by (rewrite <- held_in; lia).
    eexists. split; [reflexivity|]. 
    assert (Fi : forall e, In e (filter (fun e => if list_eq_dec Z.eq_dec (fst e) name then false else true) (p_cache s)) <-> In e (p_cache s) /\ snd e <> p).
    { intros e. rewrite filter_In. split; intros [H1 H2]; (split; [exact H1|]).
      - destruct (list_eq_dec Z.eq_dec (fst e) name) as [|Hn]; [discriminate|]. intros Es. apply Hn. destruct e as [n q]. cbn in *. subst q. eapply snd_inj; eauto.
      - destruct (list_eq_dec Z.eq_dec (fst e) name) as [En|]; [|reflexivity]. exfalso. apply H2. destruct e as [n q]. cbn in *. subst n. apply (pack_name_some s name q A1) in H1. congruence. }
    assert (NDf : forall B (g : list Z * nat -> B) f l, NoDup (map g l) -> NoDup (map g (filter f l))).
    { intros B g f l. induction l as [|e l IH]; intros N; [constructor|]. cbn in N. apply NoDup_cons_iff in N. destruct N as [N1 N2]. cbn. destruct (f e); [|auto]. cbn. constructor; [|auto]. intros H. apply N1. apply in_map_iff in H. destruct H as (u & Eu & Hu). apply filter_In in Hu. rewrite <- Eu. apply in_map. tauto. }
    split; [split; cbn [p_cache p_next p_freed]|].
    + now apply NDf.
    + now apply NDf.
    + intros e. split; [|tauto]. intros H. split; [|exact H]. apply Fi. split.
      * apply A3. apply in_app_or in H. apply in_or_app. destruct H; [now left|right; now right].
      * intros Es. apply Hno. destruct e as [n q]. cbn in Es. subst q. eauto.
    + intros e H. apply Fi in H. destruct H as [H1 H2]. apply A4 in H1. apply in_app_or in H1. apply in_or_app. destruct H1 as [H1|[H1|H1]]; [now left| |now right]. exfalso. apply H2. subst e. reflexivity.
    + intros e H. apply Fi in H. apply A5. tauto.
    + intros e H. apply Fi in H. destruct H as [H1 H2]. rewrite count_set. destruct (p =? snd e)%nat eqn:E; [apply Nat.eqb_eq in E; congruence|]. rewrite (A6 e H1). now rewrite Hh'.
    + intros q. cbn. rewrite A7. split.
      * intros [<-|[H1 H2]]; (split; [apply (A5 _ Hin)||exact H1|]); intros H; apply in_map_iff in H; destruct H as (e & Ee & He); apply Fi in He; [tauto|]. apply H2. rewrite <- Ee. apply in_map. tauto.
      * intros [H1 H2]. destruct (Nat.eq_dec p q) as [|Hne]; [now left|right]. split; [exact H1|]. intros H. apply H2. apply in_map_iff in H. destruct H as (e & Ee & He). rewrite <- Ee. apply in_map. apply Fi. split; [exact He|congruence].
    + cbn. split; [intros _; exact Hno|intros _; now left].
  - apply Z.eqb_neq in E0. assert (H0 : (0 < held (h1 ++ h2) p)%nat) by lia. eexists. split; [reflexivity|]. split; [split; cbn [p_cache p_next p_freed]; auto|].
    + intros e. split; [|tauto]. intros H. split; [|exact H]. apply A3. apply in_app_or in H. apply in_or_app. destruct H; [now left|right; now right].
    + intros e H. pose proof H as Hc. apply A4 in H. apply in_app_or in H. apply in_or_app. destruct H as [H|[H|H]]; [now left| |now right]. subst e. apply held_in in H0. destruct H0 as (n & H0).
      assert (In (n, p) (p_cache s)) as Hn by (apply A3; apply in_app_or in H0; apply in_or_app; destruct H0; [now left|right; now right]). rewrite (snd_inj _ _ _ _ A2 Hc Hn). now apply in_app_or.
    + intros e H. rewrite count_set. destruct (p =? snd e)%nat eqn:E; [apply Nat.eqb_eq in E; subst p; lia|]. apply Nat.eqb_neq in E. rewrite (A6 e H). rewrite Hh'; auto.
    + cbn. split; [tauto|]. intros H. exfalso. apply H. now apply held_in.
Qed.
Lemma pinv_reached h s : preached h s -> pinv h s.
Proof.
  induction 1 as [|h s name p s' R IH E|h1 h2 s name p r s' R IH E].
  - split; cbn; try contradiction; try constructor; try tauto; intros; lia.
  - eapply pinv_get; eauto.
  - destruct (pinv_put _ _ _ _ _ IH) as (s2 & E2 & J & _). rewrite E in E2. apply Ok_inj in E2. congruence.
Qed.

(** C63.  In every state reached by getting packs and putting them back (h: the packs that are held):
    a held pack is not freed, and putting it back succeeds and frees it exactly if nobody else holds it;
    holders of the same name hold the same pack, holders of different names different packs; getting a
    name somebody holds gives the same pack, and never a freed one; a pack that exists and is not freed is
    held by somebody. *)
Theorem C63_shared_packs h s : preached h s ->
  (forall name p, In (name, p) h -> ~ In p (p_freed s)) /\
  (forall h1 h2 name p, h = h1 ++ (name, p) :: h2 -> exists s', put_pack s name p = Ok (0, s') /\ (In p (p_freed s') <-> ~ exists n, In (n, p) (h1 ++ h2))) /\
  (forall n1 n2 p1 p2, In (n1, p1) h -> In (n2, p2) h -> (n1 = n2 <-> p1 = p2)) /\
  (forall name p s', get_pack s name = (p, s') -> ~ In p (p_freed s') /\ forall q, In (name, q) h -> p = q) /\
  (forall p, (p < p_next s)%nat -> ~ In p (p_freed s) -> exists name, In (name, p) h).
Proof.
  intros R. pose proof (pinv_reached _ _ R) as J. assert (NF : forall h s, pinv h s -> forall name p, In (name, p) h -> ~ In p (p_freed s)).
  { clear. intros h s J name p H. rewrite (p_gone _ _ J). intros [_ Hn]. apply Hn. apply (p_held _ _ J) in H. change p with (snd (name, p)). apply in_map. tauto. }
  split; [now apply NF|]. split; [|split; [|split]].
  - intros h1 h2 name p ->. destruct (pinv_put _ _ _ _ _ J) as (s' & E & _ & F). eauto.
  - intros n1 n2 p1 p2 H1 H2. apply (p_held _ _ J) in H1, H2. destruct H1 as [H1 _], H2 as [H2 _]. split.
    + intros <-. apply (pack_name_some s n1 p1 (p_names _ _ J)) in H1. apply (pack_name_some s n1 p2 (p_names _ _ J)) in H2. congruence.
    + intros <-. eapply snd_inj; eauto. apply (p_packs _ _ J).
  - intros name p s' E. destruct (pinv_get _ _ _ _ _ J E) as [J' Q]. split; [|exact Q]. apply (NF _ _ J' name). now left.
  - intros p Hp Hf. rewrite (p_gone _ _ J) in Hf. destruct (in_dec Nat.eq_dec p (map snd (p_cache s))) as [H|H]; [|exfalso; tauto]. apply in_map_iff in H. destruct H as ([n q] & E & H). cbn in E. subst q. exists n. now apply (p_holder _ _ J).
Qed.
(** Two holders of one pack and one of another; the first pack is put back twice. *)
Example packs_demo : exists s, preached [([2], 1%nat)] s /\ p_freed s = [0%nat].
Proof.
  pose proof (preached_get _ _ [1] _ _ preached_start eq_refl) as R1. pose proof (preached_get _ _ [1] _ _ R1 eq_refl) as R2. pose proof (preached_get _ _ [2] _ _ R2 eq_refl) as R3.
  pose proof (preached_put [([2], 1%nat)] [([1], 0%nat)] _ [1] 0%nat _ _ R3 eq_refl) as R4. pose proof (preached_put [([2], 1%nat)] [] _ [1] 0%nat _ _ R4 eq_refl) as R5.
  eexists. split; [exact R5|]. vm_compute. reflexivity.
Qed.
