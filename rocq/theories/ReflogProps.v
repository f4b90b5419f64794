(** C35: reflogs keep their entries and their links. *)
From Verif Require Import Base Str IntModel IntSpec IntProofs OidModel OidSpec OidProofs OidProps SigModel SigSpec SigProofs SigProps ReflogModel ReflogSpec ReflogProofs.
Local Open Scope Z_scope.

(** Index 0 is the entry appended last. *)
Theorem C35_newest_first log : shows log (rev log).
Proof.
  intros i. unfold byindex. destruct (Nat.leb_spec (length log) i) as [H|H].
  - symmetry. apply nth_error_None. rewrite rev_length. exact H.
  - destruct (nth_error log (length log - 1 - i)) as [e|] eqn:E.
    + symmetry. rewrite <- (rev_involutive log) in E.
      rewrite (nth_error_nth' (rev log) e) by (rewrite rev_length; lia). f_equal.
      rewrite rev_nth by lia. rewrite rev_involutive in E. apply nth_error_nth with (d := e) in E.
      replace (length log - S i)%nat with (length log - 1 - i)%nat by lia. exact E.
    + apply nth_error_None in E. lia.
Qed.
Lemma shows_unique log v : shows log v -> v = rev log.
Proof.
  intros H. assert (E : forall i, nth_error v i = nth_error (rev log) i) by (intros i; rewrite <- H; apply C35_newest_first).
  clear H. revert E. generalize (rev log). clear. induction v as [|x v IH]; intros [|y w] E; auto; try (specialize (E 0%nat); discriminate).
  pose proof (E 0%nat) as E0. cbn in E0. injection E0 as ->. f_equal. apply IH. intros i. apply (E (S i)).
Qed.

(** Appending shows the new entry in front, starting where the last one ended. *)
Theorem C35_append_exact size log v new who msg : shows log v ->
  shows (append size log new who msg)
    (mkentry (match v with [] => repeat 0 size | p :: _ => e_new p end) new who (option_map (map (fun c => if c =? 10 then 32 else c)) msg) :: v).
Proof.
  intros H. pose proof (shows_unique _ _ H) as ->.
  assert (B : byindex log 0 = nth_error (rev log) 0) by apply C35_newest_first.
  unfold append. rewrite B. intros i. rewrite C35_newest_first, rev_app_distr. cbn [rev app].
  destruct (rev log); reflexivity.
Qed.

Definition with_old (e : entry) (id : list Z) : entry := mkentry id (e_new e) (e_sig e) (e_msg e).

Lemma nth_firstn {A} (l : list A) n i : nth_error (firstn n l) i = if (i <? n)%nat then nth_error l i else None.
Proof.
  revert n i. induction l as [|x l IH]; intros [|n] [|i]; cbn [firstn nth_error]; auto.
  - destruct (S i <? S n)%nat; reflexivity.
  - rewrite IH. reflexivity.
Qed.
Lemma nth_skip {A} (l : list A) n i : nth_error (skipn n l) i = nth_error l (n + i).
Proof. revert l. induction n as [|n IH]; intros [|x l]; cbn [skipn Nat.add nth_error]; auto. destruct i; reflexivity. Qed.
Lemma nth_remove log k i : (k < length log)%nat -> nth_error (remove_at log k) i = nth_error log (if (i <? k)%nat then i else S i).
Proof.
  intros H. unfold remove_at. destruct (Nat.ltb_spec i k).
  - rewrite nth_error_app1 by (rewrite firstn_length; lia). rewrite nth_firstn. destruct (Nat.ltb_spec i k); [reflexivity|lia].
  - rewrite nth_error_app2 by (rewrite firstn_length; lia). rewrite firstn_length, nth_skip. f_equal. lia.
Qed.
Lemma length_remove log k : (k < length log)%nat -> length (remove_at log k) = (length log - 1)%nat.
Proof. intros H. unfold remove_at. rewrite app_length, firstn_length, skipn_length. lia. Qed.
Lemma nth_set_old log k id i : nth_error (set_old log k id) i = if (i =? k)%nat then option_map (fun e => with_old e id) (nth_error log i) else nth_error log i.
Proof.
  unfold set_old. destruct (nth_error log k) as [e|] eqn:E.
  2:{ destruct (Nat.eqb_spec i k) as [->|]; [rewrite E|]; reflexivity. }
  assert (L : (k < length log)%nat) by (apply nth_error_Some; congruence).
  destruct (Nat.eqb_spec i k) as [->|N].
  - rewrite nth_error_app2 by (rewrite firstn_length; lia). rewrite firstn_length. replace (k - Nat.min k (length log))%nat with 0%nat by lia. rewrite E. reflexivity.
  - destruct (Nat.lt_ge_cases i k).
    + rewrite nth_error_app1 by (rewrite firstn_length; lia). rewrite nth_firstn. destruct (Nat.ltb_spec i k); [reflexivity|lia].
    + rewrite nth_error_app2 by (rewrite firstn_length; lia). rewrite firstn_length.
      replace (i - Nat.min k (length log))%nat with (S (i - S k)) by lia. cbn [nth_error]. rewrite nth_skip. f_equal. lia.
Qed.
Lemma length_set_old log k id : length (set_old log k id) = length log.
Proof.
  unfold set_old. destruct (nth_error log k) eqn:E; auto. assert (L : (k < length log)%nat) by (apply nth_error_Some; congruence).
  rewrite app_length, firstn_length. cbn [length]. rewrite skipn_length. lia.
Qed.

(** Dropping index [idx]: the entries in front of it and behind it stay, in order, and
    with rewriting the one in front of it starts from the new id of the one behind it, or
    from zero when there is none.  An index that does not exist is refused. *)
Theorem C35_drop_exact size log v idx rw : shows log v ->
  (idx >= length v -> drop size log idx rw = Err (-3))%nat /\
  (idx < length v -> exists log' v', drop size log idx rw = Ok log' /\ shows log' v' /\ length v' = length v - 1 /\
     forall j, j < length v' ->
       nth_error v' j =
         if j <? idx
         then option_map (fun e => if rw && (S j =? idx) then with_old e (match nth_error v (S idx) with Some p => e_new p | None => repeat 0%Z size end) else e) (nth_error v j)
         else nth_error v (S j))%nat.
Proof.
  intros H. pose proof (shows_unique _ _ H) as Ev. assert (Lv : length v = length log) by (rewrite Ev; apply rev_length).
  assert (Bx : forall i, (i < length log)%nat -> nth_error v i = nth_error log (length log - 1 - i)).
  { intros i Hi. rewrite <- H. unfold byindex. destruct (Nat.leb_spec (length log) i); [lia|reflexivity]. }
  split; intros Hi; unfold drop.
  { rewrite H. rewrite (proj2 (nth_error_None v idx)) by lia. reflexivity. }
  rewrite Lv in Hi. rewrite H.
  destruct (nth_error v idx) as [e|] eqn:Ee; [|apply nth_error_None in Ee; lia].
  set (k := (length log - 1 - idx)%nat). assert (Hk : (k < length log)%nat) by (subst k; lia).
  pose proof (length_remove log k Hk) as Lr. set (log1 := remove_at log k) in *.
  assert (B1 : forall j, (j < length log - 1)%nat -> byindex log1 j = nth_error v (if (j <? idx)%nat then j else S j)).
  { intros j Hj. unfold byindex. destruct (Nat.leb_spec (length log1) j); [lia|]. subst log1. rewrite nth_remove by auto. rewrite Lr.
    subst k. destruct (Nat.ltb_spec (length log - 1 - 1 - j) (length log - 1 - idx)); destruct (Nat.ltb_spec j idx); try lia.
    - rewrite Bx by lia. f_equal. lia.
    - rewrite Bx by lia. f_equal. lia. }
  assert (Plain : (rw && negb (idx =? 0)%nat && negb (length log =? 1)%nat)%bool = false ->
    exists log' v', Ok log1 = Ok log' /\ shows log' v' /\ (length v' = length v - 1)%nat /\
     forall j, (j < length v')%nat -> nth_error v' j = if (j <? idx)%nat
         then option_map (fun e => if rw && (S j =? idx)%nat then with_old e (match nth_error v (S idx) with Some p => e_new p | None => repeat 0%Z size end) else e) (nth_error v j)
         else nth_error v (S j)).
  { intros C. exists log1, (rev log1). split; auto. split; [apply C35_newest_first|]. split; [rewrite rev_length; lia|].
    intros j Hj. rewrite rev_length in Hj. rewrite <- C35_newest_first, B1 by lia. destruct (Nat.ltb_spec j idx); auto.
    destruct rw; cbn [andb] in *; [|destruct (nth_error v j); reflexivity].
    destruct (Nat.eqb_spec idx 0); [lia|]. destruct (Nat.eqb_spec (length log) 1); [lia|]. discriminate. }
  destruct rw; [|apply Plain; reflexivity]. destruct (Nat.eqb_spec idx 0) as [->|N0]; [apply Plain; reflexivity|].
  destruct (Nat.eqb_spec (length log) 1) as [E1|N1]; [lia|]. cbn [negb]. clear Plain.
  assert (Bp : byindex log1 (idx - 1) = nth_error v (idx - 1)) by (rewrite B1 by lia; destruct (Nat.ltb_spec (idx - 1) idx); [reflexivity|lia]).
  rewrite Bp. destruct (nth_error v (idx - 1)) as [ep|] eqn:Eep; [|apply nth_error_None in Eep; lia].
  set (id := match nth_error v (S idx) with Some p => e_new p | None => repeat 0%Z size end).
  assert (Fin : exists log' v', Ok (set_old log1 (length log1 - 1 - (idx - 1)) id) = Ok log' /\ shows log' v' /\ (length v' = length v - 1)%nat /\
     forall j, (j < length v')%nat -> nth_error v' j = if (j <? idx)%nat
         then option_map (fun e => if true && (S j =? idx)%nat then with_old e id else e) (nth_error v j) else nth_error v (S j)).
  { eexists _, (rev _). split; [reflexivity|]. split; [apply C35_newest_first|]. split; [rewrite rev_length, length_set_old; lia|].
    intros j Hj. rewrite rev_length, length_set_old in Hj. rewrite <- C35_newest_first. unfold byindex. rewrite length_set_old.
    destruct (Nat.leb_spec (length log1) j); [lia|]. rewrite nth_set_old.
    assert (B : nth_error log1 (length log1 - 1 - j) = nth_error v (if (j <? idx)%nat then j else S j)).
    { rewrite <- B1 by lia. unfold byindex. destruct (Nat.leb_spec (length log1) j); [lia|reflexivity]. }
    rewrite B. cbn [andb]. destruct (Nat.eqb_spec (length log1 - 1 - j) (length log1 - 1 - (idx - 1))); destruct (Nat.ltb_spec j idx); try lia;
      destruct (Nat.eqb_spec (S j) idx); try lia; auto. destruct (nth_error v j); reflexivity. }
  destruct (Nat.eqb_spec idx (length log - 1)) as [El|Nl].
  - assert (X : nth_error v (S idx) = None) by (apply nth_error_None; lia). subst id. rewrite X in *. exact Fin.
  - rewrite (B1 idx) by lia. rewrite Nat.ltb_irrefl. subst id. destruct (nth_error v (S idx)) as [p|] eqn:Ep; [exact Fin|].
    apply nth_error_None in Ep. lia.
Qed.

(** The calls a program makes on a reflog; drops ask for the rewriting. *)
Inductive op := OpAppend (new : list Z) (who : sig) (msg : option (list Z)) | OpDrop (idx : nat).
Definition run_op (size : nat) (log : list entry) (o : op) : list entry :=
  match o with
  | OpAppend n w m => append size log n w m
  | OpDrop i => match drop size log i true with Ok l => l | _ => log end
  end.

Theorem C35_append_linked size log v new who msg v' : shows log v -> linked size v ->
  shows (append size log new who msg) v' -> linked size v'.
Proof.
  intros H L H'. pose proof (C35_append_exact size log v new who msg H) as E. apply shows_unique in E, H'. rewrite <- H' in E. clear H'. subst v'.
  intros i e. destruct i as [|i]; cbn [nth_error].
  - intros Q. apply (f_equal (fun o => match o with Some z => z | None => e end)) in Q. cbn in Q. rewrite <- Q. destruct v; reflexivity.
  - intros He. exact (L i e He).
Qed.
Theorem C35_drop_linked size log v idx log' v' : shows log v -> linked size v -> drop size log idx true = Ok log' -> shows log' v' -> linked size v'.
Proof.
  intros H L D H'. destruct (C35_drop_exact size log v idx true H) as [X1 X2].
  destruct (Nat.le_gt_cases (length v) idx) as [C|C]; [rewrite X1 in D by lia; discriminate|].
  destruct (X2 C) as (l2 & v2 & D2 & S2 & L2 & N). assert (l2 = log') by congruence. subst l2.
  assert (v2 = v') by (apply shows_unique in S2, H'; congruence). subst v2.
  intros i e He. assert (Hi : (i < length v')%nat) by (apply nth_error_Some; congruence).
  rewrite (N i Hi) in He.
  assert (Nx : nth_error v' (S i) = if (S i <? length v')%nat then nth_error v' (S i) else None).
  { destruct (Nat.ltb_spec (S i) (length v')); auto. apply nth_error_None; lia. }
  destruct (Nat.ltb_spec i idx).
  - destruct (nth_error v i) as [x|] eqn:Ex; [|discriminate]. cbn [option_map andb] in He.
    destruct (Nat.eqb_spec (S i) idx) as [E|E].
    + assert (e = with_old x (match nth_error v (S idx) with Some p => e_new p | None => repeat 0 size end)) as -> by congruence. cbn [with_old e_old].
      rewrite Nx. destruct (Nat.ltb_spec (S i) (length v')).
      * rewrite N by lia. destruct (Nat.ltb_spec (S i) idx); [lia|]. rewrite E. reflexivity.
      * assert (nth_error v (S idx) = None) as -> by (apply nth_error_None; lia). reflexivity.
    + assert (e = x) by congruence. subst e. rewrite (L i x Ex). rewrite N by lia. destruct (Nat.ltb_spec (S i) idx); [|lia].
      destruct (nth_error v (S i)) as [y|]; auto. cbn [option_map andb]. destruct (Nat.eqb_spec (S (S i)) idx); reflexivity.
  - rewrite (L (S i) e He). rewrite Nx. destruct (Nat.ltb_spec (S i) (length v')).
    + rewrite N by lia. destruct (Nat.ltb_spec (S i) idx); [lia|reflexivity].
    + assert (nth_error v (S (S i)) = None) as -> by (apply nth_error_None; lia). reflexivity.
Qed.

(** Whatever is appended and dropped, in whatever order, the history stays linked. *)
Theorem C35_history_linked size ops log v v' : shows log v -> linked size v ->
  shows (fold_left (run_op size) ops log) v' -> linked size v'.
Proof.
  revert log v. induction ops as [|o ops IH]; intros log v H L H'; cbn [fold_left] in H'.
  - apply shows_unique in H, H'. rewrite H', <- H; exact L.
  - destruct o as [n w m|i]; cbn [run_op] in H'.
    + apply (IH (append size log n w m) _ (C35_newest_first _)); [|exact H']. exact (C35_append_linked size log v n w m _ H L (C35_newest_first _)).
    + destruct (drop size log i true) as [l| | |] eqn:D; try exact (IH log v H L H').
      apply (IH l _ (C35_newest_first _)); [|exact H']. exact (C35_drop_linked size log v i l _ H L D (C35_newest_first _)).
Qed.
Corollary C35_fresh_linked size ops : linked size (rev (fold_left (run_op size) ops [])).
Proof.
  apply (C35_history_linked size ops [] []).
  - intros i. destruct i; reflexivity.
  - intros [|i] e; discriminate.
  - apply C35_newest_first.
Qed.

(** A file that is complete up to a newline. *)
Definition whole_lines (buf : list Z) : Prop := buf = [] \/ exists p, buf = p ++ [10].

Lemma read_app size buf more : whole_lines buf ->
  read_log size (buf ++ more) = (do a <- read_log size buf ;; do b <- read_log size more ;; Ok (a ++ b)).
Proof.
  remember (length buf) as n eqn:En. revert buf En. induction n as [n IH] using lt_wf_ind. intros buf En Hw.
  destruct Hw as [->|[p Hp]].
  { cbn [app]. change (read_log size []) with (@Ok (list entry) []). cbn [bindr]. destruct (read_log size more); reflexivity. }
  destruct (memchr buf 10) as [i|] eqn:M.
  - assert (F : exists a b, buf = a ++ 10 :: b /\ ~ In 10 a).
    { clear -M. revert i M. induction buf as [|c r IHb]; cbn [memchr]; intros i M; [discriminate|]. destruct (Z.eqb_spec c 10) as [->|N].
      - exists [], r. auto.
      - destruct (memchr r 10) as [j|]; [|discriminate]. destruct (IHb j eq_refl) as (a & b & -> & H). exists (c :: a), b. split; auto. intros [?|?]; auto. }
    destruct F as (a & b & -> & Na). rewrite <- app_assoc. cbn [app]. rewrite !read_cons by auto.
    assert (W : whole_lines b).
    { destruct b as [|c b]; [left; auto|]. right. destruct (exists_last (l := c :: b)) as (q & z & Eq); [discriminate|]. rewrite Eq in *.
      exists q. f_equal. f_equal. assert (E : (a ++ 10 :: q) ++ [z] = p ++ [10]) by (rewrite <- app_assoc; exact Hp). apply app_inj_tail in E. tauto. }
    rewrite (IH (length b)) with (buf := b); auto; [|subst n; rewrite app_length; cbn [length]; lia].
    destruct (parse_line size (a ++ [10])) as [e| | |]; cbn [bindr]; auto. destruct (read_log size b); cbn [bindr]; auto.
    destruct (read_log size more); cbn [bindr]; auto. destruct e; reflexivity.
  - exfalso. clear -M Hp. subst buf. induction p as [|c p IH]; cbn [app memchr] in M; [discriminate|].
    destruct (c =? 10); [discriminate|]. destruct (memchr (p ++ [10]) 10); [discriminate|]. auto.
Qed.

(** Appending an entry's line to a log file adds exactly that entry when it is read. *)
Theorem C35_file_append_partial size buf old e : (1 <= size <= 32)%nat -> whole_lines buf -> read_log size buf = Ok old -> entry_ok size e ->
  exists line e', serialize size (e_old e) (e_new e) (e_sig e) (e_msg e) = Ok line /\ keeps e e' /\
    whole_lines (buf ++ line) /\ read_log size (buf ++ line) = Ok (old ++ [e']).
Proof.
  intros Hs Hw R He. destruct (serialize_ok size e Hs He) as (e' & K & Ok' & HM & S).
  exists (line_of e' ++ [10]), e'. split; auto. split; auto. split.
  { right. exists (buf ++ line_of e'). rewrite <- app_assoc. reflexivity. }
  rewrite read_app, R by auto. cbn [bindr]. rewrite read_cons by (eapply line_no_nl; eauto).
  rewrite parse_line_ok by auto. reflexivity.
Qed.

(** A written reflog reads back as the same entries (messages as files keep them). *)
Theorem C35_roundtrip_partial size log : (1 <= size <= 32)%nat -> Forall (entry_ok size) log ->
  exists file log', write_log size log = Ok file /\ whole_lines file /\ read_log size file = Ok log' /\ Forall2 keeps log log'.
Proof.
  intros Hs. induction 1 as [|e log He _ (file & log' & Wf & Wl & R & K)].
  - exists [], []. split; auto. split; [left; auto|]. split; auto.
  - destruct (serialize_ok size e Hs He) as (e' & K1 & Ok' & HM & S).
    exists ((line_of e' ++ [10]) ++ file), (e' :: log'). cbn [write_log]. rewrite S, Wf. cbn [bindr]. split; auto. split.
    { right. destruct Wl as [->|[p ->]]; [exists (line_of e'); now rewrite app_nil_r|]. exists ((line_of e' ++ [10]) ++ p). now rewrite app_assoc. }
    split; auto. rewrite <- app_assoc. cbn [app]. rewrite read_cons by (eapply line_no_nl; eauto). rewrite parse_line_ok by auto. cbn [bindr]. rewrite R. reflexivity.
Qed.

(** A message without newlines and blanks at its end is kept as it is. *)
Definition plain_msg (msg : option (list Z)) : Prop :=
  match msg with None => True | Some m => cstring m /\ m <> [] /\ ~ In 10 m /\ (forall p c, m = p ++ [c] -> ~ space c) end.
Lemma plain_kept msg msg' : plain_msg msg -> kept msg msg' -> msg' = msg.
Proof.
  destruct msg as [m|]; cbn; auto. intros (C & N & L & E) (core & R & ->).
  assert (M : map (fun c => if c =? 10 then 32 else c) m = m).
  { clear -L. induction m as [|c m IH]; cbn [map]; auto. cbn [In] in L. destruct (Z.eqb_spec c 10); [tauto|]. rewrite IH by tauto. reflexivity. }
  rewrite M in R. assert (core = m). { apply (rstripped_unique m); auto. exists []. rewrite app_nil_r. auto. } subst core. destruct m; congruence.
Qed.
Theorem C35_exact_roundtrip_partial size log : (1 <= size <= 32)%nat -> Forall (entry_ok size) log -> Forall (fun e => plain_msg (e_msg e)) log ->
  exists file, write_log size log = Ok file /\ read_log size file = Ok log.
Proof.
  intros Hs H1 H2. destruct (C35_roundtrip_partial size log Hs H1) as (file & log' & W & _ & R & K). exists file. split; auto.
  replace log with log'; auto. clear -H2 K. induction K as [|e e' l l' (K1 & K2 & K3 & K4) _ IH]; auto. inversion H2; subst. f_equal; auto.
  apply plain_kept in K4; auto. destruct e, e'; cbn in *; congruence.
Qed.

(** Reading never fails and never leaves the buffer. *)
Theorem C35_read_total size buf : (1 <= size)%nat -> bytes buf -> exists log, read_log size buf = Ok log.
Proof.
  intros Hs. remember (length buf) as n eqn:En. revert buf En. induction n as [n IH] using lt_wf_ind. intros buf En Hb.
  destruct buf as [|c r]; [exists []; reflexivity|]. unfold read_log. cbn [length] in *.
  pose proof (linenlen_pos (c :: r) ltac:(discriminate)) as P. cbn [length] in P. cbn [reflog_parse]. set (k := linenlen (c :: r)) in *.
  assert (SL : length (skipn k (c :: r)) = (length (c :: r) - k)%nat) by apply skipn_length. cbn [length] in SL.
  assert (A : forall ln, bytes ln -> exists o, advance_oid size ln = Ok o /\ (forall id l, o = Some (id, l) -> bytes l)).
  { clear -Hs. intros ln B. unfold advance_oid. destruct (Nat.ltb_spec (length ln) (2 * size)); [exists None; split; [auto|discriminate]|].
    destruct (from_prefix_outcome size ln (2 * size) B) as [[id ->]| ->]; auto.
    - eexists. split; [reflexivity|]. intros i l [= <- <-]. apply Forall_forall. intros x I. unfold bytes in B. rewrite Forall_forall in B. apply B.
      rewrite <- (firstn_skipn (2 * size) ln). apply in_or_app. auto.
    - eexists. split; [reflexivity|]. discriminate. }
  assert (B1 : bytes (firstn k (c :: r)) /\ bytes (skipn k (c :: r))).
  { unfold bytes in *. apply Forall_app. rewrite firstn_skipn. exact Hb. }
  assert (PL : exists o, parse_line size (firstn k (c :: r)) = Ok o).
  { unfold parse_line. destruct (A _ (proj1 B1)) as (o1 & -> & F1). cbn [bindr]. destruct o1 as [[old l1]|]; eauto.
    destruct l1 as [|b l2]; eauto. destruct (negb (b =? 32)); eauto. specialize (F1 _ _ eq_refl). inversion F1; subst.
    destruct (A l2) as (o2 & -> & F2); auto. cbn [bindr]. destruct o2 as [[new l3]|]; eauto. destruct (until_tab l3) as [sg l4].
    destruct (C32_parse_total sg None 0) as [(s & rest & ->)| ->]; eauto. }
  destruct PL as [o ->]. cbn [bindr]. rewrite (parse_fuel size (length (skipn k (c :: r)))) by lia.
  destruct (IH (length (skipn k (c :: r)))) with (buf := skipn k (c :: r)) as [l El]; [lia|reflexivity|apply B1|].
  unfold read_log in El. rewrite El. cbn [bindr]. eauto.
Qed.

(** A concrete log. *)
Definition ada_sig : sig := mksig ada ada_mail 1700000000 (-570) 45.
Definition ids (b : Z) : list Z := repeat b 20.
Definition log2 : list entry := append 20 (append 20 [] (ids 17) ada_sig (Some (bs "commit: one"))) (ids 171) ada_sig None.
Lemma ada_storable : storable ada_sig.
Proof.
  unfold storable, ada_sig; cbn [s_name s_email s_time s_offset s_sign].
  destruct (C32_new_storable ada ada_mail 1700000000 (-570) _ eq_refl) as (_ & _ & _ & _ & _ & _ & X).
  apply X; try (repeat constructor; fail); try (intros I; vm_compute in I; repeat destruct I as [I|I]; discriminate || contradiction).
  - split; [discriminate|reflexivity].
  - split; discriminate.
Qed.
Lemma ids_ok b : is_byte b -> oid_ok 20 (ids b).
Proof. intros H. split; [reflexivity|]. unfold ids. repeat (constructor; [exact H|]). constructor. Qed.
Example C35_ex : Forall (entry_ok 20) log2 /\ Forall (fun e => plain_msg (e_msg e)) log2 /\ length log2 = 2%nat /\
  linked 20 (rev log2) /\ (exists file, write_log 20 log2 = Ok file /\ read_log 20 file = Ok log2).
Proof.
  assert (T : tabfree ada_sig) by (split; intros I; vm_compute in I; repeat destruct I as [I|I]; discriminate || contradiction).
  assert (C : cstring (bs "commit: one")) by (repeat constructor).
  assert (E : Forall (entry_ok 20) log2).
  { unfold log2, append. cbn [byindex length Nat.leb app nth_error Nat.sub e_new option_map].
    constructor; [|constructor; [|constructor]]; unfold entry_ok; cbn [e_old e_new e_sig e_msg];
      (split; [try apply (ids_ok 0); try apply ids_ok; unfold is_byte; lia|]); (split; [apply ids_ok; unfold is_byte; lia|]);
      (split; [apply ada_storable|]); (split; [exact T|]); cbn [msg_ok]; auto.
    split; [repeat constructor|]. intros p c H. exfalso.
    assert (I : In 10 (map (fun c0 : Z => if c0 =? 10 then 32 else c0) (bs "commit: one"))) by (rewrite H; apply in_or_app; right; left; auto).
    vm_compute in I. repeat destruct I as [I|I]; discriminate || contradiction. }
  assert (P : Forall (fun e => plain_msg (e_msg e)) log2).
  { unfold log2, append. cbn [byindex length Nat.leb app nth_error Nat.sub e_new option_map].
    constructor; [|constructor; [exact I|constructor]]. cbn [e_msg plain_msg].
    split; [repeat constructor|]. split; [discriminate|]. split.
    - intros I. vm_compute in I. repeat destruct I as [I|I]; discriminate || contradiction.
    - intros p c H. change (bs "commit: on" ++ [101] = p ++ [c]) in H. apply app_inj_tail in H as [_ <-].
      unfold space. intros [[I|[]]|I]; [discriminate|lia]. }
  split; auto. split; auto. split; auto. split.
  - apply (C35_fresh_linked 20 [OpAppend (ids 17) ada_sig (Some (bs "commit: one")); OpAppend (ids 171) ada_sig None]).
  - apply C35_exact_roundtrip_partial; auto. lia.
Qed.

(** What does not survive.  A tab inside the committer's name loses the entry. *)
Theorem C35_tab_refuted : exists name s line, signature_new name ada_mail 1 0 = Ok s /\
  serialize 20 (ids 0) (ids 17) s None = Ok line /\ read_log 20 line = Ok [].
Proof. exists (bs "A" ++ [9] ++ bs "B"). do 2 eexists. split; [reflexivity|]. split; [vm_compute; reflexivity|]. vm_compute; reflexivity. Qed.
(** A message whose last byte but one is a newline, given to a reference update, is cut
    and leaves a stray line behind. *)
Theorem C35_newline_refuted : exists line e, serialize 20 (ids 0) (ids 17) ada_sig (Some (bs "merge a" ++ [10] ++ bs "b")) = Ok line /\
  read_log 20 line = Ok [e] /\ e_msg e = Some (bs "merge a") /\ exists l1 l2, line = l1 ++ [10] ++ l2 ++ [10] /\ l2 = bs "b".
Proof.
  do 2 eexists. split; [vm_compute; reflexivity|]. split; [vm_compute; reflexivity|]. split; [reflexivity|].
  exists (hex_text (ids 0) ++ [32] ++ hex_text (ids 17) ++ bs " Ada Lovelace <ada@example.com> 1700000000 -0930" ++ [9] ++ bs "merge a"), (bs "b"). split; vm_compute; reflexivity.
Qed.
(** An empty message comes back as none. *)
Theorem C35_empty_refuted : exists line e, serialize 20 (ids 0) (ids 17) ada_sig (Some []) = Ok line /\ read_log 20 line = Ok [e] /\ e_msg e = None.
Proof. do 2 eexists. split; [vm_compute; reflexivity|]. split; [vm_compute; reflexivity|]. reflexivity. Qed.
