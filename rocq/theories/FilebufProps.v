(** C18: a file committed through a lock file. *)
From Verif Require Import Base Str FilebufModel FilebufSpec FilebufProofs.

Lemma same_file_spec a b : same_file a b = true <-> a = b.
Proof.
  destruct a as [x|], b as [y|]; cbn; try (split; [discriminate|discriminate]); try tauto.
  rewrite Nat.eqb_eq. split; congruence.
Qed.

Section P.
Variable prog : nat -> wprog.
Hypothesis GP : good_progs prog.
Variable s0 : wstate.
Hypothesis I0 : init s0.

Lemma init_inv : inv prog s0.
Proof.
  destruct I0 as (H1 & H2 & H3). constructor; auto.
  - intros i Hi. congruence.
  - intros p. rewrite H1. exact I.
  - intros p q. rewrite H1. intros [].
Qed.

Lemma exec_inv tr s : exec false prog s0 tr s -> inv prog s.
Proof.
  induction 1 as [|tr s p c s' E IH Hs]; [apply init_inv|].
  exact (proj1 (step_ok prog GP _ _ _ _ IH Hs)).
Qed.

Lemma replacements_app tr e p : replacements (tr ++ [e]) p = (replacements tr p + if replaced_by p e then 1 else 0)%nat.
Proof.
  unfold replacements. rewrite filter_app, app_length. cbn. destruct (replaced_by p e); reflexivity.
Qed.

Lemma exec_trace tr s : exec false prog s0 tr s ->
  (forall p f f', In (p, f, f') tr ->
     f_tgt f' = f_tgt f /\ target f' = target f \/
     f_tgt f' <> f_tgt f /\ target f' = Some (new_content (prog p) (target f))) /\
  (forall p, replacements tr p = if after (w_pc s p) then 1%nat else 0%nat).
Proof.
  induction 1 as [|tr s p c s' E IH Hs].
  - split; [intros p f f' []|]. intros p. destruct I0 as (H1 & _). now rewrite H1.
  - destruct IH as [IH1 IH2].
    destruct (step_ok prog GP _ _ _ _ (exec_inv _ _ E) Hs) as (I' & HA & HB & HC & HD & HE).
    split.
    + intros q f f' Hin. apply in_app_or in Hin as [Hin|[[= <- <- <-]|[]]]; [now apply IH1|].
      destruct HA as [(X & Y & _)|(X & Y & _)]; auto.
    + intros q. rewrite replacements_app, IH2. cbn.
      destruct (Nat.eqb_spec p q) as [<- | Hn]; cbn.
      * destruct HA as [(X & Y & Z)|(X & Y & Z & T)].
        -- rewrite (proj2 (same_file_spec _ _)) by auto. cbn. rewrite Z. lia.
        -- destruct (same_file _ _) eqn:Es; [apply same_file_spec in Es; congruence|]. cbn. now rewrite Z, T.
      * rewrite (HE q) by auto. lia.
Qed.

End P.

(** Every event leaves the target's content as it was or replaces it at once
    by the complete new content of the writer that made the step -- old content
    first, when appending.  So at every moment, in particular where a crash
    cuts the execution, the target holds a complete content. *)
Theorem filebuf_atomic prog s0 tr s : good_progs prog -> init s0 -> exec false prog s0 tr s ->
  forall p f f', In (p, f, f') tr ->
    target f' = target f \/ target f' = Some (new_content (prog p) (target f)).
Proof.
  intros GP I0 E p f f' Hin. destruct (proj1 (exec_trace prog GP s0 I0 tr s E) p f f' Hin) as [[_ H]|[_ H]]; auto.
Qed.

(** The same as a statement about the final state: the target is the initial
    content or a complete content somebody committed. *)
Theorem filebuf_target_complete prog s0 tr s : good_progs prog -> init s0 -> exec false prog s0 tr s ->
  target (w_fs s) = target (w_fs s0) \/
  exists p f f', In (p, f, f') tr /\ target (w_fs s) = Some (new_content (prog p) (target f)).
Proof.
  intros GP I0 E. induction E as [|tr s p c s' E IH Hs]; [now left|].
  destruct (step_ok prog GP _ _ _ _ (exec_inv prog GP s0 I0 _ _ E) Hs) as (_ & HA & _).
  destruct HA as [(_ & Y & _)|(_ & Y & _)].
  - rewrite Y. destruct IH as [IH|(q & f & f' & Hin & IH)]; [now left|].
    right. exists q, f, f'. split; [apply in_or_app; now left|exact IH].
  - right. exists p, (w_fs s), (w_fs s'). split; [apply in_or_app; right; now left|exact Y].
Qed.

(** A writer whose commit reported success replaced the target exactly once,
    with its complete new content; a writer that reported an error never
    changed the target; a writer refused with GIT_ELOCKED changed nothing in
    the file system. *)
Theorem filebuf_success_once prog s0 tr s p : good_progs prog -> init s0 -> exec false prog s0 tr s ->
  w_pc s p = PDone 0 ->
  replacements tr p = 1%nat /\
  exists f f', In (p, f, f') tr /\ target f' = Some (new_content (prog p) (target f)).
Proof.
  intros GP I0 E Hp. destruct (exec_trace prog GP s0 I0 tr s E) as [H1 H2].
  assert (Hr : replacements tr p = 1%nat) by (rewrite H2, Hp; reflexivity).
  split; [exact Hr|]. unfold replacements in Hr.
  destruct (filter (replaced_by p) tr) as [|[[q f] f'] l] eqn:Ef; [discriminate|].
  assert (Hin : In (q, f, f') (filter (replaced_by p) tr)) by (rewrite Ef; now left).
  apply filter_In in Hin as [Hin Hb]. cbn in Hb. apply andb_true_iff in Hb as [Hq Hb].
  apply Nat.eqb_eq in Hq. subst q. exists f, f'. split; [exact Hin|].
  destruct (H1 p f f' Hin) as [[X _]|[_ X]]; [|exact X].
  rewrite (proj2 (same_file_spec _ _)) in Hb by auto. discriminate.
Qed.

Theorem filebuf_failure_keeps_target prog s0 tr s p r : good_progs prog -> init s0 -> exec false prog s0 tr s ->
  w_pc s p = PDone r -> r <> 0 ->
  forall f f', In (p, f, f') tr -> target f' = target f.
Proof.
  intros GP I0 E Hp Hr f f' Hin. destruct (exec_trace prog GP s0 I0 tr s E) as [H1 H2].
  destruct (H1 p f f' Hin) as [[_ X]|[X _]]; [exact X|exfalso].
  specialize (H2 p). rewrite Hp in H2. cbn in H2. rewrite (proj2 (Z.eqb_neq _ _) Hr) in H2.
  unfold replacements in H2. apply length_zero_iff_nil in H2.
  assert (K : In (p, f, f') (filter (replaced_by p) tr)).
  { apply filter_In. split; [exact Hin|]. cbn. rewrite Nat.eqb_refl. cbn.
    destruct (same_file _ _) eqn:Es; [apply same_file_spec in Es; congruence|reflexivity]. }
  rewrite H2 in K. destruct K.
Qed.

Theorem filebuf_refused_changes_nothing psf prog s0 tr s p : init s0 -> exec psf prog s0 tr s ->
  w_pc s p = PDone GIT_ELOCKED -> forall f f', In (p, f, f') tr -> f' = f.
Proof.
  intros I0 E.
  assert (H : (w_pc s p = PStart \/ w_pc s p = PCreate \/ w_pc s p = PDone GIT_ELOCKED) ->
    forall f f', In (p, f, f') tr -> f' = f).
  { induction E as [|tr s q c s' E IH Hs]; [intros _ f f' []|].
    intros Hp f f' Hin. apply in_app_or in Hin as [Hin|[[= -> <- <-]|[]]].
    - apply IH; [|exact Hin]. clear IH Hin.
      unfold wstep in Hs. destruct (Nat.eq_dec q p) as [-> | Hn].
      + destruct (w_pc s p) as [| |i|i src off|i buf err ops|i out buf k ops|i|i|i|i|i|i|i|r] eqn:Epc; auto; exfalso;
        destruct c; try discriminate Hs;
        repeat match type of Hs with
               | context [match ?x with _ => _ end] => destruct x eqn:?
               end; try discriminate Hs; injection Hs as <-; cbn in Hp; rewrite pset_eq in Hp;
        unfold flush_step, fb_op, fb_write, fb_reserve, fb_printf, resume, resume_fail, write_turn, fb_write, write_turn in Hp;
        repeat match type of Hp with
               | context [match ?x with _ => _ end] => destruct x
               end; destruct Hp as [Hp|[Hp|Hp]]; try discriminate Hp.
      + assert (Hq : w_pc s' p = w_pc s p).
        { destruct (w_pc s q) as [| |i|i src off|i buf err ops|i out buf k ops|i|i|i|i|i|i|i|r];
          destruct c; try discriminate Hs;
          repeat match type of Hs with
                 | context [match ?x with _ => _ end] => destruct x eqn:?
                 end; try discriminate Hs; injection Hs as <-; cbn; rewrite pset_neq by auto; reflexivity. }
        now rewrite <- Hq.
    - unfold wstep in Hs.
      destruct (w_pc s p) as [| |i|i src off|i buf err ops|i out buf k ops|i|i|i|i|i|i|i|r] eqn:Epc;
        destruct c; try discriminate Hs;
        repeat match type of Hs with
               | context [match ?x with _ => _ end] => destruct x eqn:?
               end; try discriminate Hs; injection Hs as <-; cbn in Hp |- *; try reflexivity; exfalso; rewrite pset_eq in Hp;
        unfold flush_step, fb_op, fb_write, fb_reserve, fb_printf, resume, resume_fail, write_turn, fb_write, write_turn in Hp;
        repeat match type of Hp with
               | context [match ?x with _ => _ end] => destruct x
               end; destruct Hp as [Hp|[Hp|Hp]]; try discriminate Hp. }
  auto.
Qed.

(** At most one writer has the lock, and while somebody has it the lock file
    exists, so nobody else can create it. *)
Theorem filebuf_lock_exclusive prog s0 tr s p q : good_progs prog -> init s0 -> exec false prog s0 tr s ->
  has_lock s p -> has_lock s q -> p = q.
Proof.
  intros GP I0 E. pose proof (inv_ex _ _ (exec_inv prog GP s0 I0 _ _ E) p q) as H. exact H.
Qed.

Theorem filebuf_lock_file_exists prog s0 tr s p : good_progs prog -> init s0 -> exec false prog s0 tr s ->
  has_lock s p -> f_lck (w_fs s) <> None.
Proof.
  intros GP I0 E H. pose proof (inv_pc _ _ (exec_inv prog GP s0 I0 _ _ E) p) as Hp. exact (holding_lck _ _ _ Hp H).
Qed.

(** The inode a process may still write to. *)
Definition writing (pc : wpc) : option nat :=
  match pc with
  | PAppend i | PCopy i _ _ | PRun i _ _ _ | PFlush i _ _ _ _ => Some i
  | _ => None
  end.

Lemma writing_resume w i buf k ops : writing (resume w i buf k ops) = Some i \/ writing (resume w i buf k ops) = None.
Proof.
  destruct k; cbn; unfold fb_write, write_turn;
    repeat match goal with |- context [if ?b then _ else _] => destruct b end; cbn; auto.
Qed.

Lemma step_unwritten psf prog s p c s' i : wstep psf prog s p c = Some s' -> (i < f_next (w_fs s))%nat ->
  (forall q, writing (w_pc s q) <> Some i) ->
  (i < f_next (w_fs s'))%nat /\ (forall q, writing (w_pc s' q) <> Some i) /\ f_data (w_fs s') i = f_data (w_fs s) i.
Proof.
  intros Hs Hi Hw. assert (Hwp := Hw p).
  assert (L : forall f pc, (writing pc = writing (w_pc s p) \/ writing pc <> Some i) ->
    forall q, writing (w_pc (mkw f (pset (w_pc s) p pc)) q) <> Some i).
  { intros f pc Hpc q. cbn. destruct (Nat.eq_dec q p) as [-> | Hn].
    - rewrite pset_eq. destruct Hpc as [-> |]; auto.
    - rewrite pset_neq by auto. apply Hw. }
  assert (R : forall f j buf k ops, j <> i ->
    forall q, writing (w_pc (mkw f (pset (w_pc s) p (resume (prog p) j buf k ops))) q) <> Some i).
  { intros f j buf k ops Hj. apply L. right. destruct (writing_resume (prog p) j buf k ops) as [-> | ->]; congruence. }
  unfold wstep in Hs.
  destruct (w_pc s p) as [| |j|j src off|j buf err ops|j out buf k ops|j|j|j|j|j|j|j|r] eqn:Epc;
    destruct c as [|n| |]; try discriminate Hs; cbn [writing] in Hwp.
  - destruct (f_lck (w_fs s)); injection Hs as <-; (split; [exact Hi|]); (split; [apply L; right; cbn; discriminate|reflexivity]).
  - destruct (f_lck (w_fs s)); injection Hs as <-.
    + split; [exact Hi|]. split; [apply L; right; cbn; discriminate|reflexivity].
    + split; [cbn; lia|]. split; [|cbn; rewrite dset_neq; [reflexivity|lia]].
      apply L. right. destruct (w_append (prog p)); cbn; intros [= E]; lia.
  - injection Hs as <-. split; [exact Hi|]. split; [apply L; right; cbn; discriminate|reflexivity].
  - destruct (f_tgt (w_fs s)); injection Hs as <-; (split; [exact Hi|]); (split; [apply L; right; exact Hwp|reflexivity]).
  - injection Hs as <-. split; [exact Hi|]. split; [apply L; right; cbn; discriminate|reflexivity].
  - destruct (firstn (S n) (skipn off (f_data (w_fs s) src))); injection Hs as <-.
    + split; [exact Hi|]. split; [apply L; right; exact Hwp|reflexivity].
    + split; [exact Hi|]. split; [apply L; right; exact Hwp|]. cbn. rewrite dset_neq; [reflexivity|congruence].
  - injection Hs as <-. split; [exact Hi|]. split; [apply L; right; cbn; discriminate|reflexivity].
  - destruct ops as [|o ops].
    + destruct err; injection Hs as <-; (split; [exact Hi|]); (split; [apply L; right; cbn; first [discriminate|exact Hwp]|reflexivity]).
    + injection Hs as <-. split; [exact Hi|]. split; [|reflexivity]. apply L. right.
      destruct o; cbn; unfold fb_write, fb_reserve, fb_printf, write_turn;
        repeat match goal with |- context [if ?b then _ else _] => destruct b end; cbn; exact Hwp.
  - destruct ops; discriminate Hs.
  - destruct ops; discriminate Hs.
  - assert (Hx : Some (mkw (w_fs s) (pset (w_pc s) p (PClean j))) = Some s') by (destruct ops; exact Hs).
    injection Hx as <-. split; [exact Hi|]. split; [apply L; right; cbn; discriminate|reflexivity].
  - destruct out as [|b out]; injection Hs as <-.
    + split; [exact Hi|]. split; [apply R; congruence|reflexivity].
    + split; [exact Hi|]. split; [|cbn [w_fs f_data]; rewrite dset_neq; [reflexivity|congruence]].
      unfold flush_step. destruct (skipn (S n) (b :: out)); [apply R; congruence|apply L; right; exact Hwp].
  - destruct out as [|b out]; [discriminate Hs|]. injection Hs as <-. split; [exact Hi|]. split; [|reflexivity].
    apply L. right. destruct k; cbn; first [discriminate|exact Hwp].
  - injection Hs as <-. split; [exact Hi|]. split; [apply L; right; cbn; discriminate|reflexivity].
  - injection Hs as <-. split; [exact Hi|]. split; [apply L; right; cbn; discriminate|reflexivity].
  - destruct (f_tgt (w_fs s)), (f_lck (w_fs s)); try discriminate Hs. injection Hs as <-.
    split; [exact Hi|]. split; [apply L; right; cbn; discriminate|reflexivity].
  - injection Hs as <-. split; [exact Hi|]. split; [apply L; right; cbn; discriminate|reflexivity].
  - injection Hs as <-. split; [exact Hi|]. split; [apply L; right; cbn; discriminate|reflexivity].
  - injection Hs as <-. split; [exact Hi|]. split; [apply L; right; cbn; discriminate|reflexivity].
  - destruct (f_lck (w_fs s)); injection Hs as <-; (split; [exact Hi|]); (split; [apply L; right; cbn; discriminate|reflexivity]).
  - injection Hs as <-. split; [exact Hi|]. split; [apply L; right; cbn; discriminate|reflexivity].
  - injection Hs as <-. split; [exact Hi|]. split; [apply L; right; cbn; discriminate|reflexivity].
  - destruct (psf && w_fsync (prog p)); [|discriminate Hs]. injection Hs as <-.
    split; [exact Hi|]. split; [apply L; right; cbn; discriminate|reflexivity].
  - destruct (f_lck (w_fs s)); injection Hs as <-; (split; [exact Hi|]); (split; [apply L; right; cbn; discriminate|reflexivity]).
  - injection Hs as <-. split; [exact Hi|]. split; [apply L; right; cbn; discriminate|reflexivity].
  - injection Hs as <-. split; [exact Hi|]. split; [apply L; right; cbn; discriminate|reflexivity].
Qed.

(** A process that opens the target at any moment and reads it piecemeal while
    the writers go on reads exactly the content it had when it was opened. *)
Theorem filebuf_readers_see_complete prog s0 tr s i off acc s' : good_progs prog -> init s0 ->
  exec false prog s0 tr s -> reads false prog s i off acc s' ->
  exists c, target (w_fs s) = Some c /\ f_data (w_fs s') i = c /\ acc = firstn off c.
Proof.
  intros GP I0 E R. assert (Iv := exec_inv prog GP s0 I0 _ _ E). clear E I0.
  assert (K : (i < f_next (w_fs s'))%nat /\ (forall q, writing (w_pc s' q) <> Some i) /\
    target (w_fs s) = Some (f_data (w_fs s') i) /\ acc = firstn off (f_data (w_fs s') i)).
  { induction R as [Ht|off acc s1 p c s2 R IH Hs|off acc s1 n R IH piece].
    - split; [exact (inv_tgt _ _ Iv i Ht)|]. split.
      + intros q Hq. pose proof (inv_pc _ _ Iv q) as Hp.
        destruct (w_pc s q); try discriminate Hq; injection Hq as ->; cbn in Hp; tauto.
      + unfold target. rewrite Ht. split; reflexivity.
    - destruct IH as (L1 & N1 & T1 & A1).
      destruct (step_unwritten _ _ _ _ _ _ i Hs L1 N1) as (L2 & N2 & D2). rewrite D2. auto.
    - destruct IH as (L1 & N1 & T1 & A1). do 3 (split; [assumption|]).
      unfold piece. rewrite firstn_add, firstn_len_id, A1. reflexivity. }
  destruct K as (_ & _ & T & A). exists (f_data (w_fs s') i). auto.
Qed.

(** The buffer never holds more than its size. *)
Theorem filebuf_buffer_in_bounds prog s0 tr s p i buf err ops : good_progs prog -> init s0 ->
  exec false prog s0 tr s -> w_pc s p = PRun i buf err ops -> (length buf <= w_size (prog p))%nat.
Proof.
  intros GP I0 E Hp. pose proof (inv_pc _ _ (exec_inv prog GP s0 I0 _ _ E) p) as H. rewrite Hp in H. cbn in H. tauto.
Qed.

(** *** Non-vacuity: two writers, the second appending, and one refused. *)
Definition ex_prog (p : nat) : wprog :=
  match p with
  | 0%nat => mkprog false false true 4 [OpWrite (bs "hello"); OpPrintf (bs " world"); OpReserve (bs "!")]
  | 1%nat => mkprog true false true 4 [OpWrite (bs "more")]
  | _ => mkprog false true false 4 [OpWrite (bs "x")]
  end.
Definition ex_s0 : wstate := mkw (mkfs None None (fun _ => []) 0) (fun _ => PStart).
Fixpoint run (psf : bool) (prog : nat -> wprog) (s : wstate) (l : list (nat * wchoice)) : option wstate :=
  match l with
  | [] => Some s
  | (p, c) :: r => match wstep psf prog s p c with Some s' => run psf prog s' r | None => None end
  end.
Lemma run_exec psf prog : forall l s0 tr s s', exec psf prog s0 tr s -> run psf prog s l = Some s' ->
  exists tr', exec psf prog s0 tr' s'.
Proof.
  induction l as [|[p c] l IH]; cbn; intros s0 tr s s' E H; [injection H as <-; eauto|].
  destruct (wstep psf prog s p c) as [s1|] eqn:Es; [|discriminate].
  eapply IH; [|exact H]. econstructor; eauto.
Qed.
Example ex_progs_good : good_progs ex_prog.
Proof.
  intros p. destruct p as [|[|p]]; cbn; (split; [lia|]); try discriminate.
  intros _ o [<- |[]]. eexists; reflexivity.
Qed.
Example ex_init : init ex_s0.
Proof. repeat split; cbn; auto; discriminate. Qed.
Definition opt_target (o : option wstate) : option (option (list Z)) := option_map (fun s => target (w_fs s)) o.
Definition commit_link : list wchoice := [Go; Go; Go; Go].
Example ex_commit :
  opt_target (run false ex_prog ex_s0
    ([(0%nat, Go); (2%nat, Go); (0%nat, Go); (2%nat, Go); (0%nat, Go); (0%nat, GoN 2); (0%nat, GoN 7); (0%nat, Go);
      (0%nat, GoN 0); (0%nat, GoN 0); (0%nat, GoN 3); (0%nat, Go); (0%nat, Go); (0%nat, GoN 9); (0%nat, Go); (0%nat, Go); (0%nat, Go); (0%nat, Go);
      (1%nat, Go); (1%nat, Go); (1%nat, Go); (1%nat, GoN 5); (1%nat, GoN 50); (1%nat, GoN 1); (1%nat, Go);
      (1%nat, GoN 9); (1%nat, Go); (1%nat, GoN 0); (1%nat, Go); (1%nat, Fail); (1%nat, Go); (1%nat, Go)]))
  = Some (Some (bs "hello world!more")).
Proof. vm_compute. reflexivity. Qed.

(** *** The limit of the guarantee.  With GIT_FILEBUF_FSYNC, when the fsync of
    the parent directory fails after the rename, git_filebuf_commit cleans up
    as if the rename had not happened: it unlinks whatever lock file exists by
    then.  If that is another writer's, two writers hold the lock and a half
    written file can be moved onto the target; and the failing writer reports
    an error although the target was replaced. *)
Definition bad_prog (p : nat) : wprog :=
  match p with
  | 0%nat => mkprog false false true 4 [OpWrite (bs "zero")]
  | 1%nat => mkprog false false true 4 [OpWrite (bs "one!")]
  | _ => mkprog false false true 4 [OpWrite (bs "two"); OpWrite (bs "two")]
  end.
Definition bad_prefix : list (nat * wchoice) :=
  [(0%nat, Go); (0%nat, Go); (0%nat, Go); (0%nat, GoN 3); (0%nat, Go); (0%nat, GoN 0); (0%nat, Go); (0%nat, Go); (0%nat, Go);
   (* writer 0 has published "zero" and fails to fsync the directory *)
   (1%nat, Go); (1%nat, Go); (0%nat, Fail); (0%nat, Go); (0%nat, Go);
   (* writer 2 gets the lock writer 1 still holds *)
   (2%nat, Go); (2%nat, Go)].
Definition bad_rest : list (nat * wchoice) :=
  [(2%nat, Go); (2%nat, Go); (2%nat, GoN 0);
   (1%nat, Go); (1%nat, GoN 3); (1%nat, Go); (1%nat, GoN 0); (1%nat, Go); (1%nat, Fail); (1%nat, Go)].

Theorem filebuf_fsync_parent_refuted :
  (exists tr s, exec true bad_prog ex_s0 tr s /\ has_lock s 1 /\ has_lock s 2 /\
     w_pc s 0%nat = PDone (-1) /\ target (w_fs s) = Some (new_content (bad_prog 0%nat) None)) /\
  (exists tr s c, exec true bad_prog ex_s0 tr s /\ target (w_fs s) = Some c /\
     forall p old, c <> new_content (bad_prog p) old).
Proof.
  assert (E0 : exec true bad_prog ex_s0 [] ex_s0) by constructor.
  assert (HH : exists s, run true bad_prog ex_s0 bad_prefix = Some s /\ has_lock s 1 /\ has_lock s 2 /\
     w_pc s 0%nat = PDone (-1) /\ target (w_fs s) = Some (new_content (bad_prog 0%nat) None)).
  { eexists. split; [vm_compute; reflexivity|]. vm_compute. auto. }
  assert (HJ : exists s, run true bad_prog ex_s0 (bad_prefix ++ bad_rest) = Some s /\ target (w_fs s) = Some (bs "t")).
  { eexists. split; [vm_compute; reflexivity|]. vm_compute. reflexivity. }
  split.
  - destruct HH as (s & R & H1 & H2 & H3 & H4). destruct (run_exec true bad_prog _ _ _ _ _ E0 R) as (tr & E).
    exists tr, s. split; [exact E|]. do 3 (split; [assumption|]). exact H4.
  - destruct HJ as (s & R & H). destruct (run_exec true bad_prog _ _ _ _ _ E0 R) as (tr & E).
    exists tr, s, (bs "t"). split; [exact E|]. split; [exact H|].
    intros p old. destruct p as [|[|p]]; cbn; discriminate.
Qed.
Print Assumptions filebuf_atomic.
Print Assumptions filebuf_readers_see_complete.
Print Assumptions filebuf_fsync_parent_refuted.
