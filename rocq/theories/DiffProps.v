(** C28: a diff of two listings reports exactly their differences, in path order. *)
From Verif Require Import Base CStr Str DiffModel DiffSpec DiffProofs.
Local Open Scope Z_scope.

(** Every path of either side, in order, contributes exactly the deltas the table gives
    for what the two sides have there (nothing for a path outside the pathspec). *)
Theorem C28_diff_reports_every_path : forall op io inn old new, o_reverse op = false -> o_tctrees op = false -> listing io old -> listing inn new ->
  exists ps Ls, diff_lists op io inn old new = Ok (concat Ls) /\ ascending ps /\
    (forall p, In p ps <-> exists e, In e (old ++ new) /\ i_path e = p) /\
    Forall2 (fun p L => forall o n, first_at old p o -> first_at new p n -> if o_want op p then reports op o n L else L = []) ps Ls.
Proof.
  intros op io inn old new Rv Tc Ho Hn. unfold diff_lists. rewrite Tc.
  destruct (loop_spec op Rv Tc io inn (length old + length new) old new [] Ho Hn (le_n _)) as (ps & Ls & E & A & B & C).
  exists ps, Ls. rewrite E. cbn [bindr]. rewrite app_nil_r, rev_involutive. split; auto. split; auto. split.
  - intros p. rewrite B. unfold within. split.
    + intros [(e & I & P)|(e & I & P)]; exists e; rewrite in_app_iff; auto.
    + intros (e & I & P). rewrite in_app_iff in I. destruct I; eauto.
  - clear -C. induction C as [|p L ps' Ls' Hc HF IH]; constructor; auto. intros o n Fo Fn. rewrite (first_unique _ _ _ Fo), (first_unique _ _ _ Fn). exact Hc.
Qed.
(** The table is complete and unambiguous. *)
Lemma reports_fun op o n L1 L2 : reports op o n L1 -> reports op o n L2 -> L1 = L2.
Proof.
  intros H1 H2. inversion H1; subst; inversion H2; subst; auto; try lia; try contradiction; try congruence;
    unfold same_file, kind in *; exfalso;
    repeat match goal with H : _ \/ _ |- _ => destruct H | H : _ /\ _ |- _ => destruct H end; try contradiction; try congruence; try tauto.
Qed.
Theorem C28_table_decides : forall op o n, o <> None \/ n <> None -> exists L, reports op o n L /\ forall L', reports op o n L' -> L' = L.
Proof.
  intros op o n H. assert (E : exists L, reports op o n L).
  { destruct o as [o|], n as [n|]; [| | |destruct H; congruence].
    - destruct (Z_lt_dec 0 (i_stage o)) as [C1|C1]; [eexists; apply r_conflict; unfold unconflicted; lia|].
      destruct (Z_lt_dec 0 (i_stage n)) as [C2|C2]; [eexists; apply r_conflict; unfold unconflicted; lia|].
      assert (U : unconflicted o n) by (split; lia).
      destruct (i_valid o) eqn:V; [eexists; apply r_same; auto; left; unfold kept; intros []; congruence|].
      destruct (i_skip o) eqn:K; [eexists; apply r_same; auto; left; unfold kept; intros []; congruence|]. assert (Kp : kept o) by (split; auto).
      destruct (Z.eq_dec (kind o) (kind n)) as [Ek|Ek].
      + destruct (leqb (i_id o) (i_id n) && (i_mode o =? i_mode n) && negb (oid_is_zero (i_id o))) eqn:Q.
        * eexists. apply r_same; auto. right. left. apply andb_true_iff in Q as [Q Q3]. apply andb_true_iff in Q as [Q1 Q2].
          apply leqb_spec in Q1. apply Z.eqb_eq in Q2. apply nonzero_spec in Q3. split; auto.
        * assert (NS : ~ same_file o n). { intros (S1' & S2' & S3'). apply nonzero_spec in S3'. rewrite S3', <- S1', <- S2', lb_refl, Z.eqb_refl in Q. discriminate. }
          destruct (Z.eq_dec (kind n) 57344) as [G|G]; [destruct (o_ignore_sub op) eqn:I|].
          -- eexists. apply r_same; auto. -- eexists. apply r_modified; auto. intros []; congruence. -- eexists. apply r_modified; auto. intros []; contradiction.
      + destruct (o_typechange op) eqn:T; [eexists; now apply r_type|eexists; now apply r_split].
    - destruct (Z_lt_dec 0 (i_stage o)); eexists; [now apply r_old_conflict|apply r_deleted; lia].
    - destruct (Z_lt_dec 0 (i_stage n)); eexists; [now apply r_new_conflict|apply r_added; lia]. }
  destruct E as (L & R). exists L. split; auto. intros L' R'. eapply reports_fun; eauto.
Qed.

(** ** Trees *)
(** The entries of a tree: a valid id, stage 0 and no index flags. *)
Definition tree_items (l : list item) : Prop := listing false l /\ forall e, In e l -> i_stage e = 0 /\ i_valid e = false /\ i_skip e = false /\ exists b, In b (i_id e) /\ b <> 0.
Lemma first_in l p e : tree_items l -> (first p l = Some e <-> In e l /\ i_path e = p).
Proof.
  intros [H _]. split.
  - intros E. pose proof (first_spec p l) as F. rewrite E in F. destruct F as (pre & post & -> & P & _). split; auto. apply in_or_app. right. left. auto.
  - intros [I P]. symmetry. apply first_unique. apply in_split in I as (pre & post & ->). exists pre, post. split; auto. split; auto.
    intros x Hx Px. apply In_nth_error in Hx as (i & Hi).
    assert (Li : (i < length pre)%nat) by (apply nth_error_Some; congruence).
    destruct (H i (length pre) x e) as [L|(_ & F & _)]; auto; [rewrite nth_error_app1; auto|rewrite nth_error_app2, Nat.sub_diag by lia; reflexivity| |discriminate].
    rewrite Px, P in L. now apply lx_irrefl in L.
Qed.
(** The default diff of two trees with typechanges: exactly the deletions, additions and changes, in strictly ascending path order. *)
Theorem C28_tree_to_tree : forall op old new, tree_items old -> tree_items new ->
  o_reverse op = false -> o_tctrees op = false -> o_typechange op = true -> o_unmodified op = false -> o_ignore_sub op = false -> (forall p, o_want op p = true) ->
  exists ds, diff_lists op false false old new = Ok ds /\ ascending (map d_path ds) /\
    forall d, In d ds <->
      (exists o, In o old /\ (forall n, In n new -> i_path n <> i_path o) /\ d = only_old DDeleted o) \/
      (exists n, In n new /\ (forall o, In o old -> i_path o <> i_path n) /\ d = only_new DAdded n) \/
      (exists o n, In o old /\ In n new /\ i_path o = i_path n /\ (i_mode o, i_id o) <> (i_mode n, i_id n) /\
         d = mkdelta (if kind o =? kind n then DModified else DTypechange) (i_path o) (mkside (i_mode o) (i_id o)) (mkside (i_mode n) (i_id n))).
Proof.
  intros op old new To Tn Rv Tc Ty Um Ig Wa.
  destruct (C28_diff_reports_every_path op false false old new Rv Tc (proj1 To) (proj1 Tn)) as (ps & Ls & E & A & B & C). exists (concat Ls). split; auto.
  assert (C' : Forall2 (fun p L => reports op (first p old) (first p new) L) ps Ls).
  { clear -C Wa. induction C as [|p L ps' Ls' H HF IH]; constructor; auto. specialize (H _ _ (first_spec p old) (first_spec p new)). now rewrite Wa in H. }
  clear C. rename C' into C.
  assert (Cell : forall p L, reports op (first p old) (first p new) L ->
      (L = [] /\ exists o n, first p old = Some o /\ first p new = Some n /\ i_mode o = i_mode n /\ i_id o = i_id n) \/
      (exists o, first p old = Some o /\ first p new = None /\ L = [only_old DDeleted o]) \/
      (exists n, first p old = None /\ first p new = Some n /\ L = [only_new DAdded n]) \/
      (exists o n, first p old = Some o /\ first p new = Some n /\ (i_mode o, i_id o) <> (i_mode n, i_id n) /\
         L = [mkdelta (if kind o =? kind n then DModified else DTypechange) (i_path o) (mkside (i_mode o) (i_id o)) (mkside (i_mode n) (i_id n))])).
  { intros p L R.
    assert (Fo : forall o, Some o = first p old -> i_stage o = 0 /\ i_valid o = false /\ i_skip o = false /\ exists b, In b (i_id o) /\ b <> 0) by (intros o Q; symmetry in Q; apply (first_in old p o To) in Q as [Q _]; now apply To).
    assert (Fn : forall o, Some o = first p new -> i_stage o = 0 /\ i_valid o = false /\ i_skip o = false /\ exists b, In b (i_id o) /\ b <> 0) by (intros o Q; symmetry in Q; apply (first_in new p o Tn) in Q as [Q _]; now apply Tn).
    assert (Sh : forall e, i_stage e = 0 -> shown e = mkside (i_mode e) (i_id e)) by (intros e Q; unfold shown; rewrite Q; reflexivity).
    inversion R as [o Hc Q1 Q2|o Hc Q1 Q2|n Hc Q1 Q2|n Hc Q1 Q2|o n Hc Q1 Q2|o n Hc Hs Q1 Q2|o n Hc Hk Hd Ht Q1 Q2|o n Hc Hk Hd Ht Q1 Q2|o n Hc Hk Hd Hs Hi Q1 Q2];
      try (destruct (Fo _ Q1) as (O1 & O2 & O3 & O4)); try (destruct (Fn _ Q2) as (N1 & N2 & N3 & N4)); try lia.
    - right. left. exists o. unfold unless_valid. rewrite O2. auto.
    - right. right. left. exists n. unfold unless_valid. rewrite N2. auto.
    - exfalso. apply Hc. split; lia.
    - left. rewrite Um. split; auto. exists o, n. split; auto. split; auto. destruct Hs as [Hs|[(Hm & Hi & _)|(_ & _ & Hs)]]; [exfalso; apply Hs; split; auto|auto|congruence].
    - right. right. right. exists o, n. split; auto. split; auto. destruct (Z.eqb_spec (kind o) (kind n)); [contradiction|]. split; [intros [= W1 W2]; unfold kind in Hd; congruence|].
      unfold both. now rewrite !Sh.
    - congruence.
    - right. right. right. exists o, n. split; auto. split; auto. destruct (Z.eqb_spec (kind o) (kind n)); [|contradiction]. split; [intros [= W1 W2]; apply Hs; split; auto|].
      unfold both. now rewrite !Sh. }
  assert (Pth : forall p L d, reports op (first p old) (first p new) L -> In d L -> L = [d] /\ d_path d = p).
  { intros p L d R I. destruct (Cell p L R) as [[-> _]|[(o & F1 & _ & ->)|[(n & _ & F1 & ->)|(o & n & F1 & _ & _ & ->)]]].
    - destruct I. - destruct I as [<-|[]]. apply (first_in old p o To) in F1 as [_ F1]. auto.
    - destruct I as [<-|[]]. apply (first_in new p n Tn) in F1 as [_ F1]. auto.
    - destruct I as [<-|[]]. apply (first_in old p o To) in F1 as [_ F1]. auto. }
  split.
  - clear -A C Pth. induction C as [|p L ps' Ls' H HF IH]; [exact I|]. destruct A as [A1 A2]. specialize (IH A2). cbn [concat].
    assert (Sub : forall q, In q (map d_path (concat Ls')) -> In q ps').
    { clear -HF Pth. intros q Hq. apply in_map_iff in Hq as (d & <- & Hd). induction HF as [|p L ps' Ls' H HF IH]; [destruct Hd|]. cbn [concat] in Hd. apply in_app_iff in Hd as [Hd|Hd].
      - destruct (Pth p L d H Hd) as [_ ->]. left; auto. - right. auto. }
    destruct L as [|d L]; auto. destruct (Pth p (d :: L) d H (or_introl eq_refl)) as [EL Ed]. injection EL as ->. cbn [app map]. split; auto. rewrite Ed. intros q Hq. apply A1, Sub, Hq.
  - intros d. assert (Q : In d (concat Ls) <-> exists p L, In p ps /\ reports op (first p old) (first p new) L /\ In d L).
    { split.
      - clear -C. intros I. induction C as [|p L ps' Ls' H HF IH]; [destruct I|]. cbn [concat] in I. apply in_app_iff in I as [I|I].
        + exists p, L. split; [left|]; auto. + destruct (IH I) as (q & L' & ? & ? & ?). exists q, L'. split; [right|]; auto.
      - intros (p & L & Ip & R & I). clear -C Ip R I. induction C as [|q L' ps' Ls' H HF IH]; [destruct Ip|]. cbn [concat]. apply in_app_iff. destruct Ip as [->|Ip]; [left|right; auto].
        now rewrite (reports_fun _ _ _ _ _ H R). }
    rewrite Q. split.
    + intros (p & L & Ip & R & I). destruct (Cell p L R) as [[-> _]|[(o & F1 & F2 & ->)|[(n & F1 & F2 & ->)|(o & n & F1 & F2 & D & ->)]]].
      * destruct I.
      * destruct I as [<-|[]]. left. apply (first_in old p o To) in F1 as [F1 P1]. exists o. split; auto. split; auto. intros x Hx Px. assert (Z : first p new = Some x) by (apply first_in; auto; split; congruence). congruence.
      * destruct I as [<-|[]]. right. left. apply (first_in new p n Tn) in F2 as [F2 P1]. exists n. split; auto. split; auto. intros x Hx Px. assert (Z : first p old = Some x) by (apply first_in; auto; split; congruence). congruence.
      * destruct I as [<-|[]]. right. right. apply (first_in old p o To) in F1 as [F1 P1]. apply (first_in new p n Tn) in F2 as [F2 P2]. exists o, n. split; auto. split; auto. split; [congruence|]. auto.
    + assert (Rep : forall p, In p ps -> exists L, reports op (first p old) (first p new) L).
      { clear -C. intros p Ip. induction C as [|q L' ps' Ls' H HF IH]; [destruct Ip|]. destruct Ip as [->|Ip]; eauto. }
      intros [(o & I & N & ->)|[(n & I & N & ->)|(o & n & I1 & I2 & P & D & ->)]].
      * assert (Ip : In (i_path o) ps) by (apply B; exists o; rewrite in_app_iff; auto). destruct (Rep _ Ip) as (L & R). exists (i_path o), L. split; auto. split; auto.
        assert (F1 : first (i_path o) old = Some o) by (apply first_in; auto). assert (F2 : first (i_path o) new = None) by (apply first_none; intros (x & Ix & Px); apply (N x); auto).
        destruct (Cell _ L R) as [(_ & x & y & _ & Y & _)|[(x & X & _ & ->)|[(y & X & _ & ->)|(x & y & X & Y & _)]]]; try congruence. rewrite F1 in X. injection X as <-. left; auto.
      * assert (Ip : In (i_path n) ps) by (apply B; exists n; rewrite in_app_iff; auto). destruct (Rep _ Ip) as (L & R). exists (i_path n), L. split; auto. split; auto.
        assert (F1 : first (i_path n) new = Some n) by (apply first_in; auto). assert (F2 : first (i_path n) old = None) by (apply first_none; intros (x & Ix & Px); apply (N x); auto).
        destruct (Cell _ L R) as [(_ & x & y & Y & _ & _)|[(x & X & _ & ->)|[(y & X & Y & ->)|(x & y & X & Y & _)]]]; try congruence. rewrite F1 in Y. injection Y as <-. left; auto.
      * assert (Ip : In (i_path o) ps) by (apply B; exists o; rewrite in_app_iff; auto). destruct (Rep _ Ip) as (L & R). exists (i_path o), L. split; auto. split; auto.
        assert (F1 : first (i_path o) old = Some o) by (apply first_in; auto). assert (F2 : first (i_path o) new = Some n) by (apply first_in; auto).
        destruct (Cell _ L R) as [(_ & x & y & X & Y & M1 & M2)|[(x & _ & Y & _)|[(y & X & _ & _)|(x & y & X & Y & _ & ->)]]]; try congruence;
          rewrite F1 in X; rewrite F2 in Y; injection X as <-; injection Y as <-; left; auto.
Qed.

(** ** The reversed diff *)
Lemma from_one_rev op op' s h e ds : o_reverse op = false -> op' = mkopts true (o_unmodified op) (o_typechange op) (o_tctrees op) (o_ignore_sub op) (o_want op) ->
  from_one op' s h e (map flip ds) = map flip (from_one op s h e ds).
Proof.
  intros Rv ->. unfold from_one, alloc_status. cbn [o_reverse o_want]. rewrite Rv. destruct (i_valid e), (o_want op (i_path e)), h, s; reflexivity.
Qed.
Lemma from_two_rev op op' s o om n nm ds : o_reverse op = false -> op' = mkopts true (o_unmodified op) (o_typechange op) (o_tctrees op) (o_ignore_sub op) (o_want op) -> s <> DAdded -> s <> DDeleted ->
  from_two op' s o om n nm (map flip ds) = map flip (from_two op s o om n nm ds).
Proof.
  intros Rv -> N1 N2. unfold from_two, alloc_status. cbn [o_reverse o_unmodified]. rewrite Rv. destruct s; try congruence; destruct (o_unmodified op); reflexivity.
Qed.
(** GIT_DIFF_REVERSE gives the same deltas, each with its two sides exchanged. *)
Theorem C28_reverse_flips : forall op io inn old new, o_reverse op = false -> o_tctrees op = false -> listing io old -> listing inn new ->
  exists ds, diff_lists op io inn old new = Ok ds /\
    diff_lists (mkopts true (o_unmodified op) (o_typechange op) false (o_ignore_sub op) (o_want op)) io inn old new = Ok (map flip ds).
Proof.
  intros op io inn old new Rv Tc Ho Hn. unfold diff_lists. rewrite Tc. cbn [o_tctrees].
  destruct (loop_spec op Rv Tc io inn (length old + length new) old new [] Ho Hn (le_n _)) as (ps & Ls & E & _).
  set (op' := mkopts true _ _ _ _ _). assert (Eop : op' = mkopts true (o_unmodified op) (o_typechange op) (o_tctrees op) (o_ignore_sub op) (o_want op)) by (subst op'; now rewrite Tc).
  assert (G : forall fuel os ns ds, loop fuel op' io inn os ns (map flip ds) = match loop fuel op io inn os ns ds with Ok r => Ok (map flip r) | Err e => Err e | UB => UB | NoFuel => NoFuel end).
  { assert (So : forall o nx ds, unmatched_old op' o nx (map flip ds) = map flip (unmatched_old op o nx ds)).
    { intros. unfold unmatched_old. rewrite Tc. change (o_tctrees op') with false. cbn [andb]. now apply from_one_rev. }
    assert (Sn : forall n ox ds, unmatched_new op' ox n (map flip ds) = map flip (unmatched_new op ox n ds)).
    { intros. unfold unmatched_new. rewrite Tc. change (o_tctrees op') with false. cbn [andb]. now apply from_one_rev. }
    assert (Sm : forall o n ds, maybe_modified op' o n (map flip ds) = map flip (maybe_modified op o n ds)).
    { pose proof (fun s h e ds => from_one_rev op op' s h e ds Rv Eop) as F1. pose proof (fun s o om n nm ds => from_two_rev op op' s o om n nm ds Rv Eop) as F2.
      intros. unfold maybe_modified. change (o_want op') with (o_want op). change (o_typechange op') with (o_typechange op). change (o_ignore_sub op') with (o_ignore_sub op).
      repeat match goal with |- (if ?b then _ else _) = _ => destruct b end; auto; try (apply F2; discriminate).
      rewrite F1. apply F1. }
    induction fuel as [|fuel IH]; intros os ns ds; destruct os as [|o os], ns as [|n ns]; try reflexivity; cbn [loop].
    - rewrite Sn. apply IH. - rewrite So. apply IH.
    - destruct (lex (i_path o) (i_path n)); [rewrite Sm|rewrite So|rewrite Sn]; apply IH. }
  exists (rev (rev (concat Ls) ++ [])). split; [rewrite E; reflexivity|].
  specialize (G (length old + length new)%nat old new []). cbn [map] in G. rewrite G, E. cbn [bindr]. now rewrite map_rev.
Qed.
(** Diffing two trees the other way round gives the same. *)
Lemma ascending_ext ps : forall qs, ascending ps -> ascending qs -> (forall p, In p ps <-> In p qs) -> ps = qs.
Proof.
  induction ps as [|p ps IH]; intros [|q qs] Hp Hq E; auto.
  - exfalso. apply (E q). left; auto.
  - exfalso. apply (E p). left; auto.
  - destruct Hp as [P1 P2], Hq as [Q1 Q2].
    assert (p = q) as ->.
    { destruct (proj1 (E p) (or_introl eq_refl)) as [->|I1]; auto. destruct (proj2 (E q) (or_introl eq_refl)) as [->|I2]; auto.
      exfalso. apply (lx_irrefl p). eapply lex_lt_trans; eauto. }
    f_equal. apply IH; auto. intros x. split; intros Hx.
    + destruct (proj1 (E x) (or_intror Hx)) as [<-|I1]; auto. exfalso. apply (lx_irrefl q). auto.
    + destruct (proj2 (E x) (or_intror Hx)) as [<-|I1]; auto. exfalso. apply (lx_irrefl q). auto.
Qed.
Lemma flip_both s o n : i_path n = i_path o -> s <> DAdded -> s <> DDeleted -> both s n o = flip (both s o n).
Proof. intros E N1 N2. unfold both, flip. cbn [d_status d_path d_old d_new]. rewrite E. destruct s; congruence. Qed.
Theorem C28_symmetric : forall op old new, tree_items old -> tree_items new -> o_reverse op = false -> o_tctrees op = false -> o_typechange op = true ->
  exists ds, diff_lists op false false old new = Ok ds /\ diff_lists op false false new old = Ok (map flip ds).
Proof.
  intros op old new To Tn Rv Tc Ty.
  destruct (C28_diff_reports_every_path op false false old new Rv Tc (proj1 To) (proj1 Tn)) as (ps & Ls & E & A & B & C).
  destruct (C28_diff_reports_every_path op false false new old Rv Tc (proj1 Tn) (proj1 To)) as (qs & Ms & E' & A' & B' & C').
  assert (qs = ps) as ->. { apply ascending_ext; auto. intros p. rewrite B, B'. split; intros (e & I & P); exists e; rewrite in_app_iff in *; tauto. }
  exists (concat Ls). split; auto. rewrite E'. f_equal. rewrite concat_map. f_equal.
  assert (Sw : forall p L M, reports op (first p old) (first p new) L -> reports op (first p new) (first p old) M -> M = map flip L).
  { intros p L M R1 R2.
    assert (Fo : forall o, first p old = Some o -> i_path o = p /\ i_stage o = 0 /\ i_valid o = false /\ i_skip o = false) by (intros o Q; apply (first_in old p o To) in Q as [Q ?]; split; auto; pose proof (proj2 To o Q); tauto).
    assert (Fn : forall o, first p new = Some o -> i_path o = p /\ i_stage o = 0 /\ i_valid o = false /\ i_skip o = false) by (intros o Q; apply (first_in new p o Tn) in Q as [Q ?]; split; auto; pose proof (proj2 Tn o Q); tauto).
    apply (reports_fun _ _ _ _ _ R2). destruct (first p old) as [o|], (first p new) as [n|]; inversion R1; subst;
      try (destruct (Fo _ eq_refl) as (O0 & O1 & O2 & O3)); try (destruct (Fn _ eq_refl) as (N0 & N1 & N2 & N3)); try lia; try congruence.
    - exfalso. match goal with H : ~ unconflicted _ _ |- _ => apply H end. split; lia.
    - match goal with H : unconflicted _ _ |- _ => destruct H as [U1 U2] end.
      replace (map flip (if o_unmodified op then [both DUnmodified o n] else [])) with (if o_unmodified op then [both DUnmodified n o] else []) by (destruct (o_unmodified op); cbn [map]; [rewrite flip_both by (congruence || discriminate)|]; reflexivity).
      apply r_same; [split; auto|]. match goal with H : ~ kept _ \/ _ |- _ => rename H into H3 end. destruct H3 as [H3|[(Hm & Hi & b & Ib & Nb)|(Hk & Hs & Hi)]].
      + exfalso. apply H3. split; auto. + right. left. split; [auto|split; [auto|exists b; split; congruence]]. + right. right. split; [auto|split; [unfold is_submodule in *; congruence|auto]].
    - replace (map flip [both DTypechange o n]) with [both DTypechange n o] by (cbn [map]; rewrite flip_both by (congruence || discriminate); reflexivity). apply r_type; [split; lia|split; auto|auto|auto].
    - replace (map flip [both DModified o n]) with [both DModified n o] by (cbn [map]; rewrite flip_both by (congruence || discriminate); reflexivity).
      apply r_modified; [split; lia|split; auto|auto| |].
      + intros (Hm & Hi & b & Ib & Nb). match goal with H : ~ same_file _ _ |- _ => apply H end. split; [auto|split; [auto|exists b; split; congruence]].
      + intros [G1 G2]. match goal with H : ~ (is_submodule _ /\ _) |- _ => apply H end. split; auto. unfold is_submodule in *; congruence.
    - unfold unless_valid. rewrite O2. cbn [map]. change (flip (only_old DDeleted o)) with (only_new DAdded o). pose proof (r_added op o) as X. unfold unless_valid in X. rewrite O2 in X. apply X. lia.
    - unfold unless_valid. rewrite N2. cbn [map]. change (flip (only_new DAdded n)) with (only_old DDeleted n). pose proof (r_deleted op n) as X. unfold unless_valid in X. rewrite N2 in X. apply X. lia. }
  clear -C C' Sw. revert Ms C'. induction C as [|p L ps' Ls' H HF IH]; intros Ms C'; inversion C' as [|? M ? Ms' H' HF']; subst; auto. cbn [map]. f_equal; [|apply IH; auto].
  specialize (H _ _ (first_spec p old) (first_spec p new)). specialize (H' _ _ (first_spec p new) (first_spec p old)). destruct (o_want op p); [eapply Sw; eauto|subst; reflexivity].
Qed.

(** ** Cases *)
Definition blob (p : string) (n : Z) : item := mkitem (bs p) 33188 (repeat n 20) 0 false false.
Definition opts (f : list Z -> bool) (rv tt : bool) : dopts := mkopts rv false true tt false f.
(** GIT_DIFF_INCLUDE_TYPECHANGE_TREES looks for the last delta by id alone: with a pathspec
    that leaves out "b", the deleted file "a" of the same contents is said to have become a tree. *)
Theorem C28_typechange_trees_pathspec_refuted : exists old new f ds, tree_items old /\ tree_items new /\
  diff_lists (opts f false true) false false old new = Ok ds /\
  exists d, In d ds /\ d_path d = bs "a" /\ d_status d = DTypechange /\ forall e, In e new -> ~ exists r, i_path e = bs "a" ++ r.
Proof.
  assert (Ok1 : tree_items [blob "a" 1; blob "b" 1]).
  { split; [|intros e [<-|[<-|[]]]; (split; [reflexivity|split; [reflexivity|split; [reflexivity|exists 1; split; [left; reflexivity|discriminate]]]])].
    intros [|[|i]] [|[|j]] a b; intros L E1 E2; try lia; try discriminate; try (destruct j; discriminate); try (destruct i; discriminate). cbn in E1, E2. injection E1 as <-. injection E2 as <-. left. reflexivity. }
  assert (Ok2 : tree_items [blob "b/c" 2]).
  { split; [|intros e [<-|[]]; (split; [reflexivity|split; [reflexivity|split; [reflexivity|exists 2; split; [left; reflexivity|discriminate]]]])].
    intros [|i] [|j] a b; intros L E1 E2; try lia; try (destruct j; discriminate); destruct i; discriminate. }
  exists [blob "a" 1; blob "b" 1], [blob "b/c" 2], (fun p => leqb p (bs "a")). eexists. split; auto. split; auto. split; [vm_compute; reflexivity|].
  eexists. split; [left; reflexivity|]. split; [reflexivity|]. split; [reflexivity|]. intros e [<-|[]] (r & Q). discriminate Q.
Qed.
(** Reversed, the type of the file itself is replaced by that of a tree. *)
Theorem C28_typechange_trees_reverse_refuted : exists old new, tree_items old /\ tree_items new /\
  exists ds, diff_lists (opts (fun _ => true) true true) false false old new = Ok ds /\
  exists d, In d ds /\ d_path d = bs "a" /\ d_old d = no_side /\ s_mode (d_new d) = 16384 /\ In (s_id (d_new d)) (map i_id old).
Proof.
  exists [blob "a" 1], [blob "a/b" 2].
  assert (K : forall p n, n <> 0 -> tree_items [blob p n]).
  { intros p n N. split; [|intros e [<-|[]]; (split; [reflexivity|split; [reflexivity|split; [reflexivity|exists n; split; [left; reflexivity|auto]]]])].
    intros [|i] [|j] a b; intros L E1 E2; try lia; try (destruct j; discriminate); destruct i; discriminate. }
  split; [apply K; discriminate|]. split; [apply K; discriminate|]. eexists. split; [vm_compute; reflexivity|].
  eexists. split; [left; reflexivity|]. split; [reflexivity|]. split; [reflexivity|]. split; [reflexivity|]. left. reflexivity.
Qed.
Example kinds :
  let old := [blob "a" 1; blob "b" 1; blob "c" 1; mkitem (bs "d") 40960 (repeat 1 20) 0 false false] in
  let new := [blob "b" 2; blob "c" 1; blob "d" 1; mkitem (bs "e") 33188 (repeat 1 20) 1 false false; mkitem (bs "e") 33188 (repeat 1 20) 2 false false; blob "f" 1] in
  match diff_lists (opts (fun _ => true) false false) true true old new with Ok ds => map (fun d => (d_path d, d_status d)) ds | _ => [] end =
  [(bs "a", DDeleted); (bs "b", DModified); (bs "d", DTypechange); (bs "e", DConflicted); (bs "f", DAdded)].
Proof. vm_compute. reflexivity. Qed.
