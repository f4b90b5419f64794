(** C53: the summary and the body of a commit message. *)
From Verif Require Import Base Str SigModel CommitModel CommitSpec.
Local Open Scope Z_scope.

Lemma isspace_spec c : isspace c = true <-> space c.
Proof. unfold isspace, space. rewrite orb_true_iff, andb_true_iff, Z.eqb_eq, !Z.leb_le. tauto. Qed.
Lemma isspace_false c : isspace c = false <-> ~ space c.
Proof. rewrite <- isspace_spec. destruct (isspace c); split; congruence. Qed.
Lemma nonlf_spec c : isspace_nonlf c = true <-> space c /\ c <> 10.
Proof. unfold isspace_nonlf. rewrite andb_true_iff, isspace_spec, negb_true_iff, Z.eqb_neq. tauto. Qed.

Lemma skip_blank_split r : exists l, r = l ++ skip_blank r /\ blank_line l.
Proof.
  induction r as [|c r (l & E & H)]; [exists []; split; [reflexivity|split; [constructor|intros []]]|]. cbn [skip_blank]. destruct (isspace_nonlf c) eqn:N.
  - apply nonlf_spec in N. destruct N as [N1 N2]. exists (c :: l). split; [cbn; congruence|]. destruct H as [H1 H2]. split; [constructor; assumption|]. intros [Q|Q]; auto.
  - exists []. split; [reflexivity|split; [constructor|intros []]].
Qed.
Lemma skip_blank_app l t : blank_line l -> (t = [] \/ exists u, t = 10 :: u) -> skip_blank (l ++ t) = t.
Proof.
  intros [H1 H2] Ht. induction l as [|c l IH]; cbn [app].
  - destruct Ht as [->|[u ->]]; reflexivity.
  - cbn [skip_blank]. inversion H1; subst. assert (isspace_nonlf c = true) as -> by (apply nonlf_spec; split; [assumption|intros ->; apply H2; left; reflexivity]).
    apply IH; [assumption|]. intros Q. apply H2. right. exact Q.
Qed.
Lemma para_end_spec r : para_end r = true <-> ends_here r.
Proof.
  split.
  - intros H. destruct (skip_blank_split r) as (l & E & B). exists l, (skip_blank r). split; [exact E|]. split; [exact B|].
    destruct r as [|c r]; [left; reflexivity|]. cbn [para_end] in H. destruct (Z.eqb_spec c 10) as [->|N]; [right; exists r; reflexivity|]. cbn [orb] in H.
    destruct (skip_blank (c :: r)) as [|d u]; [left; reflexivity|]. right. apply Z.eqb_eq in H. subst d. eauto.
  - intros (l & t & -> & B & Ht). pose proof (skip_blank_app l t B Ht) as E. destruct (l ++ t) as [|c r]; [reflexivity|]. cbn [para_end]. rewrite E.
    apply orb_true_iff. right. destruct Ht as [->|[u ->]]; reflexivity.
Qed.
Lemma para_end_false r : para_end r = false <-> ~ ends_here r.
Proof. rewrite <- para_end_spec. destruct (para_end r); split; congruence. Qed.

(** The first paragraph, computed. *)
Fixpoint para (m : list Z) : list Z :=
  match m with [] => [] | c :: r => if (c =? 10) && para_end r then [] else c :: para r end.
Lemma para_first m : first_paragraph m (para m).
Proof.
  split.
  - induction m as [|c r (t & E & H)]; [exists []; auto|]. cbn [para]. destruct ((c =? 10) && para_end r) eqn:P.
    + apply andb_prop in P. destruct P as [P1 P2]. apply Z.eqb_eq in P1. subst c. exists (10 :: r). split; [reflexivity|]. right. exists r. split; [reflexivity|]. apply para_end_spec. exact P2.
    + exists t. split; [cbn; congruence|exact H].
  - induction m as [|c r IH]; intros a b E Hb; [destruct a; discriminate|]. cbn [para]. destruct ((c =? 10) && para_end r) eqn:P; [cbn; lia|].
    destruct a as [|x a]; cbn in E; injection E as -> E.
    + subst r. apply para_end_spec in Hb. rewrite Hb, Z.eqb_refl in P. discriminate.
    + cbn [length]. specialize (IH a b E Hb). lia.
Qed.
Lemma first_paragraph_unique m p q : first_paragraph m p -> first_paragraph m q -> p = q.
Proof.
  assert (W : forall p q, first_paragraph m p -> first_paragraph m q -> (length p <= length q)%nat).
  { intros p0 q0 [(r & E & H) M] [(r' & E' & H') M']. destruct H' as [->|(u & -> & Hu)].
    - rewrite app_nil_r in E'. subst q0. rewrite E, app_length. lia.
    - eapply M; eauto. }
  intros Hp Hq. pose proof (W p q Hp Hq). pose proof (W q p Hq Hp). destruct Hp as [(r & E & _) _], Hq as [(r' & E' & _) _].
  assert (L : length p = length q) by lia. assert (F : firstn (length p) m = firstn (length q) m) by congruence.
  rewrite E in F at 1. rewrite E' in F. rewrite !firstn_app, !firstn_all, !Nat.sub_diag in F. cbn in F. rewrite !app_nil_r in F. exact F.
Qed.

Lemma summary_joins m : forall sp nl out, Forall space sp -> (nl = true <-> In 10 sp) -> exists s, summary_loop m sp nl out = out ++ s /\ joins (sp ++ para m) s.
Proof.
  induction m as [|c r IH]; intros sp nl out Hs Hn; cbn [summary_loop para].
  - exists []. split; [symmetry; apply app_nil_r|]. rewrite app_nil_r. constructor. exact Hs.
  - destruct ((c =? 10) && para_end r) eqn:P.
    + exists []. split; [symmetry; apply app_nil_r|]. rewrite app_nil_r. constructor. exact Hs.
    + destruct (isspace c) eqn:I.
      * destruct (IH (sp ++ [c]) (nl || (c =? 10)) out) as (s & E & J).
        { apply Forall_app. split; [exact Hs|]. constructor; [|constructor]. apply isspace_spec. exact I. }
        { rewrite orb_true_iff, Hn, in_app_iff, Z.eqb_eq. cbn. intuition. }
        exists s. split; [exact E|]. rewrite <- app_assoc in J. exact J.
      * apply isspace_false in I. destruct (IH [] false (out ++ match sp with [] => [] | _ => if nl then [32] else sp end ++ [c])) as (s & E & J); [constructor|cbn; intuition discriminate|].
        cbn [app] in J. exists (match sp with [] => [] | _ => if nl then [32] else sp end ++ c :: s). split; [rewrite E, <- !app_assoc; reflexivity|].
        assert (J' : joins (c :: para r) (c :: s)) by (constructor; assumption).
        destruct sp as [|x sp]; [exact J'|]. destruct nl.
        -- apply joins_line; auto. apply Hn. reflexivity.
        -- apply joins_gap; auto; [discriminate|]. intros Q. apply Hn in Q. discriminate.
Qed.
(** The summary is the first paragraph of the message, its lines joined. *)
Theorem C53_summary message : exists p, first_paragraph (skip_newlines message) p /\ joins p (summary message).
Proof.
  exists (para (skip_newlines message)). split; [apply para_first|]. unfold summary. destruct (summary_joins (skip_newlines message) [] false []) as (s & -> & J); [constructor|cbn; intuition discriminate|]. exact J.
Qed.
Lemma joins_line_free p s : joins p s -> ~ In 10 s.
Proof.
  induction 1 as [ws H|c p s N J IH|ws c p s N1 N2 N3 N4 J IH|ws c p s N1 N2 N3 J IH].
  - intros [].
  - intros [->|Q]; [apply N; right; lia|exact (IH Q)].
  - rewrite in_app_iff. intros [Q|Q]; auto.
  - intros [Q|Q]; [discriminate|exact (IH Q)].
Qed.
(** It is one line. *)
Theorem C53_summary_one_line message : ~ In 10 (summary message).
Proof. destruct (C53_summary message) as (p & _ & J). eapply joins_line_free; eauto. Qed.

Lemma words_app a b : words (a ++ b) = words a ++ words b. Proof. unfold words. apply filter_app. Qed.
Lemma words_space ws : Forall space ws -> words ws = [].
Proof. induction 1 as [|c ws H _ IH]; [reflexivity|]. unfold words in *. cbn [filter]. change (spaceb c) with (isspace c). rewrite (proj2 (isspace_spec c) H). exact IH. Qed.
Lemma words_char c r : ~ space c -> words (c :: r) = c :: words r.
Proof. intros H. unfold words. cbn [filter]. change (spaceb c) with (isspace c). rewrite (proj2 (isspace_false c) H). reflexivity. Qed.
Lemma words_joins p s : joins p s -> words p = words s.
Proof.
  induction 1 as [ws H|c p s N J IH|ws c p s N1 N2 N3 N4 J IH|ws c p s N1 N2 N3 J IH].
  - rewrite words_space by exact H. reflexivity.
  - rewrite !words_char by exact N. congruence.
  - rewrite !words_app, IH. reflexivity.
  - rewrite words_app, (words_space ws N1), IH. reflexivity.
Qed.
Lemma skip_space_split s : exists ws, s = ws ++ skip_space s /\ Forall space ws.
Proof.
  induction s as [|c s (ws & E & H)]; [exists []; auto|]. cbn [skip_space]. destruct (isspace c) eqn:I; [|exists []; auto].
  exists (c :: ws). split; [cbn; congruence|]. constructor; [apply isspace_spec; exact I|exact H].
Qed.
Lemma words_skip s : words (skip_space s) = words s.
Proof. destruct (skip_space_split s) as (ws & E & H). rewrite E at 2. rewrite words_app, (words_space ws H). reflexivity. Qed.
Lemma words_rev s : words (rev s) = rev (words s).
Proof. induction s as [|c s IH]; [reflexivity|]. cbn [rev]. rewrite words_app, IH. unfold words. cbn [filter]. destruct (negb (spaceb c)); cbn; [reflexivity|rewrite app_nil_r; reflexivity]. Qed.
Lemma skip_newlines_words s : words (skip_newlines s) = words s.
Proof. induction s as [|c s IH]; [reflexivity|]. cbn [skip_newlines]. destruct (Z.eqb_spec c 10) as [->|]; [rewrite IH; reflexivity|reflexivity]. Qed.

(** The summary and the body together hold every word of the message, in order, when the first
    blank line of the message is empty. *)
Definition body_text (message : list Z) : list Z := match body message with Some b => b | None => [] end.
Theorem C53_nothing_lost_partial message :
  (forall a b, skip_newlines message = a ++ 10 :: b -> ends_here b -> b = [] \/ exists u, b = 10 :: u) ->
  words message = words (summary message) ++ words (body_text message).
Proof.
  intros H. rewrite <- skip_newlines_words. unfold body_text, body.
  destruct (C53_summary message) as (p & Fp & J). rewrite <- (words_joins _ _ J). rewrite (first_paragraph_unique _ _ _ Fp (para_first _)). clear p Fp J.
  set (m := skip_newlines message) in *. clearbody m.
  assert (E : m = para m ++ body_start m).
  { induction m as [|c r IH]; [reflexivity|]. cbn [para body_start].
    destruct (Z.eqb_spec c 10) as [->|N]; cbn [andb].
    - destruct (para_end r) eqn:P.
      + apply para_end_spec in P. destruct (H [] r eq_refl P) as [->|[u ->]]; [reflexivity|]. change (10 =? 10) with true. reflexivity.
      + assert (Q : match r with [] => true | d :: _ => d =? 10 end = false).
        { destruct r as [|d r]; [discriminate|]. cbn [para_end] in P. apply orb_false_iff in P. apply P. }
        rewrite Q. cbn [app]. f_equal. apply IH. intros a b Eb Hb. apply (H (10 :: a) b); [cbn; congruence|exact Hb].
    - cbn [app]. f_equal. apply IH. intros a b Eb Hb. apply (H (c :: a) b); [cbn; congruence|exact Hb]. }
  rewrite E at 1. rewrite words_app. f_equal. rewrite <- (words_skip (body_start m)). destruct (skip_space (body_start m)) as [|x t] eqn:S; [reflexivity|].
  rewrite words_rev, words_skip, words_rev, rev_involutive. reflexivity.
Qed.
(** Otherwise the body is lost: behind a blank line with a space in it, there is none. *)
Theorem C53_blank_line_refuted : let m := bs "Fix it" ++ [10; 32; 10] ++ bs "Details" in
  summary m = bs "Fix it" /\ body m = None.
Proof. split; vm_compute; reflexivity. Qed.
Example C53_case : let m := [10] ++ bs "Fix" ++ [10] ++ bs "  the  bug " ++ [10; 10] ++ bs " Details" ++ [10] ++ bs "follow." ++ [10] in
  summary m = bs "Fix the  bug" /\ body m = Some (bs "Details" ++ [10] ++ bs "follow.").
Proof. split; vm_compute; reflexivity. Qed.
Print Assumptions C53_summary.
Print Assumptions C53_nothing_lost_partial.
