(** C31: cleaning up a commit message. *)
From Verif Require Import Base Str CodecModel MessageModel MessageSpec MessageProofs.

(** The result: the lines that are not comments, without trailing blanks,
    regrouped into paragraphs with one empty line between them. *)
Theorem C31_prettify_spec m strip comment :
  exists ls, Forall2 chomped (kept strip comment (lines m)) ls /\
    prettify m strip comment = Ok (text (paragraphs ls)).
Proof.
  exists (clean_lines m strip comment). split; [|apply prettify_text].
  unfold clean_lines, kept. change (fun l => negb (strip && (hd 10 l =? comment))) with (keep strip comment).
  induction (filter (keep strip comment) (lines m)) as [|l r IH]; constructor; [apply rtrimmed_chomped|exact IH].
Qed.

(** Doing it twice changes nothing (the comment character must not be a
    newline). *)
Theorem C31_idempotent m strip comment out :
  strip = false \/ comment <> 10 ->
  prettify m strip comment = Ok out -> prettify out strip comment = Ok out.
Proof.
  intros Hc H. rewrite prettify_text in *. injection H as <-. f_equal. f_equal. apply clean_text; [apply paras_good|].
  unfold keep. cbn [hd]. destruct strip; [|reflexivity]. destruct Hc as [Hc|Hc]; [discriminate|]. cbn [andb]. destruct (Z.eqb_spec 10 comment); [congruence|reflexivity].
Qed.
Theorem C31_idempotent_newline_comment_refuted : exists m out out',
  prettify m true 10 = Ok out /\ prettify out true 10 = Ok out' /\ out <> out'.
Proof.
  exists (bs "a" ++ [10; 32; 10] ++ bs "b"), (bs "a" ++ [10; 10] ++ bs "b" ++ [10]), (bs "a" ++ [10] ++ bs "b" ++ [10]).
  split; [reflexivity|]. split; [reflexivity|discriminate].
Qed.

(** The non-blank lines are kept, in order. *)
Theorem C31_content_preserved m strip comment out : prettify m strip comment = Ok out ->
  exists ls, Forall2 chomped (kept strip comment (lines m)) ls /\ nonempty (lines out) = nonempty ls.
Proof.
  intros H. exists (clean_lines m strip comment). split.
  - unfold clean_lines, kept. change (fun l => negb (strip && (hd 10 l =? comment))) with (keep strip comment).
    induction (filter (keep strip comment) (lines m)) as [|l r IH]; constructor; [apply rtrimmed_chomped|exact IH].
  - rewrite prettify_text in H. injection H as <-. set (ps := paragraphs (clean_lines m strip comment)).
    assert (G : Forall (fun p => p <> [] /\ Forall (fun l => good_line l /\ keep strip comment l = true) p) ps) by apply paras_good.
    rewrite lines_text.
    2:{ eapply Forall_impl; [|exact G]. cbv beta. intros p [_ Hp]. eapply Forall_impl; [|exact Hp]. cbv beta. unfold good_line. tauto. }
    unfold nonempty at 1. rewrite <- paragraphs_lines, paragraphs_flat.
    + unfold ps. rewrite paragraphs_lines. reflexivity.
    + eapply Forall_impl; [|exact G]. cbv beta. intros p [H1 H2]. split; [exact H1|]. eapply Forall_impl; [|exact H2]. cbv beta. unfold good_line. tauto.
Qed.

(** Shape of the result: empty, or ended by exactly one newline; it does not
    start with a newline, has no two empty lines in a row and no line with
    trailing blanks. *)
Lemma text_last ps : Forall (fun p => p <> [] /\ Forall good_line p) ps -> ps <> [] ->
  exists u c, text ps = u ++ [c; 10] /\ c <> 10.
Proof.
  intros H Hn. induction H as [|p ps [Hp Hl] Hps IH]; [congruence|].
  rewrite text_cons. destruct ps as [|q qs].
  - rewrite app_nil_r. destruct (exists_last Hp) as (p' & l & ->).
    apply Forall_app in Hl as [_ Hl]. inversion Hl as [|? ? (Hne & Hn10 & _) _]; subst.
    destruct (exists_last Hne) as (l' & c & ->).
    exists (para_text p' ++ l'), c. split.
    + unfold para_text. rewrite map_app, concat_app. cbn [map concat]. rewrite app_nil_r, <- !app_assoc. reflexivity.
    + intros ->. apply Hn10. apply in_or_app. right. left. reflexivity.
  - destruct IH as (u & c & E & Hc); [discriminate|]. rewrite E. exists (para_text p ++ [10] ++ u), c. rewrite <- !app_assoc. split; [reflexivity|exact Hc].
Qed.
Lemma good_weaken strip comment ps : Forall (fun p => p <> [] /\ Forall (fun l => good_line l /\ keep strip comment l = true) p) ps ->
  Forall (fun p => p <> [] /\ Forall good_line p) ps.
Proof.
  intros H. eapply Forall_impl; [|exact H]. cbv beta. intros p [H1 H2]. split; [exact H1|]. eapply Forall_impl; [|exact H2]. cbv beta. tauto.
Qed.
Theorem C31_ends_with_one_newline m strip comment out : prettify m strip comment = Ok out ->
  out = [] \/ exists u c, out = u ++ [c; 10] /\ c <> 10.
Proof.
  intros H. rewrite prettify_text in H. injection H as <-.
  assert (G := good_weaken _ _ _ (paras_good m strip comment)).
  destruct (paragraphs (clean_lines m strip comment)) as [|p ps]; [left; reflexivity|right].
  apply text_last; [exact G|discriminate].
Qed.
Definition no_two_empty (ls : list (list Z)) : Prop := forall u v, ls <> u ++ [] :: [] :: v.
Lemma flat_no_two ps : Forall (fun p => p <> [] /\ Forall good_line p) ps -> no_two_empty (flat ps ++ [[]]) /\ (forall v, flat ps <> [] :: v).
Proof.
  induction 1 as [|p ps [Hp Hl] Hps [IH1 IH2]].
  - split; [|discriminate]. intros u v E. destruct u as [|? [|]]; discriminate.
  - assert (Run : forall p rest, Forall good_line p -> (forall v, rest <> [] :: v) -> no_two_empty rest -> no_two_empty (p ++ [] :: rest)).
    { clear. intros p rest Hp Hr Hn. induction Hp as [|l p Hl Hp IH]; intros u v E.
      - destruct u as [|x u]; cbn in E; [injection E as E; apply (Hr v E)|]. injection E as <- E. apply (Hn u v E).
      - destruct u as [|x u]; cbn in E; injection E as E1 E2; [destruct Hl; congruence|]. apply (IH u v E2). }
    destruct p as [|l p]; [congruence|]. inversion Hl as [|? ? Hgl Hgp]; subst.
    destruct ps as [|q qs].
    + split.
      * cbn [flat]. change ((l :: p) ++ [[]]) with ((l :: p) ++ [] :: []). apply Run; [constructor; assumption|discriminate|].
        intros u v E. destruct u; discriminate.
      * cbn [flat]. intros v E. injection E as E1 _. destruct Hgl. congruence.
    + split.
      * change (flat ((l :: p) :: q :: qs)) with ((l :: p) ++ [[]] ++ flat (q :: qs)). rewrite <- !app_assoc. cbn [app].
        change (l :: p ++ [] :: flat (q :: qs) ++ [[]]) with ((l :: p) ++ [] :: (flat (q :: qs) ++ [[]])).
        apply Run; [constructor; assumption| |exact IH1].
        intros v E. destruct (flat (q :: qs)) as [|x xs] eqn:Ef.
        -- cbn in Ef. inversion Hps as [|? ? [Hq _] _]; subst. destruct qs; [congruence|]. destruct q; [congruence|discriminate].
        -- cbn in E. injection E as -> _. eapply IH2. reflexivity.
      * intros v E. cbn in E. injection E as E1 _. destruct Hgl. congruence.
Qed.
Theorem C31_no_surplus_blank m strip comment out : prettify m strip comment = Ok out ->
  no_two_empty (lines out) /\ (forall r, out <> 10 :: r) /\
  Forall (fun l => forall u c, l = u ++ [c] -> ~ blank_char c) (lines out).
Proof.
  intros H. rewrite prettify_text in H. injection H as <-. set (ps := paragraphs (clean_lines m strip comment)).
  assert (G : Forall (fun p => p <> [] /\ Forall good_line p) ps) by (eapply good_weaken, paras_good).
  assert (E : lines (text ps) = flat ps ++ [[]]).
  { apply lines_text. eapply Forall_impl; [|exact G]. cbv beta. intros p [_ Hp]. eapply Forall_impl; [|exact Hp]. cbv beta. unfold good_line. tauto. }
  rewrite E. split; [apply flat_no_two; exact G|]. split.
  - intros r Er. rewrite Er in E. unfold lines in E. cbn [split] in E. change (10 =? 10) with true in E. cbv iota in E.
    destruct (flat ps) as [|x xs] eqn:Ef.
    + assert (Hnn := split_nonnil 10 r). cbn in E. injection E as E. congruence.
    + cbn in E. injection E as <- _. eapply (proj2 (flat_no_two ps G)). exact Ef.
  - apply Forall_forall. intros l Hl u c El.
    apply in_app_or in Hl as [Hl|[<-|[]]]; [|destruct u; discriminate].
    destruct (in_flat l ps Hl) as [->|(p & H1 & H2)]; [destruct u; discriminate|].
    rewrite Forall_forall in G. destruct (G p H1) as [_ Gp]. rewrite Forall_forall in Gp. destruct (Gp l H2) as (_ & _ & Hr).
    destruct (rtrimmed_chomped l) as (sp & _ & _ & Hlast). rewrite Hr in Hlast. eapply Hlast. exact El.
Qed.

(** *** A real message *)
Example prettify_example :
  prettify ([10; 10] ++ bs "Subject  " ++ [10] ++ bs "# note" ++ [10; 10; 32; 10] ++ bs "body" ++ [9; 10; 10]) true 35
  = Ok (bs "Subject" ++ [10; 10] ++ bs "body" ++ [10]).
Proof. reflexivity. Qed.
