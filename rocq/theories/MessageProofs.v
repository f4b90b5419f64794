From Verif Require Import Base Str CodecModel MessageModel MessageSpec.

Lemma isspace_blank c : isspace c = true <-> blank_char c.
Proof. unfold isspace, blank_char. lia. Qed.

(** *** rtrimmed *)
Lemma drop_spaces_spec l : exists sp, l = sp ++ drop_spaces l /\ Forall blank_char sp /\
  (forall c r, drop_spaces l = c :: r -> ~ blank_char c).
Proof.
  induction l as [|c l IH]; cbn [drop_spaces].
  - exists []. repeat split; [constructor|discriminate].
  - destruct (isspace c) eqn:E.
    + destruct IH as (sp & H1 & H2 & H3). exists (c :: sp). split; [cbn; congruence|]. split; [constructor; [apply isspace_blank|]; assumption|assumption].
    + exists []. split; [reflexivity|]. split; [constructor|]. intros c' r H. injection H as <- <-. rewrite <- isspace_blank. congruence.
Qed.
Lemma rtrimmed_chomped l : chomped l (rtrimmed l).
Proof.
  unfold chomped, rtrimmed. destruct (drop_spaces_spec (rev l)) as (sp & H1 & H2 & H3).
  exists (rev sp). split; [|split].
  - rewrite <- rev_app_distr, <- H1, rev_involutive. reflexivity.
  - apply Forall_rev. assumption.
  - intros u c H. apply (H3 c (rev u)). rewrite <- (rev_involutive (drop_spaces (rev l))), H, rev_app_distr. reflexivity.
Qed.
Lemma app_suffix_blank t sp t' sp' : t ++ sp = t' ++ sp' -> Forall blank_char sp ->
  (forall u c, t' = u ++ [c] -> ~ blank_char c) -> (length t' <= length t)%nat.
Proof.
  intros E Hb Hn. destruct (Nat.le_gt_cases (length t') (length t)) as [H|H]; [assumption|exfalso].
  destruct (exists_last (l := t')) as (u & c & ->); [intros ->; cbn in H; lia|].
  assert (In c sp).
  { assert (Ec : nth_error (t ++ sp) (length u) = Some c).
    { rewrite E, <- app_assoc, nth_error_app2, Nat.sub_diag by lia. reflexivity. }
    rewrite app_length in H. cbn in H. rewrite nth_error_app2 in Ec by lia. eapply nth_error_In; eassumption. }
  rewrite Forall_forall in Hb. eapply Hn; [reflexivity|]. auto.
Qed.
Lemma chomped_unique l t t' : chomped l t -> chomped l t' -> t = t'.
Proof.
  intros (sp & H1 & H2 & H3) (sp' & H1' & H2' & H3').
  assert (length t = length t').
  { assert (E : t ++ sp = t' ++ sp') by congruence.
    assert (L1 := app_suffix_blank _ _ _ _ E H2 H3'). assert (L2 := app_suffix_blank _ _ _ _ (eq_sym E) H2' H3). lia. }
  assert (E : t ++ sp = t' ++ sp') by congruence.
  apply (f_equal (firstn (length t))) in E. rewrite H in E at 2. rewrite !firstn_app, !Nat.sub_diag, !firstn_all in E. cbn in E. rewrite !app_nil_r in E. exact E.
Qed.
Lemma rtrimmed_newline l : rtrimmed (l ++ [10]) = rtrimmed l.
Proof. unfold rtrimmed. rewrite rev_app_distr. reflexivity. Qed.
Lemma rtrimmed_idem l : rtrimmed (rtrimmed l) = rtrimmed l.
Proof.
  apply (chomped_unique (rtrimmed l)); [apply rtrimmed_chomped|].
  destruct (rtrimmed_chomped l) as (sp & H1 & H2 & H3). exists []. rewrite app_nil_r. repeat split; [constructor|assumption].
Qed.
Lemma rtrimmed_hd l c r : rtrimmed l = c :: r -> exists r', l = c :: r'.
Proof. intros H. destruct (rtrimmed_chomped l) as (sp & E & _). rewrite H in E. exists (r ++ sp). exact E. Qed.
Lemma rtrimmed_in x l : In x (rtrimmed l) -> In x l.
Proof. intros H. destruct (rtrimmed_chomped l) as (sp & E & _). rewrite E. apply in_or_app. auto. Qed.

(** *** The loop as a pass over the lines *)
Definition keep (strip : bool) (comment : Z) (l : list Z) : bool := negb (strip && (hd 10 l =? comment)).
Fixpoint go (ls : list (list Z)) (e : bool) (out : list Z) : list Z :=
  match ls with
  | [] => out
  | [] :: r => go r true out
  | l :: r => go r false (out ++ (if e && (0 <? length out)%nat then [10] else []) ++ l ++ [10])
  end.
Definition clean_lines (m : list Z) (strip : bool) (comment : Z) : list (list Z) :=
  map rtrimmed (filter (keep strip comment) (lines m)).

Lemma take_line_cases s : (exists l r, s = l ++ 10 :: r /\ ~ In 10 l /\ take_line s = (l ++ [10], r)) \/
  (~ In 10 s /\ take_line s = (s, [])).
Proof.
  induction s as [|c s IH]; cbn [take_line]; [right; split; [intros []|reflexivity]|].
  destruct (Z.eqb_spec c 10) as [->|Hc]; [left; exists [], s; repeat split; intros []|].
  destruct IH as [(l & r & -> & Hn & E)|[Hn E]]; rewrite E.
  - left. exists (c :: l), r. split; [reflexivity|]. split; [intros [H|H]; [lia|auto]|reflexivity].
  - right. split; [intros [H|H]; [lia|auto]|reflexivity].
Qed.

Lemma prettify_loop_go fuel : forall s strip comment empties out, (length s < fuel)%nat ->
  prettify_loop fuel s strip comment empties out =
  Ok (go (map rtrimmed (filter (keep strip comment) (split 10 s))) (0 <? empties)%nat out).
Proof.
  induction fuel as [|f IH]; intros s strip comment empties out Hf; [lia|].
  cbn [prettify_loop]. destruct s as [|c s1] eqn:Es.
  - cbn [split filter]. destruct (keep strip comment []); cbn; reflexivity.
  - rewrite <- Es in *.
    assert (Hc : forall l r, (s = l ++ 10 :: r \/ (s = l)) -> hd 10 l = c).
    { intros l r [H|H]; rewrite Es in H; destruct l; cbn in *; congruence. }
    destruct (take_line_cases s) as [(l & r & E & Hn & Et)|[Hn Et]]; rewrite Et.
    + rewrite E, split_app by assumption. cbn [filter].
      assert (Hlr : (length r < f)%nat) by (rewrite E, app_length in Hf; cbn in Hf; lia).
      unfold keep at 1. rewrite (Hc l r) by auto.
      destruct (strip && (c =? comment)); cbn [negb]; [apply IH; assumption|].
      cbn [map go]. rewrite rtrimmed_newline. destruct (rtrimmed l) as [|x t] eqn:Er; rewrite IH by assumption; reflexivity.
    + rewrite split_nosep by assumption. cbn [filter].
      assert (Hf0 : (1 <= f)%nat) by (rewrite Es in Hf; cbn in Hf; lia).
      unfold keep at 1. rewrite (Hc s []) by auto.
      destruct f as [|f]; [lia|].
      destruct (strip && (c =? comment)); cbn [negb]; [reflexivity|].
      cbn [map go]. destruct (rtrimmed s); reflexivity.
Qed.

Lemma para_text_cons l p : para_text (l :: p) = l ++ [10] ++ para_text p.
Proof. unfold para_text. cbn. rewrite <- app_assoc. reflexivity. Qed.
Lemma text_cons p ps : text (p :: ps) = para_text p ++ match ps with [] => [] | _ => [10] ++ text ps end.
Proof. destruct ps; cbn [text]; [rewrite app_nil_r|]; reflexivity. Qed.

Definition starts_blank (ls : list (list Z)) : bool := match ls with [] :: _ => true | _ => false end.
Lemma go_text ls : forall e out,
  go ls e out = match paragraphs ls with
                | [] => out
                | ps => out ++ (if (e || starts_blank ls) && (0 <? length out)%nat then [10] else []) ++ text ps
                end.
Proof.
  induction ls as [|l r IH]; intros e out; [reflexivity|].
  destruct l as [|c l].
  - cbn [go paragraphs starts_blank]. rewrite IH, orb_true_l, orb_true_r. reflexivity.
  - cbn [go starts_blank]. rewrite IH, !orb_false_r.
    set (out1 := out ++ (if e && (0 <? length out)%nat then [10] else []) ++ (c :: l) ++ [10]).
    assert (L1 : (0 <? length out1)%nat = true) by (apply Nat.ltb_lt; unfold out1; rewrite !app_length; cbn [length]; lia).
    rewrite L1, andb_true_r, orb_false_l.
    destruct r as [|n r'].
    + cbn [paragraphs text]. unfold out1. rewrite para_text_cons. unfold para_text. cbn [map concat]. rewrite app_nil_r, <- ?app_assoc. reflexivity.
    + destruct n as [|d n].
      * cbn [starts_blank paragraphs]. destruct (paragraphs r') as [|p ps].
        -- unfold out1. cbn [text]. rewrite para_text_cons. unfold para_text. cbn [map concat]. rewrite app_nil_r, <- ?app_assoc. reflexivity.
        -- rewrite (text_cons [c :: l]), para_text_cons. unfold para_text at 1. cbn [map concat]. unfold out1. rewrite <- !app_assoc. reflexivity.
      * cbn [starts_blank]. change (paragraphs ((c :: l) :: (d :: n) :: r')) with (match paragraphs ((d :: n) :: r') with p :: ps => ((c :: l) :: p) :: ps | [] => [[c :: l]] end).
        destruct (paragraphs ((d :: n) :: r')) as [|p ps] eqn:Ep.
        -- exfalso. clear - Ep. cbn [paragraphs] in Ep. destruct r' as [|[|? ?] ?]; try discriminate. destruct (paragraphs ((z :: l) :: r')); discriminate.
        -- rewrite (text_cons (_ :: p)), para_text_cons, (text_cons p). unfold out1. rewrite <- !app_assoc. reflexivity.
Qed.

Lemma prettify_text m strip comment : prettify m strip comment = Ok (text (paragraphs (clean_lines m strip comment))).
Proof.
  unfold prettify. rewrite prettify_loop_go by lia. f_equal. rewrite go_text. unfold clean_lines, lines.
  rewrite andb_false_r. destruct (paragraphs _); reflexivity.
Qed.

(** *** Paragraphs *)
Definition good_line (l : list Z) : Prop := l <> [] /\ ~ In 10 l /\ rtrimmed l = l.
Lemma paragraphs_lines ls : concat (paragraphs ls) = filter (fun l => match l with [] => false | _ => true end) ls.
Proof.
  induction ls as [|l r IH]; [reflexivity|]. destruct l as [|c l]; [exact IH|].
  cbn [filter]. rewrite <- IH. destruct r as [|[|d n] r']; [reflexivity|reflexivity|].
  change (paragraphs ((c :: l) :: (d :: n) :: r')) with (match paragraphs ((d :: n) :: r') with p :: ps => ((c :: l) :: p) :: ps | [] => [[c :: l]] end).
  destruct (paragraphs ((d :: n) :: r')); reflexivity.
Qed.
Lemma paragraphs_nonnil ls : Forall (fun p => p <> []) (paragraphs ls).
Proof.
  induction ls as [|l r IH]; [constructor|]. destruct l as [|c l]; [exact IH|].
  destruct r as [|[|d n] r'].
  - repeat constructor; discriminate.
  - cbn [paragraphs] in *. constructor; [discriminate|exact IH].
  - change (paragraphs ((c :: l) :: (d :: n) :: r')) with (match paragraphs ((d :: n) :: r') with p :: ps => ((c :: l) :: p) :: ps | [] => [[c :: l]] end).
    destruct (paragraphs ((d :: n) :: r')) as [|p ps]; [repeat constructor; discriminate|].
    inversion IH; subst. constructor; [discriminate|assumption].
Qed.
Lemma clean_lines_good m strip comment : Forall (fun l => l = [] \/ (good_line l /\ keep strip comment l = true)) (clean_lines m strip comment).
Proof.
  unfold clean_lines. apply Forall_forall. intros x Hx. apply in_map_iff in Hx as (l & <- & Hl). apply filter_In in Hl as [Hl Hk].
  assert (Hn : ~ In 10 l) by (assert (C := split_clean 10 m); rewrite Forall_forall in C; apply C; exact Hl).
  destruct (rtrimmed l) as [|c r] eqn:E; [left; reflexivity|right]. split.
  - split; [discriminate|]. split; [rewrite <- E; intros H; apply Hn, rtrimmed_in, H|]. rewrite <- E. apply rtrimmed_idem.
  - destruct (rtrimmed_hd _ _ _ E) as [r' ->]. unfold keep in *. cbn [hd] in *. exact Hk.
Qed.
Lemma paras_good m strip comment :
  Forall (fun p => p <> [] /\ Forall (fun l => good_line l /\ keep strip comment l = true) p) (paragraphs (clean_lines m strip comment)).
Proof.
  apply Forall_forall. intros p Hp. split.
  - assert (N := paragraphs_nonnil (clean_lines m strip comment)). rewrite Forall_forall in N. auto.
  - apply Forall_forall. intros l Hl.
    assert (In l (concat (paragraphs (clean_lines m strip comment)))) as Hin by (apply in_concat; eauto).
    rewrite paragraphs_lines in Hin. apply filter_In in Hin as [Hin Hne].
    assert (G := clean_lines_good m strip comment). rewrite Forall_forall in G. destruct (G l Hin) as [->|H]; [discriminate|exact H].
Qed.

(** Lines of a text. *)
Fixpoint flat (ps : list (list (list Z))) : list (list Z) :=
  match ps with
  | [] => []
  | [p] => p
  | p :: r => p ++ [[]] ++ flat r
  end.
Lemma split_para p rest : Forall (fun l => ~ In 10 l) p -> split 10 (para_text p ++ rest) = p ++ split 10 rest.
Proof.
  induction 1 as [|l p Hl Hp IH]; [reflexivity|]. rewrite para_text_cons, <- !app_assoc. cbn [app].
  rewrite split_app by assumption. rewrite <- IH. reflexivity.
Qed.
Lemma lines_text ps : Forall (Forall (fun l => ~ In 10 l)) ps -> lines (text ps) = flat ps ++ [[]].
Proof.
  intros H. unfold lines. induction H as [|p ps Hp Hps IH]; [reflexivity|].
  rewrite text_cons. destruct ps as [|q qs].
  - cbn [flat]. rewrite split_para by assumption. reflexivity.
  - rewrite split_para by assumption. cbn [flat].
    change ([10] ++ text (q :: qs)) with ([] ++ 10 :: text (q :: qs)). rewrite split_app by (intros []). rewrite IH. rewrite <- app_assoc. reflexivity.
Qed.
Lemma paragraphs_run p rest : p <> [] -> Forall (fun l => l <> []) p -> paragraphs (p ++ [] :: rest) = p :: paragraphs rest.
Proof.
  intros Hn H. induction H as [|l p Hl Hp IH]; [congruence|]. destruct l as [|c l]; [congruence|].
  destruct p as [|d p]; [reflexivity|]. inversion Hp as [|? ? Hd _]; subst. destruct d as [|d0 d1]; [congruence|].
  specialize (IH ltac:(discriminate)).
  change (paragraphs (((c :: l) :: (d0 :: d1) :: p) ++ [] :: rest)) with (match paragraphs (((d0 :: d1) :: p) ++ [] :: rest) with q :: qs => ((c :: l) :: q) :: qs | [] => [[c :: l]] end).
  rewrite IH. reflexivity.
Qed.
Lemma paragraphs_flat ps : Forall (fun p => p <> [] /\ Forall (fun l => l <> []) p) ps -> paragraphs (flat ps ++ [[]]) = ps.
Proof.
  induction 1 as [|p ps [Hp Hl] Hps IH]; [reflexivity|]. destruct ps as [|q qs].
  - cbn [flat]. rewrite (paragraphs_run p []) by assumption. reflexivity.
  - cbn [flat]. rewrite <- app_assoc. cbn [app]. rewrite paragraphs_run by assumption. f_equal. exact IH.
Qed.

Lemma in_flat l ps : In l (flat ps) -> l = [] \/ exists p, In p ps /\ In l p.
Proof.
  induction ps as [|p ps IH]; [intros []|]. destruct ps as [|q qs].
  - cbn [flat]. intros H. right. exists p. split; [left; reflexivity|exact H].
  - cbn [flat]. intros H. apply in_app_or in H as [H|[H|H]]; [right; exists p; split; [left; reflexivity|exact H]|left; auto|].
    destruct (IH H) as [E|(p' & H1 & H2)]; [left; exact E|right]. exists p'. split; [right; exact H1|exact H2].
Qed.

Lemma clean_text strip comment ps :
  Forall (fun p => p <> [] /\ Forall (fun l => good_line l /\ keep strip comment l = true) p) ps ->
  keep strip comment [] = true -> paragraphs (clean_lines (text ps) strip comment) = ps.
Proof.
  intros H Hk. unfold clean_lines. rewrite lines_text.
  2:{ eapply Forall_impl; [|exact H]. cbv beta. intros p [_ Hp]. eapply Forall_impl; [|exact Hp]. cbv beta. unfold good_line. tauto. }
  assert (Hall : forall l, In l (flat ps ++ [[]]) -> keep strip comment l = true /\ rtrimmed l = l).
  { intros l Hl. apply in_app_or in Hl as [Hl|[<-|[]]]; [|split; [exact Hk|reflexivity]].
    destruct (in_flat l ps Hl) as [->|(p & H1 & H2)]; [split; [exact Hk|reflexivity]|].
    rewrite Forall_forall in H. destruct (H p H1) as [_ Hp]. rewrite Forall_forall in Hp. destruct (Hp l H2) as [(_ & _ & G) K]. auto. }
  assert (filter (keep strip comment) (flat ps ++ [[]]) = flat ps ++ [[]]) as ->.
  { induction (flat ps ++ [[]]) as [|x xs IHx]; [reflexivity|]. cbn [filter]. rewrite (proj1 (Hall x (or_introl eq_refl))). f_equal. apply IHx. intros l Hl. apply Hall. right. exact Hl. }
  assert (map rtrimmed (flat ps ++ [[]]) = flat ps ++ [[]]) as ->.
  { rewrite <- (map_id (flat ps ++ [[]])) at 2. apply map_ext_in. intros l Hl. apply Hall. exact Hl. }
  apply paragraphs_flat. eapply Forall_impl; [|exact H]. cbv beta. intros p [H1 H2]. split; [exact H1|]. eapply Forall_impl; [|exact H2]. cbv beta. unfold good_line. tauto.
Qed.
