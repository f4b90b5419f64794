(** C09: wildmatch decides exactly the glob language, for every pattern, text and flag. *)
From Verif Require Import Base Str WildModel WildSpec WildProofs WildSim WildSim2.

(** The answer is MATCH exactly when the text is in the language of the parsed pattern. *)
Theorem wildmatch_exact : forall pn cf p t, cstr p -> cstr t ->
  (wildmatch pn cf p t = MATCH <-> lang pn cf (glob pn p) t).
Proof.
  intros pn cf p t Hp Ht. unfold wildmatch, glob.
  rewrite (sim pn cf (S (length p)) (S (length p)) None p t Hp Ht) by lia. cbn [bolof].
  pose proof (W_good pn cf (parse (S (length p)) pn true p) (parse_wf pn (S (length p)) true p Hp ltac:(lia)) t Ht) as HG.
  split.
  - intros H. rewrite H in HG. exact HG.
  - intros HL. destruct (W pn cf _ t) eqn:E; [reflexivity|..]; exfalso; revert HL; apply (good_no _ _ _ _ _ HG); discriminate.
Qed.

(** It always answers: the recursion needs no more steps than the pattern has bytes. *)
Theorem wildmatch_total : forall pn cf p t, cstr p -> cstr t -> wildmatch pn cf p t <> WFUEL.
Proof.
  intros pn cf p t Hp Ht E. unfold wildmatch in E.
  rewrite (sim pn cf (S (length p)) (S (length p)) None p t Hp Ht) in E by lia. cbn [bolof] in E.
  pose proof (W_good pn cf (parse (S (length p)) pn true p) (parse_wf pn (S (length p)) true p Hp ltac:(lia)) t Ht) as HG.
  rewrite E in HG. exact HG.
Qed.

(** Consequences in plain terms. *)
Definition plain (c : Z) : Prop := c <> ch "*" /\ c <> ch "?" /\ c <> ch "[" /\ c <> ch "\".

Lemma parse_plain pn : forall q f b p, Forall plain q -> (length (q ++ p) < f)%nat ->
  exists f' b', (length p < f')%nat /\ parse f pn b (q ++ p) = map ELit q ++ parse f' pn b' p /\ (q = [] -> b' = b).
Proof.
  induction q as [|c q IH]; intros f b p Hq Hf.
  { exists f, b. auto. }
  cbn in Hf. destruct f as [|f]; [lia|]. inversion Hq as [|? ? (H1 & H2 & H3 & H4) Hq']; subst. cbn [app parse].
  apply Z.eqb_neq in H1, H2, H3, H4. rewrite H1, H2, H3, H4.
  destruct (IH f (c =? ch "/") p Hq' ltac:(lia)) as (f' & b' & Hf' & E & _). exists f', b'. rewrite E. repeat split; [exact Hf'|discriminate].
Qed.
Lemma lang_lits pn q es t : lang pn false (map ELit q ++ es) t <-> exists r, t = q ++ r /\ lang pn false es r.
Proof.
  revert t. induction q as [|c q IH]; intros t; cbn [map app lang].
  - split; [eauto|]. intros (r & -> & H). exact H.
  - split.
    + intros (x & t' & -> & E & H). cbn in E. subst x. apply IH in H. destruct H as (r & -> & H). eauto.
    + intros (r & -> & H). exists c, (q ++ r). repeat split. apply IH. eauto.
Qed.

(** A pattern with no special byte matches its own text and no other. *)
Theorem wildmatch_literal : forall pn p t, cstr p -> cstr t -> Forall plain p ->
  (wildmatch pn false p t = MATCH <-> t = p).
Proof.
  intros pn p t Hp Ht Hpl. rewrite wildmatch_exact by assumption. unfold glob.
  destruct (parse_plain pn p (S (length p)) true [] Hpl) as (f' & b' & Hf & E & _); [rewrite app_nil_r; lia|].
  rewrite app_nil_r in E. rewrite E. assert (Hn : parse f' pn b' [] = []) by (destruct f'; reflexivity). rewrite Hn.
  rewrite lang_lits. cbn. split; [intros (r & -> & ->); apply app_nil_r|intros ->; exists []; rewrite app_nil_r; auto].
Qed.
(** A plain prefix, a star and a plain suffix: any middle part, and in path mode one without a slash. *)
Theorem wildmatch_star : forall pn a b t, cstr (a ++ b) -> cstr t -> Forall plain a -> Forall plain b ->
  (wildmatch pn false (a ++ ch "*" :: b) t = MATCH <->
   exists m, t = a ++ m ++ b /\ (pn = true -> ~ In (ch "/") m)).
Proof.
  intros pn a b t Hp Ht Ha Hb. apply Forall_app in Hp. destruct Hp as [Hca Hcb].
  assert (Hp : cstr (a ++ ch "*" :: b)). { apply Forall_app. split; [exact Hca|]. constructor; [cbn; lia|exact Hcb]. }
  rewrite wildmatch_exact by assumption. unfold glob.
  destruct (parse_plain pn a (S (length (a ++ ch "*" :: b))) true (ch "*" :: b) Ha) as (f1 & b1 & Hf1 & E & _); [lia|].
  rewrite E, lang_lits. destruct f1 as [|f1]; [lia|]. cbn [length] in Hf1. cbn [parse]. rewrite Z.eqb_refl.
  assert (Hh : hd 0 b =? ch "*" = false). { destruct b as [|c b]; [reflexivity|]. inversion Hb as [|? ? (H & _) _]; subst. cbn [hd]. apply Z.eqb_neq. exact H. }
  assert (Hst : strip_stars b = b). { destruct b as [|c b]; [reflexivity|]. cbn [hd] in Hh. cbn. change (ch "*") with 42 in Hh. rewrite Hh. reflexivity. }
  rewrite Hst, Hh. cbn [andb].
  destruct (parse_plain pn b f1 false [] Hb) as (f2 & b2 & _ & E2 & _); [rewrite app_nil_r; lia|].
  rewrite app_nil_r in E2. assert (Hn : parse f2 pn b2 [] = []) by (destruct f2; reflexivity). rewrite Hn in E2. cbv zeta. rewrite E2.
  assert (HS : forall s r, lang pn false (EStar s :: map ELit b ++ []) r <-> exists m, r = m ++ b /\ (s = true \/ ~ In (ch "/") m)).
  { intros s r. cbn [lang]. split.
    - intros (u & v & -> & Hs & H). apply lang_lits in H. destruct H as (w & -> & H). cbn in H. subst w. rewrite app_nil_r. eauto.
    - intros (m & -> & Hs). exists m, b. repeat split; [exact Hs|]. apply lang_lits. exists []. rewrite app_nil_r. split; reflexivity. }
  destruct pn; cbn [negb].
  - split.
    + intros (r & -> & H). apply HS in H. destruct H as (m & -> & [E0|H]); [discriminate|]. exists m. auto.
    + intros (m & -> & H). exists (m ++ b). split; [reflexivity|]. apply HS. exists m. auto.
  - split.
    + intros (r & -> & H). apply HS in H. destruct H as (m & -> & _). exists m. split; [reflexivity|discriminate].
    + intros (m & -> & H). exists (m ++ b). split; [reflexivity|]. apply HS. exists m. auto.
Qed.

(** With case folding on, every text should match the literal pattern that spells it, escaped
    or not.  It does not: an escaped capital, and a capital in brackets, match nothing. *)
Theorem wildmatch_casefold_refuted :
  ~ (forall pn c t, isupper c = true -> (wildmatch pn true [ch "\"; c] t = MATCH <-> t = [c] \/ t = [tolower c])) /\
  ~ (forall pn c t, isupper c = true -> (wildmatch pn true [ch "["; c; ch "]"] t = MATCH <-> t = [c] \/ t = [tolower c])).
Proof.
  split; intros H; specialize (H false (ch "A") (bs "A") eq_refl); destruct H as [_ H]; specialize (H (or_introl eq_refl)); vm_compute in H; discriminate.
Qed.

(** Concrete cases (from tests/util/wildmatch.c). *)
Example wm1 : wildmatch true false (bs "foo/**/bar") (bs "foo/baz/x/bar") = MATCH /\ wildmatch true false (bs "foo/**/bar") (bs "foo/bar") = MATCH
  /\ wildmatch true false (bs "foo**bar") (bs "foo/baz/bar") <> MATCH /\ wildmatch true false (bs "**/bar*") (bs "deep/foo/bar/baz") <> MATCH
  /\ wildmatch true false (bs "foo/*/*/bar") (bs "foo/a/b/bar") = MATCH /\ wildmatch false false (bs "t[a-g]n") (bs "ten") = MATCH
  /\ wildmatch false false (bs "[[:digit:][:upper:][:space:]]") (bs "A") = MATCH /\ wildmatch false true (bs "FOO*") (bs "fooBar") = MATCH.
Proof. vm_compute. repeat split; congruence. Qed.
Example wm2 : lang true false (glob true (bs "foo/**/bar")) (bs "foo/a/b/bar").
Proof. apply wildmatch_exact; [repeat constructor; cbn; lia|repeat constructor; cbn; lia|vm_compute; reflexivity]. Qed.
Print Assumptions wildmatch_exact.
