From Verif Require Import Base Arr CStr Str ReflogProofs VectorModel VectorSpec VectorProofs MmapModel MmapSpec.
From Coq Require Import Sorting.Sorted.

Lemma scmp_0 a b : scmp a b = 0 <-> a = b.
Proof. unfold scmp. rewrite <- lex_eq. destruct (lex a b); split; congruence. Qed.
Lemma scmp_neg a b : scmp a b < 0 <-> lex a b = Lt.
Proof. unfold scmp. destruct (lex a b); split; (discriminate || lia || reflexivity). Qed.
Lemma scmp_antisym a b : scmp b a = - scmp a b.
Proof. unfold scmp. rewrite (lex_antisym a b). destruct (lex a b); reflexivity. Qed.
Lemma scmp_trans a b c : scmp a b < 0 -> scmp b c < 0 -> scmp a c < 0.
Proof. rewrite !scmp_neg. apply lex_lt_trans. Qed.

Definition same (a b : mment) : Prop := mm_email a = mm_email b /\ mm_name a = mm_name b.
Lemma mm_cmp_0 a b : mm_cmp a b = 0 <-> same a b.
Proof.
  unfold mm_cmp, same. cbv zeta. destruct (Z.eqb_spec (scmp (mm_email a) (mm_email b)) 0) as [E|E]; cbn [negb].
  - apply scmp_0 in E. destruct (mm_name a) as [x|], (mm_name b) as [y|]; cbn [isset]; try (split; [lia|intros [_ K]; discriminate K]).
    + rewrite scmp_0. split; [intros ->; auto|intros [_ K]; congruence].
    + split; auto; lia.
  - split; [congruence|]. intros [K _]. apply scmp_0 in K. congruence.
Qed.
Lemma mm_cmp_antisym a b : mm_cmp b a = - mm_cmp a b.
Proof.
  unfold mm_cmp. cbv zeta. rewrite (scmp_antisym (mm_email a)). destruct (Z.eqb_spec (scmp (mm_email a) (mm_email b)) 0) as [->|E]; cbn [negb Z.opp Z.eqb].
  - destruct (mm_name a), (mm_name b); cbn [isset]; try lia. apply scmp_antisym.
  - destruct (Z.eqb_spec (- scmp (mm_email a) (mm_email b)) 0); cbn [negb]; lia.
Qed.
Lemma mm_cmp_same a b c : same a b -> mm_cmp a c = mm_cmp b c.
Proof. intros [E1 E2]. unfold mm_cmp. rewrite E1, E2. reflexivity. Qed.
Lemma mm_cmp_trans a b c : mm_cmp a b < 0 -> mm_cmp b c < 0 -> mm_cmp a c < 0.
Proof.
  unfold mm_cmp. cbv zeta.
  destruct (Z.eqb_spec (scmp (mm_email a) (mm_email b)) 0) as [E1|E1]; cbn [negb]; [apply scmp_0 in E1; rewrite E1|];
  (destruct (Z.eqb_spec (scmp (mm_email b) (mm_email c)) 0) as [E2|E2]; cbn [negb]; [apply scmp_0 in E2; try rewrite <- E2|]).
  - destruct (mm_name a), (mm_name b), (mm_name c); cbn [isset]; try lia. apply scmp_trans.
  - intros _ H. exact H.
  - intros H _. replace (scmp (mm_email a) (mm_email b) =? 0) with false by (symmetry; apply Z.eqb_neq; exact E1). exact H.
  - intros H1 H2. pose proof (scmp_trans _ _ _ H1 H2). destruct (Z.eqb_spec (scmp (mm_email a) (mm_email c)) 0); cbn [negb]; lia.
Qed.
Lemma mm_le_lt k x y : mm_cmp k x <= 0 -> mm_cmp x y < 0 -> mm_cmp k y < 0.
Proof.
  intros H1 H2. destruct (Z.eq_dec (mm_cmp k x) 0) as [E|]; [|apply (mm_cmp_trans k x y); lia]. apply mm_cmp_0 in E. rewrite (mm_cmp_same k x y E). exact H2.
Qed.

(** *** The list of entries *)
Definition mlt (a b : mment) : Prop := mm_cmp a b < 0.
Definition msorted (l : list mment) : Prop := StronglySorted mlt l.
Lemma msorted_nth l : msorted l <-> forall i j x y, (i < j)%nat -> nth_error l i = Some x -> nth_error l j = Some y -> mlt x y.
Proof.
  induction l as [|a l IH]; split.
  - intros _ i j x y _ H. destruct i; discriminate.
  - intros _. constructor.
  - intros H i j x y Hij Hx Hy. inversion H as [|? ? HS HF]; subst. destruct j as [|j]; [lia|]. cbn [nth_error] in Hy. destruct i as [|i]; cbn [nth_error] in Hx.
    + injection Hx as <-. apply nth_error_In in Hy. exact (proj1 (Forall_forall _ _) HF _ Hy).
    + apply (proj1 IH HS i j x y); auto; lia.
  - intros H. constructor.
    + apply IH. intros i j x y Hij Hx Hy. apply (H (S i) (S j)); auto; lia.
    + apply Forall_forall. intros y Hy. apply In_nth_error in Hy. destruct Hy as [j Hj]. apply (H O (S j)); auto; lia.
Qed.
Lemma msorted_search l k : msorted l -> exists found pos, bsearch l (mm_cmp k) = Ok (found, pos) /\ search_answer l (mm_cmp k) found pos.
Proof.
  intros S. apply bsearch_spec. intros i j x y Hij Hx Hy. pose proof (proj1 (msorted_nth l) S i j x y Hij Hx Hy) as L. unfold mlt in L.
  split; intros H; pose proof (mm_le_lt k x y ltac:(lia) L); lia.
Qed.
(** Where the answer cuts the list. *)
Lemma search_cut l k found pos : msorted l -> search_answer l (mm_cmp k) found pos ->
  exists a m b, l = a ++ m ++ b /\ firstn pos l = a /\ skipn (if found then S pos else pos) l = b /\ length a = pos /\
    (forall x, In x a -> mm_cmp k x > 0) /\ (forall x, In x b -> mm_cmp k x < 0) /\
    (if found then exists e, m = [e] /\ same k e else m = []).
Proof.
  intros S H. unfold search_answer in H. destruct found.
  - destruct H as (e & He & E0). pose proof (nth_error_split l pos He) as (a & b & El & La). exists a, [e], b. subst l.
    split; [reflexivity|]. split; [rewrite <- La, firstn_app, firstn_all, Nat.sub_diag; cbn; apply app_nil_r|]. split; [rewrite skipn_app, skipn_all2 by lia; replace (Datatypes.S pos - length a)%nat with 1%nat by lia; reflexivity|].
    split; [exact La|]. apply mm_cmp_0 in E0. split; [|split; [|eauto]].
    + intros x Hx. apply In_nth_error in Hx. destruct Hx as [i Hi]. assert (i < length a)%nat by (apply nth_error_Some; congruence).
      pose proof (proj1 (msorted_nth _) S i pos x e ltac:(lia) ltac:(rewrite nth_error_app1 by lia; exact Hi) He) as L. unfold mlt in L. rewrite mm_cmp_antisym, (mm_cmp_antisym k) in *.
      destruct E0 as [E1 E2]. unfold mm_cmp in *. rewrite E1, E2. lia.
    + intros x Hx. apply In_nth_error in Hx. destruct Hx as [i Hi].
      pose proof (proj1 (msorted_nth _) S pos (Datatypes.S pos + i)%nat e x ltac:(lia) He ltac:(rewrite nth_error_app2 by lia; replace (Datatypes.S pos + i - length a)%nat with (Datatypes.S i) by lia; exact Hi)) as L. unfold mlt in L.
      rewrite (mm_cmp_same k e x E0). exact L.
  - destruct H as (HL & H1 & H2). exists (firstn pos l), [], (skipn pos l). cbn [app]. split; [symmetry; apply firstn_skipn|]. split; [reflexivity|]. split; [reflexivity|]. split; [rewrite firstn_length; lia|]. split; [|split; [|reflexivity]].
    + intros x Hx. apply In_nth_error in Hx. destruct Hx as [i Hi]. assert (i < length (firstn pos l))%nat by (apply nth_error_Some; congruence). rewrite firstn_length in *.
      apply Z.lt_gt, (H1 i x ltac:(lia)). rewrite <- (firstn_skipn pos l), nth_error_app1 by (rewrite firstn_length; lia). exact Hi.
    + intros x Hx. apply In_nth_error in Hx. destruct Hx as [i Hi]. apply (H2 (pos + i)%nat x ltac:(lia)). rewrite <- (firstn_skipn pos l), nth_error_app2 by (rewrite firstn_length; lia). rewrite firstn_length. replace (pos + i - Nat.min pos (length l))%nat with i by lia. exact Hi.
Qed.
Lemma sorted_app (a b : list mment) : msorted (a ++ b) <-> msorted a /\ msorted b /\ forall x y, In x a -> In y b -> mlt x y.
Proof.
  induction a as [|z a IH]; cbn [app].
  - split; [intros H; split; [constructor|split; [exact H|intros x y []]]|tauto].
  - split.
    + intros H. inversion H as [|? ? HS HF]; subst. apply IH in HS. destruct HS as (H1 & H2 & H3). rewrite Forall_forall in HF. split; [constructor; [exact H1|apply Forall_forall; intros; apply HF, in_app_iff; auto]|]. split; [exact H2|].
      intros x y [<-|Hx] Hy; [apply HF, in_app_iff; auto|auto].
    + intros (H1 & H2 & H3). inversion H1 as [|? ? HS HF]; subst. rewrite Forall_forall in HF. constructor; [apply IH; cbn [In] in H3; auto 6|]. apply Forall_forall. intros y Hy. apply in_app_iff in Hy. destruct Hy; [auto|apply H3; [left; reflexivity|assumption]].
Qed.
Lemma mm_insert_ok l x : msorted l -> exists l', mm_insert l x = Ok l' /\ msorted l' /\ forall e, In e l' <-> e = x \/ (In e l /\ ~ same e x).
Proof.
  intros S. unfold mm_insert. destruct (msorted_search l x S) as (found & pos & -> & A). cbn [bindr].
  destruct (search_cut l x found pos S A) as (a & m & b & El & -> & -> & _ & Ha & Hb & Hm). exists (a ++ x :: b). split; [reflexivity|]. 
  assert (NSa : forall e, In e a -> ~ same e x) by (intros e He K; specialize (Ha e He); apply mm_cmp_0 in K; rewrite mm_cmp_antisym in K; lia).
  assert (NSb : forall e, In e b -> ~ same e x) by (intros e He K; specialize (Hb e He); apply mm_cmp_0 in K; rewrite mm_cmp_antisym in K; lia).
  assert (NSm : forall e, In e m -> same e x).
  { destruct found; [destruct Hm as (z & -> & [K1 K2]); intros e [<-|[]]; split; auto|rewrite Hm; intros e []]. }
  split.
  - rewrite El in S. apply sorted_app in S. destruct S as (S1 & S2 & S3). apply sorted_app in S2. destruct S2 as (_ & S2 & _). apply sorted_app. split; [exact S1|]. split; [constructor; [exact S2|apply Forall_forall; intros y Hy; apply Hb, Hy]|].
    intros y z Hy [<-|Hz]; [unfold mlt; rewrite mm_cmp_antisym; specialize (Ha y Hy); lia|apply S3; [exact Hy|apply in_app_iff; auto]].
  - intros e. rewrite El, !in_app_iff. cbn [In]. specialize (NSa e). specialize (NSb e). specialize (NSm e). intuition congruence.
Qed.

(** *** Looking up *)
Lemma mm_scan_ok name email b : msorted b -> (forall x, In x b -> mm_cmp (mkmm None None None email) x < 0) ->
  (exists e, mm_scan b (Some name) email = Ok (Some e) /\ In e b /\ mm_email e = email /\ mm_name e = Some name) \/
  (mm_scan b (Some name) email = Ok None /\ forall e, In e b -> mm_email e = email -> mm_name e = Some name -> False).
Proof.
  induction b as [|e b IH]; intros S H; [right; split; [reflexivity|intros e []]|]. inversion S as [|? ? S' F]; subst. rewrite Forall_forall in F.
  cbn [mm_scan]. pose proof (H e (or_introl eq_refl)) as He. unfold mm_cmp in He. cbn [mm_email mm_name isset] in He. cbv zeta in He.
  destruct (Z.eqb_spec (scmp (mm_email e) email) 0) as [E|E]; cbn [negb].
  - apply scmp_0 in E. subst email. rewrite (proj2 (scmp_0 _ _) eq_refl) in He. cbn [Z.eqb negb] in He. destruct (mm_name e) as [n|] eqn:En; [|cbn [isset] in He; lia].
    destruct (Z.eqb_spec (scmp n name) 0) as [E0|E0].
    + apply scmp_0 in E0. subst n. left. exists e. cbn [In]. auto.
    + destruct (IH S' (fun x Hx => H x (or_intror Hx))) as [(x & -> & I & E1 & E2)|[-> N]]; [left; exists x; cbn [In]; auto|]. right. split; [reflexivity|].
      intros x [<-|I] E1 E2; [|eauto]. apply E0, scmp_0. congruence.
  - right. split; [reflexivity|]. intros x [<-|I] E1 E2; [apply E, scmp_0, E1|].
    specialize (F x I). unfold mlt, mm_cmp in F. cbv zeta in F. rewrite E1 in F. rewrite (scmp_antisym (mm_email e) email) in He.
    destruct (Z.eqb_spec (scmp (mm_email e) email) 0); [congruence|]. destruct (Z.eqb_spec (- scmp (mm_email e) email) 0); [lia|]. cbn [negb] in *. lia.
Qed.
(** What a lookup gives. *)
Lemma mm_lookup_ok l name email : msorted l -> exists r, mm_lookup l (Some name) email = Ok r /\
  match r with
  | Some e => In e l /\ mm_email e = email /\ (mm_name e = Some name \/ (mm_name e = None /\ forall x, In x l -> mm_email x = email -> mm_name x <> Some name))
  | None => forall x, In x l -> mm_email x = email -> mm_name x <> Some name /\ mm_name x <> None
  end.
Proof.
  intros S. unfold mm_lookup. set (k := mkmm None None None email). destruct (msorted_search l k S) as (found & pos & -> & A). cbn [bindr].
  destruct (search_cut l k found pos S A) as (a & m & b & El & _ & -> & La & Ha & Hb & Hm).
  assert (Sb : msorted b) by (rewrite El in S; apply sorted_app in S; destruct S as (_ & S & _); apply sorted_app in S; tauto).
  assert (Na : forall x, In x a -> mm_email x <> email).
  { intros x Hx E. specialize (Ha x Hx). unfold mm_cmp, k in Ha. cbn [mm_email mm_name isset] in Ha. rewrite E, (proj2 (scmp_0 _ _) eq_refl) in Ha. cbn [Z.eqb negb] in Ha. destruct (mm_name x); cbn [isset] in Ha; lia. }
  assert (Nb : forall x, In x b -> mm_email x = email -> mm_name x <> None).
  { intros x Hx E K. specialize (Hb x Hx). unfold mm_cmp, k in Hb. cbn [mm_email mm_name isset] in Hb. rewrite E, K, (proj2 (scmp_0 _ _) eq_refl) in Hb. cbn [Z.eqb negb isset] in Hb. lia. }
  destruct (mm_scan_ok name email b Sb Hb) as [(e & -> & I & E1 & E2)|[-> N]].
  - exists (Some e). split; [reflexivity|]. split; [rewrite El, !in_app_iff; auto|]. auto.
  - destruct found.
    + destruct Hm as (e & -> & K1 & K2). cbn [mm_email mm_name k] in K1, K2. exists (Some e). split; [rewrite El, nth_error_app2 by lia; rewrite La, Nat.sub_diag; reflexivity|].
      split; [rewrite El, !in_app_iff; cbn [In]; auto|]. split; [auto|]. right. split; [auto|]. intros x Hx E1 E2. rewrite El, !in_app_iff in Hx. cbn [In] in Hx.
      destruct Hx as [Hx|[[<-|[]]|Hx]]; [exact (Na x Hx E1)|congruence|exact (N x Hx E1 E2)].
    + exists None. split; [reflexivity|]. subst m. intros x Hx E1. rewrite El in Hx. cbn [app] in Hx. apply in_app_iff in Hx. destruct Hx as [Hx|Hx]; [exfalso; exact (Na x Hx E1)|]. split; [intros E2; exact (N x Hx E1 E2)|apply Nb; assumption].
Qed.

(** *** Histories *)
Definition ent (a : madd) : mment := mkmm (nonempty (a_rname a)) (nonempty (a_remail a)) (nonempty (a_name a)) (a_email a).
Lemma latest_snoc p h x : latest p (h ++ [x]) = if p x then Some x else latest p h.
Proof. unfold latest. rewrite rev_app_distr. reflexivity. Qed.
Lemma latest_ext p q h : (forall a, p a = q a) -> latest p h = latest q h.
Proof. intros H. unfold latest. induction (rev h) as [|a r IH]; cbn [find]; [reflexivity|]. rewrite H, IH. reflexivity. Qed.
Definition key_is (e : mment) (a : madd) : bool :=
  match mm_name e with Some n => exact n (mm_email e) a | None => general (mm_email e) a end.
Lemma nonempty_none o : nonempty o = None <-> given o = false.
Proof. destruct o as [[|c s]|]; cbn; split; congruence. Qed.
Lemma nonempty_some o n : nonempty o = Some n <-> given o = true /\ value o [] = n.
Proof. destruct o as [[|c s]|]; cbn; split; try (intros [? ?]); congruence || (intros H; injection H as <-; auto). Qed.
Lemma key_is_ent e a : key_is e a = true <-> same e (ent a).
Proof.
  unfold key_is, same, ent. cbn [mm_email mm_name]. destruct (mm_name e) as [n|]; unfold exact, general.
  - rewrite !andb_true_iff, !leqb_spec. split; [intros [[H1 H2] H3]; split; [auto|]; symmetry; apply nonempty_some; auto|].
    intros [H1 H2]. symmetry in H2. apply nonempty_some in H2. destruct H2. auto.
  - rewrite andb_true_iff, leqb_spec, negb_true_iff. split; [intros [H2 H3]; split; [auto|]; symmetry; apply nonempty_none; auto|].
    intros [H1 H2]. symmetry in H2. apply nonempty_none in H2. auto.
Qed.
Definition means (l : list mment) (h : list madd) : Prop := msorted l /\ forall e, In e l <-> exists a, latest (key_is e) h = Some a /\ ent a = e.
Lemma mm_adds_ok h : Forall (fun a => a_email a <> []) h -> forall l h0, means l h0 -> exists l', mm_adds l h = Ok l' /\ means l' (h0 ++ h).
Proof.
  induction 1 as [|x h Hx _ IH]; intros l h0 [S M]; [exists l; rewrite app_nil_r; split; [reflexivity|split; assumption]|].
  cbn [mm_adds]. unfold mm_add. destruct (a_email x) as [|c s] eqn:Ex; [congruence|]. rewrite <- Ex. fold (ent x).
  destruct (mm_insert_ok l (ent x) S) as (l1 & -> & S1 & M1). cbn [bindr]. destruct (IH l1 (h0 ++ [x])) as (l' & E & M').
  - split; [exact S1|]. intros e. rewrite M1, latest_snoc. destruct (key_is e x) eqn:K.
    + apply key_is_ent in K. split; [intros [->|[_ N]]; [eauto|tauto]|]. intros (a & Ea & <-). left. congruence.
    + assert (NK : ~ same e (ent x)) by (intros K'; apply key_is_ent in K'; congruence). rewrite M. split; [intros [->|[H _]]; [exfalso; apply NK; split; reflexivity|exact H]|auto].
  - exists l'. split; [exact E|]. rewrite <- app_assoc in M'. exact M'.
Qed.
Lemma means_nil : means [] [].
Proof. split; [constructor|]. intros e. cbn. split; [intros []|intros (a & H & _); discriminate]. Qed.
Lemma latest_p p h a : latest p h = Some a -> p a = true.
Proof. unfold latest. intros H. apply find_some in H. apply H. Qed.
Lemma means_get l h e a : means l h -> latest (key_is e) h = Some a -> In (ent a) l /\ same e (ent a).
Proof.
  intros [_ M] H. pose proof (latest_p _ _ _ H) as K. apply key_is_ent in K. split; [|exact K]. apply M. exists a. split; [|reflexivity]. rewrite <- H. apply latest_ext.
  intros b. destruct K as [K1 K2]. unfold key_is. rewrite <- K1, <- K2. reflexivity.
Qed.
Lemma orelse_value o d : orelse (nonempty o) d = value o d.
Proof. destruct o as [[|c s]|]; reflexivity. Qed.
Lemma mm_resolve_ok l h name email : means l h -> mm_resolve l name email = Ok (resolved h name email).
Proof.
  intros M. unfold mm_resolve. destruct (mm_lookup_ok l name email (proj1 M)) as (r & -> & R). cbn [bindr]. f_equal. unfold resolved.
  assert (GE : forall b, latest (exact name email) h = Some b -> In (ent b) l /\ same (mkmm None None (Some name) email) (ent b)) by (intros b; apply (means_get l h (mkmm None None (Some name) email) b M)).
  assert (GG : forall b, latest (general email) h = Some b -> In (ent b) l /\ same (mkmm None None None email) (ent b)) by (intros b; apply (means_get l h (mkmm None None None email) b M)).
  destruct r as [e|].
  - destruct R as (I & E1 & R). apply (proj2 M) in I. destruct I as (a & Ea & <-). destruct R as [R|[R N]]; unfold key_is in Ea; rewrite R, E1 in Ea.
    + change (latest (exact name email) h = Some a) in Ea. rewrite Ea. cbn [ent mm_rname mm_remail]. rewrite !orelse_value. reflexivity.
    + change (latest (general email) h = Some a) in Ea. destruct (latest (exact name email) h) as [b|]; [exfalso; destruct (GE b eq_refl) as (I & K1 & K2); apply (N (ent b) I); symmetry; assumption|].
      rewrite Ea. cbn [ent mm_rname mm_remail]. rewrite !orelse_value. reflexivity.
  - destruct (latest (exact name email) h) as [b|]; [exfalso; destruct (GE b eq_refl) as (I & K1 & K2); apply (proj1 (R (ent b) I (eq_sym K1))); symmetry; exact K2|].
    destruct (latest (general email) h) as [b|]; [exfalso; destruct (GG b eq_refl) as (I & K1 & K2); apply (proj2 (R (ent b) I (eq_sym K1))); symmetry; exact K2|]. reflexivity.
Qed.
