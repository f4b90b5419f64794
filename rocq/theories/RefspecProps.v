(** C21: refspec parsing and transformation. *)
From Verif Require Import Base Str WildModel WildSpec WildProps RefnameModel RefnameSpec RefnameProps RefspecModel RefspecSpec RefspecProofs.

Definition fine (r : res refspec) : Prop := match r with Ok _ | Err _ => True | _ => False end.
Lemma fine_check n g k : fine k -> fine (check_name n (mkf true g true false) k).
Proof. intros H. unfold check_name. destruct (name_valid_exact (mkf true g true false) n eq_refl) as [[E _]|[E _]]; rewrite E; [exact H|exact I]. Qed.
Lemma parse_fine input fetch : fine (refspec_parse input fetch).
Proof.
  unfold refspec_parse. cbv zeta.
  repeat match goal with
  | |- fine (Ok _) => exact I
  | |- fine (Err _) => exact I
  | |- fine (check_name _ _ _) => apply fine_check
  | |- fine (if ?b then _ else _) => destruct b
  | |- fine (match ?x with _ => _ end) => destruct x
  end.
Qed.

(** Parsing always ends with a refspec or an error, and an accepted string spells the
    resulting refspec. *)
Theorem refspec_parse_spells : forall input fetch,
  match refspec_parse input fetch with
  | Ok s => spells input fetch s
  | Err _ => True
  | _ => False
  end.
Proof.
  intros input fetch. pose proof (parse_fine input fetch) as HF. destruct (refspec_parse input fetch) as [s| | |] eqn:E; try exact HF.
  apply (parse_accepted _ _ _ E).
Qed.

Lemma spells_cstr input fetch s : cstr input -> spells input fetch s -> cstr (rs_src s) /\ match rs_dst s with Some d => cstr d | None => True end.
Proof.
  intros Hc (body & -> & _ & _ & _ & H). apply Forall_app in Hc. destruct Hc as [_ Hb].
  destruct H as [(_ & E1 & E2)|(d & E1 & _ & E2)].
  - rewrite E1, E2. destruct fetch; auto.
  - rewrite E1 in Hb. apply Forall_app in Hb. destruct Hb as [H1 H2]. inversion H2; subst. rewrite E2. split; [exact H1|]. destruct fetch; [destruct d; auto|auto].
Qed.

(** Matching against a one-star side. *)
Lemma one_star_match x a b n : cstr x -> cstr n -> one_star x a b ->
  (wildmatch false false x n = MATCH <-> exists m, n = a ++ m ++ b).
Proof.
  intros Hx Hn (-> & Ha & Hb). apply lit_plain in Ha, Hb.
  assert (Hab : cstr (a ++ b)). { apply Forall_app in Hx. destruct Hx as [H1 H2]. inversion H2; subst. apply Forall_app. auto. }
  rewrite (wildmatch_star false a b n Hab Hn Ha Hb). split; [intros (m & -> & _); eauto|intros (m & ->); exists m; split; [reflexivity|discriminate]].
Qed.
Lemma lit_match x n : cstr x -> cstr n -> lit x -> (wildmatch false false x n = MATCH <-> n = x).
Proof. intros Hx Hn Hl. apply wildmatch_literal; auto. apply lit_plain. exact Hl. Qed.

Lemma lit_nostar a : lit a -> ~ In 42 a.
Proof. intros H Hi. unfold lit in H. rewrite Forall_forall in H. apply (H 42 Hi). cbn. auto. Qed.
Lemma tr_star x a b y c d m : one_star x a b -> one_star y c d -> refspec_tr x (Some y) (a ++ m ++ b) = Ok (c ++ m ++ d).
Proof.
  intros (-> & Ha & _) (-> & Hc & _). unfold refspec_tr. change (ch "*") with 42. rewrite !lcut_at by (apply lit_nostar; assumption).
  rewrite !app_length. destruct (Nat.ltb_spec (length a + (length m + length b)) (length a)); [lia|].
  rewrite skipn_app, skipn_all, Nat.sub_diag. cbn [app skipn]. rewrite app_length.
  destruct (Nat.ltb_spec (length m + length b) (length b)); [lia|].
  replace (length m + length b - length b)%nat with (length m) by lia. rewrite firstn_app, firstn_all, Nat.sub_diag. cbn. rewrite app_nil_r. reflexivity.
Qed.
Lemma mid_unique (a b m m' : list Z) : a ++ m ++ b = a ++ m' ++ b -> m = m'.
Proof. intros H. apply app_inv_head in H. apply app_inv_tail in H. exact H. Qed.

(** Pattern refspecs: source a*b, destination c*d; a name is transformed exactly when it is
    a m b, and then to c m d; every other name is refused. *)
Theorem refspec_transform_pattern : forall input fetch s d, cstr input -> refspec_parse input fetch = Ok s ->
  rs_pattern s = true -> rs_dst s = Some d ->
  exists sa sb da db, one_star (rs_src s) sa sb /\ one_star d da db /\
    forall name, cstr name ->
      (forall m, name = sa ++ m ++ sb -> transform s name = Ok (da ++ m ++ db)) /\
      (~ (exists m, name = sa ++ m ++ sb) -> transform s name = Err (-1)) /\
      (forall m, name = da ++ m ++ db -> rtransform s name = Ok (sa ++ m ++ sb)) /\
      (~ (exists m, name = da ++ m ++ db) -> rtransform s name = Err (-1)).
Proof.
  intros input fetch s d Hc Hp Hpat Hd. destruct (parse_accepted _ _ _ Hp) as [Hsp Hst _].
  destruct (spells_cstr _ _ _ Hc Hsp) as [Hcs Hcd]. rewrite Hd in Hcd.
  destruct (Hst Hpat) as [(sa & sb & H1) H2]. rewrite Hd in H2. destruct H2 as (da & db & H2).
  exists sa, sb, da, db. split; [exact H1|]. split; [exact H2|]. intros name Hn.
  pose proof (one_star_match _ sa sb name Hcs Hn H1) as HM1. pose proof (one_star_match _ da db name Hcd Hn H2) as HM2.
  unfold transform, rtransform, src_matches, dst_matches. rewrite Hpat, Hd. cbn [negb].
  assert (Hbool : forall w, (match w with MATCH => true | _ => false end) = true <-> w = MATCH) by (intros []; split; congruence).
  repeat split.
  - intros m E. rewrite (proj2 HM1) by eauto. cbn [negb]. rewrite E. apply tr_star; assumption.
  - intros N. destruct (wildmatch false false (rs_src s) name) eqn:Ew; try reflexivity. exfalso. apply N, HM1. reflexivity.
  - intros m E. rewrite (proj2 HM2) by eauto. cbn [negb]. rewrite E. apply tr_star; assumption.
  - intros N. destruct (wildmatch false false d name) eqn:Ew; try reflexivity. exfalso. apply N, HM2. reflexivity.
Qed.

(** Refspecs without a star, for fetching: exactly the source name maps to the destination. *)
Theorem refspec_transform_plain : forall input s name, cstr input -> cstr name ->
  refspec_parse input true = Ok s -> rs_pattern s = false ->
  transform s name = (if leqb name (rs_src s) then Ok (match rs_dst s with Some d => d | None => [] end) else Err (-1)) /\
  rtransform s name = (match rs_dst s with
                       | Some d => if leqb name d then Ok (rs_src s) else Err (-1)
                       | None => Err (-1) end).
Proof.
  intros input s name Hc Hn Hp Hpat. destruct (parse_accepted _ _ _ Hp) as [Hsp _ Hl].
  destruct (spells_cstr _ _ _ Hc Hsp) as [Hcs Hcd]. destruct (Hl Hpat) as (H1 & H2 & _). specialize (H1 eq_refl).
  unfold transform, rtransform, src_matches, dst_matches. rewrite Hpat. cbn [negb]. split.
  - pose proof (lit_match _ name Hcs Hn H1) as HM. destruct (leqb name (rs_src s)) eqn:E.
    + apply leqb_spec in E. rewrite (proj2 HM E). reflexivity.
    + destruct (wildmatch false false (rs_src s) name) eqn:Ew; try reflexivity. rewrite (proj1 HM eq_refl), leqb_refl in E. discriminate.
  - destruct (rs_dst s) as [d|]; [|reflexivity]. pose proof (lit_match _ name Hcd Hn H2) as HM. destruct (leqb name d) eqn:E.
    + apply leqb_spec in E. rewrite (proj2 HM E). reflexivity.
    + destruct (wildmatch false false d name) eqn:Ew; try reflexivity. rewrite (proj1 HM eq_refl), leqb_refl in E. discriminate.
Qed.

(** Transforming there and back gives the name again, in both orders. *)
Theorem refspec_roundtrip : forall input fetch s name out, cstr input -> cstr name ->
  refspec_parse input fetch = Ok s -> (fetch = true \/ rs_pattern s = true) -> rs_dst s <> None ->
  (transform s name = Ok out -> rtransform s out = Ok name) /\ (rtransform s name = Ok out -> transform s out = Ok name).
Proof.
  intros input fetch s name out Hc Hn Hp Hf Hd. destruct (rs_dst s) as [d|] eqn:Ed; [|congruence]. clear Hd.
  pose proof (parse_accepted _ _ _ Hp) as HA. destruct (spells_cstr _ _ _ Hc (acc_spells _ _ _ HA)) as [Hcs Hcd]. rewrite Ed in Hcd.
  destruct (rs_pattern s) eqn:Hpat.
  - destruct (refspec_transform_pattern input fetch s d Hc Hp Hpat Ed) as (sa & sb & da & db & H1 & H2 & HT).
    assert (Hparts : cstr sa /\ cstr sb /\ cstr da /\ cstr db).
    { destruct H1 as (E1 & _), H2 as (E2 & _). rewrite E1 in Hcs. rewrite E2 in Hcd. apply Forall_app in Hcs, Hcd. destruct Hcs as [? Hx], Hcd as [? Hy]. inversion Hx; inversion Hy; subst; auto. }
    destruct Hparts as (Ca & Cb & Cc & Cd).
    destruct (HT name Hn) as (T1 & T2 & T3 & T4). split; intros E.
    + assert (HD : ~ ~ exists m, name = sa ++ m ++ sb) by (intros N; rewrite (T2 N) in E; discriminate).
      assert (Hm : exists m, name = sa ++ m ++ sb).
      { pose proof (one_star_match _ sa sb name Hcs Hn H1) as HM. apply HM. unfold transform, src_matches in E. destruct (wildmatch false false (rs_src s) name); try discriminate E. reflexivity. }
      destruct Hm as (m & Em). rewrite (T1 m Em) in E. injection E as <-.
      assert (Cm : cstr m) by (rewrite Em in Hn; apply Forall_app in Hn; destruct Hn as [_ Hn]; apply Forall_app in Hn; tauto).
      destruct (HT (da ++ m ++ db)) as (_ & _ & T3' & _); [apply Forall_app; split; [|apply Forall_app]; auto|]. rewrite (T3' m eq_refl), Em. reflexivity.
    + assert (Hm : exists m, name = da ++ m ++ db).
      { pose proof (one_star_match _ da db name Hcd Hn H2) as HM. apply HM. unfold rtransform, dst_matches in E. rewrite Ed in E. destruct (wildmatch false false d name); try discriminate E. reflexivity. }
      destruct Hm as (m & Em). rewrite (T3 m Em) in E. injection E as <-.
      assert (Cm : cstr m) by (rewrite Em in Hn; apply Forall_app in Hn; destruct Hn as [_ Hn]; apply Forall_app in Hn; tauto).
      destruct (HT (sa ++ m ++ sb)) as (T1' & _); [apply Forall_app; split; [|apply Forall_app]; auto|]. rewrite (T1' m eq_refl), Em. reflexivity.
  - destruct Hf as [->|Hf]; [|discriminate].
    destruct (refspec_transform_plain input s name Hc Hn Hp Hpat) as [T1 T2]. rewrite Ed in T1, T2.
    destruct (refspec_transform_plain input s d Hc Hcd Hp Hpat) as [_ T4]. rewrite Ed, leqb_refl in T4.
    destruct (refspec_transform_plain input s (rs_src s) Hc Hcs Hp Hpat) as [T3 _]. rewrite Ed, leqb_refl in T3.
    rewrite T1, T2. split; intros E.
    + destruct (leqb name (rs_src s)) eqn:El; [|discriminate]. apply leqb_spec in El. injection E as <-. rewrite T4, El. reflexivity.
    + destruct (leqb name d) eqn:El; [|discriminate]. apply leqb_spec in El. injection E as <-. rewrite T3, El. reflexivity.
Qed.

(** Push refspecs take any source without a star as it is: its other special bytes still act
    as a pattern, so a name other than the source is accepted, and the way back loses it. *)
Theorem refspec_push_plain_refuted :
  exists s, refspec_parse (bs "v[12]:refs/heads/x") false = Ok s /\ rs_pattern s = false /\
    transform s (bs "v1") = Ok (bs "refs/heads/x") /\ rtransform s (bs "refs/heads/x") = Ok (bs "v[12]") /\
    transform s (bs "v[12]") = Err (-1).
Proof. eexists. split; [vm_compute; reflexivity|]. vm_compute. auto. Qed.

(** Transforming with a negative pattern refspec hands a NULL destination to strchr, for a
    name beginning with a caret (which the name checks accept). *)
Theorem refspec_negative_transform_refuted :
  exists s, refspec_parse (bs "^refs/heads/*") true = Ok s /\ reference_name_is_valid (bs "^refs/heads/a") = Ok true /\
    transform s (bs "^refs/heads/a") = UB.
Proof. eexists. split; [vm_compute; reflexivity|]. vm_compute. auto. Qed.

(** Apart from those, transforming never misbehaves. *)
Theorem refspec_transform_safe : forall input fetch s name, cstr input -> cstr name -> refspec_parse input fetch = Ok s ->
  ~ (negative fetch s /\ starts_with (bs "^") name) ->
  match transform s name with Ok _ => True | Err _ => True | _ => False end /\
  match rtransform s name with Ok _ => True | Err _ => True | _ => False end.
Proof.
  intros input fetch s name Hc Hn Hp Hneg. pose proof (parse_accepted _ _ _ Hp) as HA.
  destruct (rs_pattern s) eqn:Hpat.
  - destruct (rs_dst s) as [d|] eqn:Ed.
    + destruct (refspec_transform_pattern input fetch s d Hc Hp Hpat Ed) as (sa & sb & da & db & H1 & H2 & HT).
      destruct (spells_cstr _ _ _ Hc (acc_spells _ _ _ HA)) as [Hcs Hcd]. rewrite Ed in Hcd.
      destruct (HT name Hn) as (T1 & T2 & T3 & T4). split.
      * unfold transform, src_matches. pose proof (one_star_match _ sa sb name Hcs Hn H1) as HM. destruct (wildmatch false false (rs_src s) name) eqn:Ew; cbn [negb]; try exact I.
        destruct (proj1 HM eq_refl) as (m & Em). specialize (T1 m Em). unfold transform, src_matches in T1. rewrite Ew in T1. cbn [negb] in T1. rewrite T1. exact I.
      * unfold rtransform, dst_matches. pose proof (one_star_match _ da db name Hcd Hn H2) as HM. rewrite Ed in *. destruct (wildmatch false false d name) eqn:Ew; cbn [negb]; try exact I.
        destruct (proj1 HM eq_refl) as (m & Em). specialize (T3 m Em). unfold rtransform, dst_matches in T3. rewrite Ed, Ew in T3. cbn [negb] in T3. rewrite T3. exact I.
    + destruct (acc_star _ _ _ HA Hpat) as [(a & b & H1) H2]. rewrite Ed in H2.
      destruct (spells_cstr _ _ _ Hc (acc_spells _ _ _ HA)) as [Hcs _].
      unfold transform, rtransform, src_matches, dst_matches. rewrite Ed. split; [|exact I].
      pose proof (one_star_match _ a b name Hcs Hn H1) as HM. destruct (wildmatch false false (rs_src s) name) eqn:Ew; cbn [negb]; try exact I.
      exfalso. apply Hneg. split; [exact H2|]. destruct (proj1 HM eq_refl) as (m & ->). destruct H2 as (_ & _ & [v Hv]). destruct H1 as (E1 & _).
      rewrite E1 in Hv. destruct a as [|x a]; cbn in Hv; [discriminate|]. injection Hv as -> _. exists (a ++ m ++ b). reflexivity.
  - unfold transform, rtransform. rewrite Hpat. cbn [negb]. destruct (src_matches s name), (dst_matches s name); cbn; auto.
Qed.

(** Writing an accepted refspec out and parsing it again gives the same refspec, patterns
    that begin with a caret excepted. *)
Theorem refspec_serialize_roundtrip : forall input fetch s, refspec_parse input fetch = Ok s ->
  ~ (rs_pattern s = true /\ starts_with (bs "^") (rs_src s)) ->
  exists s', refspec_parse (serialize s) fetch = Ok s' /\
    rs_src s' = rs_src s /\ rs_dst s' = rs_dst s /\ rs_force s' = rs_force s /\ rs_pattern s' = rs_pattern s /\ rs_push s' = rs_push s.
Proof.
  intros input fetch s Hp Hn. pose proof (parse_accepted _ _ _ Hp) as [HS HSt HL].
  destruct HS as (body & Hin & Hplus & Hpush & Hstr & Hshape).
  destruct Hshape as [(Hnc & Hsrc & Hdst)|(d & Hb & Hnd & Hdst)].
  2:{ exists s. split; [|auto]. assert (E : serialize s = input); [|rewrite E; exact Hp].
      unfold serialize. rewrite Hin, Hb. change (bs "+") with [43]. change (ch ":") with 58. f_equal. f_equal. f_equal.
      rewrite Hdst. destruct fetch; [destruct d|]; reflexivity. }
  (* no colon *)
  assert (Hlhs : forall r, hd 0 ((if rs_force s then [43] else []) ++ body ++ r) =? 43 = rs_force s ->
     (if hd 0 ((if rs_force s then [43] else []) ++ body ++ r) =? 43 then tl ((if rs_force s then [43] else []) ++ body ++ r) else (if rs_force s then [43] else []) ++ body ++ r) = body ++ r).
  { intros r ->. destruct (rs_force s); reflexivity. }
  assert (Hhd : forall r, r <> 43 -> forall r', hd 0 ((if rs_force s then [43] else []) ++ body ++ r :: r') =? 43 = rs_force s).
  { intros r Hr r'. destruct (rs_force s) eqn:Ef; [reflexivity|]. cbn [app]. destruct body as [|x body']; cbn [app hd]; [apply Z.eqb_neq; exact Hr|].
    apply Z.eqb_neq. intros ->. apply (Hplus eq_refl). exists body'. reflexivity. }
  revert Hp. unfold refspec_parse at 1. cbv zeta.
  assert (Hf0 : hd 0 input =? 43 = rs_force s).
  { rewrite Hin. change (bs "+") with [43]. destruct (rs_force s) eqn:Ef; [reflexivity|]. cbn [app]. destruct body as [|x body']; [reflexivity|]. cbn [hd]. apply Z.eqb_neq. intros ->. apply (Hplus eq_refl). exists body'. reflexivity. }
  assert (Hl0 : (if hd 0 input =? 43 then tl input else input) = body) by (rewrite Hf0, Hin; change (bs "+") with [43]; destruct (rs_force s); reflexivity).
  rewrite Hl0, Hf0. rewrite (rcut_none 58 body) by exact Hnc.
  assert (Hnm : leqb body [58] = false). { destruct (leqb body [58]) eqn:E; [|reflexivity]. apply leqb_spec in E. exfalso. apply Hnc. rewrite E. cbn. auto. }
  rewrite Hnm, andb_false_r. cbn [negb andb orb hasc existsb]. intros Hp.
  assert (Hpat : rs_pattern s = hasc 42 body).
  { destruct (hasc 42 body) eqn:Eh; [|].
    - destruct (rs_pattern s) eqn:E; [reflexivity|]. apply hasc_spec in Eh. rewrite <- Hsrc in Eh. exfalso. exact (proj2 (proj2 (HL eq_refl)) Eh).
    - destruct (rs_pattern s) eqn:E; [|reflexivity]. destruct (HSt eq_refl) as [(a & b & (E1 & _)) _]. apply hasc_false in Eh. exfalso. apply Eh. rewrite <- Hsrc, E1. apply in_or_app. right. left. reflexivity. }
  unfold refspec_parse, serialize. cbv zeta. rewrite Hsrc, Hdst.
  destruct fetch; cbn [negb andb] in *.
  - (* fetch: the serialized form has an empty destination *)
    rewrite Hhd by lia. destruct (hasc 42 body) eqn:Eh; cbn [andb negb] in *.
    { destruct (hd 0 body =? 94) eqn:E94; cbn in Hp; [|discriminate]. exfalso. apply Hn. split; [exact Hpat|]. rewrite Hsrc. destruct body as [|x b']; [discriminate|]. cbn [hd] in E94. apply Z.eqb_eq in E94. subst x. exists b'. reflexivity. }
    assert (Hl1 : (if rs_force s then tl ((if rs_force s then [43] else []) ++ body ++ [58]) else (if rs_force s then [43] else []) ++ body ++ [58]) = body ++ [58]) by (destruct (rs_force s); reflexivity).
    rewrite Hl1. rewrite (rcut_at 58 body []) by (intros []). rewrite Eh. cbn [length Nat.eqb negb orb andb hasc existsb].
    destruct body as [|x b'] eqn:Eb.
    + eexists. split; [reflexivity|]. cbn. auto.
    + change (mkf true false true false) with (fl_of false) in *. apply check_name_ok in Hp. destruct Hp as [Hv Hp]. rewrite check_name_pass by exact Hv.
      eexists. split; [reflexivity|]. cbn. auto.
  - assert (Hp' : check_name body (fl_of (hasc 42 body)) (Ok (mkrs input body (Some body) (rs_force s) true (hasc 42 body) false)) = Ok s).
    { rewrite andb_false_r in Hp. destruct body as [|x b']; [exact Hp|]. destruct (hasc 42 (x :: b')) eqn:Eh; [|exact Hp].
      change (mkf true true true false) with (fl_of true) in Hp. apply check_name_ok in Hp. apply Hp. }
    apply check_name_ok in Hp'. destruct Hp' as [Hv _].
    rewrite Hhd by lia.
    assert (Hl1 : (if rs_force s then tl ((if rs_force s then [43] else []) ++ body ++ 58 :: body) else (if rs_force s then [43] else []) ++ body ++ 58 :: body) = body ++ 58 :: body) by (destruct (rs_force s); reflexivity).
    rewrite Hl1. rewrite (rcut_at 58 body body) by exact Hnc.
    assert (Hne : body <> []). { intros ->. destruct Hv as (H1 & _). cbn in H1. inversion H1 as [|? ? [H2 _] _]; subst. congruence. }
    assert (Hm : leqb (body ++ 58 :: body) [58] = false).
    { destruct (leqb (body ++ 58 :: body) [58]) eqn:E; [|reflexivity]. apply leqb_spec in E. destruct body; [congruence|]. cbn in E. injection E as _ E. destruct body; discriminate. }
    rewrite Hm. cbn [andb negb orb].
    assert (Hneg : hasc 42 body && (hd 0 (body ++ 58 :: body) =? 94) = false).
    { destruct (hasc 42 body) eqn:Eh; [|reflexivity]. cbn [andb]. apply Z.eqb_neq. intros E. apply Hn. split; [exact Hpat|]. rewrite Hsrc.
      destruct body as [|x b']; [congruence|]. cbn in E. subst x. exists b'. reflexivity. }
    rewrite orb_false_r. rewrite orb_true_r.
    destruct body as [|x b'] eqn:Eb; [congruence|]. rewrite <- Eb in *. 
    destruct (hasc 42 body) eqn:Eh; cbn [andb negb orb] in *.
    + rewrite Hneg. change (mkf true true true false) with (fl_of true). rewrite !check_name_pass by exact Hv.
      rewrite Eb. eexists. split; [reflexivity|]. cbn. auto.
    + change (mkf true false true false) with (fl_of false). rewrite !check_name_pass by exact Hv.
      rewrite Eb. eexists. split; [reflexivity|]. cbn. auto.
Qed.
(** The excepted ones do not survive. *)
Theorem refspec_serialize_negative_refuted : exists s, refspec_parse (bs "^refs/heads/*") true = Ok s /\
  refspec_parse (serialize s) true = Err EINVALIDSPEC.
Proof. eexists. split; [vm_compute; reflexivity|]. vm_compute. reflexivity. Qed.

Example refspec1 : exists s, refspec_parse (bs "+refs/heads/*:refs/remotes/origin/*") true = Ok s /\
  transform s (bs "refs/heads/a/b") = Ok (bs "refs/remotes/origin/a/b") /\ rtransform s (bs "refs/remotes/origin/a/b") = Ok (bs "refs/heads/a/b")
  /\ transform s (bs "refs/tags/x") = Err (-1) /\ rs_pattern s = true /\ rs_force s = true.
Proof. eexists. split; [vm_compute; reflexivity|]. vm_compute. repeat split. Qed.
Example refspec2 : refspec_parse (bs "refs/heads/*:refs/remotes/origin/master") true = Err EINVALIDSPEC /\ refspec_parse (bs "master") true <> Err EINVALIDSPEC.
Proof. vm_compute. split; [reflexivity|discriminate]. Qed.
