From Verif Require Import Base Str WildModel WildSpec WildProofs WildSim.

Lemma skip_lit_cstr cf ms pc t : cstr t -> cstr (skip_lit cf ms pc t).
Proof.
  induction t as [|x t IH]; cbn; intros H; [constructor|]. destruct (negb ms && (x =? 47)); [exact H|].
  destruct (fold cf x =? pc); [exact H|]. apply IH. inversion H; assumption.
Qed.
Lemma starloop_ext cf ms lit rec rec' : (forall t, cstr t -> rec t = rec' t) ->
  forall n t, cstr t -> starloop n cf ms lit rec t = starloop n cf ms lit rec' t.
Proof.
  intros He. induction n as [|n IH]; intros t Ht; [reflexivity|]. cbn [starloop].
  assert (Hx : cstr (match lit with Some pc => skip_lit cf ms pc t | None => t end)) by (destruct lit; [apply skip_lit_cstr|]; assumption).
  rewrite He, IH; [reflexivity|apply cstr_tl; exact Hx|exact Hx].
Qed.

Definition bolof (prev : option Z) : bool := match prev with None => true | Some c => c =? 47 end.

Lemma parse_bol f pn b b' p : hd 0 p <> 42 -> parse f pn b p = parse f pn b' p.
Proof.
  intros H. destruct f as [|f]; [reflexivity|]. destruct p as [|c r]; [reflexivity|]. cbn [hd] in H. cbn [parse].
  change (ch "*") with 42. destruct (Z.eqb_spec c 42) as [->|_]; [congruence|]. reflexivity.
Qed.

Lemma match47 (A : Type) (c : Z) (a b : A) : c <> 47 -> match c with 47 => a | _ => b end = b.
Proof. intros N. destruct c as [|c|c]; try reflexivity. repeat (destruct c as [c|c|]; try reflexivity). congruence. Qed.

Lemma fold_eqb cf c k : (k < 65 \/ 90 < k < 97 \/ 122 < k) -> (fold cf c =? k) = (c =? k).
Proof.
  intros Hk. unfold fold, tolower. destruct (cf && isupper c) eqn:E; [|reflexivity].
  apply andb_prop in E. destruct E as [_ E]. rewrite E. unfold isupper in E. lia.
Qed.

Lemma next_dir_eq pe : match pe with [] => true | c :: r => (c =? 47) || ((c =? 92) && (hd 0 r =? 47)) end = next_dir pe.
Proof. destruct pe as [|c [|d r]]; cbn [hd next_dir]; change (ch "/") with 47; [reflexivity| |reflexivity]. change (0 =? 47) with false. rewrite andb_false_r, orb_false_r. reflexivity. Qed.

Theorem sim pn cf : forall f f' prev p t, cstr p -> cstr t -> (length p < f)%nat -> (length p < f')%nat ->
  dowild f pn cf prev p t = W pn cf (parse f' pn (bolof prev) p) t.
Proof.
  induction f as [|f IH]; intros f' prev p t Hp Ht Hf Hf'; [lia|]. destruct f' as [|f']; [lia|].
  destruct p as [|c r]; [reflexivity|]. cbn [length] in Hf, Hf'.
  inversion Hp as [|? ? Hc Hr]; subst. assert (Htt : cstr (tl t)) by (apply cstr_tl; exact Ht).
  cbn [dowild parse].
  rewrite !(fold_eqb cf _ 92), !(fold_eqb cf _ 63), !(fold_eqb cf _ 42), !(fold_eqb cf _ 91), !(fold_eqb cf _ 47) by lia.
  change (ch "*") with 42. change (ch "\") with 92. change (ch "?") with 63. change (ch "[") with 91. change (ch "/") with 47. change (ch "^") with 94. change (ch "!") with 33.
  destruct (Z.eqb_spec c 42) as [->|N42].
  - (* star *)
    cbn [negb]. rewrite andb_false_r. change (42 =? 92) with false. change (42 =? 63) with false. cbv iota.
    set (pe := strip_stars r). rewrite next_dir_eq.
    assert (Hpe : cstr pe) by (apply strip_stars_cstr; exact Hr).
    assert (Hple : (length pe <= length r)%nat) by apply strip_stars_le.
    assert (Hph : hd 0 pe <> 42) by apply strip_stars_hd.
    fold (bolof prev).
    set (ss := (hd 0 r =? 42) && pn && bolof prev && next_dir pe).
    set (e := if negb pn then EStar true else if (hd 0 r =? 42) && bolof prev && next_dir pe then if hd 0 pe =? 47 then EDirs else EStar true else EStar false).
    assert (Hms : ms_of e = negb pn || ss).
    { unfold e, ss. destruct pn; cbn; [|reflexivity]. rewrite andb_true_r. destruct ((hd 0 r =? 42) && bolof prev && next_dir pe); [|reflexivity]. destruct (hd 0 pe =? 47); reflexivity. }
    assert (Hdirs : e = EDirs <-> ss && (hd 0 pe =? 47) = true).
    { unfold e, ss. destruct pn; cbn; [|rewrite andb_false_r; split; discriminate]. rewrite andb_true_r. destruct ((hd 0 r =? 42) && bolof prev && next_dir pe); [|split; discriminate]. destruct (hd 0 pe =? 47); cbn; split; intros; auto; discriminate. }
    assert (Hstar : e = EDirs \/ exists s, e = EStar s).
    { unfold e. destruct (negb pn); [eauto|]. destruct ((hd 0 r =? 42) && bolof prev && next_dir pe); [destruct (hd 0 pe =? 47); eauto|eauto]. }
    rewrite (parse_bol f' pn false true pe Hph).
    set (es' := parse f' pn true pe).
    assert (HW : W pn cf (e :: es') t =
       match (match e, es' with EDirs, ELit _ :: es'' => W pn cf es'' t | _, _ => NOMATCH end) with
            | MATCH => MATCH
            | WFUEL => WFUEL
            | _ =>
              match es' with
              | [] => if negb (ms_of e) && (match strchr 47 t with Some _ => true | None => false end) then NOMATCH else MATCH
              | e1 :: es'' =>
                  match negb (ms_of e), e1 with
                  | true, ELit 47 => match strchr 47 t with None => NOMATCH | Some t' => W pn cf es'' (tl t') end
                  | _, _ => starloop (S (length t)) cf (ms_of e) (lit_of cf es') (W pn cf es') t
                  end
              end
            end).
    { destruct Hstar as [->|[s ->]]; reflexivity. }
    rewrite HW. clear HW. rewrite Hms.
    assert (Hearly : (if ss && (hd 0 pe =? 47) then dowild f pn cf None (tl pe) t else NOMATCH) =
        match e, es' with EDirs, ELit _ :: es'' => W pn cf es'' t | _, _ => NOMATCH end).
    { destruct (ss && (hd 0 pe =? 47)) eqn:E.
      - rewrite (proj2 Hdirs eq_refl). apply andb_prop in E. destruct E as [_ E].
        destruct pe as [|c1 pr] eqn:Epe; [discriminate|]. cbn [hd tl] in *. apply Z.eqb_eq in E. subst c1.
        unfold es'. cbn [length] in Hple. destruct f' as [|f'']; [lia|]. cbn. inversion Hpe; subst. apply (IH f'' None pr t); auto; lia.
      - destruct Hstar as [He|[s ->]]; [|reflexivity]. apply Hdirs in He. congruence. }
    rewrite Hearly. clear Hearly.
    assert (Hmain :
      match pe with
      | [] => if negb (negb pn || ss) && (match strchr 47 t with Some _ => true | None => false end) then NOMATCH else MATCH
      | c :: pr =>
          if negb (negb pn || ss) && (c =? 47) then
            match strchr 47 t with
            | None => NOMATCH
            | Some text' => dowild f pn cf (Some c) pr (tl text')
            end
          else starloop (S (length t)) cf (negb pn || ss) (if glob_special c then None else Some (fold cf c)) (dowild f pn cf None pe) t
      end =
      match es' with
              | [] => if negb (negb pn || ss) && (match strchr 47 t with Some _ => true | None => false end) then NOMATCH else MATCH
              | e1 :: es'' =>
                  match negb (negb pn || ss), e1 with
                  | true, ELit 47 => match strchr 47 t with None => NOMATCH | Some t' => W pn cf es'' (tl t') end
                  | _, _ => starloop (S (length t)) cf (negb pn || ss) (lit_of cf es') (W pn cf es') t
                  end
              end).
    { generalize (negb pn || ss). intros ms.
      assert (Hrec : forall u, cstr u -> dowild f pn cf None pe u = W pn cf es' u) by (intros u Hu; apply (IH f' None pe u); auto; lia).
      destruct pe as [|c1 pr] eqn:Epe.
      { unfold es'. destruct f'; reflexivity. }
      rewrite (starloop_ext cf ms _ _ _ Hrec) by exact Ht. clear Hrec.
      cbn [length] in Hple. destruct f' as [|f'']; [lia|]. inversion Hpe as [|? ? Hc1 Hpr]; subst c1 pr. cbn [hd] in Hph.
      unfold es'. cbn [parse].
      change (ch "*") with 42. change (ch "\") with 92. change (ch "?") with 63. change (ch "[") with 91. change (ch "/") with 47. change (ch "^") with 94. change (ch "!") with 33.
      unfold glob_special.
      rename x into c1. rename l into pr.
      destruct (Z.eqb_spec c1 42) as [E|_]; [congruence|]. cbn [orb].
      destruct (Z.eqb_spec c1 92) as [->|N92].
      { change (92 =? 47) with false. rewrite andb_false_r. rewrite !orb_true_r. destruct pr as [|d pr]; destruct (negb ms); reflexivity. }
      destruct (Z.eqb_spec c1 63) as [->|N63].
      { change (63 =? 47) with false. rewrite andb_false_r. cbn [orb]. destruct (negb ms); reflexivity. }
      destruct (Z.eqb_spec c1 91) as [->|N91].
      { change (91 =? 47) with false. rewrite andb_false_r. cbn [orb]. destruct (citems _ _ _ _) as [[its r2]|]; destruct (negb ms); reflexivity. }
      cbn [orb lit_of]. destruct (Z.eqb_spec c1 47) as [->|N47].
      - rewrite andb_true_r. destruct (negb ms); [|reflexivity]. pose proof (strchr_spec t) as Hs. destruct (strchr 47 t) as [t'|]; [|reflexivity].
        destruct Hs as (a & t3 & -> & -> & _). cbn [tl]. apply (IH f'' (Some 47) pr t3); [assumption| |lia|lia].
        apply Forall_app in Ht. destruct Ht as [_ Ht]. inversion Ht; assumption.
      - rewrite andb_false_r. destruct (negb ms); [|reflexivity]. rewrite match47 by exact N47. reflexivity. }
    destruct (match e, es' with EDirs, ELit _ :: es0 => W pn cf es0 t | _, _ => NOMATCH end); try reflexivity; exact Hmain.
  - (* not a star *)
    rewrite andb_true_r.
    destruct t as [|x t].
    { cbn [hd]. change (0 =? 0) with true. cbv iota.
      destruct (c =? 92); [destruct r; reflexivity|]. destruct (c =? 63); [reflexivity|]. destruct (c =? 91); [|reflexivity].
      destruct (citems _ _ _ _) as [[its r2]|]; reflexivity. }
    inversion Ht as [|? ? Hx Ht']; subst. cbn [hd tl]. rewrite (cstr_hd0 _ _ Ht).
    destruct (Z.eqb_spec c 92) as [->|N92].
    { destruct r as [|d r']; cbn [hd tl].
      - cbn [W]. destruct (Z.eqb_spec (fold cf x) 0) as [E|N]; [|reflexivity].
        exfalso. revert E. unfold fold, tolower. destruct cf; cbn; [|lia]. destruct (isupper x); lia.
      - inversion Hr; subst. cbn [W length] in *. destruct (fold cf x =? d); cbn [negb]; [|reflexivity]. apply (IH f' (Some d)); auto; lia. }
    destruct (Z.eqb_spec c 63) as [->|N63].
    { cbn [W]. destruct (pn && (x =? 47)); [reflexivity|]. apply (IH f' (Some 63)); auto; lia. }
    destruct (Z.eqb_spec c 91) as [->|N91].
    { set (neg := (hd 0 r =? 94) || (hd 0 r =? 33)). set (p2 := if neg then tl r else r).
      assert (Hp2 : cstr p2) by (unfold p2; destruct neg; [apply cstr_tl|]; exact Hr).
      assert (Hl2 : (length p2 <= length r)%nat) by (unfold p2; destruct neg; [destruct r; cbn; lia|lia]).
      pose proof (class_loop_ok cf (fold cf x) (S (length p2)) (S (length p2)) p2 None false Hp2 I ltac:(lia) ltac:(lia)) as HC.
      unfold class_ok in HC. cbn [prevZ] in HC.
      destruct (citems (S (length p2)) true None p2) as [[its r2]|] eqn:Eci.
      - rewrite HC. cbn [orb W]. destruct (Bool.eqb _ neg || (pn && (x =? 47))); [reflexivity|].
        pose proof (citems_len _ _ _ _ _ _ Eci). apply (IH f' (Some 93) r2 t); auto; try lia. eapply citems_cstr; eassumption.
      - rewrite HC. reflexivity. }
    cbn [W]. destruct (fold cf x =? fold cf c); cbn [negb]; [|reflexivity]. apply (IH f' (Some c)); auto; lia.
Qed.

(** What the parser produces is well formed. *)
Lemma parse_head_star f pn b p : hd 0 p <> 42 -> match parse f pn b p with e :: _ => is_star e = false | [] => True end.
Proof.
  intros H. destruct f as [|f]; [exact I|]. destruct p as [|c r]; [exact I|]. cbn [hd] in H. cbn [parse].
  change (ch "*") with 42. destruct (Z.eqb_spec c 42) as [->|_]; [congruence|].
  destruct (c =? ch "\"); [destruct r; reflexivity|]. destruct (c =? ch "?"); [reflexivity|].
  destruct (c =? ch "["); [|reflexivity]. cbv zeta. destruct (citems _ _ _ _) as [[its r2]|]; reflexivity.
Qed.
Lemma parse_head_dirs f pn p : match parse f pn false p with EDirs :: _ => False | _ => True end.
Proof.
  destruct f as [|f]; [exact I|]. destruct p as [|c r]; [exact I|]. cbn [parse].
  destruct (c =? ch "*"). { cbv zeta. destruct (negb pn); [exact I|]. rewrite andb_false_r. exact I. }
  destruct (c =? ch "\"); [destruct r; exact I|]. destruct (c =? ch "?"); [exact I|].
  destruct (c =? ch "["); [|exact I]. cbv zeta. destruct (citems _ _ _ _) as [[its r2]|]; exact I.
Qed.

Lemma parse_wf pn : forall f b p, cstr p -> (length p < f)%nat -> wf pn (parse f pn b p).
Proof.
  induction f as [|f IH]; intros b p Hp Hf; [exact I|]. destruct p as [|c r]; [exact I|]. cbn [length] in Hf.
  inversion Hp as [|? ? Hc Hr]; subst.
  assert (Hd : forall e q, match parse f pn false q with EDirs :: _ => slash_elem e = true | _ => True end).
  { intros e q. pose proof (parse_head_dirs f pn q) as H. destruct (parse f pn false q) as [|[] ?]; auto. }
  assert (Hd2 : forall e (bb : bool) q, (bb = true -> slash_elem e = true) -> match parse f pn bb q with EDirs :: _ => slash_elem e = true | _ => True end).
  { intros e bb q H. destruct bb; [|apply Hd]. destruct (parse f pn true q) as [|[] ?]; auto. }
  cbn [parse].
  destruct (Z.eqb_spec c (ch "*")) as [->|N42].
  - cbv zeta. set (pe := strip_stars r).
    assert (Hpe : cstr pe) by (apply strip_stars_cstr; exact Hr).
    assert (Hple : (length pe <= length r)%nat) by apply strip_stars_le.
    assert (Hph : hd 0 pe <> 42) by apply strip_stars_hd.
    pose proof (parse_head_star f pn false pe Hph) as Hs.
    cbn [wf]. split; [|split; [|split; [apply Hd|apply IH; [exact Hpe|lia]]]].
    + destruct pn; cbn [negb]; [|auto]. destruct ((hd 0 r =? ch "*") && b && next_dir pe); [|discriminate].
      destruct (hd 0 pe =? ch "/") eqn:E; [|discriminate]. split; [reflexivity|].
      destruct pe as [|c1 pr] eqn:Epe; [discriminate|]. cbn [hd] in E. apply Z.eqb_eq in E. subst c1. destruct f as [|f]; [cbn in *; lia|]. cbn. reflexivity.
    + intros _. exact Hs.
  - destruct (c =? ch "\").
    { destruct r as [|d r']; [cbn; auto|]. inversion Hr; subst. cbn [length] in Hf. cbn [wf is_star]. repeat split; try discriminate; try (apply IH; [assumption|lia]).
      apply Hd2. cbn. intros E. exact E. }
    destruct (c =? ch "?"). { cbn [wf is_star]. split; [auto|]. split; [discriminate|]. split; [apply Hd|apply IH; [assumption|lia]]. }
    destruct (c =? ch "[").
    { cbv zeta. set (neg := (hd 0 r =? ch "^") || (hd 0 r =? ch "!")). set (p2 := if neg then tl r else r).
      assert (Hp2 : cstr p2) by (unfold p2; destruct neg; [apply cstr_tl|]; exact Hr).
      assert (Hl2 : (length p2 <= length r)%nat) by (unfold p2; destruct neg; [destruct r; cbn; lia|lia]).
      destruct (citems (S (length p2)) true None p2) as [[its r2]|] eqn:Eci; [|cbn; auto 6].
      pose proof (citems_len _ _ _ _ _ _ Eci). cbn [wf is_star]. split; [auto|]. split; [discriminate|]. split; [apply Hd|].
      apply IH; [eapply citems_cstr; eassumption|lia]. }
    cbn [wf is_star]. split; [lia|]. split; [discriminate|]. split; [|apply IH; [assumption|lia]].
    apply Hd2. cbn. intros E. exact E.
Qed.
