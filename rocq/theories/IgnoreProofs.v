(** Parsing of printed ignore files. *)
From Verif Require Import Base Str WildModel WildSpec WildProofs WildProps IgnoreModel IgnoreSpec.

Definition nslash (s : list Z) : Z := Z.of_nat (count_occ Z.eq_dec s 47).
Definition hasslash (s : list Z) : bool := existsb (Z.eqb 47) s.

Lemma nslash_cons c s : nslash (c :: s) = (if c =? 47 then 1 else 0) + nslash s.
Proof. unfold nslash. cbn [count_occ]. destruct (Z.eq_dec c 47); destruct (Z.eqb_spec c 47); try lia. Qed.
Lemma nslash_app a b : nslash (a ++ b) = nslash a + nslash b.
Proof. unfold nslash. rewrite count_occ_app. lia. Qed.
Lemma nslash_nn s : 0 <= nslash s. Proof. unfold nslash. lia. Qed.
Lemma hasslash_iff s : hasslash s = true <-> In 47 s.
Proof. unfold hasslash. rewrite existsb_exists. split; [intros (x & H & E)|intros H; exists 47; split; [exact H|reflexivity]]. apply Z.eqb_eq in E. subst. exact H. Qed.
Lemma hasslash_nslash s : hasslash s = (0 <? nslash s).
Proof.
  induction s as [|c s IH]; [reflexivity|]. rewrite nslash_cons. unfold hasslash in *. cbn [existsb]. rewrite IH, (Z.eqb_sym 47 c).
  pose proof (nslash_nn s). destruct (c =? 47); cbn [orb]; destruct (Z.ltb_spec 0 (nslash s)); destruct (Z.ltb_spec 0 (1 + nslash s)); try reflexivity; try lia.
Qed.

Lemma q4 (a a' : nat) (b b' : Z) (c c' d d' : bool) : a = a' -> b = b' -> c = c' -> d = d' -> (a, b, c, d) = (a', b', c', d').
Proof. intros -> -> -> ->. reflexivity. Qed.
Ltac q4 := cbv beta iota zeta; apply q4; [cbn [length]; lia|lia|rewrite ?orb_assoc; cbn [orb]; reflexivity|rewrite ?orb_assoc; cbn [orb]; reflexivity].

(** scanning a well-formed pattern followed by [t] *)
Lemma scan_spec : forall p t, tame p ->
  scan_pat false (p ++ t) = let '(n, k, f, w) := scan_pat false t in ((length p + n)%nat, nslash p + k, hasslash p || f, wild_pat p || w).
Proof.
  intros p. assert (HN : exists N, (length p <= N)%nat) by (exists (length p); lia). destruct HN as [N HN]. revert p HN.
  induction N as [|N IH]; intros p HN t HT.
  - destruct p; [|cbn in HN; lia]. cbn [app]. destruct (scan_pat false t) as [[[n k] f] w]. reflexivity.
  - destruct p as [|c p].
    { cbn [app]. destruct (scan_pat false t) as [[[n k] f] w]. reflexivity. }
    cbn [length] in HN. cbn [tame] in HT. cbn [app scan_pat wild_pat]. change (ch "\") with 92 in *. rewrite nslash_cons.
    replace (hasslash (c :: p)) with ((c =? 47) || hasslash p) by (unfold hasslash; cbn [existsb]; rewrite (Z.eqb_sym 47 c); reflexivity).
    destruct (Z.eqb_spec c 92) as [->|Hc]; cbn [andb negb].
    + destruct p as [|d p]; [contradiction|]. destruct HT as [Hd HT]. cbn [app scan_pat length] in *.
      rewrite Hd, !andb_false_r. cbn [andb]. rewrite nslash_cons.
      replace (hasslash (d :: p)) with ((d =? 47) || hasslash p) by (unfold hasslash; cbn [existsb]; rewrite (Z.eqb_sym 47 d); reflexivity).
      specialize (IH p ltac:(lia) t HT).
      destruct (d =? 47); rewrite IH; destruct (scan_pat false t) as [[[n k] f] w]; change (92 =? 47) with false; q4.
    + destruct HT as [Hs HT]. specialize (IH p ltac:(lia) t HT).
      assert (E : isspace c && negb (c =? 32) && negb (c =? 9) && negb (c =? 13) = false).
      { unfold isspace. cbn [In] in Hs. destruct (Z.eqb_spec c 32), (Z.eqb_spec c 9), (Z.eqb_spec c 13), (Z.leb_spec 9 c), (Z.leb_spec c 13); cbn; try reflexivity; exfalso; apply Hs; lia. }
      rewrite IH. destruct (scan_pat false t) as [[[n k] f] w].
      destruct (isspace c) eqn:ES; cbn [andb negb].
      * cbn [andb] in E. rewrite E.
        assert (c =? 47 = false) as -> by (destruct (Z.eqb_spec c 47) as [->|]; [discriminate ES|reflexivity]).
        assert (iswild c = false) as EW.
        { destruct (iswild c) eqn:EW; [|reflexivity]. unfold iswild in EW. apply orb_prop in EW. destruct EW as [EW|EW]; [apply orb_prop in EW; destruct EW as [EW|EW]|]; apply Z.eqb_eq in EW; subst c; discriminate ES. }
        unfold iswild in EW. change (ch "*") with 42. change (ch "?") with 63. change (ch "[") with 91. rewrite EW. q4.
      * change (ch "*") with 42. change (ch "?") with 63. change (ch "[") with 91. fold (iswild c).
        destruct (c =? 47) eqn:E47; [assert (iswild c = false) as -> by (apply Z.eqb_eq in E47; subst c; reflexivity); q4|].
        rewrite andb_true_r. destruct (iswild c); q4.
Qed.

Lemma unescape_tame : forall p, tame p -> unescape false p = p.
Proof.
  intros p. assert (HN : exists N, (length p <= N)%nat) by (exists (length p); lia). destruct HN as [N HN]. revert p HN.
  induction N as [|N IH]; intros p HN HT.
  - destruct p; [reflexivity|cbn in HN; lia].
  - destruct p as [|c p]; [reflexivity|]. cbn [length] in HN. cbn [tame] in HT. cbn [unescape]. change (ch "\") with 92 in *.
    destruct (Z.eqb_spec c 92) as [->|Hc]; cbn [andb negb app].
    + destruct p as [|d p]; [contradiction|]. destruct HT as [Hd HT]. cbn [unescape length] in *. rewrite Hd. cbn [andb negb app].
      rewrite IH by (trivial; lia). reflexivity.
    + destruct HT as [_ HT]. rewrite IH by (trivial; lia). reflexivity.
Qed.

Lemma trim_id p : p <> [] -> last p 0 <> 32 -> last p 0 <> 9 -> trim_spaces p = p.
Proof.
  intros Hp H1 H2. unfold trim_spaces. destruct (rev p) as [|c r] eqn:E.
  { apply (f_equal (@rev Z)) in E. rewrite rev_involutive in E. contradiction. }
  assert (Ep : p = rev r ++ [c]) by (apply (f_equal (@rev Z)) in E; rewrite rev_involutive in E; exact E).
  assert (EL : last p 0 = c) by (rewrite Ep; apply last_last). rewrite EL in *. cbn [drop_spaces].
  replace (negb (c =? 32) && negb (c =? 9)) with true by (destruct (Z.eqb_spec c 32), (Z.eqb_spec c 9); try lia; reflexivity).
  rewrite <- E. apply rev_involutive.
Qed.

Lemma upto_last_slash_app a b : ~ In 47 b -> upto_last_slash (a ++ 47 :: b) = a ++ [47].
Proof.
  intros Hb. assert (E : upto_last_slash b = []).
  { induction b as [|c b IH]; [reflexivity|]. cbn [upto_last_slash]. rewrite IH by (intros H; apply Hb; right; exact H).
    destruct (Z.eqb_spec c 47); [exfalso; apply Hb; left; auto|reflexivity]. }
  induction a as [|c a IH]; cbn [app upto_last_slash]; [rewrite E; reflexivity|].
  rewrite IH. destruct (a ++ [47]) eqn:EA; [destruct a; discriminate|reflexivity].
Qed.
Lemma upto_none b : ~ In 47 b -> upto_last_slash b = [].
Proof.
  intros Hb. induction b as [|c b IH]; [reflexivity|]. cbn [upto_last_slash]. rewrite IH by (intros H; apply Hb; right; exact H).
  destruct (Z.eqb_spec c 47); [exfalso; apply Hb; left; auto|reflexivity].
Qed.

(** ** The model's rule for a rule *)
Definition dctx (d : list (list Z)) : option (list Z) := match d with [] => None | _ => Some (dirtext d) end.
Definition fn_of (icase : bool) (r : rule) : fn :=
  mkfn (r_pat r) (r_neg r) (r_dironly r) (r_anchored r) (wild_pat (r_pat r)) icase (dctx (r_from r)).
Definition entry_of (d : list (list Z)) : list Z := dirtext d ++ gitignore.

Lemma dirtext_snoc d x : dirtext (d ++ [x]) = dirtext d ++ x ++ [47].
Proof. unfold dirtext. rewrite map_app, concat_app. cbn. rewrite app_nil_r. reflexivity. Qed.
Lemma dirtext_app d e : dirtext (d ++ e) = dirtext d ++ dirtext e.
Proof. unfold dirtext. rewrite map_app, concat_app. reflexivity. Qed.
Lemma nslash_gi : ~ In 47 gitignore. Proof. vm_compute. intuition discriminate. Qed.

Lemma context_dir d : context_of (entry_of d) = match d with [] => None | _ => Some (entry_of d) end.
Proof.
  destruct d as [|x d] using rev_ind; [reflexivity|]. clear IHd.
  replace (match d ++ [x] with [] => None | _ => Some (entry_of (d ++ [x])) end) with (Some (entry_of (d ++ [x]))) by (destruct d; reflexivity).
  unfold context_of, entry_of. rewrite dirtext_snoc.
  assert (E : (dirtext d ++ x ++ [47]) ++ gitignore = (dirtext d ++ x) ++ bs "/.gitignore").
  { rewrite <- !app_assoc. reflexivity. }
  rewrite E, app_length, skipn_app, skipn_all2 by lia.
  replace (length (dirtext d ++ x) + length (bs "/.gitignore") - length (bs "/.gitignore") - length (dirtext d ++ x))%nat with 0%nat by lia.
  cbn [skipn app]. rewrite leqb_refl. rewrite andb_true_r.
  destruct (Nat.leb_spec (length (bs "/.gitignore")) (length (dirtext d ++ x) + length (bs "/.gitignore"))); [reflexivity|lia].
Qed.

(** the containing_dir a parse yields *)
Definition cdir (ctx stale : option (list Z)) : option (list Z) :=
  match ctx with Some x => match upto_last_slash x with [] => stale | u => Some u end | None => stale end.
Lemma cdir_dir d stale : stale = None \/ stale = dctx d -> cdir (context_of (entry_of d)) stale = dctx d.
Proof.
  intros HS. rewrite context_dir. destruct d as [|x d] using rev_ind.
  { cbn in *. destruct HS; assumption. }
  clear IHd. destruct (d ++ [x]) as [|y l] eqn:E; [destruct d; discriminate|]. cbn [cdir dctx]. unfold entry_of. rewrite <- E, dirtext_snoc.
  replace ((dirtext d ++ x ++ [47]) ++ gitignore) with ((dirtext d ++ x) ++ 47 :: gitignore) by (rewrite <- !app_assoc; reflexivity).
  rewrite upto_last_slash_app by apply nslash_gi.
  destruct ((dirtext d ++ x) ++ [47]) eqn:E2; [destruct (dirtext d ++ x); discriminate|]. rewrite <- E2, <- app_assoc. reflexivity.
Qed.

Lemma last_app_ne (a b : list Z) (x : Z) : b <> [] -> last (a ++ b) x = last b x.
Proof.
  intros Hb. induction a as [|c a IH]; [reflexivity|]. cbn [app last].
  destruct (a ++ b) eqn:E; [destruct a; [contradiction|discriminate]|]. exact IH.
Qed.
Lemma hd_app_ne (a b : list Z) (x : Z) : a <> [] -> hd x (a ++ b) = hd x a.
Proof. destruct a; [congruence|reflexivity]. Qed.
Lemma removelast_snoc (a : list Z) x : removelast (a ++ [x]) = a.
Proof. rewrite removelast_app by discriminate. apply app_nil_r. Qed.

Lemma firstn_exact {A} (a b : list A) n : n = length a -> firstn n (a ++ b) = a.
Proof. intros ->. rewrite firstn_app, firstn_all, Nat.sub_diag, app_nil_r. reflexivity. Qed.
Lemma skipn_exact {A} (a b : list A) n : n = length a -> skipn n (a ++ b) = b.
Proof. intros ->. rewrite skipn_app, skipn_all, Nat.sub_diag. reflexivity. Qed.

Lemma fnparse_rule icase d neg lead pat dironly stale t :
  wf_line (Rule neg lead pat dironly) -> stale = None \/ stale = dctx d ->
  fnparse icase (context_of (entry_of d)) stale (text_of_line (Rule neg lead pat dironly) ++ t) =
  PFound (fn_of icase (mkrule neg dironly (lead || existsb (Z.eqb (ch "/")) pat) pat d)) (10 :: t).
Proof.
  intros [(Hc & Ht & Hne & Hl & Hh) Hpre] HS.
  change (ch "/") with 47 in *. change (ch " ") with 32 in *. change (ch "#") with 35 in *. change (ch "!") with 33 in *. cbn [In] in Hl, Hpre.
  assert (Hlast0 : last pat 0 <> 0).
  { destruct (exists_last Hne) as (u & y & ->). rewrite last_last. apply Forall_app in Hc. destruct Hc as [_ Hc]. inversion Hc; subst. lia. }
  assert (Hhd : 0 < hd 0 pat < 256) by (destruct pat; [congruence|inversion Hc; subst; assumption]).
  set (body := pat ++ opt dironly 47).
  assert (Hbody : text_of_line (Rule neg lead pat dironly) ++ t = opt neg 33 ++ (opt lead 47 ++ body) ++ 10 :: t).
  { unfold body. cbn [text_of_line]. change (ch "/") with 47. change (ch "!") with 33. rewrite <- !app_assoc. reflexivity. }
  rewrite Hbody. set (base := opt neg 33 ++ (opt lead 47 ++ body) ++ 10 :: t).
  assert (HB : body <> []) by (unfold body; destruct pat; [congruence|discriminate]).
  assert (HhB : hd 0 body = hd 0 pat) by (apply hd_app_ne; exact Hne).
  assert (HL : hd 0 (opt lead 47 ++ body) = if lead then 47 else hd 0 pat) by (destruct lead; [reflexivity|exact HhB]).
  assert (Hhd0 : hd 0 base = if neg then 33 else if lead then 47 else hd 0 pat).
  { unfold base. destruct neg; [reflexivity|]. cbn [opt app]. rewrite hd_app_ne by (destruct lead; [discriminate|exact HB]). exact HL. }
  assert (Htl : optimized base = false).
  { unfold optimized. assert (E : hd 0 (tl base) <> 0).
    { unfold base. destruct neg; cbn [opt app tl].
      - rewrite hd_app_ne by (destruct lead; [discriminate|exact HB]). rewrite HL. destruct lead; lia.
      - destruct lead; cbn [opt app tl].
        + rewrite hd_app_ne by exact HB. rewrite HhB. lia.
        + unfold body. destruct pat as [|c pat']; [congruence|]. cbn [app tl]. destruct pat' as [|c' pat']; [destruct dironly; cbn; lia|].
          cbn [app hd]. inversion Hc as [|? ? _ HX]; subst. inversion HX; subst. lia. }
    destruct (Z.eqb_spec (hd 0 (tl base)) 0); [contradiction|reflexivity]. }
  unfold fnparse. rewrite Htl. rewrite Hhd0. cbv zeta.
  assert (Hfirst : ((if neg then 33 else if lead then 47 else hd 0 pat) =? 0) || ((if neg then 33 else if lead then 47 else hd 0 pat) =? 35)
     || ((if neg then 33 else if lead then 47 else hd 0 pat) =? 10) || (((if neg then 33 else if lead then 47 else hd 0 pat) =? 13) && (hd 0 (tl base) =? 10)) = false).
  { destruct neg; [reflexivity|]. destruct lead; [reflexivity|]. specialize (Hpre eq_refl eq_refl).
    assert (hd 0 pat <> 10).
    { destruct pat as [|c p]; [congruence|]. cbn [tame] in Ht. cbn [hd]. intros ->. change (10 =? ch "\") with false in Ht. cbn iota in Ht. destruct Ht as [Ht _]. apply Ht. left. reflexivity. }
    destruct (Z.eqb_spec (hd 0 pat) 0), (Z.eqb_spec (hd 0 pat) 35), (Z.eqb_spec (hd 0 pat) 10), (Z.eqb_spec (hd 0 pat) 13); cbn; try reflexivity; exfalso; try lia; apply Hpre; auto. }
  rewrite Hfirst.
  assert (Hneg : (if neg then 33 else if lead then 47 else hd 0 pat) =? 33 = neg).
  { destruct neg; [reflexivity|]. destruct lead; [reflexivity|]. specialize (Hpre eq_refl eq_refl). destruct (Z.eqb_spec (hd 0 pat) 33); [exfalso; apply Hpre; auto|reflexivity]. }
  rewrite Hneg.
  assert (Hpat : (if neg then tl base else base) = (opt lead 47 ++ body) ++ 10 :: t) by (unfold base; destruct neg; reflexivity).
  rewrite Hpat. clear Hpat Hneg Hfirst Htl Hhd0.
  assert (HT : tame (opt lead 47 ++ body)).
  { assert (HT1 : tame body).
    { unfold body. clear - Ht. assert (HN : exists N, (length pat <= N)%nat) by (exists (length pat); lia). destruct HN as [N HN]. revert pat HN Ht.
      induction N as [|N IH]; intros p HN HT.
      - destruct p; [|cbn in HN; lia]. destruct dironly; cbn; [|exact I]. intuition discriminate.
      - destruct p as [|c p]; [destruct dironly; cbn; [|exact I]; intuition discriminate|]. cbn [length] in HN. cbn [tame app] in *.
        destruct (c =? ch "\").
        + destruct p as [|e p]; [contradiction|]. cbn [app length] in *. destruct HT. split; [assumption|]. apply IH; [lia|assumption].
        + destruct HT. split; [assumption|]. apply IH; [lia|assumption]. }
    destruct lead; [|exact HT1]. cbn [opt app tame]. change (47 =? ch "\") with false. cbn iota. split; [cbn; intuition discriminate|exact HT1]. }
  rewrite (scan_spec _ _ HT). change (scan_pat false (10 :: t)) with (0%nat, 0, false, false).
  cbv beta iota. rewrite Nat.add_0_r, Z.add_0_r, !orb_false_r.
  rewrite hd_app_ne by (destruct lead; [discriminate|exact HB]). rewrite HL.
  assert (Hn : (0 <? length (opt lead 47%Z ++ body))%nat = true).
  { apply Nat.ltb_lt. rewrite app_length. destruct body; [congruence|cbn; lia]. }
  rewrite Hn. cbn [andb].
  assert (Hlead : (if lead then 47 else hd 0 pat) =? 47 = lead) by (destruct lead; [reflexivity|apply Z.eqb_neq; exact Hh]).
  rewrite Hlead, firstn_exact, skipn_exact by reflexivity.
  assert (Htb : (if lead then tl (opt lead 47 ++ body) else opt lead 47 ++ body) = body) by (destruct lead; reflexivity).
  rewrite Htb. unfold finish. destruct body as [|b0 bb] eqn:EB; [congruence|]. rewrite <- EB in *.
  assert (Hlb : last body 0 = if dironly then 47 else last pat 0).
  { unfold body. destruct dironly; cbn [opt]; [apply last_last|rewrite app_nil_r; reflexivity]. }
  rewrite Hlb.
  replace ((if dironly then 47 else last pat 0) =? 13) with false
    by (destruct dironly; [reflexivity|symmetry; apply Z.eqb_neq; intros E; apply Hl; auto]).
  rewrite (trim_id body); [|exact HB|rewrite Hlb; destruct dironly; [lia|]; intros E; apply Hl; auto|rewrite Hlb; destruct dironly; [lia|]; intros E; apply Hl; auto].
  rewrite EB at 1. cbv beta iota. rewrite Hlb.
  replace ((if dironly then 47 else last pat 0) =? 47) with dironly
    by (destruct dironly; [reflexivity|symmetry; apply Z.eqb_neq; intros E; apply Hl; auto]).
  replace (if dironly then removelast body else body) with pat
    by (unfold body; destruct dironly; cbn [opt]; [rewrite removelast_snoc; reflexivity|rewrite app_nil_r; reflexivity]).
  rewrite (unescape_tame pat Ht). unfold fn_of. cbn [r_pat r_neg r_dironly r_anchored r_from].
  f_equal. fold (cdir (context_of (entry_of d)) stale). rewrite (cdir_dir d stale HS). f_equal.
  - (* FULLPATH *)
    change (existsb (Z.eqb 47) pat) with (hasslash pat). rewrite !hasslash_nslash. rewrite !nslash_app. unfold body. rewrite nslash_app.
    pose proof (nslash_nn pat).
    destruct lead, dironly; cbn [opt orb andb]; change (nslash [47]) with 1; change (nslash []) with 0;
    repeat match goal with |- context [(?a <=? ?b)] => destruct (Z.leb_spec a b) | |- context [(?a <? ?b)] => destruct (Z.ltb_spec a b) end; try reflexivity; lia.
  - (* HASWILD *)
    assert (HW : forall p q, tame p -> wild_pat (p ++ q) = wild_pat p || wild_pat q).
    { intros p. assert (HN : exists N, (length p <= N)%nat) by (exists (length p); lia). destruct HN as [N HN]. revert p HN. clear.
      induction N as [|N IH]; intros p HN q HT; (destruct p as [|c p]; [reflexivity|]); cbn [length] in HN; [lia|]. cbn [tame app wild_pat] in *.
      destruct (c =? ch "\").
      - destruct p as [|e p]; [contradiction|]. cbn [app length] in *. apply IH; [lia|apply HT].
      - rewrite IH by (try lia; apply HT). rewrite !orb_assoc. reflexivity. }
    unfold body. destruct lead; cbn [opt app wild_pat]; change (47 =? ch "\") with false; change (47 =? ch "*") with false; change (47 =? ch "?") with false; change (47 =? ch "[") with false; cbn [orb]; cbn iota;
    rewrite HW by exact Ht; destruct dironly; cbn [opt wild_pat]; change (47 =? ch "\") with false; cbn; rewrite orb_false_r; reflexivity.
Qed.

(** ** Whole files *)
Definition eff_step (icase : bool) (es : list rule) (r : rule) : list rule :=
  if r_neg r && negb (wild_pat (r_pat r)) && negb (does_negate_rule (map (fn_of icase) es) (fn_of icase r)) then es else es ++ [r].
Definition eff (icase : bool) (es rs : list rule) : list rule := fold_left (eff_step icase) rs es.

Lemma skip_to_nl_app t r : ~ In 10 t -> skip_to_nl (t ++ 10 :: r) = 10 :: r.
Proof.
  induction t as [|c t IH]; intros H; [reflexivity|]. cbn [app skip_to_nl].
  destruct (Z.eqb_spec c 10) as [->|]; [exfalso; apply H; left; reflexivity|]. apply IH. intros X. apply H. right. exact X.
Qed.
Lemma text_of_cons l ls : text_of (l :: ls) = text_of_line l ++ text_of ls. Proof. reflexivity. Qed.
Lemma rules_of_cons d l ls : rules_of d (l :: ls) = mean d l ++ rules_of d ls. Proof. reflexivity. Qed.
Lemma skip_nls_len s : (length (skip_nls s) <= length s)%nat.
Proof. induction s as [|c s IH]; [cbn; lia|]. cbn [skip_nls]. destruct ((c =? 10) || (c =? 13)); cbn [length]; lia. Qed.
Lemma line_nonempty l : (1 <= length (text_of_line l))%nat.
Proof. destruct l; cbn [text_of_line]; rewrite ?app_length; cbn; rewrite ?app_length; cbn; lia. Qed.
Lemma line_head l t : wf_line l -> l <> Blank -> skip_nls (text_of_line l ++ t) = text_of_line l ++ t.
Proof.
  intros HW HB. destruct l as [|c|neg lead pat dironly]; [congruence|reflexivity|].
  destruct HW as [(Hc & Ht & Hne & Hl & Hh) Hpre]. cbn [text_of_line].
  destruct neg; [reflexivity|]. destruct lead; [reflexivity|]. specialize (Hpre eq_refl eq_refl). cbn [opt app]. destruct pat as [|c p]; [congruence|].
  cbn [app skip_nls hd In] in *. cbn [tame] in Ht.
  destruct (Z.eqb_spec c 10) as [->|].
  { change (10 =? ch "\") with false in Ht. cbn iota in Ht. destruct Ht as [Ht _]. exfalso. apply Ht. left. reflexivity. }
  destruct (Z.eqb_spec c 13) as [->|]; [exfalso; apply Hpre; auto|]. reflexivity.
Qed.

Lemma parse_text icase d : forall ls es fuel stale, Forall wf_line ls -> (length (text_of ls) < fuel)%nat -> stale = None \/ stale = dctx d ->
  parse_loop fuel icase (context_of (entry_of d)) stale (text_of ls) (map (fn_of icase) es) = Ok (map (fn_of icase) (eff icase es (rules_of d ls))) /\
  parse_loop fuel icase (context_of (entry_of d)) stale (skip_nls (text_of ls)) (map (fn_of icase) es) = Ok (map (fn_of icase) (eff icase es (rules_of d ls))).
Proof.
  induction ls as [|l ls IH]; intros es fuel stale HW HF HS.
  { destruct fuel; [cbn in HF; lia|]. split; reflexivity. }
  inversion HW as [|? ? Hl Hls]; subst. rewrite text_of_cons, rules_of_cons in *. rewrite app_length in HF. pose proof (line_nonempty l) as H1.
  assert (HA : parse_loop fuel icase (context_of (entry_of d)) stale (text_of_line l ++ text_of ls) (map (fn_of icase) es)
    = Ok (map (fn_of icase) (eff icase es (mean d l ++ rules_of d ls)))).
  { destruct fuel as [|f]; [lia|]. destruct (text_of_line l ++ text_of ls) as [|x y] eqn:ET.
    { apply (f_equal (@length Z)) in ET. rewrite app_length in ET. cbn in ET. lia. }
    rewrite <- ET. cbn [parse_loop]. rewrite ET. cbv iota. rewrite <- ET. clear x y ET.
    destruct l as [|t|neg lead pat dironly].
    - cbn [text_of_line app mean]. assert (E : fnparse icase (context_of (entry_of d)) stale (10 :: text_of ls) = PNone (skip_nls (text_of ls))).
      { unfold fnparse, optimized. cbn [hd]. change (10 =? 42) with false. change (10 =? 46) with false. cbn [orb]. rewrite andb_false_r. reflexivity. }
      rewrite E.
      apply IH; [assumption|cbn in HF; lia|assumption].
    - destruct Hl as [_ Ht]. cbn [mean].
      assert (E : fnparse icase (context_of (entry_of d)) stale (text_of_line (Comment t) ++ text_of ls) = PNone (skip_nls (text_of ls))).
      { cbn [text_of_line app]. unfold fnparse, optimized. cbn [hd]. change (ch "#" =? 42) with false. change (ch "#" =? 46) with false. cbn [orb]. rewrite andb_false_r.
        change (ch "#" =? 0) with false. change (ch "#" =? 35) with true. cbn [orb]. cbv zeta iota. f_equal. unfold next_line.
        rewrite <- app_assoc. cbn [app]. change (ch "#" :: t ++ 10 :: text_of ls) with ((ch "#" :: t) ++ 10 :: text_of ls).
        rewrite skip_to_nl_app; [reflexivity|]. intros [H|H]; [discriminate|exact (Ht H)]. }
      rewrite E. apply IH; [assumption|lia|assumption].
    - rewrite (fnparse_rule icase d neg lead pat dironly stale (text_of ls) Hl HS).
      change (next_line (10 :: text_of ls)) with (skip_nls (text_of ls)).
      cbn [mean app]. set (r := mkrule _ _ _ _ _). unfold eff. cbn [fold_left]. fold (eff icase (eff_step icase es r) (rules_of d ls)).
      change (fneg (fn_of icase r)) with (r_neg r). change (fwild (fn_of icase r)) with (wild_pat (r_pat r)). unfold eff_step.
      destruct (r_neg r && negb (wild_pat (r_pat r)) && negb (does_negate_rule (map (fn_of icase) es) (fn_of icase r))).
      + apply IH; [assumption|lia|right; reflexivity].
      + change [fn_of icase r] with (map (fn_of icase) [r]). rewrite <- map_app. apply IH; [assumption|lia|left; reflexivity]. }
  split; [exact HA|]. destruct l as [|t|neg lead pat dironly].
  - cbn [text_of_line app mean]. change (skip_nls (10 :: text_of ls)) with (skip_nls (text_of ls)). apply IH; [assumption|cbn in HF; lia|assumption].
  - rewrite line_head by (trivial; discriminate). exact HA.
  - rewrite line_head by (trivial; discriminate). exact HA.
Qed.

(** ** The "covers" test *)
Definition wf_rule (r : rule) : Prop := cstr (r_pat r) /\ Forall wf_comp (r_from r).
Lemma cstr_app a b : cstr (a ++ b) <-> cstr a /\ cstr b. Proof. apply Forall_app. Qed.
Lemma cstr_dirtext d : Forall wf_comp d -> cstr (dirtext d).
Proof.
  induction 1 as [|c d (H1 & H2 & H3) _ IH]; [constructor|]. unfold dirtext. cbn [map concat]. rewrite !cstr_app. repeat split; [exact H2| |exact IH]. repeat constructor; vm_compute; congruence.
Qed.
Lemma opt_dctx d : opt_dir (dctx d) = dirtext d. Proof. destruct d; reflexivity. Qed.
Lemma same_text_spec icase a b : same_text icase a b = true <-> same icase a b.
Proof. unfold same_text, same. destruct icase; apply leqb_spec. Qed.
Lemma same_len icase a b : same icase a b -> length a = length b.
Proof. unfold same. destruct icase; intros H; [rewrite <- (map_length tolower a), H; apply map_length|subst; reflexivity]. Qed.
Lemma same_sym icase a b : same icase a b -> same icase b a.
Proof. unfold same. destruct icase; auto. Qed.
Lemma match_spec pn cf p t : cstr p -> cstr t -> (match wildmatch pn cf p t with MATCH => true | _ => false end = true <-> lang pn cf (glob pn p) t).
Proof.
  intros Hp Ht. rewrite <- (wildmatch_exact pn cf p t Hp Ht). destruct (wildmatch pn cf p t); split; intros; congruence.
Qed.

Lemma tail_test icase short long : (length short < length long)%nat ->
  ((if negb (nth (length long - length short - 1) long 0 =? 47) then false
   else if existsb (Z.eqb 47) short then false else same_text icase (skipn (length long - length short) long) short) = true
  <-> tail_of icase short long).
Proof.
  intros HL. unfold tail_of. change (ch "/") with 47. set (k := (length long - length short)%nat).
  assert (Hk : (1 <= k <= length long)%nat) by (unfold k; lia). 
  assert (Hsp : long = firstn (k - 1) long ++ nth (k - 1) long 0 :: skipn k long).
  { rewrite <- (firstn_skipn (k - 1) long) at 1. f_equal.
    destruct (skipn (k - 1) long) as [|x r] eqn:E; [apply (f_equal (@length Z)) in E; rewrite skipn_length in E; cbn in E; lia|].
    assert (x = nth (k - 1) long 0) as ->. { rewrite <- (firstn_skipn (k - 1) long), E, app_nth2; rewrite firstn_length_le by lia; [rewrite Nat.sub_diag; reflexivity|lia]. }
    f_equal. replace k with (1 + (k - 1))%nat by lia. rewrite <- skipn_skipn, E. reflexivity. }
  split.
  - destruct (Z.eqb_spec (nth (k - 1) long 0) 47) as [E|]; cbn [negb]; [|discriminate].
    destruct (existsb (Z.eqb 47) short) eqn:EX; [discriminate|]. intros HS. apply same_text_spec in HS. split.
    + intros HI. apply hasslash_iff in HI. unfold hasslash in HI. congruence.
    + rewrite E in Hsp. exists (firstn (k - 1) long), (skipn k long). split; assumption.
  - intros (HI & pre & s & EL & HS).
    pose proof (same_len _ _ _ HS) as Hs. assert (HK : k = S (length pre)) by (unfold k; rewrite EL, app_length; cbn; lia).
    rewrite HK. replace (S (length pre) - 1)%nat with (length pre) by lia. rewrite EL, app_nth2, Nat.sub_diag by lia. cbn [nth]. change (47 =? 47) with true. cbn [negb]. cbv iota.
    assert (existsb (Z.eqb 47) short = false) as ->.
    { destruct (existsb (Z.eqb 47) short) eqn:E; [|reflexivity]. exfalso. apply HI. apply hasslash_iff. exact E. }
    change (pre ++ 47 :: s) with (pre ++ [47] ++ s). rewrite app_assoc, skipn_exact by (rewrite app_length; cbn; lia).
    apply same_text_spec. exact HS.
Qed.

Lemma negate_pattern_spec icase r n : r_neg n = true -> wild_pat (r_pat r) = false ->
  (does_negate_pattern (fn_of icase r) (fn_of icase n) = true <-> covers icase r n).
Proof.
  intros Hn Hw. unfold covers. rewrite Hw. unfold does_negate_pattern, fn_of. cbn [fneg fpat ficase]. rewrite Hn. cbn [negb]. rewrite orb_false_r.
  destruct (r_neg r); [split; [discriminate|intros [H _]; discriminate]|].
  assert (TL : forall a b, tail_of icase a b -> (length a < length b)%nat).
  { intros a b (_ & pre & s & -> & HS). apply same_len in HS. rewrite app_length. cbn. lia. }
  destruct (Nat.eqb_spec (length (r_pat r)) (length (r_pat n))) as [E|NE].
  - rewrite same_text_spec. split; [intros H; split; [reflexivity|left; exact H]|].
    intros [_ [H|[H|H]]]; [exact H| |]; apply TL in H; lia.
  - destruct (Nat.ltb_spec (length (r_pat r)) (length (r_pat n))) as [L|L]; cbv beta iota.
    + rewrite (tail_test icase (r_pat r) (r_pat n) L). split; [intros H; split; [reflexivity|right; left; exact H]|].
      intros [_ [H|[H|H]]]; [apply same_len in H; lia|exact H|apply TL in H; lia].
    + rewrite (tail_test icase (r_pat n) (r_pat r)) by lia. split; [intros H; split; [reflexivity|right; right; exact H]|].
      intros [_ [H|[H|H]]]; [apply same_len in H; lia|apply TL in H; lia|exact H].
Qed.

Lemma negate_rule_spec icase es n : Forall wf_rule es -> wf_rule n -> r_neg n = true ->
  (does_negate_rule (map (fn_of icase) es) (fn_of icase n) = true <-> exists e, In e es /\ covers icase e n).
Proof.
  intros HE [Hp Hf] Hn. unfold does_negate_rule. rewrite existsb_exists.
  assert (KEY : forall e, In e es -> ((if negb (fwild (fn_of icase e)) then does_negate_pattern (fn_of icase e) (fn_of icase n)
      else match wildmatch (ffull (fn_of icase e)) (ficase (fn_of icase n)) (opt_dir (fctx (fn_of icase e)) ++ fpat (fn_of icase e)) (opt_dir (fctx (fn_of icase n)) ++ fpat (fn_of icase n)) with MATCH => true | _ => false end) = true <-> covers icase e n)).
  { intros e He. rewrite Forall_forall in HE. destruct (HE e He) as [Hpe Hfe].
    change (fwild (fn_of icase e)) with (wild_pat (r_pat e)). destruct (wild_pat (r_pat e)) eqn:EW; cbn [negb].
    - unfold covers. rewrite EW. cbn [fn_of ffull ficase fctx fpat]. rewrite !opt_dctx. apply match_spec; apply cstr_app; split; auto using cstr_dirtext.
    - apply negate_pattern_spec; assumption. }
  split.
  - intros (x & HI & HX). apply in_map_iff in HI. destruct HI as (e & <- & He). exists e. split; [exact He|]. apply KEY; assumption.
  - intros (e & He & HC). exists (fn_of icase e). split; [apply in_map; exact He|]. apply KEY; assumption.
Qed.

Lemma eff_effective icase : forall rs es0 rs0, effective icase rs0 es0 -> Forall wf_rule es0 -> Forall wf_rule rs ->
  effective icase (rs0 ++ rs) (eff icase es0 rs) /\ Forall wf_rule (eff icase es0 rs).
Proof.
  induction rs as [|r rs IH]; intros es0 rs0 HE HW HR.
  { rewrite app_nil_r. split; assumption. }
  inversion HR as [|? ? Hr HR']; subst. change (rs0 ++ r :: rs) with (rs0 ++ [r] ++ rs). rewrite app_assoc.
  unfold eff. cbn [fold_left]. fold (eff icase (eff_step icase es0 r) rs).
  assert (H2 : effective icase (rs0 ++ [r]) (eff_step icase es0 r) /\ Forall wf_rule (eff_step icase es0 r)).
  { unfold eff_step. destruct (r_neg r) eqn:EN; cbn [andb].
    - destruct (wild_pat (r_pat r)) eqn:EW; cbn [andb negb].
      + split; [apply eff_keep; [exact HE|intros [_ H]; congruence]|apply Forall_app; split; auto].
      + destruct (does_negate_rule (map (fn_of icase) es0) (fn_of icase r)) eqn:ED; cbn [negb].
        * split; [apply eff_keep; [exact HE|intros _; apply (negate_rule_spec icase es0 r HW Hr EN); exact ED]|apply Forall_app; split; auto].
        * split; [|exact HW]. apply eff_drop; [exact HE|split; assumption|]. intros e He HC.
          assert (HT : does_negate_rule (map (fn_of icase) es0) (fn_of icase r) = true) by (apply (negate_rule_spec icase es0 r HW Hr EN); exists e; auto). congruence.
    - split; [apply eff_keep; [exact HE|intros [H _]; congruence]|apply Forall_app; split; auto]. }
  destruct H2. apply IH; assumption.
Qed.
