From Verif Require Import Base Str CStr RefnameModel RefnameSpec RefnameProofs.

Lemma segok_nil pat caret : segok [] pat caret = true.
Proof. reflexivity. Qed.
Lemma nempty_spec s : nempty s = true <-> s <> [].
Proof. destruct s; cbn; split; congruence. Qed.
Lemma ssum_filter segs : forall pat, ssum segs pat false = ssum (filter nempty segs) pat false.
Proof.
  induction segs as [|s r IH]; intros pat; [reflexivity|]. cbn [ssum filter]. destruct s as [|c t].
  - change (nempty []) with false. cbn [existsb]. rewrite segok_nil. apply IH.
  - change (nempty (c :: t)) with true. cbn [ssum]. rewrite IH. reflexivity.
Qed.
Lemma ssum_filter_hd s r pat caret : s <> [] -> ssum (s :: r) pat caret = ssum (filter nempty (s :: r)) pat caret.
Proof.
  intros H. destruct s as [|c t]; [congruence|]. cbn [filter]. change (nempty (c :: t)) with true. cbn [ssum]. rewrite ssum_filter. reflexivity.
Qed.

Lemma fold_addseg segs : forall buf, buf <> [] -> fold_left addseg segs buf = join 47 (buf :: filter nempty segs).
Proof.
  induction segs as [|s r IH]; intros buf Hb; [reflexivity|]. cbn [fold_left filter]. destruct s as [|c t].
  - cbn [addseg]. change (nempty []) with false. apply IH, Hb.
  - change (nempty (c :: t)) with true. unfold addseg at 2. destruct buf as [|b bu]; [congruence|]. rewrite IH by discriminate.
    rewrite (join_cons 47 (b :: bu)) by discriminate. set (L := filter nempty r). destruct L as [|q L].
    + reflexivity.
    + rewrite !join_cons by discriminate. rewrite <- app_assoc. reflexivity.
Qed.
Lemma fold_addseg0 segs : fold_left addseg segs [] = join 47 (filter nempty segs).
Proof.
  induction segs as [|s r IH]; [reflexivity|]. cbn [fold_left filter]. destruct s as [|c t].
  - exact IH.
  - change (nempty (c :: t)) with true. cbn [addseg]. apply fold_addseg. discriminate.
Qed.

Lemma hd_split n : hd 0 n <> 47 -> n <> [] -> hd [] (split 47 n) <> [].
Proof.
  destruct n as [|c n]; [congruence|]. cbn. intros H _. destruct (Z.eqb_spec c 47); [contradiction|]. destruct (split 47 n); discriminate.
Qed.
Lemma join_last l : l <> [] -> last l [] <> [] -> last (join 47 l) 0 = last (last l []) 0.
Proof.
  induction l as [|p r IH]; intros Hn Hl; [congruence|]. destruct r as [|q r]; [reflexivity|].
  rewrite join_cons by discriminate. change (last (p :: q :: r) []) with (last (q :: r) []) in *.
  assert (Hj : join 47 (q :: r) <> []).
  { destruct r as [|x r]; [cbn in *; assumption|]. rewrite join_cons by discriminate. destruct q; discriminate. }
  rewrite <- IH by (discriminate || assumption). destruct (exists_last Hj) as (l' & a & E). rewrite E.
  replace (p ++ 47 :: l' ++ [a]) with ((p ++ 47 :: l') ++ [a]) by (rewrite <- app_assoc; reflexivity). rewrite !last_last. reflexivity.
Qed.
Lemma join_last_empty l : (1 < length l)%nat -> last l [] = [] -> last (join 47 l) 0 = 47.
Proof.
  induction l as [|p r IH]; cbn [length]; intros Hn Hl; [lia|]. destruct r as [|q r]; [cbn in Hn; lia|].
  rewrite join_cons by discriminate. change (last (p :: q :: r) []) with (last (q :: r) []) in Hl.
  destruct r as [|x r].
  - cbn in Hl. subst q. cbn [join]. apply last_last.
  - assert (E := IH ltac:(cbn; lia) Hl). rewrite join_cons in * by discriminate.
    destruct (@exists_last _ (q ++ 47 :: join 47 (x :: r))) as (l' & a & Ea); [destruct q; discriminate|]. rewrite Ea in *. rewrite last_last in E.
    replace (p ++ 47 :: l' ++ [a]) with ((p ++ 47 :: l') ++ [a]) by (rewrite <- app_assoc; reflexivity). rewrite last_last. exact E.
Qed.
Lemma rd_last n : n <> [] -> rd n (length n - 1) = Ok (last n 0).
Proof.
  intros H. destruct (exists_last H) as (l & a & ->). rewrite app_length, last_last. cbn [length]. unfold rd.
  rewrite nth_error_app2 by lia. replace (length l + 1 - 1 - length l)%nat with O by lia. reflexivity.
Qed.

Definition core (norm : bool) (n : list Z) (fl : rflags) : Prop :=
  let segs := split 47 n in let k := length (filter nempty segs) in
  hd 0 n <> 47 /\ n <> [] /\ ssum segs (f_pattern fl) true = true /\ (norm = false -> forallb nempty segs = true) /\
  last n 0 <> 46 /\ last n 0 <> 47 /\
  (k = 1%nat -> f_onelevel fl = true /\ (f_shorthand fl = true \/ valid_normalized n (length (last segs [])) = true \/ (f_pattern fl = true /\ n = bs "*"))) /\
  (1 < k -> valid_normalized n (length (hd [] segs)) = false)%nat.

Lemma normalize_core norm n fl : f_novalidate fl = false ->
  (core norm n fl /\ normalize_name norm n fl = Ok (if norm then squeeze n else [])) \/
  (~ core norm n fl /\ normalize_name norm n fl = Err EINVALIDSPEC).
Proof.
  intros Hv. unfold normalize_name. rewrite Hv. cbn [negb andb].
  destruct (Z.eqb_spec (hd 0 n) 47) as [E|Hh]; [right; split; [intros (H & _); contradiction|reflexivity]|].
  set (segs := split 47 n).
  assert (Hn : n = [] ++ join 47 segs) by (symmetry; apply join_split).
  pose proof (norm_loop_spec norm segs (S (length n)) [] (f_pattern fl) true 0 [] (split_nonnil 47 n) (split_clean 47 n)) as HL.
  rewrite <- Hn in HL. cbn [length] in HL.
  assert (Hlen : (length segs <= S (length n))%nat).
  { unfold segs. clear. induction n as [|c n IH]; cbn; [lia|]. destruct (c =? 47); cbn; [lia|]. destruct (split 47 n); cbn in *; lia. }
  rewrite (HL Hlen); [|intros _; split; [tauto|cbn; lia]]. clear HL.
  destruct (ssum segs (f_pattern fl) true && (norm || forallb nempty segs)) eqn:Ess.
  2:{ right. split; [|reflexivity]. intros (_ & _ & H1 & H2 & _). fold segs in H1, H2. rewrite H1 in Ess. destruct norm; [discriminate|]. rewrite H2 in Ess by reflexivity. discriminate. }
  apply andb_prop in Ess. destruct Ess as [Es1 Es2]. cbn [bindr n_len n_segs n_pos n_buf Nat.add].
  set (k := length (filter nempty segs)). set (L := length (last segs [])).
  assert (HLle : (L <= length n)%nat).
  { unfold L. rewrite Hn. cbn [app]. clear. induction segs as [|p r IH]; [cbn; lia|]. destruct r as [|q r]; [cbn; lia|].
    rewrite join_cons by discriminate. rewrite app_length. change (last (p :: q :: r) []) with (last (q :: r) []). cbn [length]. lia. }
  destruct (list_eq_dec Z.eq_dec n []) as [E0|N0].
  { right. split; [intros (_ & H & _); contradiction|]. unfold L, k, segs. rewrite E0. cbn. reflexivity. }
  assert (Hk1 : (1 <= k)%nat).
  { pose proof (hd_split n Hh N0) as Hd. fold segs in Hd. unfold k. destruct segs as [|s r] eqn:Eseg; [cbn in Hd; congruence|]. cbn in Hd. cbn [filter].
    apply nempty_spec in Hd. rewrite Hd. cbn. lia. }
  replace ((L =? 0)%nat && (k =? 0)%nat) with false by (symmetry; apply andb_false_iff; right; apply Nat.eqb_neq; lia).
  replace (length n - L + L)%nat with (length n) by lia.
  destruct (Nat.eqb_spec (length n) 0) as [E|_]; [destruct n; [congruence|discriminate]|].
  rewrite rd_last by exact N0. cbn [bindr].
  destruct (Z.eqb_spec (last n 0) 46) as [E46|N46]; [right; split; [intros (_ & _ & _ & _ & H & _); contradiction|reflexivity]|].
  destruct (Z.eqb_spec (last n 0) 47) as [E47|N47]; [right; split; [intros (_ & _ & _ & _ & _ & H & _); contradiction|reflexivity]|].
  destruct ((k =? 1)%nat && negb (f_onelevel fl)) eqn:Eo.
  { right. split; [|reflexivity]. intros (_ & _ & _ & _ & _ & _ & H & _). fold segs in H. fold k in H.
    apply andb_prop in Eo. destruct Eo as [A B]. apply Nat.eqb_eq in A. destruct (H A) as [C _]. rewrite C in B. discriminate. }
  destruct ((k =? 1)%nat && negb (f_shorthand fl) && negb (valid_normalized n L || f_pattern fl && leqb n (bs "*"))) eqn:Ev.
  { right. split; [|reflexivity]. intros (_ & _ & _ & _ & _ & _ & H & _). fold segs in H. fold k in H. fold L in H.
    apply andb_prop in Ev. destruct Ev as [Ev C]. apply andb_prop in Ev. destruct Ev as [A B]. apply Nat.eqb_eq in A. destruct (H A) as [_ [D|[D|[D1 D2]]]].
    - rewrite D in B. discriminate.
    - rewrite D in C. discriminate.
    - apply leqb_spec in D2. rewrite D1, D2, orb_true_r in C. discriminate. }
  destruct ((1 <? k)%nat && valid_normalized n (length (hd [] segs))) eqn:Ew.
  { right. split; [|reflexivity]. intros (_ & _ & _ & _ & _ & _ & _ & H). fold segs in H. fold k in H. apply andb_prop in Ew. destruct Ew as [A B].
    apply Nat.ltb_lt in A. rewrite (H A) in B. discriminate. }
  left. split.
  - unfold core. fold segs. fold k. fold L. split; [exact Hh|]. split; [exact N0|]. split; [exact Es1|]. split; [intros ->; exact Es2|]. split; [exact N46|]. split; [exact N47|]. split.
    + intros A. apply Nat.eqb_eq in A. rewrite A in Eo, Ev. cbn [andb] in Eo, Ev. split; [destruct (f_onelevel fl); [reflexivity|discriminate]|].
      destruct (f_shorthand fl); [auto|]. destruct (valid_normalized n L); [auto|]. cbn [orb andb negb] in Ev. destruct (f_pattern fl); [|discriminate]. cbn [andb] in Ev.
      right. right. split; [reflexivity|]. apply leqb_spec. destruct (leqb n (bs "*")); [reflexivity|discriminate Ev].
    + intros A. apply Nat.ltb_lt in A. rewrite A in Ew. exact Ew.
  - destruct norm; [|reflexivity]. rewrite fold_addseg0. reflexivity.
Qed.

(** *** from [core] to the declarative rules *)
Lemma count_app c a b : count c (a ++ b) = (count c a + count c b)%nat.
Proof. unfold count. rewrite filter_app, app_length. reflexivity. Qed.
Lemma count_exist s : existsb (Z.eqb 42) s = true <-> (0 < count 42 s)%nat.
Proof.
  unfold count. induction s as [|c s IH]; cbn [existsb filter length]; [split; [discriminate|lia]|]. destruct (42 =? c); cbn [orb length]; [split; [lia|reflexivity]|exact IH].
Qed.
Definition vsegs (segs : list (list Z)) : Prop := Forall (Forall vchar) segs.

Lemma ssum_spec segs : Forall (fun s => s <> []) segs -> forall pat caret, ssum segs pat caret = true <->
  Forall comp_body segs /\ (count 42 (List.concat segs) <= if pat then 1 else 0)%nat /\
  (vsegs segs \/ (caret = true /\ exists r tl, segs = (94 :: r) :: tl /\ Forall vchar r /\ vsegs tl)).
Proof.
  induction segs as [|s r IH]; intros Hne pat caret.
  - cbn. split; [intros _|reflexivity]. split; [constructor|]. split; [lia|]. left. constructor.
  - inversion Hne as [|? ? Hs Hr]; subst. cbn [ssum List.concat]. rewrite andb_true_iff, segok_spec, (IH Hr) by exact Hs. rewrite count_app.
    assert (Hpat : forall a b, (a <= if pat then 1 else 0)%nat /\ (b <= if (if existsb (Z.eqb 42) s then false else pat) then 1 else 0)%nat /\ a = count 42 s <->
       (a + b <= if pat then 1 else 0)%nat /\ a = count 42 s).
    { intros a b. pose proof (count_exist s) as He. destruct (existsb (Z.eqb 42) s); destruct pat; split; try lia.
      all: intros [H1 H2]; assert (~ (0 < count 42 s)%nat) by (intros X; apply He in X; discriminate); lia. }
    specialize (Hpat (count 42 s) (count 42 (List.concat r))).
    split.
    + intros ((H1 & H2 & H3) & H4 & H5 & H6). split; [constructor; assumption|]. split; [apply Hpat; auto|].
      destruct H6 as [H6|[H6 _]]; [|discriminate]. destruct H3 as [H3|(-> & q & -> & Hq)].
      * left. constructor; assumption.
      * right. split; [reflexivity|]. exists q, r. auto.
    + intros (H1 & H2 & H3). inversion H1; subst. destruct (proj2 Hpat (conj H2 eq_refl)) as (A & B & _).
      assert (Hx : (Forall vchar s \/ caret = true /\ (exists r0, s = 94 :: r0 /\ Forall vchar r0)) /\ vsegs r).
      { destruct H3 as [H3|(-> & q & tl & [= -> ->] & Hq & Ht)].
        - inversion H3; subst. auto.
        - split; [right; eauto|assumption]. }
      tauto.
Qed.

Lemma forall_concat {A} (P : A -> Prop) (l : list (list A)) : Forall (Forall P) l <-> Forall P (List.concat l).
Proof.
  induction l as [|a l IH]; cbn; [split; constructor|]. rewrite Forall_app, <- IH. split; [intros H; inversion H; auto|intros [H1 H2]; constructor; auto].
Qed.
Lemma vchar47 : vchar 47.
Proof. reflexivity. Qed.
Lemma count_join l : count 42 (join 47 l) = count 42 (List.concat l).
Proof.
  induction l as [|p r IH]; [reflexivity|]. destruct r as [|q r]; [cbn; rewrite app_nil_r; reflexivity|].
  rewrite join_cons by discriminate. cbn [List.concat] in *. rewrite count_app, (count_app 42 p). f_equal. rewrite <- IH. reflexivity.
Qed.
Lemma vjoin l : Forall vchar (join 47 l) <-> vsegs l.
Proof.
  unfold vsegs. induction l as [|p r IH]; [cbn; split; constructor|]. destruct r as [|q r]; [cbn; split; intros H; [constructor; [exact H|constructor]|inversion H; assumption]|].
  rewrite join_cons by discriminate. rewrite Forall_app. split.
  - intros [H1 H2]. inversion H2; subst. constructor; [exact H1|]. apply IH. assumption.
  - intros H. inversion H; subst. split; [assumption|]. constructor; [exact vchar47|]. apply IH. assumption.
Qed.

Lemma valid_norm_spec s rest : s <> [] -> (valid_normalized (s ++ rest) (length s) = true <-> all_caps s).
Proof.
  intros Hne. unfold valid_normalized. rewrite firstn_app, firstn_all, Nat.sub_diag. cbn [firstn]. rewrite app_nil_r.
  destruct (exists_last Hne) as (l & z & El).
  assert (Hnth : nth (length s - 1) (s ++ rest) 0 = z).
  { rewrite app_nth1 by (destruct s; [congruence|cbn; lia]). rewrite El, app_length. cbn [length]. rewrite app_nth2 by lia.
    replace (length l + 1 - 1 - length l)%nat with O by lia. reflexivity. }
  rewrite Hnth. assert (Hhd : hd 0 (s ++ rest) = hd 0 s) by (destruct s; [congruence|reflexivity]). rewrite Hhd.
  rewrite !andb_true_iff, !negb_true_iff, !Z.eqb_neq.
  assert (Hf : forall t, forallb (fun c => (65 <=? c) && (c <=? 90) || (c =? 95)) t = true <-> Forall (fun c => ch "A" <= c <= ch "Z" \/ c = ch "_") t).
  { intros t. rewrite forallb_forall, Forall_forall. split; intros H x Hx; specialize (H x Hx); cbn in *; lia. }
  assert (Hst : hd 0 s <> 95 <-> ~ starts_with (bs "_") s).
  { destruct s as [|c t]; [congruence|]. cbn [hd]. split; [intros N [v [= E _]]; cbn in E; lia|intros H ->; apply H; exists t; reflexivity]. }
  assert (Hen : z <> 95 <-> ~ ends_with (bs "_") s).
  { rewrite El. split; [intros N [u E]; apply app_inj_tail in E; destruct E as [_ E]; cbn in E; lia|]. intros H ->. apply H. exists l. reflexivity. }
  rewrite Hst, Hen. unfold all_caps.
  destruct s as [|c t]; [congruence|]. destruct (Z.eqb_spec c 94) as [->|N].
  - rewrite Hf. split.
    + intros ((H1 & H2) & H3). exists t. split; [right; reflexivity|]. auto.
    + intros (t' & [<-|[= <-]] & H1 & H2 & H3); [|auto]. inversion H1; subst. cbn in *. lia.
  - rewrite Hf. split.
    + intros ((H1 & H2) & H3). exists (c :: t). auto.
    + intros (t' & [<-|[= E _]] & H1 & H2 & H3); [auto|]. cbn in E. lia.
Qed.

Lemma filter_all_true {A} (p : A -> bool) l : forallb p l = true -> filter p l = l.
Proof. induction l as [|a l IH]; cbn; [reflexivity|]. destruct (p a); cbn; [|discriminate]. intros H. f_equal. auto. Qed.

Lemma core_strict n fl : core false n fl <-> refname_ok fl n.
Proof.
  unfold core, refname_ok. change (ch "/") with 47. change (ch "*") with 42. change (ch "^") with 94. cbv zeta.
  set (segs := split 47 n).
  assert (Hn : n = join 47 segs) by (symmetry; apply join_split).
  pose proof (split_nonnil 47 n) as Hnn. fold segs in Hnn. pose proof (split_clean 47 n) as Hcl. fold segs in Hcl.
  assert (Hne_iff : forallb nempty segs = true <-> Forall (fun s => s <> []) segs).
  { rewrite forallb_forall, Forall_forall. split; intros H x Hx; apply nempty_spec, H, Hx. }
  assert (Hcomp : Forall component_ok segs <-> Forall (fun s => s <> []) segs /\ Forall comp_body segs).
  { rewrite !Forall_forall. rewrite Forall_forall in Hcl. unfold component_ok, comp_body. split.
    - intros H. split; intros x Hx; specialize (H x Hx); tauto.
    - intros [H1 H2] x Hx. specialize (H1 x Hx). specialize (H2 x Hx). specialize (Hcl x Hx). tauto. }
  assert (Hchar : Forall (fun s => s <> []) segs -> ((Forall (fun c => ~ forbidden c) n \/ (exists r, n = 94 :: r /\ Forall (fun c => ~ forbidden c) r)) <->
     (vsegs segs \/ (true = true /\ exists r tl, segs = (94 :: r) :: tl /\ Forall vchar r /\ vsegs tl)))).
  { intros Hall. assert (Hfb : forall t, Forall (fun c => ~ forbidden c) t <-> Forall vchar t).
    { intros t. rewrite !Forall_forall. split; intros H x Hx; apply vchar_spec, H, Hx. }
    rewrite Hfb, Hn, vjoin. split; (intros [H|H]; [left; exact H|right]).
    - destruct H as (r & E & Hr). apply Hfb in Hr. split; [reflexivity|]. destruct segs as [|s tl]; [congruence|]. inversion Hall; subst.
      destruct s as [|c t]; [congruence|]. destruct tl as [|q tl].
      + cbn in E. injection E as -> ->. exists r, []. repeat split; auto. constructor.
      + rewrite join_cons in E by discriminate. cbn in E. injection E as -> <-. apply Forall_app in Hr. destruct Hr as [Hr1 Hr2]. inversion Hr2; subst.
        exists t, (q :: tl). split; [reflexivity|]. split; [exact Hr1|]. apply vjoin. assumption.
    - destruct H as (_ & r & tl & E & Hr & Ht). rewrite E. destruct tl as [|q tl].
      + exists r. split; [reflexivity|]. apply Hfb, Hr.
      + rewrite join_cons by discriminate. exists (r ++ 47 :: join 47 (q :: tl)). split; [reflexivity|]. apply Hfb, Forall_app. split; [exact Hr|].
        constructor; [exact vchar47|]. apply vjoin, Ht. }
  assert (Hend : n <> [] -> (last n 0 <> 46 <-> ~ ends_with (bs ".") n)).
  { intros H. destruct (exists_last H) as (l & z & ->). rewrite last_last. split.
    - intros N [u E]. apply app_inj_tail in E. destruct E as [_ E]. cbn in E. lia.
    - intros X ->. apply X. exists l. reflexivity. }
  assert (Hl47 : Forall (fun s => s <> []) segs -> n <> [] /\ hd 0 n <> 47 /\ last n 0 <> 47).
  { intros Hall. assert (Hd : hd [] segs <> []) by (destruct segs as [|s r]; [congruence|inversion Hall; assumption]).
    assert (Hlast : last segs [] <> []).
    { destruct (exists_last Hnn) as (l & z & E). rewrite E, last_last. rewrite E in Hall. apply Forall_app in Hall. destruct Hall as [_ H]. inversion H; assumption. }
    destruct segs as [|s r] eqn:Es; [congruence|]. cbn in Hd. destruct s as [|c t]; [congruence|].
    assert (Hc : c <> 47) by (inversion Hcl; subst; intros ->; apply H1; left; reflexivity).
    split; [|split].
    - rewrite Hn. destruct r; [cbn; discriminate|rewrite join_cons by discriminate; discriminate].
    - rewrite Hn. destruct r; [cbn; exact Hc|rewrite join_cons by discriminate; exact Hc].
    - rewrite Hn, join_last by (assumption || discriminate). destruct (exists_last Hlast) as (l & z & E). rewrite E, last_last. intros ->.
      assert (Hin : In (last ((c :: t) :: r) []) ((c :: t) :: r)).
      { destruct (exists_last Hnn) as (l2 & z2 & E2). rewrite E2, last_last. apply in_or_app. right. left. reflexivity. }
      rewrite Forall_forall in Hcl. apply (Hcl _ Hin). rewrite E. apply in_or_app. right. left. reflexivity. }
  assert (Hone : Forall (fun s => s <> []) segs -> length segs = 1%nat -> (valid_normalized n (length (last segs [])) = true <-> all_caps n)).
  { intros Hall H1. destruct segs as [|s [|? ?]] eqn:Es; try discriminate. cbn [last]. cbn in Hn. subst s. inversion Hall as [|? ? Hs2 ?].
    pose proof (valid_norm_spec n [] Hs2) as HV. rewrite app_nil_r in HV. exact HV. }
  assert (Hmany : Forall (fun s => s <> []) segs -> (1 < length segs)%nat -> (valid_normalized n (length (hd [] segs)) = false <-> ~ all_caps (hd [] segs))).
  { intros Hall H1. destruct segs as [|s [|q r]] eqn:Es; try (cbn in H1; lia). cbn [hd]. inversion Hall as [|? ? Hs2 ?].
    rewrite Hn, join_cons by discriminate. rewrite <- (valid_norm_spec s (47 :: join 47 (q :: r))) by exact Hs2. rewrite not_true_iff_false. reflexivity. }
  split.
  - intros (H1 & H2 & H3 & H4 & H5 & H6 & H7 & H8). specialize (H4 eq_refl). rewrite (filter_all_true _ _ H4) in *. apply Hne_iff in H4.
    apply (ssum_spec segs H4) in H3. destruct H3 as (A & B & C). rewrite Hcomp, (Hchar H4). split; [auto|]. split; [exact C|].
    split; [rewrite Hn, count_join; exact B|]. split; [apply (Hend H2), H5|]. split.
    + intros L. destruct (H7 L) as [D1 D2]. split; [exact D1|]. rewrite <- (Hone H4 L). exact D2.
    + intros L. apply (Hmany H4 L), (H8 L).
  - intros (H1 & H2 & H3 & H4 & H5 & H6). apply Hcomp in H1. destruct H1 as [Hall H1]. destruct (Hl47 Hall) as (N0 & N1 & N2).
    assert (Hfb := proj2 Hne_iff Hall). rewrite (filter_all_true _ _ Hfb).
    split; [exact N1|]. split; [exact N0|]. split; [|split; [auto|split; [apply (Hend N0), H4|split; [exact N2|split]]]].
    + apply (ssum_spec segs Hall). split; [exact H1|]. split; [rewrite <- count_join, <- Hn; exact H3|]. apply (Hchar Hall), H2.
    + intros L. destruct (H5 L) as [D1 D2]. split; [exact D1|]. rewrite (Hone Hall L). exact D2.
    + intros L. apply (Hmany Hall L), (H6 L).
Qed.

Lemma core_norm n fl : core true n fl <-> (hd 0 n <> 47 /\ n <> [] /\ last n 0 <> 47 /\ core false (squeeze n) fl).
Proof.
  unfold squeeze. change (ch "/") with 47.
  change (fun s => negb (leqb s [])) with nempty.
  set (segs := split 47 n). set (segs' := filter nempty segs).
  assert (Hn : n = join 47 segs) by (symmetry; apply join_split).
  pose proof (split_nonnil 47 n) as Hnn. fold segs in Hnn. pose proof (split_clean 47 n) as Hcl. fold segs in Hcl.
  split.
  - intros (H1 & H2 & H3 & _ & H5 & H6 & H7 & H8). split; [exact H1|]. split; [exact H2|]. split; [exact H6|].
    fold segs in H3, H7, H8. fold segs' in H7, H8. unfold core. cbv zeta.
    assert (Hd := hd_split n H1 H2). fold segs in Hd.
    assert (Hl : last segs [] <> []).
    { destruct (Nat.eq_dec (length segs) 1) as [E|E].
      - destruct segs as [|s [|? ?]]; try discriminate. exact Hd.
      - intros El. apply H6. rewrite Hn. apply join_last_empty; [destruct segs as [|? [|? ?]]; cbn in *; congruence || lia|exact El]. }
    assert (Hs' : segs' <> [] /\ hd [] segs' = hd [] segs /\ last segs' [] = last segs []).
    { unfold segs'. destruct segs as [|s r] eqn:Es; [congruence|]. cbn [hd] in *. cbn [filter]. apply nempty_spec in Hd. rewrite Hd. split; [discriminate|]. split; [reflexivity|].
      assert (Hnil : (s :: r) <> []) by discriminate. destruct (exists_last Hnil) as (l & z & E). rewrite E in Hl |- *. rewrite last_last in *.
      assert (Hf : (s :: filter nempty r) = filter nempty (s :: r)) by (cbn; rewrite Hd; reflexivity). rewrite Hf, E, filter_app. cbn [filter]. apply nempty_spec in Hl. rewrite Hl. apply last_last. }
    destruct Hs' as (Hn' & Hhd' & Hla').
    assert (Hcl' : Forall (fun p => ~ In 47 p) segs').
    { rewrite Forall_forall in *. intros x Hx. unfold segs' in Hx. apply filter_In in Hx. apply Hcl, Hx. }
    assert (Hall' : Forall (fun s => s <> []) segs').
    { rewrite Forall_forall. intros x Hx. unfold segs' in Hx. apply filter_In in Hx. apply nempty_spec, Hx. }
    rewrite split_join by assumption.
    assert (Hff : filter nempty segs' = segs').
    { apply filter_all_true, forallb_forall. intros x Hx. rewrite Forall_forall in Hall'. apply nempty_spec, Hall', Hx. }
    rewrite Hff.
    assert (Hhn : hd 0 (join 47 segs') = hd 0 (hd [] segs') /\ join 47 segs' <> []).
    { destruct segs' as [|s r]; [congruence|]. inversion Hall' as [|? ? Hs3 ?]. destruct s; [congruence|]. destruct r; [cbn; split; [reflexivity|discriminate]|]. rewrite join_cons by discriminate. split; [reflexivity|discriminate]. }
    assert (Hhn0 : hd 0 n = hd 0 (hd [] segs)).
    { rewrite Hn. destruct segs as [|s r]; [congruence|]. cbn in Hd. destruct s; [congruence|]. destruct r; [reflexivity|]. rewrite join_cons by discriminate. reflexivity. }
    assert (Hln : last (join 47 segs') 0 = last n 0).
    { rewrite Hn, !join_last by (assumption || (rewrite Hla'; assumption)). rewrite Hla'. reflexivity. }
    destruct Hhn as [Hhn Hjn]. rewrite Hhn, Hhd', <- Hhn0. rewrite Hln. split; [exact H1|]. split; [exact Hjn|].
    split.
    { destruct segs as [|s r] eqn:Es; [congruence|]. cbn in Hd. rewrite ssum_filter_hd in H3 by exact Hd. exact H3. }
    split; [intros _; apply forallb_forall; intros x Hx; rewrite Forall_forall in Hall'; apply nempty_spec, Hall', Hx|].
    split; [exact H5|]. split; [exact H6|]. split.
    + intros L. destruct (H7 L) as [D1 D2]. split; [exact D1|]. rewrite Hla'.
      assert (Hsame : join 47 segs' = n); [|rewrite Hsame; exact D2].
      { rewrite Hn. unfold segs' in *. destruct segs as [|s r] eqn:Es; [congruence|]. cbn [hd] in Hd. cbn [filter] in L |- *. apply nempty_spec in Hd. rewrite Hd in *. cbn [length] in L.
        destruct (filter nempty r) as [|? ?] eqn:Ef; [|discriminate]. destruct r as [|q r]; [reflexivity|]. exfalso.
        assert (Hqr : q :: r <> []) by discriminate. destruct (exists_last Hqr) as (l & z & E). rewrite E in Ef, Hl. change (s :: l ++ [z]) with ((s :: l) ++ [z]) in Hl.
        rewrite last_last in Hl. rewrite filter_app in Ef. cbn [filter] in Ef. apply nempty_spec in Hl. rewrite Hl in Ef. destruct (filter nempty l); discriminate. }
    + intros L. specialize (H8 L).
      assert (Hv : forall l, l <> [] -> hd [] l <> [] -> (valid_normalized (join 47 l) (length (hd [] l)) = true <-> all_caps (hd [] l))).
      { intros l Hl1 Hl2. destruct l as [|s r]; [congruence|]. cbn [hd] in *. destruct r as [|q r].
        - pose proof (valid_norm_spec s [] Hl2) as HV. rewrite app_nil_r in HV. exact HV.
        - rewrite join_cons by discriminate. apply valid_norm_spec. exact Hl2. }
      rewrite <- not_true_iff_false in *. intros X. apply H8. rewrite Hn. apply (Hv segs Hnn Hd). rewrite <- Hhd'. rewrite <- Hhd' in X. apply (Hv segs' Hn'); [rewrite Hhd'; exact Hd|]. exact X.
  - intros (H1 & H2 & H6 & H0).
    assert (Hd := hd_split n H1 H2). fold segs in Hd.
    assert (Hl : last segs [] <> []).
    { destruct (Nat.eq_dec (length segs) 1) as [E|E].
      - destruct segs as [|s [|? ?]]; try discriminate. exact Hd.
      - intros El. apply H6. rewrite Hn. apply join_last_empty; [destruct segs as [|? [|? ?]]; cbn in *; congruence || lia|exact El]. }
    assert (Hs' : segs' <> [] /\ hd [] segs' = hd [] segs /\ last segs' [] = last segs []).
    { unfold segs'. destruct segs as [|s r] eqn:Es; [congruence|]. cbn [hd] in *. cbn [filter]. apply nempty_spec in Hd. rewrite Hd. split; [discriminate|]. split; [reflexivity|].
      assert (Hnil : (s :: r) <> []) by discriminate. destruct (exists_last Hnil) as (l & z & E). rewrite E in Hl |- *. rewrite last_last in *.
      assert (Hf : (s :: filter nempty r) = filter nempty (s :: r)) by (cbn; rewrite Hd; reflexivity). rewrite Hf, E, filter_app. cbn [filter]. apply nempty_spec in Hl. rewrite Hl. apply last_last. }
    destruct Hs' as (Hn' & Hhd' & Hla').
    assert (Hcl' : Forall (fun p => ~ In 47 p) segs').
    { rewrite Forall_forall in *. intros x Hx. unfold segs' in Hx. apply filter_In in Hx. apply Hcl, Hx. }
    assert (Hall' : Forall (fun s => s <> []) segs').
    { rewrite Forall_forall. intros x Hx. unfold segs' in Hx. apply filter_In in Hx. apply nempty_spec, Hx. }
    assert (Hff : filter nempty segs' = segs').
    { apply filter_all_true, forallb_forall. intros x Hx. rewrite Forall_forall in Hall'. apply nempty_spec, Hall', Hx. }
    unfold core in H0. cbv zeta in H0. rewrite split_join, Hff in H0 by assumption.
    destruct H0 as (_ & _ & H3 & _ & H5 & _ & H7 & H8).
    assert (Hln : last (join 47 segs') 0 = last n 0).
    { rewrite Hn, !join_last by (assumption || (rewrite Hla'; assumption)). rewrite Hla'. reflexivity. }
    unfold core. cbv zeta. fold segs. fold segs'. split; [exact H1|]. split; [exact H2|]. split.
    { destruct segs as [|s r] eqn:Es; [congruence|]. cbn in Hd. rewrite ssum_filter_hd by exact Hd. exact H3. }
    split; [discriminate|]. split; [rewrite <- Hln; exact H5|]. split; [exact H6|]. split.
    + intros L. destruct (H7 L) as [D1 D2]. split; [exact D1|]. rewrite <- Hla'.
      assert (Hsame : join 47 segs' = n); [|rewrite <- Hsame; exact D2].
      { rewrite Hn. unfold segs' in *. destruct segs as [|s r] eqn:Es; [congruence|]. cbn [hd] in Hd. cbn [filter] in L |- *. apply nempty_spec in Hd. rewrite Hd in *. cbn [length] in L.
        destruct (filter nempty r) as [|? ?] eqn:Ef; [|discriminate]. destruct r as [|q r]; [reflexivity|]. exfalso.
        assert (Hqr : q :: r <> []) by discriminate. destruct (exists_last Hqr) as (l & z & E). rewrite E in Ef, Hl. change (s :: l ++ [z]) with ((s :: l) ++ [z]) in Hl.
        rewrite last_last in Hl. rewrite filter_app in Ef. cbn [filter] in Ef. apply nempty_spec in Hl. rewrite Hl in Ef. destruct (filter nempty l); discriminate. }
    + intros L. specialize (H8 L).
      assert (Hv : forall l, l <> [] -> hd [] l <> [] -> (valid_normalized (join 47 l) (length (hd [] l)) = true <-> all_caps (hd [] l))).
      { intros l Hl1 Hl2. destruct l as [|s r]; [congruence|]. cbn [hd] in *. destruct r as [|q r].
        - pose proof (valid_norm_spec s [] Hl2) as HV. rewrite app_nil_r in HV. exact HV.
        - rewrite join_cons by discriminate. apply valid_norm_spec. exact Hl2. }
      rewrite <- not_true_iff_false in *. intros X. apply H8. apply (Hv segs' Hn'); [rewrite Hhd'; exact Hd|]. rewrite Hhd'. apply (Hv segs Hnn Hd). rewrite <- Hn. exact X.
Qed.
