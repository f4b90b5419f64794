From Verif Require Import Base Str CrlfModel CrlfSpec.

Lemma memchr_spec c s : match memchr c s with
  | None => ~ In c s
  | Some n => (n < length s)%nat /\ s = firstn n s ++ c :: skipn (S n) s /\ ~ In c (firstn n s)
  end.
Proof.
  induction s as [|x s IH]; cbn [memchr]; [intros []|].
  destruct (Z.eqb_spec x c) as [->|Hx].
  - cbn. split; [lia|]. split; [reflexivity|intros []].
  - destruct (memchr c s) as [n|]; cbn [option_map].
    + destruct IH as (H1 & H2 & H3). split; [cbn; lia|]. split.
      * cbn [firstn skipn app]. f_equal. exact H2.
      * cbn [firstn]. intros [H|H]; auto.
    + intros [H|H]; auto.
Qed.

Lemma unix_cons c r : unix (c :: r) = if (c =? 13) && starts 10 r then unix r else c :: unix r.
Proof. destruct r as [|d r]; [cbn; rewrite andb_false_r; reflexivity|reflexivity]. Qed.
Lemma unix_nocr u r : ~ In 13 u -> unix (u ++ r) = u ++ unix r.
Proof.
  induction u as [|x u IH]; intros H; [reflexivity|]. cbn [app]. rewrite unix_cons.
  destruct (Z.eqb_spec x 13) as [->|]; [exfalso; apply H; left; reflexivity|]. cbn [andb]. f_equal. apply IH. intros Hi. apply H. right. exact Hi.
Qed.
Lemma to_lf_eq f : forall scan out, (length scan < f)%nat -> to_lf_loop f scan out = Ok (out ++ unix scan).
Proof.
  induction f as [|f IH]; intros scan out Hf; [lia|]. cbn [to_lf_loop].
  assert (M := memchr_spec 13 scan). destruct (memchr 13 scan) as [n|].
  - destruct M as (H1 & H2 & H3). rewrite IH by (rewrite skipn_length; lia).
    rewrite H2 at 4. rewrite unix_nocr by assumption. rewrite unix_cons. change (13 =? 13) with true. cbn [andb].
    destruct (starts 10 (skipn (S n) scan)); rewrite <- !app_assoc; reflexivity.
  - f_equal. f_equal. rewrite <- (app_nil_r scan) at 2. rewrite unix_nocr by assumption. cbn. rewrite app_nil_r. reflexivity.
Qed.

Lemma dos_chunk u : forall prev r, ~ In 10 u ->
  dos prev (u ++ 10 :: r) = u ++ (if last u prev =? 13 then [10] else [13; 10]) ++ dos 10 r.
Proof.
  induction u as [|x u IH]; intros prev r H.
  - cbn [app dos last]. change (10 =? 10) with true. cbn [andb]. destruct (prev =? 13); reflexivity.
  - cbn [app dos]. destruct (Z.eqb_spec x 10) as [->|]; [exfalso; apply H; left; reflexivity|]. cbn [andb].
    rewrite IH by (intros Hi; apply H; right; exact Hi). f_equal. f_equal.
    destruct u; [reflexivity|]. cbn [last]. destruct u; [reflexivity|]. f_equal. f_equal. f_equal. clear. revert z0. induction u as [|a u IHu]; intros z0; [reflexivity|]. cbn [last] in *. apply IHu.
Qed.
Lemma dos_nolf s : forall prev, ~ In 10 s -> dos prev s = s.
Proof.
  induction s as [|x s IH]; intros prev H; [reflexivity|]. cbn [dos].
  destruct (Z.eqb_spec x 10) as [->|]; [exfalso; apply H; left; reflexivity|]. cbn [andb]. f_equal. apply IH. intros Hi. apply H. right. exact Hi.
Qed.
Lemma last_snoc (u : list Z) c d : last (u ++ [c]) d = c.
Proof. induction u as [|x u IH]; [reflexivity|]. cbn [app]. destruct (u ++ [c]) eqn:E; [destruct u; discriminate|]. exact IH. Qed.
Lemma cut_cr_eq u prev : prev <> 13 -> cut_cr u ++ [13; 10] = u ++ (if last u prev =? 13 then [10] else [13; 10]).
Proof.
  intros Hp. unfold cut_cr. destruct u as [|a u0] eqn:E.
  - cbn. destruct (Z.eqb_spec prev 13); [contradiction|reflexivity].
  - destruct (exists_last (l := a :: u0)) as (v & c & ->); [discriminate|].
    rewrite rev_app_distr. cbn [rev app starts]. rewrite last_snoc. destruct (Z.eqb_spec c 13) as [->|]; [|reflexivity].
    cbn [tl]. rewrite rev_involutive, <- app_assoc. reflexivity.
Qed.
Lemma to_crlf_eq f : forall scan out prev, prev <> 13 -> (length scan < f)%nat -> to_crlf_loop f scan out = Ok (out ++ dos prev scan).
Proof.
  induction f as [|f IH]; intros scan out prev Hp Hf; [lia|]. cbn [to_crlf_loop].
  assert (M := memchr_spec 10 scan). destruct (memchr 10 scan) as [n|].
  - destruct M as (H1 & H2 & H3). rewrite (IH _ _ 10) by (rewrite ?skipn_length; lia).
    rewrite H2 at 3. rewrite dos_chunk by assumption. rewrite (cut_cr_eq _ prev) by assumption. rewrite <- !app_assoc. reflexivity.
  - rewrite dos_nolf by assumption. reflexivity.
Qed.
Lemma crlf_to_lf_eq s : crlf_to_lf s = Ok (unix s).
Proof. unfold crlf_to_lf. rewrite to_lf_eq by lia. reflexivity. Qed.
Lemma lf_to_crlf_eq s : lf_to_crlf s = Ok (dos 0 s).
Proof. unfold lf_to_crlf. rewrite (to_crlf_eq _ _ _ 0) by lia. reflexivity. Qed.

(** *** unix and dos *)
Lemma starts_dos p s : starts 10 (dos p s) = starts 10 s && (p =? 13).
Proof. destruct s as [|c s]; [reflexivity|]. cbn [dos starts]. destruct (Z.eqb_spec c 10) as [->|]; cbn [andb].
  - destruct (p =? 13); reflexivity.
  - cbn [starts]. destruct (Z.eqb_spec c 10); [contradiction|reflexivity]. Qed.
(** LF text to CRLF and back *)
Lemma unix_dos s : forall p, p <> 13 -> ~ In 13 s -> unix (dos p s) = s.
Proof.
  induction s as [|c s IH]; intros p Hp H; [reflexivity|]. cbn [dos].
  assert (c <> 13) by (intros ->; apply H; left; reflexivity). assert (~ In 13 s) by (intros Hi; apply H; right; exact Hi).
  destruct (Z.eqb_spec p 13); [contradiction|]. cbn [negb]. rewrite andb_true_r. destruct (Z.eqb_spec c 10) as [->|].
  - rewrite unix_cons. cbn [starts]. change ((13 =? 13) && (10 =? 10)) with true. cbv iota.
    rewrite unix_cons. change (10 =? 13) with false. cbn [andb]. f_equal. apply IH; [lia|assumption].
  - rewrite unix_cons. destruct (Z.eqb_spec c 13); [contradiction|]. cbn [andb]. f_equal. apply IH; assumption.
Qed.
(** CRLF text to LF and back *)
Lemma pairs_cons c r : pairs (c :: r) = ((if ((c =? 13) && starts 10 r)%Z then 1 else 0) + pairs r)%nat.
Proof. destruct r; [cbn; rewrite andb_false_r; reflexivity|reflexivity]. Qed.
Lemma num_cons c x s : num c (x :: s) = ((if (x =? c)%Z then 1 else 0) + num c s)%nat.
Proof. unfold num. cbn. destruct (Z.eq_dec x c), (Z.eqb_spec x c); try contradiction; reflexivity. Qed.
Lemma pairs_le_lf s : (pairs s + (if starts 10 s then 1 else 0) <= num 10 s)%nat.
Proof.
  induction s as [|c s IH]; [reflexivity|]. rewrite pairs_cons, num_cons. cbn [starts].
  destruct (Z.eqb_spec c 10) as [->|]; [change (10 =? 13) with false; cbn [andb]; destruct (starts 10 s); lia|].
  destruct (Z.eqb_spec c 13); cbn [andb]; destruct (starts 10 s); lia.
Qed.
Lemma pairs_le_cr s : (pairs s <= num 13 s)%nat.
Proof. induction s as [|c s IH]; [reflexivity|]. rewrite pairs_cons, num_cons. destruct (c =? 13), (starts 10 s); cbn [andb]; lia. Qed.
Lemma dos_unix_aux k : forall s p, (length s <= k)%nat -> p <> 13 -> pairs s = num 10 s -> pairs s = num 13 s -> dos p (unix s) = s.
Proof.
  induction k as [|k IH]; intros s p Hk Hp H1 H2; [destruct s; [reflexivity|cbn in Hk; lia]|].
  destruct s as [|c s]; [reflexivity|].
  rewrite pairs_cons in *. rewrite num_cons in *. rewrite unix_cons.
  assert (L1 := pairs_le_lf s). assert (L2 := pairs_le_cr s).
  destruct (Z.eqb_spec c 13) as [->|Hc].
  - change (13 =? 10) with false in H1. destruct (starts 10 s) eqn:Es; cbn [andb] in *; [|exfalso; lia].
    destruct s as [|d s]; [discriminate|]. cbn [starts] in Es. apply Z.eqb_eq in Es. subst d.
    rewrite pairs_cons in *. rewrite !num_cons in *. change (10 =? 13) with false in *. change (10 =? 10) with true in *. cbn [andb] in *.
    rewrite unix_cons. change (10 =? 13) with false. cbn [andb dos]. change (10 =? 10) with true.
    destruct (Z.eqb_spec p 13); [contradiction|]. cbn [andb negb].
    f_equal. f_equal. apply IH; [cbn in Hk; lia|lia|lia|lia].
  - cbn [andb] in *. destruct (Z.eqb_spec c 10) as [->|Hc2]; [exfalso; destruct (starts 10 s); lia|].
    cbn [dos]. destruct (Z.eqb_spec c 10); [contradiction|]. cbn [andb]. f_equal. apply IH; [cbn in Hk; lia|lia|lia|lia].
Qed.
Lemma dos_unix s p : p <> 13 -> pairs s = num 10 s -> pairs s = num 13 s -> dos p (unix s) = s.
Proof. apply (dos_unix_aux (length s)). lia. Qed.

(** *** Statistics *)
Lemma count_spec s : forall a,
  let b := count s a in
  st_cr b = st_cr a + Z.of_nat (num 13 s) /\ st_lf b = st_lf a + Z.of_nat (num 10 s) /\ st_crlf b = st_crlf a + Z.of_nat (pairs s).
Proof.
  induction s as [|c s IH]; intros [nul cr lf crlf p np]; [cbn; lia|].
  cbn [count]. rewrite pairs_cons, !num_cons.
  cbv zeta in *. match goal with |- context [count s ?a1] => specialize (IH a1) end.
  destruct IH as (I1 & I2 & I3). rewrite I1, I2, I3. clear I1 I2 I3.
  destruct ((31 <? c) && negb (c =? 127)) eqn:E0.
  { assert ((c =? 13) = false) as -> by lia. assert ((c =? 10) = false) as -> by lia. cbn. lia. }
  destruct (Z.eqb_spec c 0) as [->|]; [cbn; lia|].
  destruct (Z.eqb_spec c 10) as [->|]; [cbn [Z.eqb Pos.eqb andb st_cr st_lf st_crlf]; lia|].
  destruct (Z.eqb_spec c 13) as [->|].
  { cbn [andb st_cr st_lf st_crlf]. destruct (starts 10 s); lia. }
  destruct ((c =? 9) || (c =? 12) || (c =? 11) || (c =? 8) || (c =? 27)); cbn [andb st_cr st_lf st_crlf]; lia.
Qed.
Lemma without_eof_cases s : without_eof s = s \/ s = without_eof s ++ [26].
Proof.
  unfold without_eof. destruct s as [|a s0] eqn:E; [left; reflexivity|].
  destruct (exists_last (l := a :: s0)) as (v & c & ->); [discriminate|]. rewrite rev_app_distr. cbn [rev app starts].
  destruct (Z.eqb_spec c 26) as [->|]; [right|left; reflexivity]. cbn [tl]. rewrite rev_involutive. reflexivity.
Qed.
Lemma pairs_app26 s : pairs (s ++ [26]) = pairs s.
Proof.
  induction s as [|c s IH]; [reflexivity|]. cbn [app]. rewrite !pairs_cons, IH. f_equal. f_equal. f_equal. destruct s; reflexivity.
Qed.
Lemma num_app c s t : num c (s ++ t) = (num c s + num c t)%nat.
Proof. unfold num. apply count_occ_app. Qed.
Lemma gather_spec s : st_cr (gather s) = Z.of_nat (num 13 s) /\ st_lf (gather s) = Z.of_nat (num 10 s) /\ st_crlf (gather s) = Z.of_nat (pairs s).
Proof.
  unfold gather. assert (C := count_spec (without_eof s) (mkst 0 0 0 0 0 0)). cbv zeta in C. cbn [st_cr st_lf st_crlf] in C.
  destruct (without_eof_cases s) as [E|E].
  - rewrite E in *. lia.
  - assert (num 13 s = num 13 (without_eof s)) by (rewrite E at 1; rewrite num_app; cbn; lia).
    assert (num 10 s = num 10 (without_eof s)) by (rewrite E at 1; rewrite num_app; cbn; lia).
    assert (pairs s = pairs (without_eof s)) by (rewrite E at 1; rewrite pairs_app26; reflexivity). lia.
Qed.

(** Other counters do not see CRs and LFs. *)
Lemma count_other s : forall a, let b := count s a in
  (st_nul b, st_printable b, st_nonprintable b) =
  fold_left (fun '(n, p, q) c =>
     if (31 <? c) && negb (c =? 127) then (n, p + 1, q)
     else if c =? 0 then (n + 1, p, q + 1)
     else if c =? 10 then (n, p, q) else if c =? 13 then (n, p, q)
     else if (c =? 9) || (c =? 12) || (c =? 11) || (c =? 8) || (c =? 27) then (n, p + 1, q)
     else (n, p, q + 1)) s (st_nul a, st_printable a, st_nonprintable a).
Proof.
  induction s as [|c s IH]; intros [nul cr lf crlf p np]; [reflexivity|].
  cbn [count fold_left]. cbv zeta in *. rewrite IH. f_equal. cbn [st_nul st_printable st_nonprintable].
  destruct ((31 <? c) && negb (c =? 127)); [reflexivity|]. destruct (c =? 0); [reflexivity|]. destruct (c =? 10); [reflexivity|].
  destruct (c =? 13); [reflexivity|]. destruct ((c =? 9) || (c =? 12) || (c =? 11) || (c =? 8) || (c =? 27)); reflexivity.
Qed.
Lemma fold_unix (A : Type) (g : A -> Z -> A) : (forall a, g a 13 = a) -> forall s a, fold_left g (unix s) a = fold_left g s a.
Proof.
  intros Hg s. induction s as [|c s IH]; intros a; [reflexivity|]. rewrite unix_cons. cbn [fold_left].
  destruct (Z.eqb_spec c 13) as [->|]; cbn [andb]; [|cbn [fold_left]; apply IH].
  destruct (starts 10 s); cbn [fold_left]; rewrite ?Hg; rewrite IH; rewrite ?Hg; reflexivity.
Qed.
Lemma unix_app26 s : unix (s ++ [26]) = unix s ++ [26].
Proof.
  induction s as [|c s IH]; [reflexivity|]. cbn [app]. rewrite !unix_cons, IH.
  assert (starts 10 (s ++ [26]) = starts 10 s) as -> by (destruct s; reflexivity).
  destruct ((c =? 13) && starts 10 s); reflexivity.
Qed.
Lemma last_unix s d : last (unix s) d = last s d.
Proof.
  induction s as [|c s IH]; [reflexivity|]. rewrite unix_cons.
  assert (s <> [] -> unix s <> []).
  { clear. intros H E. destruct s as [|c s]; [congruence|]. rewrite unix_cons in E. destruct ((c =? 13) && starts 10 s) eqn:X; [|discriminate].
    destruct s as [|e s]; [rewrite andb_false_r in X; discriminate|]. cbn [starts] in X. rewrite unix_cons in E.
    destruct (Z.eqb_spec e 13); [lia|]. cbn [andb] in E. discriminate. }
  destruct s as [|e s]; [cbn [starts]; rewrite andb_false_r; reflexivity|].
  specialize (H ltac:(discriminate)).
  destruct ((c =? 13) && starts 10 (e :: s)).
  - rewrite IH. reflexivity.
  - cbn [last]. destruct (unix (e :: s)); [congruence|exact IH].
Qed.
Lemma without_eof_unix s : without_eof (unix s) = unix (without_eof s).
Proof.
  destruct s as [|a s0] eqn:E; [reflexivity|]. rewrite <- E.
  assert (Hne : s <> []) by (rewrite E; discriminate).
  destruct (exists_last Hne) as (v & c & Ev).
  destruct (Z.eqb_spec c 26) as [->|Hc].
  - assert (without_eof s = v) as -> by (unfold without_eof; rewrite Ev, rev_app_distr; cbn; apply rev_involutive).
    rewrite Ev, unix_app26. unfold without_eof. rewrite rev_app_distr. cbn. apply rev_involutive.
  - assert (without_eof s = s) as -> by (unfold without_eof; rewrite Ev, rev_app_distr; cbn [rev app starts]; destruct (Z.eqb_spec c 26); [contradiction|reflexivity]).
    unfold without_eof. assert (L := last_unix s 0).
    destruct (unix s) as [|x xs] eqn:Eu; [reflexivity|].
    destruct (exists_last (l := x :: xs)) as (w & e & Ew); [discriminate|]. rewrite Ew in *. rewrite last_snoc in L. rewrite Ev, last_snoc in L. subst e.
    rewrite rev_app_distr. cbn [rev app starts]. destruct (Z.eqb_spec c 26); [contradiction|reflexivity].
Qed.
Lemma gather_unix_other s : (st_nul (gather (unix s)), st_printable (gather (unix s)), st_nonprintable (gather (unix s))) =
  (st_nul (gather s), st_printable (gather s), st_nonprintable (gather s)).
Proof.
  unfold gather. rewrite without_eof_unix.
  assert (C1 := count_other (unix (without_eof s)) (mkst 0 0 0 0 0 0)). assert (C2 := count_other (without_eof s) (mkst 0 0 0 0 0 0)). cbv zeta in *.
  rewrite C1, C2. apply fold_unix. intros [[n p] q]. reflexivity.
Qed.
Lemma num_unix c s : c <> 13 -> num c (unix s) = num c s.
Proof.
  intros Hc. induction s as [|x s IH]; [reflexivity|]. rewrite unix_cons, num_cons. destruct (Z.eqb_spec x 13) as [->|]; cbn [andb].
  - destruct (Z.eqb_spec 13 c); [congruence|]. destruct (starts 10 s); [exact IH|]. rewrite num_cons, IH. destruct (Z.eqb_spec 13 c); [congruence|reflexivity].
  - rewrite num_cons, IH. reflexivity.
Qed.
Lemma num_unix_cr s : (num 13 (unix s) + pairs s = num 13 s)%nat.
Proof.
  induction s as [|x s IH]; [reflexivity|]. rewrite unix_cons, num_cons, pairs_cons. destruct (Z.eqb_spec x 13) as [->|Hx]; cbn [andb].
  - destruct (starts 10 s); [lia|]. rewrite num_cons. change (13 =? 13) with true. cbv iota. lia.
  - rewrite num_cons. destruct (Z.eqb_spec x 13); [contradiction|]. lia.
Qed.
Lemma unix_nopairs s : pairs s = 0%nat -> unix s = s.
Proof.
  induction s as [|c s IH]; intros H; [reflexivity|]. rewrite pairs_cons in H. rewrite unix_cons. destruct ((c =? 13) && starts 10 s) eqn:E; [discriminate|]. f_equal. apply IH. exact H.
Qed.

Lemma count_nul s : forall a, st_nul (count s a) = st_nul a + Z.of_nat (num 0 s).
Proof.
  induction s as [|c s IH]; intros [nul cr lf crlf p np]; [cbn; lia|].
  cbn [count]. rewrite IH, num_cons.
  destruct ((31 <? c) && negb (c =? 127)) eqn:E0.
  { assert ((c =? 0) = false) as -> by lia. cbn. lia. }
  destruct (Z.eqb_spec c 0) as [->|]; [cbn [st_nul]; lia|].
  destruct (c =? 10); [cbn [st_nul]; lia|]. destruct (c =? 13); [cbn [st_nul]; lia|].
  destruct ((c =? 9) || (c =? 12) || (c =? 11) || (c =? 8) || (c =? 27)); cbn [st_nul]; lia.
Qed.
Lemma gather_nul s : In 0 s -> 0 < st_nul (gather s).
Proof.
  intros H. unfold gather. rewrite count_nul. cbn [st_nul].
  assert (In 0 (without_eof s)).
  { destruct (without_eof_cases s) as [E|E]; [rewrite E; exact H|]. rewrite E in H. apply in_app_or in H as [H|[H|[]]]; [exact H|discriminate]. }
  unfold num. assert (count_occ Z.eq_dec (without_eof s) 0%Z > 0)%nat by (apply count_occ_In; assumption). lia.
Qed.
Lemma num_zero c s : num c s = 0%nat <-> ~ In c s.
Proof. unfold num. symmetry. apply count_occ_not_In. Qed.
Lemma dos_pairs s : forall p, (pairs (dos p s) + (if starts 10 (dos p s) then 1 else 0) = num 10 (dos p s))%nat.
Proof.
  induction s as [|c s IH]; intros p; [reflexivity|]. cbn [dos].
  destruct ((c =? 10) && negb (p =? 13)) eqn:E.
  - rewrite !pairs_cons, !num_cons. cbn [starts]. change (13 =? 13) with true. change (10 =? 10) with true. change (10 =? 13) with false. change (13 =? 10) with false. cbn [andb].
    specialize (IH 10). rewrite starts_dos in IH. change (10 =? 13) with false in IH. rewrite andb_false_r in IH. lia.
  - rewrite pairs_cons, num_cons. cbn [starts]. specialize (IH c). rewrite starts_dos in *.
    destruct (Z.eqb_spec c 10) as [->|]; [change (10 =? 13) with false in *; rewrite andb_false_r in IH; cbn [andb]; lia|].
    destruct (Z.eqb_spec c 13) as [->|]; cbn [andb] in *; [rewrite andb_true_r in *; destruct (starts 10 s); lia|rewrite andb_false_r in IH; lia].
Qed.
Lemma dos_id_aux s : forall p, num 10 s = (pairs s + (if starts 10 s && (p =? 13)%Z then 1 else 0))%nat -> dos p s = s.
Proof.
  induction s as [|c s IH]; intros p H; [reflexivity|]. rewrite pairs_cons, num_cons in H. cbn [starts] in H. cbn [dos].
  assert (L := pairs_le_lf s).
  destruct (Z.eqb_spec c 10) as [->|Hc]; cbn [andb] in *.
  - change (10 =? 13) with false in H. cbn [andb] in H. destruct (p =? 13) eqn:Ep; cbn [negb]; [|exfalso; lia].
    f_equal. apply IH. change (10 =? 13) with false. rewrite andb_false_r. lia.
  - f_equal. apply IH. destruct (Z.eqb_spec c 13) as [->|]; cbn [andb] in H; rewrite ?andb_true_r, ?andb_false_r; [|lia]. destruct (starts 10 s); lia.
Qed.
Lemma dos_id s : num 10 s = pairs s -> dos 0 s = s.
Proof. intros H. apply dos_id_aux. change (0 =? 13) with false. rewrite andb_false_r. lia. Qed.
