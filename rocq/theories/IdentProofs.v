From Verif Require Import Base CStr Str WildModel FheadModel FheadProofs IdentModel IdentSpec.

Lemma strsep_some s p r : strsep 36 s = Some (p, r) -> s = p ++ 36 :: r /\ ~ In 36 p.
Proof.
  intros H. split; [apply strsep_cut, H|]. revert p H. induction s as [|x s IH]; intros p; cbn [strsep]; [discriminate|].
  destruct (Z.eqb_spec x 36); [intros H; injection H as <- _; intros []|]. destruct (strsep 36 s) as [[p' r']|]; [|discriminate]. intros H. injection H as <- <-. intros [K|K]; [congruence|]. exact (IH p' eq_refl K).
Qed.
Lemma strsep_none s : strsep 36 s = None -> ~ In 36 s.
Proof.
  induction s as [|x s IH]; cbn [strsep In]; [auto|]. destruct (Z.eqb_spec x 36); [discriminate|]. destruct (strsep 36 s) as [[p' r']|]; [discriminate|]. intros _ [K|K]; [congruence|]. exact (IH eq_refl K).
Qed.
(** Two cuts at a dollar, the first one without a dollar before it. *)
Lemma cut_two (p r q t : list Z) : ~ In 36 p -> p ++ 36 :: r = q ++ 36 :: t -> (q = p /\ r = t) \/ exists u, q = p ++ 36 :: u /\ r = u ++ 36 :: t.
Proof.
  revert q. induction p as [|x p IH]; intros q N E; destruct q as [|y q]; cbn [app] in E.
  - injection E as ->. auto.
  - injection E as <- ->. right. exists q. auto.
  - injection E as -> _. exfalso. apply N. left. reflexivity.
  - injection E as <- E. destruct (IH q) as [[-> ->]|(u & -> & ->)]; [intros K; apply N; right; exact K|exact E|auto|right; exists u; auto].
Qed.
Lemma id_app a r : a ++ bs "$Id" ++ r = a ++ 36 :: (bs "Id" ++ r).
Proof. reflexivity. Qed.
Lemma prefix_id r : prefixb (bs "Id") r = true <-> exists t, r = bs "Id" ++ t.
Proof. apply prefixb_spec. Qed.

(** A text with the keyword. *)
Lemma loop_keyword t : (1 <= length t)%nat -> forall fuel s q acc last, (length s < fuel)%nat -> first_id s q t ->
  id_loop fuel acc s last = Some (acc ++ q, bs "Id" ++ t).
Proof.
  intros Ht. induction fuel as [|f IH]; intros s q acc last Hf [E F]; [lia|]. cbn [id_loop].
  assert (L : (4 <= length s)%nat) by (rewrite E, !app_length; change (length (bs "$Id")) with 3%nat; lia).
  destruct (Nat.leb_spec (length s) 3); [lia|]. destruct (strsep 36 s) as [[p r]|] eqn:S.
  - apply strsep_some in S. destruct S as [Es N]. rewrite Es in E. rewrite id_app in E. pose proof E as E0. apply cut_two in E; [|exact N]. destruct E as [[-> ->]|(u & -> & ->)].
    + rewrite app_length. change (length (bs "Id")) with 2%nat. destruct (Nat.ltb_spec (2 + length t) 3); [lia|]. rewrite prefixb_app. reflexivity.
    + rewrite app_length. cbn [length]. rewrite app_length. change (length (bs "Id")) with 2%nat. destruct (Nat.ltb_spec (length u + S (2 + length t)) 3); [lia|].
      destruct (prefixb (bs "Id") (u ++ 36 :: bs "Id" ++ t)) eqn:P.
      * exfalso. apply prefix_id in P. destruct P as [w P]. specialize (F p w). rewrite Es, P in F. specialize (F eq_refl). rewrite app_length in F. cbn [length] in F. lia.
      * rewrite (IH (u ++ 36 :: bs "Id" ++ t) u).
        -- rewrite <- !app_assoc. reflexivity.
        -- rewrite Es, !app_length in Hf. cbn [length] in Hf. rewrite app_length in *. cbn [length] in *. lia.
        -- split; [reflexivity|]. intros a' r' Ea. specialize (F (p ++ 36 :: a') r'). rewrite Es, Ea in F. rewrite <- app_assoc in F. specialize (F eq_refl). rewrite !app_length in F. cbn [length] in F. lia.
  - apply strsep_none in S. exfalso. apply S. rewrite E, !in_app_iff. right. left. left. reflexivity.
Qed.
Lemma find_keyword s a m b : keyword s a m b -> find_id s = Some (a, b).
Proof.
  intros [F N]. unfold find_id. rewrite (loop_keyword (m ++ bs "$" ++ b)) with (q := a); [|rewrite !app_length; change (length (bs "$")) with 1%nat; lia|lia|exact F].
  cbn [app]. change (skipn 2 (bs "Id" ++ m ++ bs "$" ++ b)) with (m ++ 36 :: b). rewrite strsep_app by exact N. reflexivity.
Qed.
(** A text with an odd end. *)
Lemma loop_odd x y : forall fuel s q acc last, (length s < fuel)%nat -> no_id s -> s = q ++ [36; x; y; 36] -> id_loop fuel acc s last = Some (acc ++ q, [x; y; 36]).
Proof.
  induction fuel as [|f IH]; intros s q acc last Hf F E; [lia|]. cbn [id_loop].
  assert (L : (4 <= length s)%nat) by (rewrite E, app_length; cbn [length]; lia).
  destruct (Nat.leb_spec (length s) 3); [lia|]. destruct (strsep 36 s) as [[p r]|] eqn:S.
  - apply strsep_some in S. destruct S as [Es N]. rewrite Es in E. apply cut_two in E; [|exact N].
    assert (NP : prefixb (bs "Id") r = false).
    { destruct (prefixb (bs "Id") r) eqn:P; [|reflexivity]. exfalso. apply prefix_id in P. destruct P as [w P]. apply (F p w). rewrite Es, P. reflexivity. }
    rewrite NP. destruct E as [[-> ->]|(u & -> & ->)].
    + cbn [length Nat.ltb Nat.leb]. destruct f as [|f]; [lia|]. reflexivity.
    + rewrite app_length. cbn [length]. destruct (Nat.ltb_spec (length u + 4) 3); [lia|]. rewrite (IH (u ++ [36; x; y; 36]) u).
      * rewrite <- !app_assoc. reflexivity.
      * rewrite Es, !app_length in Hf. cbn [length] in Hf. rewrite app_length in *. cbn [length] in *. lia.
      * intros a' r' Ea. apply (F (p ++ 36 :: a') r'). rewrite Es, Ea, <- app_assoc. reflexivity.
      * reflexivity.
  - apply strsep_none in S. exfalso. apply S. rewrite E, in_app_iff. right. left. reflexivity.
Qed.
Lemma find_odd s a : odd_end s a -> find_id s = Some (a, []).
Proof.
  intros [N (x & y & E)]. unfold find_id. rewrite (loop_odd x y) with (q := a); [|lia|exact N|exact E]. reflexivity.
Qed.
(** Nothing else is found. *)
Definition late (s : list Z) : Prop := forall a' r', s = a' ++ bs "$Id" ++ r' -> r' = [].
Lemma occ_cut (p r a' r' : list Z) : ~ In 36 p -> prefixb (bs "Id") r = false -> p ++ 36 :: r = a' ++ bs "$Id" ++ r' -> exists u, a' = p ++ 36 :: u /\ r = u ++ bs "$Id" ++ r'.
Proof.
  intros N P E. rewrite id_app in E. apply cut_two in E; [|exact N]. destruct E as [[-> ->]|(u & -> & ->)]; [rewrite prefixb_app in P; discriminate|]. exists u. auto.
Qed.
Lemma loop_found : forall fuel s acc last a r, id_loop fuel acc s last = Some (a, r) ->
  (exists q t, a = acc ++ q /\ r = bs "Id" ++ t /\ first_id s q t) \/
  (late s /\ length r = 3%nat /\ ((exists q, a = acc ++ q /\ s = q ++ 36 :: r) \/ (last = Some a /\ s = r))).
Proof.
  induction fuel as [|f IH]; intros s acc last a r; cbn [id_loop]; [discriminate|].
  destruct (Nat.leb_spec (length s) 3) as [L|L].
  - destruct (Nat.ltb_spec (length s) 3) as [L3|L3]; [discriminate|]. destruct last as [a0|]; [|discriminate]. intros H. injection H as <- <-. right. split; [|split; [lia|auto]].
    intros a' r' E. rewrite E, !app_length in L. change (length (bs "$Id")) with 3%nat in L. destruct r'; [reflexivity|]. cbn [length] in L. lia.
  - destruct (strsep 36 s) as [[p r0]|] eqn:S; [|discriminate]. apply strsep_some in S. destruct S as [Es N]. destruct (Nat.ltb_spec (length r0) 3) as [L3|L3]; [discriminate|].
    destruct (prefixb (bs "Id") r0) eqn:P.
    + intros H. injection H as <- <-. left. apply prefix_id in P. destruct P as [t ->]. exists p, t. split; [reflexivity|]. split; [reflexivity|]. split; [exact Es|].
      intros a' r' E. rewrite Es, id_app in E. apply cut_two in E; [|exact N]. destruct E as [[-> _]|(u & -> & _)]; [lia|rewrite app_length; lia].
    + intros H. destruct (IH _ _ _ _ _ H) as [(q & t & -> & -> & E & F)|(F & L' & K)].
      * left. exists (p ++ 36 :: q), t. split; [rewrite <- !app_assoc; reflexivity|]. split; [reflexivity|]. split; [rewrite Es, E, <- app_assoc; reflexivity|].
        intros a' r' E'. rewrite Es in E'. apply occ_cut in E'; [|exact N|exact P]. destruct E' as (u & -> & E'). specialize (F u r' E'). rewrite !app_length. cbn [length]. lia.
      * right. split; [|split; [exact L'|left]].
        -- intros a' r' E'. rewrite Es in E'. apply occ_cut in E'; [|exact N|exact P]. destruct E' as (u & -> & E'). exact (F u r' E').
        -- destruct K as [(q & -> & ->)|[K ->]]; [exists (p ++ 36 :: q); rewrite <- !app_assoc; auto|]. exists p. injection K as <-. auto.
Qed.
Lemma find_cases s a b : find_id s = Some (a, b) -> (exists m, keyword s a m b) \/ (odd_end s a /\ b = []).
Proof.
  unfold find_id. destruct (id_loop _ [] s None) as [[a0 r]|] eqn:E; [|discriminate]. destruct (strsep 36 (skipn 2 r)) as [[m b0]|] eqn:S; [|discriminate]. intros H. injection H as <- <-.
  apply strsep_some in S. destruct S as [S N]. destruct (loop_found _ _ _ _ _ _ E) as [(q & t & -> & -> & F)|(F & L & K)].
  - left. change (skipn 2 (bs "Id" ++ t)) with t in S. exists m. split; [|exact N]. rewrite S in F. exact F.
  - right. destruct r as [|x [|y [|z [|? ?]]]]; try discriminate L. change (skipn 2 [x; y; z]) with [z] in S. destruct m as [|? m]; [|destruct m; discriminate S]. cbn [app] in S. injection S as -> <-.
    split; [|reflexivity]. destruct K as [(q & -> & K)|[K _]]; [|discriminate]. split; [|exists x, y; exact K].
    intros a' r' E'. pose proof (F a' r' E') as ->. rewrite app_nil_r in E'. rewrite K in E'. change (bs "$Id") with ([36; 73] ++ [100]) in E'. rewrite app_assoc in E'. change (q ++ [36; x; y; 36]) with (q ++ [36; x; y] ++ [36]) in E'. rewrite app_assoc in E'. apply app_inj_tail in E'. destruct E' as [_ E']. discriminate E'.
Qed.

(** *** Binary or not *)
Lemma count_app p s t : count p (s ++ t) = count p s + count p t.
Proof. induction s as [|c s IH]; cbn [app count]; [reflexivity|]. rewrite IH. lia. Qed.
Lemma prefix_dollar P : ~ In 36 P -> forall a w, prefixb P (a ++ 36 :: w) = prefixb P a.
Proof.
  induction P as [|x P IH]; [destruct a; reflexivity|]. cbn [In]. intros N a w. destruct a as [|y a]; cbn [app prefixb].
  - destruct (Z.eqb_spec x 36); [tauto|reflexivity].
  - rewrite IH by tauto. reflexivity.
Qed.
Lemma bom_dollar a w : bom (a ++ 36 :: w) = bom a.
Proof. unfold bom. rewrite !prefix_dollar by (cbn; lia). reflexivity. Qed.
Lemma bom_len a : (snd (bom a) <= length a)%nat.
Proof.
  assert (H : forall P, prefixb P a = true -> (length P <= length a)%nat) by (intros P K; apply prefixb_spec in K; destruct K as [v ->]; rewrite app_length; lia).
  unfold bom. destruct (prefixb [0; 0; 254; 255] a) eqn:E1; [exact (H _ E1)|]. destruct (prefixb [239; 187; 191] a) eqn:E2; [exact (H _ E2)|]. destruct (prefixb [254; 255] a) eqn:E3; [exact (H _ E3)|].
  destruct (prefixb [255; 254; 0; 0] a) eqn:E4; [exact (H _ E4)|]. destruct (prefixb [255; 254] a) eqn:E5; [exact (H _ E5)|]. cbn. lia.
Qed.
Lemma skip_app n (a b : list Z) : (n <= length a)%nat -> skipn n (a ++ b) = skipn n a ++ b.
Proof. intros H. rewrite skipn_app. replace (n - length a)%nat with O by lia. reflexivity. Qed.
Lemma existsb_app' (p : Z -> bool) s t : existsb p (s ++ t) = existsb p s || existsb p t.
Proof. apply existsb_app. Qed.
Definition plain (c : Z) : Prop := 32 <= c < 127.
Lemma plain_count s : Forall plain s -> count printable s = Z.of_nat (length s) /\ count (fun c => negb (printable c) && negb (isspace c)) s = 0 /\ existsb (Z.eqb 0) s = false.
Proof.
  induction 1 as [|c s Hc _ (I1 & I2 & I3)]; [auto|]. unfold plain in Hc. cbn [count existsb length].
  assert (E : printable c = true) by (unfold printable; destruct (Z.ltb_spec 31 c); [|lia]; destruct (Z.eqb_spec c 127); [lia|reflexivity]).
  rewrite E, I1, I2, I3. destruct (Z.eqb_spec 0 c); [lia|]. cbn [negb andb orb]. lia.
Qed.
(** More printable bytes at a dollar do not make a text binary. *)
Lemma binary_more a w1 u w2 : Forall plain u -> is_binary (a ++ 36 :: w1 ++ w2) = false -> is_binary (a ++ 36 :: w1 ++ u ++ w2) = false.
Proof.
  intros Hu. unfold is_binary. rewrite !bom_dollar. pose proof (bom_len a) as L. destruct (bom a) as [wide n]. cbn [snd] in L. destruct wide; [discriminate|].
  rewrite !skip_app by exact L. destruct (plain_count u Hu) as (C1 & C2 & C3). change (36 :: w1 ++ w2) with ((36 :: w1) ++ w2). change (36 :: w1 ++ u ++ w2) with ((36 :: w1) ++ u ++ w2).
  rewrite !existsb_app, C3. cbn [orb]. destruct (existsb (Z.eqb 0) (skipn n a) || (existsb (Z.eqb 0) (36 :: w1) || existsb (Z.eqb 0) w2)); [discriminate|].
  rewrite !count_app, C1, C2. rewrite !Z.shiftr_div_pow2 by lia. change (2 ^ 7) with 128. rewrite !Z.ltb_ge. intros H.
  pose proof (Z.div_le_mono (count printable (skipn n a) + (count printable (36 :: w1) + count printable w2)) (count printable (skipn n a) + (count printable (36 :: w1) + (Z.of_nat (length u) + count printable w2))) 128 ltac:(lia) ltac:(lia)). lia.
Qed.

(** *** Applying it *)
Lemma inside a : forall a' w r', a ++ 36 :: w = a' ++ bs "$Id" ++ r' -> (length a' < length a)%nat -> exists v, a = a' ++ bs "$Id" ++ v.
Proof.
  induction a as [|x a IH]; intros a' w r' E L; [cbn [length] in L; lia|]. destruct a' as [|y a'].
  - change ([] ++ bs "$Id" ++ r') with (36 :: 73 :: 100 :: r') in E. cbn [app] in E. injection E as -> E. destruct a as [|x1 a]; [discriminate E|]. cbn [app] in E. injection E as -> E. destruct a as [|x2 a]; [discriminate E|]. cbn [app] in E. injection E as -> _. exists a. reflexivity.
  - cbn [app] in E. assert (E1 : x = y /\ a ++ 36 :: w = a' ++ bs "$Id" ++ r') by (split; congruence). destruct E1 as [-> E1]. cbn [length] in L. destruct (IH a' w r' E1 ltac:(lia)) as [v ->]. exists v. reflexivity.
Qed.
Lemma keyword_at a m b : no_id a -> ~ In 36 m -> keyword (a ++ bs "$Id" ++ m ++ bs "$" ++ b) a m b.
Proof.
  intros N M. split; [|exact M]. split; [reflexivity|]. intros a' r' E. destruct (le_lt_dec (length a) (length a')) as [H|H]; [exact H|]. rewrite id_app in E.
  destruct (inside a a' _ r' E H) as [v K]. destruct (N a' v K).
Qed.
Lemma found_no_id s a b : find_id s = Some (a, b) -> no_id a.
Proof.
  intros H. destruct (find_cases s a b H) as [[m [[E F] _]]|[[N (x & y & E)] _]]; intros a' v K.
  - assert (L := F a' (v ++ bs "$Id" ++ m ++ bs "$" ++ b)). rewrite E, K, <- !app_assoc in L. specialize (L eq_refl). rewrite !app_length in L. change (length (bs "$Id")) with 3%nat in L. lia.
  - apply (N a' (v ++ [36; x; y; 36])). rewrite E, K, <- !app_assoc. reflexivity.
Qed.
Lemma apply_cases (sm : bool) o s : (ident_apply sm o s = s /\ (is_binary s = true \/ find_id s = None)) \/
  (exists a b, is_binary s = false /\ find_id s = Some (a, b) /\ no_id a /\ ident_apply sm o s = if sm then a ++ bs "$Id: " ++ o ++ bs " $" ++ b else a ++ bs "$Id$" ++ b).
Proof.
  unfold ident_apply, insert_id, remove_id. destruct (is_binary s); [auto|]. destruct (find_id s) as [[a b]|] eqn:F; [|destruct sm; auto]. right. exists a, b. split; [reflexivity|]. split; [reflexivity|]. split; [eapply found_no_id, F|]. destruct sm; reflexivity.
Qed.
Lemma apply_same sm o s : is_binary s = true \/ find_id s = None -> ident_apply sm o s = s.
Proof. unfold ident_apply, insert_id, remove_id. intros [-> | ->]; [reflexivity|]. destruct (is_binary s), sm; reflexivity. Qed.
Lemma apply_found sm o s a b : is_binary s = false -> find_id s = Some (a, b) -> ident_apply sm o s = if sm then a ++ bs "$Id: " ++ o ++ bs " $" ++ b else a ++ bs "$Id$" ++ b.
Proof. intros B F. unfold ident_apply, insert_id, remove_id. rewrite B, F. destruct sm; reflexivity. Qed.
Lemma clean_twice o1 o2 s : ident_apply false o2 (ident_apply false o1 s) = ident_apply false o1 s.
Proof.
  destruct (apply_cases false o1 s) as [[-> H]|(a & b & B & F & N & ->)]; [apply apply_same, H|]. cbv iota.
  destruct (is_binary (a ++ bs "$Id$" ++ b)) eqn:B2; [apply apply_same; auto|]. rewrite (apply_found false o2 _ a b); [reflexivity|exact B2|]. apply (find_keyword _ a [] b), (keyword_at a [] b); [exact N|intros []].
Qed.
Lemma smudge_clean o1 o2 s : ~ In 36 o1 -> is_binary (ident_apply true o1 s) = false ->
  ident_apply false o2 (ident_apply true o1 s) = ident_apply false o2 s.
Proof.
  intros No. destruct (apply_cases true o1 s) as [[-> H]|(a & b & B & F & N & ->)]; [auto|]. cbv iota. intros B2.
  rewrite (apply_found false o2 s a b B F). rewrite (apply_found false o2 _ a b); [reflexivity|exact B2|].
  replace (a ++ bs "$Id: " ++ o1 ++ bs " $" ++ b) with (a ++ bs "$Id" ++ (bs ": " ++ o1 ++ bs " ") ++ bs "$" ++ b) by (rewrite <- !app_assoc; reflexivity).
  apply (find_keyword _ a (bs ": " ++ o1 ++ bs " ") b), keyword_at; [exact N|]. rewrite !in_app_iff. intros [H|[H|H]]; [cbn in H; lia|exact (No H)|cbn in H; lia].
Qed.
Lemma smudge_not_binary o s a b : Forall plain o -> is_binary s = false -> keyword s a [] b -> is_binary (ident_apply true o s) = false.
Proof.
  intros Ho B K. rewrite (apply_found true o s a b B (find_keyword _ _ _ _ K)). destruct K as [[E _] _]. cbn [app] in E. rewrite E in B.
  replace (a ++ bs "$Id: " ++ o ++ bs " $" ++ b) with (a ++ 36 :: bs "Id" ++ (bs ": " ++ o ++ bs " ") ++ bs "$" ++ b) by (rewrite <- !app_assoc; reflexivity).
  apply binary_more; [|exact B]. apply Forall_app. split; [repeat constructor; cbv; discriminate|]. apply Forall_app. split; [exact Ho|]. repeat constructor; cbv; discriminate.
Qed.

(** *** What binary means *)
Lemma amount_fun p s n n' : amount p s n -> amount p s n' -> n = n'.
Proof. intros H. revert n'. induction H as [|c s n Hc _ IH|c s n Hc _ IH]; intros n' H'; inversion H'; subst; [reflexivity| | | |]; try contradiction; f_equal; auto. Qed.
Lemma count_amount (f : Z -> bool) (p : Z -> Prop) s : (forall c, In c s -> f c = true <-> p c) -> amount p s (count f s).
Proof.
  induction s as [|c s IH]; intros H; cbn [count]; [constructor|]. specialize (IH (fun x Hx => H x (or_intror Hx))). pose proof (H c (or_introl eq_refl)) as Hc. destruct (f c).
  - rewrite Z.add_comm. constructor; [apply Hc; reflexivity|exact IH].
  - constructor; [|exact IH]. intros K. apply Hc in K. discriminate.
Qed.
Lemma printable_iff c : printable c = true <-> printing c.
Proof. unfold printable, printing. rewrite !orb_true_iff, andb_true_iff, negb_true_iff, Z.ltb_lt, Z.eqb_neq, !Z.eqb_eq. lia. Qed.
Lemma control_iff c : is_byte c -> negb (printable c) && negb (isspace c) = true <-> control c /\ ~ printing c.
Proof.
  intros B. unfold is_byte in B. rewrite andb_true_iff, !negb_true_iff. rewrite <- !Bool.not_true_iff_false, printable_iff. unfold isspace. rewrite orb_true_iff, andb_true_iff, Z.eqb_eq, !Z.leb_le. unfold control, printing. lia.
Qed.
Lemma body_binary body : bytes body ->
  (if existsb (Z.eqb 0) body then true else Z.shiftr (count printable body) 7 <? count (fun c => negb (printable c) && negb (isspace c)) body) = true <->
  (In 0 body \/ exists p n, amount printing body p /\ amount (fun c => control c /\ ~ printing c) body n /\ p / 128 < n).
Proof.
  intros B. assert (P : amount printing body (count printable body)) by (apply count_amount; intros; apply printable_iff).
  assert (N : amount (fun c => control c /\ ~ printing c) body (count (fun c => negb (printable c) && negb (isspace c)) body)).
  { apply count_amount. intros c Hc. apply control_iff. exact (proj1 (Forall_forall _ _) B c Hc). }
  destruct (existsb (Z.eqb 0) body) eqn:E.
  - split; [intros _; left|reflexivity]. apply existsb_exists in E. destruct E as (x & I & Ex). apply Z.eqb_eq in Ex. subst x. exact I.
  - rewrite Z.shiftr_div_pow2 by lia. change (2 ^ 7) with 128. rewrite Z.ltb_lt. split; [intros H; right; eauto|]. intros [I|(p & n & H1 & H2 & H3)].
    + exfalso. apply Bool.not_true_iff_false in E. apply E, existsb_exists. exists 0. auto.
    + rewrite (amount_fun _ _ _ _ P H1), (amount_fun _ _ _ _ N H2). exact H3.
Qed.
Lemma starts_prefix p s : starts_with p s <-> prefixb p s = true.
Proof. symmetry. apply prefixb_spec. Qed.
Lemma binary_iff s : bytes s -> is_binary s = true <-> binary s.
Proof.
  intros B. unfold binary.
  assert (W : fst (bom s) = true <-> exists mark, In mark [[0; 0; 254; 255]; [254; 255]; [255; 254]] /\ starts_with mark s).
  { unfold bom. split.
    - destruct (prefixb [0; 0; 254; 255] s) eqn:E1; [intros _; exists [0; 0; 254; 255]; rewrite starts_prefix; cbn [In]; auto|].
      destruct (prefixb [239; 187; 191] s); [discriminate|]. destruct (prefixb [254; 255] s) eqn:E3; [intros _; exists [254; 255]; rewrite starts_prefix; cbn [In]; auto|].
      destruct (prefixb [255; 254; 0; 0] s) eqn:E4; [intros _; exists [255; 254]; split; [cbn [In]; auto|]; apply prefixb_spec in E4; destruct E4 as [v ->]; exists ([0; 0] ++ v); reflexivity|].
      destruct (prefixb [255; 254] s) eqn:E5; [intros _; exists [255; 254]; rewrite starts_prefix; cbn [In]; auto|discriminate].
    - intros (mark & [<-|[<-|[<-|[]]]] & v & ->); [reflexivity|reflexivity|]. change (fst (if prefixb [255; 254; 0; 0] ([255; 254] ++ v) then (true, 4%nat) else (true, 2%nat)) = true). destruct (prefixb [255; 254; 0; 0] ([255; 254] ++ v)); reflexivity. }
  unfold is_binary. destruct (bom s) as [wide n] eqn:EB. cbn [fst] in W. destruct wide.
  - split; [intros _; left; apply W; reflexivity|reflexivity].
  - assert (S : (s = [239; 187; 191] ++ skipn n s \/ (skipn n s = s /\ ~ starts_with [239; 187; 191] s))).
    { unfold bom in EB. destruct (prefixb [0; 0; 254; 255] s); [discriminate|]. destruct (prefixb [239; 187; 191] s) eqn:E2; [left; injection EB as <-; apply (prefixb_cut _ _ E2)|].
      destruct (prefixb [254; 255] s); [discriminate|]. destruct (prefixb [255; 254; 0; 0] s); [discriminate|]. destruct (prefixb [255; 254] s); [discriminate|]. injection EB as <-. right. split; [reflexivity|]. rewrite starts_prefix, E2. discriminate. }
    assert (Bb : bytes (skipn n s)) by (rewrite <- (firstn_skipn n s) in B; apply bytes_app in B; apply B).
    cbv zeta. rewrite (body_binary _ Bb). split; [intros H; right; exists (skipn n s); auto|]. intros [H|(body & K & H)]; [apply W in H; discriminate|].
    replace (skipn n s) with body; [exact H|]. destruct S as [S|[S1 S2]], K as [K|[K1 K2]].
    + rewrite K in S at 1. apply app_inv_head in S. exact S.
    + exfalso. apply K2. exists (skipn n s). exact S.
    + exfalso. apply S2. exists body. exact K.
    + congruence.
Qed.
