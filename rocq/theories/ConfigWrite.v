From Verif Require Import Base Str WildModel ConfigModel ConfigSpec ConfigProofs ConfigMain.

(** *** Names and keys *)
Lemma span_all f l a b : span f l = (a, b) -> Forall (fun c => f c = true) a.
Proof. revert a b. induction l as [|c r IH]; intros a b; cbn [span]; [intros [= <- <-]; constructor|]. destruct (f c) eqn:E; [|intros [= <- <-]; constructor].
  destruct (span f r) as [a' b'] eqn:E'. intros [= <- <-]. constructor; [exact E|now apply (IH a' b')]. Qed.
Lemma parse_name_varname s nm vs : parse_name s = Ok (nm, vs) -> varname nm.
Proof. unfold parse_name. destruct (span keychar s) as [n r] eqn:E. destruct n as [|c n]; [discriminate|].
  destruct (snd (span isspace r)) as [|x t]; [|destruct (x =? 61); [|discriminate]]; intros [= <- <-]; (split; [discriminate|eapply span_all; exact E]). Qed.
Lemma parse_variable_name l more nm v eof ur : parse_variable l more = Ok (nm, v, eof, ur) -> varname nm.
Proof.
  unfold parse_variable. destruct (strip_comments (strz (advance_ws l)) 0) as [s q]. destruct (parse_name s) as [[n vs]| | |] eqn:E; cbn [bindr]; try discriminate.
  apply parse_name_varname in E. destruct vs as [t|]; [|intros [= <- _ _ _]; exact E].
  destruct (unescape (snd (span isspace t))) as [[v1 m]| | |]; cbn [bindr]; try discriminate. destruct m; [|intros [= <- _ _ _]; exact E].
  destruct (parse_multi _ more) as [[[v' eo] [u r]]| | |]; cbn [bindr]; try discriminate. intros [= <- _ _ _]; exact E. Qed.

Lemma lower_keychar c : keychar c = true -> tolower c <> 46 /\ keychar (tolower c) = true.
Proof. unfold tolower. destruct (isupper c) eqn:E; [|intros H; split; [|exact H]; apply keychar_range in H; lia].
  intros _. unfold isupper in E. apply andb_prop in E. destruct E as [A B]. apply Z.leb_le in A, B. split; [lia|].
  unfold keychar, isalnum, isalpha, islower. replace (97 <=? c + 32) with true by (symmetry; apply Z.leb_le; lia). replace (c + 32 <=? 122) with true by (symmetry; apply Z.leb_le; lia). now rewrite !orb_true_r. Qed.
Lemma lower_nodot n : varname n -> ~ In 46 (map tolower n).
Proof. intros [_ F] I. apply in_map_iff in I. destruct I as (c & E & I). rewrite Forall_forall in F. apply F in I. apply lower_keychar in I. tauto. Qed.
Lemma lower_idem c : tolower (tolower c) = tolower c.
Proof. unfold tolower. destruct (isupper c) eqn:E; [|now rewrite E]. replace (isupper (c + 32)) with false; [reflexivity|].
  unfold isupper in *. apply andb_prop in E. destruct E as [A B]. apply Z.leb_le in A, B. destruct (Z.leb_spec 65 (c + 32)), (Z.leb_spec (c + 32) 90); cbn; try reflexivity; lia. Qed.

Lemma dot_unique a b a' b' : ~ In 46 b -> ~ In 46 b' -> a ++ 46 :: b = a' ++ 46 :: b' -> a = a' /\ b = b'.
Proof.
  intros N N'. revert a'. induction a as [|x a IH]; intros [|y a']; cbn [app]; intros H.
  - injection H as ->. auto.
  - injection H as _ Hb. exfalso. apply N. rewrite Hb. apply in_or_app. right. now left.
  - injection H as _ Hb. exfalso. apply N'. rewrite <- Hb. apply in_or_app. right. now left.
  - injection H as -> H. destruct (IH a' H) as [-> ->]. auto. Qed.

Lemma entry_key_eq cur name section kn : varname name -> ~ In 46 kn ->
  leqb ((match cur with Some s => s ++ [46] | None => [] end) ++ map tolower name) (section ++ 46 :: kn) =
  (match cur with Some s => leqb s section | None => false end) && leqb kn (map tolower name).
Proof.
  intros V N. pose proof (lower_nodot _ V) as D. destruct cur as [s|].
  - rewrite <- app_assoc. cbn [app]. destruct (leqb s section) eqn:E1.
    + apply leqb_spec in E1. subst s. cbn [andb]. destruct (leqb kn (map tolower name)) eqn:E2.
      * apply leqb_spec in E2. subst kn. apply leqb_refl.
      * destruct (leqb _ (section ++ 46 :: kn)) eqn:E3; [|reflexivity]. apply leqb_spec in E3. apply dot_unique in E3; [|assumption..]. destruct E3 as [_ <-]. rewrite leqb_refl in E2. discriminate.
    + destruct (leqb _ (section ++ 46 :: kn)) eqn:E3; [|reflexivity]. apply leqb_spec in E3. apply dot_unique in E3; [|assumption..]. destruct E3 as [<- _]. rewrite leqb_refl in E1. discriminate.
  - cbn [app]. destruct (leqb _ (section ++ 46 :: kn)) eqn:E3; [|reflexivity]. apply leqb_spec in E3. exfalso. apply D. rewrite E3. apply in_or_app. right. now left. Qed.

(** *** What the writer knows *)
Record kok (k : wkey) (key : list Z) : Prop := {
  ko_name : varname (k_oname k);
  ko_lower : k_name k = map tolower (k_oname k);
  ko_key : key = k_section k ++ 46 :: k_name k;
  ko_header : line1 (write_section (k_osection k)) /\ exists rest, parse_section_header (write_section (k_osection k)) = Ok (k_section k, rest) /\ peek_ws rest = None }.

Definition is_comment (l : list Z) : Prop := exists c, lead l = Some c /\ In c blankish.

Definition S (k : wkey) (w : wstate) (cur : option (list Z)) (B : list entry) : Prop :=
  exists bl bevs cl, Forall line1 bl /\ w_buf w = concat bl /\ parses None bl bevs cur /\ flat_map entry_of bevs = B /\
    Forall line1 cl /\ w_com w = concat cl /\ Forall is_comment cl /\
    w_in w = match cur with Some s => leqb s (k_section k) | None => false end.

Lemma comments_parse cl : forall cur, Forall is_comment cl -> parses cur cl (map (EComment false) cl) cur.
Proof. induction cl as [|l cl IH]; intros cur F; [constructor|]. inversion F as [|? ? (c & L & B) F']; subst. change (l :: cl) with ([l] ++ cl). change (map (EComment false) ([l] ++ cl)) with ([EComment false l] ++ map (EComment false) cl).
  econstructor; [eapply G_comment; eauto|now apply IH]. Qed.
Lemma comments_entries cl : flat_map entry_of (map (EComment false) cl) = [].
Proof. induction cl; [reflexivity|]. exact IHcl. Qed.

Lemma S_flush k w cur B : S k w cur B -> S k (flush w) cur B /\ w_com (flush w) = [] /\ w_val (flush w) = w_val w /\ w_rep (flush w) = w_rep w /\ w_in (flush w) = w_in w.
Proof.
  intros (bl & bevs & cl & L & Eb & P & En & Lc & Ec & C & I). split; [|repeat split].
  exists (bl ++ cl), (bevs ++ map (EComment false) cl), []. split; [apply Forall_app; auto|]. split; [cbn; now rewrite Eb, Ec, concat_app|].
  split; [eapply parses_app; [exact P|now apply comments_parse]|]. split; [rewrite flat_map_app, comments_entries, app_nil_r; exact En|]. split; [constructor|]. split; [reflexivity|]. split; [constructor|exact I]. Qed.

Lemma S_comment k w cur B l : S k w cur B -> line1 l \/ (l <> [] /\ ~ In 10 l) -> is_comment l ->
  S k {| w_buf := w_buf w; w_com := write_line_to (w_com w) l; w_in := w_in w; w_val := w_val w; w_rep := w_rep w |} cur B.
Proof.
  intros (bl & bevs & cl & L & Eb & P & En & Lc & Ec & C & I) Ll (c & Lc1 & Bc). exists bl, bevs, (cl ++ [nl_text l]). cbn [w_buf w_com w_in].
  split; [exact L|]. split; [exact Eb|]. split; [exact P|]. split; [exact En|]. split; [apply Forall_app; split; [exact Lc|repeat constructor; now apply line1_nl_text]|].
  split; [rewrite write_line_nl, Ec, concat_app; cbn; now rewrite app_nil_r|]. split; [|exact I]. apply Forall_app; split; [exact C|]. constructor; [|constructor].
  exists c. split; [|exact Bc]. destruct Ll as [Ll|[L1 L2]]; [now rewrite line1_last|rewrite open_last by assumption; now rewrite lead_nl]. Qed.

Lemma value_line1 n r : varname n -> ~ In 10 r -> line1 (value_line n r).
Proof.
  intros V R. unfold value_line. exists (9 :: n ++ [32; 61; 32] ++ quotes_for_value r ++ r ++ quotes_for_value r). split; [cbn [app]; now rewrite <- !app_assoc; cbn [app]; rewrite <- !app_assoc|].
  intros [I|I]; [lia|]. apply in_app_or in I. destruct I as [I|I]; [apply (varname_chars _ _ V) in I; apply keychar_range in I; lia|].
  apply in_app_or in I. destruct I as [I|I]; [cbn in I; intuition lia|].
  assert (Q : In 10 (quotes_for_value r) -> False) by (destruct (quotes_cases r) as [-> | ->]; cbn; intuition lia).
  apply in_app_or in I. destruct I as [I|I]; [auto|]. apply in_app_or in I. destruct I as [I|I]; auto. Qed.

Lemma value_group cur n r v : varname n -> reads_as r v -> group cur [value_line n r] [EVar false cur n (Some v) false (value_line n r ++ concat [])] cur.
Proof.
  intros V (_ & _ & R). destruct V as [Nn F] eqn:EV. destruct n as [|c n']; [congruence|]. pose proof (Forall_inv F) as Kc.
  apply (G_var cur _ c []).
  - unfold lead, value_line. cbn [app peek_ws]. change (isspace 9) with true. cbv iota. now rewrite (keychar_nospace _ Kc).
  - apply keychar_range in Kc. lia.
  - apply keychar_range in Kc. cbn. intuition lia.
  - intros more. cbn [app]. apply (R (c :: n') more). split; assumption. Qed.

Lemma write_value_buf k w r : w_buf (write_value k w r) = w_buf w ++ value_line (k_oname k) r. Proof. reflexivity. Qed.

Lemma S_value k key w cur B r v : kok k key -> S k w cur B -> cur = Some (k_section k) -> reads_as r v -> S k (write_value k w r) cur (B ++ [(key, Some v)]).
Proof.
  intros [K1 K2 K3 _] (bl & bevs & cl & L & Eb & P & En & Lc & Ec & C & I) Hc R.
  exists (bl ++ [value_line (k_oname k) r]). eexists. exists cl. split; [apply Forall_app; split; [exact L|repeat constructor]; apply value_line1; [exact K1|apply R]|].
  split; [rewrite write_value_buf, Eb, concat_app; cbn; now rewrite app_nil_r|].
  split; [eapply parses_app; [exact P|apply parses_one, value_group; [exact K1|exact R]]|].
  split; [|repeat split; assumption]. rewrite flat_map_app, En. cbn [flat_map entry_of app]. rewrite Hc, K3, K2, <- app_assoc. reflexivity. Qed.

Lemma S_put k w cur B g evs cur' inn : S k w cur B -> w_com w = [] -> group cur g evs cur' -> okl g -> inn = match cur' with Some s => leqb s (k_section k) | None => false end ->
  S k (put_line {| w_buf := w_buf w; w_com := w_com w; w_in := inn; w_val := w_val w; w_rep := w_rep w |} (concat g)) cur' (B ++ flat_map entry_of evs).
Proof.
  intros (bl & bevs & cl & L & Eb & P & En & Lc & Ec & C & I) Hc G K In. destruct (group_fix _ _ _ _ G K) as (g' & evs' & L' & E' & G' & En').
  exists (bl ++ g'), (bevs ++ evs'), []. unfold put_line. cbn [w_buf w_com w_in]. split; [apply Forall_app; auto|]. split; [rewrite write_line_nl, Eb, concat_app, E'; reflexivity|].
  split; [eapply parses_app; [exact P|now apply parses_one]|]. split; [rewrite flat_map_app, En, En'; reflexivity|]. split; [constructor|]. split; [exact Hc|]. split; [constructor|exact In]. Qed.

(** *** One group through the writer *)

(** What the group does to the entries. *)
Definition matched (key : list Z) (preg : option (list Z -> bool)) (e : entry) : bool :=
  leqb (fst e) key && match preg with None => true | Some f => match snd e with Some v => f v | None => false end end.

Inductive astep (k : wkey) (key v : list Z) (cur : option (list Z)) : option (list Z) -> list entry -> bool -> bool -> list entry -> bool -> bool -> list entry -> Prop :=
| A_comment B val rep : astep k key v cur cur [] val rep B val rep B
| A_section name B val rep : (k_preg k <> None \/ val = false \/ cur <> Some (k_section k)) -> astep k key v cur (Some name) [] val rep B val rep B
| A_section_w name B rep : k_preg k = None -> cur = Some (k_section k) -> astep k key v cur (Some name) [] true rep B false rep (B ++ [(key, Some v)])
| A_var_other en B val rep : matched key (k_preg k) en = false -> astep k key v cur cur [en] val rep B val rep (B ++ [en])
| A_var_del en B rep : matched key (k_preg k) en = true -> astep k key v cur cur [en] false rep B false true B
| A_var_set en B rep : matched key (k_preg k) en = true ->
    astep k key v cur cur [en] true rep B (match k_preg k with None => false | _ => true end) true (B ++ [(key, Some v)]).

Definition isval (r : list Z) (o : option (list Z)) (b : bool) : Prop := o = if b then Some r else None.

Lemma group_step k key r v w cur B g evs cur' val w' :
  kok k key -> reads_as r v -> S k w cur B -> isval r (w_val w) val -> group cur g evs cur' -> okl g ->
  write_events k w evs = Ok w' ->
  exists val' B', S k w' cur' B' /\ isval r (w_val w') val' /\ astep k key v cur cur' (flat_map entry_of evs) val (w_rep w) B val' (w_rep w') B'.
Proof.
  intros K R St V G O H.
  assert (SEC : forall name l evs0, group cur [l] evs0 (Some name) -> flat_map entry_of evs0 = [] -> okl [l] -> forall w1, write_event k w (ESection false name l) = Ok w1 ->
    exists val' B', S k w1 (Some name) B' /\ isval r (w_val w1) val' /\ astep k key v cur (Some name) [] val (w_rep w) B val' (w_rep w1) B').
  { intros name l evs0 G0 E0 O0 w1 H1.
    assert (OLD : forall B0 w0, S k w0 cur B0 -> exists x, x = put_line (flush {| w_buf := w_buf w0; w_com := w_com w0; w_in := leqb name (k_section k); w_val := w_val w0; w_rep := w_rep w0 |}) l /\ S k x (Some name) B0 /\ w_val x = w_val w0 /\ w_rep x = w_rep w0).
    { intros B0 w0 S0. eexists. split; [reflexivity|]. split; [|split; reflexivity]. destruct (S_flush _ _ _ _ S0) as (S1 & C1 & V1 & R1 & I1).
      pose proof (S_put k (flush w0) cur B0 [l] evs0 (Some name) (leqb name (k_section k)) S1 C1 G0 O0 eq_refl) as S2. cbn [concat] in S2. rewrite app_nil_r, E0, app_nil_r in S2. exact S2. }
    assert (IN : w_in w = match cur with Some s => leqb s (k_section k) | None => false end) by (destruct St as (? & ? & ? & ? & ? & ? & ? & ? & ? & ? & I0); exact I0).
    cbn [write_event] in H1.
    destruct (k_preg k) as [f|] eqn:Ep.
    - injection H1 as <-. destruct (OLD B w St) as (x & -> & S1 & V1 & R1). exists val, B. split; [exact S1|]. split; [unfold isval in *; congruence|]. rewrite R1. apply A_section. left. congruence.
    - destruct (w_val w) as [vv|] eqn:Ev.
      + destruct val; [|discriminate V]. injection V as ->. destruct (w_in w) eqn:Ei.
        * injection H1 as <-. destruct cur as [s|]; [|discriminate IN]. symmetry in IN. apply leqb_spec in IN. subst s.
          pose proof (S_value k key w _ B r v K St eq_refl R) as S1. destruct (OLD _ _ S1) as (x & -> & S2 & V2 & R2).
          exists false, (B ++ [(key, Some v)]). split; [exact S2|]. split; [unfold isval; cbn; now rewrite Ep|]. now apply A_section_w.
        * injection H1 as <-. destruct (OLD B w St) as (x & -> & S1 & V1 & R1). exists true, B. split; [exact S1|]. split; [unfold isval in *; congruence|]. rewrite R1. apply A_section. right. right.
          intros ->. rewrite leqb_refl in IN. discriminate.
      + destruct val; [discriminate V|]. injection H1 as <-. destruct (OLD B w St) as (x & -> & S1 & V1 & R1). exists false, B. split; [exact S1|]. split; [unfold isval in *; congruence|]. rewrite R1. apply A_section. auto. }
  pose proof G as G0. destruct G as [cur l c L Bk|cur l name rest L Ph Pr|cur l name rest c L Ph Pr C|cur l c used name value L N Bk PV]; cbn [write_events bindr] in H.
  - cbn [okl] in O. cbn [write_event bindr] in H. injection H as <-. exists val, B. split; [apply S_comment; [exact St|exact O|exists c; auto]|]. split; [exact V|apply A_comment].
  - destruct (write_event k w (ESection false name l)) as [w1| | |] eqn:E1; cbn [bindr] in H; try discriminate. injection H as <-. apply (SEC name l _ G0 eq_refl O _ E1).
  - destruct (write_event k w (ESection false name l)) as [w1| | |] eqn:E1; cbn [bindr] in H; try discriminate.
    destruct (SEC name l _ G0 eq_refl O _ E1) as (val' & B' & S1 & V1 & A1). cbn [write_event bindr] in H. injection H as <-. exists val', B'. split; [|split; [exact V1|exact A1]].
    apply S_comment; [exact S1| |exists c; split; [unfold lead; now rewrite Pr|cbn; intuition lia]].
    assert (Nr : rest <> []) by (destruct rest; [discriminate Pr|discriminate]). destruct (header_rest _ _ _ Ph) as (p & El & _). subst l. cbn [okl] in O. destruct O as [(t & Et & Nt)|[_ No]].
    + left. destruct (destruct_last rest) as [->|(a & x & ->)]; [congruence|]. rewrite app_assoc in Et. apply app_inj_tail in Et. destruct Et as [<- ->]. exists a. split; [reflexivity|]. intros I. apply Nt. apply in_or_app. now right.
    + right. split; [exact Nr|]. intros I. apply No. apply in_or_app. now right.
  - destruct (S_flush _ _ _ _ St) as (S1 & C1 & V1 & R1 & I1). cbn [write_event] in H. cbv zeta in H. set (w0 := flush w) in *. clearbody w0.
    assert (Vn : varname name) by (eapply parse_variable_name; exact (PV [])).
    assert (IN : w_in w0 = match cur with Some s => leqb s (k_section k) | None => false end) by (destruct S1 as (? & ? & ? & ? & ? & ? & ? & ? & ? & ? & I0); exact I0).
    set (en := ((match cur with Some s => s ++ [46] | None => [] end) ++ map tolower name, value) : entry).
    assert (M : w_in w0 && case_eq (k_name k) name = leqb (fst en) key).
    { unfold en. cbn [fst]. rewrite (ko_key _ _ K). assert (D : ~ In 46 (k_name k)) by (rewrite (ko_lower _ _ K); apply lower_nodot, (ko_name _ _ K)).
      rewrite (entry_key_eq cur name _ _ Vn D), IN. unfold case_eq. rewrite (ko_lower _ _ K), map_map. now rewrite (map_ext _ tolower lower_idem). }
    change (flat_map entry_of [EVar false cur name value false (l ++ concat used)]) with [en].
    assert (OTHER : matched key (k_preg k) en = false -> w' = put_line w0 (l ++ concat used) -> exists val' B', S k w' cur B' /\ isval r (w_val w') val' /\ astep k key v cur cur [en] val (w_rep w) B val' (w_rep w') B').
    { intros Mt ->. exists val, (B ++ [en]). split; [|split; [unfold isval in *; cbn; congruence|cbn; rewrite R1; now apply A_var_other]].
      pose proof (S_put k w0 cur B _ _ cur _ S1 C1 G0 O eq_refl) as S2. cbn [concat] in S2.
      replace {| w_buf := w_buf w0; w_com := w_com w0; w_in := match cur with Some s => leqb s (k_section k) | None => false end; w_val := w_val w0; w_rep := w_rep w0 |} with w0 in S2; [exact S2|]. rewrite <- IN. destruct w0; reflexivity. }
    assert (SAME : forall b, S k {| w_buf := w_buf w0; w_com := w_com w0; w_in := w_in w0; w_val := w_val w0; w_rep := b |} cur B).
    { intros b. destruct S1 as (bl & bevs & cl & T). exists bl, bevs, cl. exact T. }
    assert (HIT : matched key (k_preg k) en = true -> (let wx := {| w_buf := w_buf w0; w_com := w_com w0; w_in := w_in w0; w_val := w_val w0; w_rep := true |} in
        w' = match w_val wx with None => wx | Some vv => write_value k wx vv end) -> exists val' B', S k w' cur B' /\ isval r (w_val w') val' /\ astep k key v cur cur [en] val (w_rep w) B val' (w_rep w') B').
    { intros Mt H1. cbn [w_val] in H1. rewrite V1, V in H1. destruct val.
      - subst w'. assert (Cs : cur = Some (k_section k)).
        { unfold matched in Mt. apply andb_prop in Mt. destruct Mt as [Mt _]. rewrite <- M in Mt. apply andb_prop in Mt. destruct Mt as [Mt _]. rewrite IN in Mt. destruct cur as [s|]; [|discriminate]. apply leqb_spec in Mt. now subst. }
        pose proof (S_value k key _ cur B r v K (SAME true) Cs R) as SV.
        exists (match k_preg k with None => false | _ => true end), (B ++ [(key, Some v)]). split; [exact SV|]. split; [|cbn; rewrite <- R1 in *; now apply A_var_set].
        unfold isval. cbn. destruct (k_preg k); reflexivity.
      - subst w'. exists false, B. split; [exact (SAME true)|]. split; [unfold isval; cbn; congruence|]. cbn. now apply A_var_del. }
    rewrite M in H. unfold matched in *. destruct (leqb (fst en) key); cbn [andb] in *.
    + destruct (k_preg k) as [f|].
      * destruct value as [vv|]; cbn [bindr] in H; [|discriminate]. change (snd en) with (Some vv) in *. cbv iota in *. destruct (f vv); cbn [bindr] in H.
        -- apply (HIT eq_refl). cbn [w_val] in *. destruct (w_val w0); cbn [bindr] in H; injection H as <-; reflexivity.
        -- apply (OTHER eq_refl). injection H as <-. reflexivity.
      * cbn [bindr] in H. apply (HIT eq_refl). cbn [w_val] in *. destruct (w_val w0); cbn [bindr] in H; injection H as <-; reflexivity.
    + cbn [bindr] in H. apply (OTHER eq_refl). injection H as <-. reflexivity. Qed.

(** *** The whole file *)
Inductive asteps (k : wkey) (key v : list Z) : option (list Z) -> option (list Z) -> list entry -> bool -> bool -> list entry -> bool -> bool -> list entry -> Prop :=
| AS_nil cur val rep B : asteps k key v cur cur [] val rep B val rep B
| AS_cons c0 c1 c2 P1 P2 v0 r0 B0 v1 r1 B1 v2 r2 B2 : astep k key v c0 c1 P1 v0 r0 B0 v1 r1 B1 -> asteps k key v c1 c2 P2 v1 r1 B1 v2 r2 B2 ->
    asteps k key v c0 c2 (P1 ++ P2) v0 r0 B0 v2 r2 B2.

Lemma write_events_app k e1 : forall w e2 w', write_events k w (e1 ++ e2) = Ok w' -> exists w1, write_events k w e1 = Ok w1 /\ write_events k w1 e2 = Ok w'.
Proof. induction e1 as [|e e1 IH]; intros w e2 w' H; [exists w; auto|]. cbn [app write_events] in *. destruct (write_event k w e) as [w1| | |]; cbn [bindr] in *; try discriminate. apply IH. exact H. Qed.

Lemma parses_steps k key r v : kok k key -> reads_as r v -> forall cur ls evs e, parses cur ls evs e -> okl ls ->
  forall w B val w', S k w cur B -> isval r (w_val w) val -> write_events k w evs = Ok w' ->
  exists val' B', S k w' e B' /\ isval r (w_val w') val' /\ asteps k key v cur e (flat_map entry_of evs) val (w_rep w) B val' (w_rep w') B'.
Proof.
  intros K R cur ls evs e P. induction P as [cur|c0 g e1 c1 ls e2 c2 G P IH]; intros O w B val w' St V H.
  - injection H as <-. exists val, B. split; [exact St|]. split; [exact V|constructor].
  - apply okl_app in O. destruct O as [Og Ol]. apply write_events_app in H. destruct H as (w1 & H1 & H2).
    destruct (group_step k key r v w c0 B g e1 c1 val w1 K R St V G Og H1) as (v1 & B1 & S1 & V1 & A1).
    destruct (IH Ol w1 B1 v1 w' S1 V1 H2) as (v2 & B2 & S2 & V2 & A2). exists v2, B2. split; [exact S2|]. split; [exact V2|]. rewrite flat_map_app. econstructor; eauto. Qed.

(** First byte of an accepted text. *)
Lemma group_first cur g evs cur' : group cur g evs cur' -> exists c t, concat g = c :: t /\ c <> 0 /\ c <> 239.
Proof.
  assert (PK : forall l c, lead l = Some c -> exists x t, l = x :: t /\ (x = c \/ isspace x = true)).
  { intros l c H. destruct l as [|x t]; [discriminate|]. exists x, t. split; [reflexivity|]. unfold lead in H. cbn [peek_ws peek] in H. destruct (isspace x) eqn:E; [now right|]. injection H as ->. now left. }
  assert (SP : forall x, isspace x = true -> x <> 0 /\ x <> 239) by (intros x H; apply isspace_range in H; lia).
  intros G. destruct G as [cur l c L B|cur l name rest L Ph Pr|cur l name rest c L Ph Pr C|cur l c used name value L N B V];
    destruct (PK _ _ L) as (x & t & -> & D); exists x; eexists; (split; [reflexivity|]);
    (destruct D as [->|D]; [|apply SP in D; exact D]); try lia; try (cbn in B; intuition lia).
  assert (Ic : isspace c = true \/ isspace c = false) by (destruct (isspace c); auto). destruct Ic as [Ic|Ic]; [now apply SP|].
  specialize (V []). unfold parse_variable in V. cbn [advance_ws] in V. rewrite Ic, andb_false_r in V. cbn [strz] in V.
  assert (KC : c <> 0 /\ keychar c = true).
  { destruct (Z.eqb_spec c 0) as [->|N0]; [discriminate V|]. split; [exact N0|].
    destruct (keychar c) eqn:Ek; [reflexivity|exfalso]. unfold strip_comments in V. cbn [strip_loop] in V.
    destruct (_ && _ && _) in V; [discriminate V|].
    match type of V with context [strip_loop ?a ?b ?d ?e] => destruct (strip_loop a b d e) as [s q] end.
    cbn [rtrim] in V. rewrite Ic in V. unfold parse_name in V.
    destruct (rtrim s); cbn [span] in V; rewrite Ek in V; discriminate V. }
  destruct KC as [K0 K1]. split; [exact K0|]. apply keychar_range in K1. lia. Qed.

Lemma parses_inv c0 ls evs e : parses c0 ls evs e ->
  (ls = [] /\ evs = [] /\ e = c0) \/ exists g e1 c1 ls', group c0 g e1 c1 /\ ls = g ++ ls'.
Proof. intros P. destruct P as [|c0 g e1 c1 ls e2 c2 G P]; [left; auto|right; eauto 6]. Qed.
Lemma group_nonnil c0 g e1 c1 : group c0 g e1 c1 -> g <> [].
Proof. destruct 1; discriminate. Qed.
Lemma parses_tidy c0 ls evs e : parses c0 ls evs e -> Forall tidy_event evs.
Proof. induction 1 as [|c0 g e1 c1 ls e2 c2 G P IH]; [constructor|]. apply Forall_app. split; [|exact IH]. destruct G; repeat constructor. Qed.
Lemma S_read k w cur B : S k w cur B -> w_com w = [] -> config_read (w_buf w) = Ok B /\ exists evs, config_parse (w_buf w) = Ok (evs, cur) /\ Forall tidy_event evs.
Proof.
  intros (bl & bevs & cl & L & Eb & P & En & _) _. rewrite Eb.
  assert (LN : lines (concat bl) = bl) by (pose proof (lines_app_all bl [] L) as X; rewrite app_nil_r in X; rewrite X; cbn; apply app_nil_r).
  assert (Q : config_parse (concat bl) = Ok (bevs, cur) /\ (bl = [] \/ exists c t, concat bl = c :: t /\ c <> 0)).
  { destruct (parses_inv _ _ _ _ P) as [(-> & -> & ->)|(g & e1 & c1 & ls' & G & E1)]; [split; [reflexivity|now left]|]. destruct bl as [|l ls]; [exfalso; apply (group_nonnil _ _ _ _ G); symmetry in E1; apply app_eq_nil in E1; tauto|].
    assert (F : exists c t, concat (l :: ls) = c :: t /\ c <> 0 /\ c <> 239).
    { destruct (group_first _ _ _ _ G) as (c & t & E & N). rewrite E1, concat_app, E. exists c. eexists. split; [reflexivity|exact N]. }
    destruct F as (c & t & E & N0 & N239). split; [|right; eauto]. unfold config_parse.
    assert (SB : skip_bom (concat (l :: ls)) = concat (l :: ls)). { rewrite E. unfold skip_bom. destruct t as [|b [|d t]]; try reflexivity. now rewrite (proj2 (Z.eqb_neq c 239) N239). }
    rewrite SB, LN. pose proof (ploop_complete _ _ _ _ P (Datatypes.S (length (concat (l :: ls))))) as X. apply X. lia. }
  destruct Q as [Q1 Q2]. split; [|exists bevs; split; [exact Q1|now apply parses_tidy in P]]. unfold config_read. destruct Q2 as [->|(c & t & E & N)].
  - destruct (parses_inv _ _ _ _ P) as [(_ & -> & ->)|(g & e1 & c1 & ls' & G & E1)]; [now rewrite <- En|]. exfalso; apply (group_nonnil _ _ _ _ G); symmetry in E1; apply app_eq_nil in E1; tauto.
  - rewrite E in *. rewrite (proj2 (Z.eqb_neq c 0) N), Q1. cbn [bindr]. now rewrite En. Qed.

(** End of the file. *)
Lemma write_eof_spec k key r v w cur B val : kok k key -> reads_as r v -> S k w cur B -> isval r (w_val w) val ->
  exists evs, config_read (w_buf (write_eof k w cur)) = Ok (if val && ((match k_preg k with None => true | _ => false end) || negb (w_rep w)) then B ++ [(key, Some v)] else B) /\
    exists e, config_parse (w_buf (write_eof k w cur)) = Ok (evs, e) /\ Forall tidy_event evs.
Proof.
  intros K R St V. destruct (S_flush _ _ _ _ St) as (S1 & C1 & V1 & R1 & I1). unfold write_eof. cbv zeta. rewrite V1, R1. rewrite <- R1. set (w0 := flush w) in *. clearbody w0.
  assert (FIN : forall w2 c2 B2, S k w2 c2 B2 -> w_com w2 = [] -> exists evs, config_read (w_buf w2) = Ok B2 /\ exists e, config_parse (w_buf w2) = Ok (evs, e) /\ Forall tidy_event evs).
  { intros w2 c2 B2 X Y. destruct (S_read _ _ _ _ X Y) as (Z1 & evs & Z2 & Z3). exists evs. eauto. }
  unfold isval in V. rewrite V. destruct val; cbn [andb]; [|apply (FIN _ _ _ S1 C1)].
  destruct (_ || _); [|apply (FIN _ _ _ S1 C1)].
  assert (HDR : S k {| w_buf := w_buf w0 ++ write_section (k_osection k); w_com := w_com w0; w_in := true; w_val := w_val w0; w_rep := w_rep w0 |} (Some (k_section k)) B).
  { destruct (ko_header _ _ K) as (Lh & rest & Ph & Pr). destruct S1 as (bl & bevs & cl & L & Eb & P & En & Lc & Ec & C & I).
    exists (bl ++ [write_section (k_osection k)]). eexists. exists cl. cbn. split; [apply Forall_app; split; [exact L|repeat constructor; exact Lh]|].
    split; [rewrite Eb, concat_app; cbn; now rewrite app_nil_r|].
    split; [eapply parses_app; [exact P|apply parses_one; eapply G_section; [|exact Ph|exact Pr]]|].
    - unfold lead. destruct Lh as (t & Et & _). unfold write_section. cbn [peek_ws]. reflexivity.
    - split; [rewrite flat_map_app, En; cbn; apply app_nil_r|]. repeat split; try assumption. now rewrite leqb_refl. }
  destruct cur as [s|].
  - destruct (leqb s (k_section k)) eqn:E.
    + apply leqb_spec in E. subst s. apply (FIN _ (Some (k_section k))); [|exact C1]. eapply S_value; eauto.
    + apply (FIN (write_value k {| w_buf := w_buf w0 ++ write_section (k_osection k); w_com := w_com w0; w_in := true; w_val := w_val w0; w_rep := w_rep w0 |} r) (Some (k_section k))); [|exact C1]. eapply S_value; eauto.
  - apply (FIN (write_value k {| w_buf := w_buf w0 ++ write_section (k_osection k); w_com := w_com w0; w_in := true; w_val := w_val w0; w_rep := w_rep w0 |} r) (Some (k_section k))); [|exact C1]. eapply S_value; eauto. Qed.

(** *** Header round trip and key facts *)
Lemma last_index_app c a b : ~ In c b -> last_index c (a ++ c :: b) = Some (length a).
Proof.
  intros N. assert (NB : last_index c b = None). { induction b as [|x b IH]; [reflexivity|]. cbn. rewrite IH by (intros I; apply N; now right). destruct (Z.eqb_spec x c) as [->|]; [exfalso; apply N; now left|reflexivity]. }
  induction a as [|x a IH]; cbn [app last_index length]; [now rewrite NB, Z.eqb_refl|]. now rewrite IH. Qed.
Lemma last_index_spec c l n : last_index c l = Some n -> l = firstn n l ++ c :: skipn (Datatypes.S n) l /\ ~ In c (skipn (Datatypes.S n) l).
Proof.
  revert n. induction l as [|x l IH]; intros n; cbn [last_index]; [discriminate|]. destruct (last_index c l) as [m|] eqn:E.
  - intros [= <-]. destruct (IH m eq_refl) as [A B]. cbn [firstn skipn app]. split; [now rewrite A at 1|exact B].
  - destruct (Z.eqb_spec x c) as [->|]; [|discriminate]. intros [= <-]. cbn [firstn skipn app]. split; [reflexivity|]. clear IH. induction l as [|y l IH]; [intros []|].
    cbn in E. destruct (last_index c l); [discriminate|]. destruct (Z.eqb_spec y c) as [->|]; [discriminate|]. intros [I|I]; [congruence|]. exact (IH E I). Qed.
Lemma strchr_split_spec c s : match strchr_split c s with Some (a, b) => s = a ++ c :: b /\ ~ In c a | None => ~ In c s end.
Proof. induction s as [|x r IH]; cbn [strchr_split]; [intros []|]. destruct (Z.eqb_spec x c) as [->|N]; [split; [reflexivity|intros []]|].
  destruct (strchr_split c r) as [[a b]|]; [destruct IH as [-> H]; split; [reflexivity|intros [I|I]; auto]|intros [I|I]; auto]. Qed.

Lemma normalize_spec name key : normalize_name name = Some key -> exists a middle b,
  name = a ++ middle ++ 46 :: b /\ key = map tolower a ++ middle ++ 46 :: map tolower b /\
  varname a /\ varname b /\ (middle = [] \/ exists sub, middle = 46 :: sub) /\ ~ In 10 middle /\
  split_last name = Some (a ++ middle, b) /\ split_last key = Some (map tolower a ++ middle, map tolower b).
Proof.
  unfold normalize_name. pose proof (strchr_split_spec 46 name) as S1. destruct (strchr_split 46 name) as [[a t]|]; [|discriminate]. destruct S1 as [En Na].
  destruct (split_last name) as [[sec b]|] eqn:Es; [|discriminate]. pose proof Es as Es0. unfold split_last in Es. destruct (last_index 46 name) as [n|] eqn:El; [|discriminate].
  apply last_index_spec in El. destruct El as [El Nb]. assert (E1 : firstn n name = sec) by congruence. assert (E2 : skipn (Datatypes.S n) name = b) by congruence. rewrite E1, E2 in El. rewrite E2 in Nb.
  destruct (_ && _) eqn:C; [|discriminate]. apply andb_prop in C. destruct C as [C C4]. apply andb_prop in C. destruct C as [C C3].
  assert (SOK : forall s, section_ok s = true -> varname s).
  { intros s H. destruct s as [|c r]; [discriminate|]. cbn in H. apply andb_prop in H. destruct H as [H1 H2]. split; [discriminate|]. constructor; [unfold keychar; now rewrite H1|]. apply Forall_forall. rewrite forallb_forall in H2. exact H2. }
  (* sec starts with a *)
  assert (P : exists middle, sec = a ++ middle /\ (middle = [] \/ exists sub, middle = 46 :: sub)).
  { rewrite El in En. clear -En Na Nb. revert a t En Na. induction sec as [|x sec IH]; intros a t En Na; cbn [app] in En.
    - destruct a as [|y a]; [exists []; auto|]. injection En as <- En. exfalso. apply Na. now left.
    - destruct a as [|y a]; [injection En as -> En; exists (46 :: sec); split; [reflexivity|right; eauto]|]. injection En as <- En. destruct (IH a t En) as (m & -> & D); [intros I; apply Na; now right|]. exists m. split; [reflexivity|exact D]. }
  destruct P as (middle & -> & D). rewrite skipn_app, skipn_all, Nat.sub_diag. cbn [skipn app].
  destruct (existsb (Z.eqb 10) middle) eqn:E10; [discriminate|]. intros [= <-].
  exists a, middle, b. rewrite <- app_assoc in El.
  split; [exact El|]. split; [reflexivity|]. split; [apply SOK; exact C3|]. split; [apply SOK; exact C4|]. split; [exact D|]. split; [|split; [reflexivity|]].
  - intros I. assert (T : existsb (Z.eqb 10) middle = true) by (apply existsb_exists; exists 10; split; [exact I|reflexivity]). congruence.
  - unfold split_last. assert (Vb : varname b) by now apply SOK. rewrite app_assoc, last_index_app by now apply lower_nodot.
    f_equal. f_equal; [rewrite firstn_app, firstn_all, Nat.sub_diag; cbn; now rewrite app_nil_r|]. rewrite skipn_app. rewrite skipn_all2 by lia. replace (Datatypes.S (length (map tolower a ++ middle)) - length (map tolower a ++ middle))%nat with 1%nat by lia. reflexivity. Qed.

Lemma sub_loop_escape s : forall idx t, ~ In 10 s -> ~ In 9 s -> ~ In 8 s ->
  sub_loop (escape_value s ++ 34 :: 93 :: t) idx (idx + length (escape_value s)) = Ok (s, (idx + length (escape_value s) + 2)%nat).
Proof.
  induction s as [|c s IH]; intros idx t N1 N2 N3; cbn [escape_value].
  - cbn [app sub_loop length]. change (34 =? 34) with true. cbv iota. cbn. f_equal. f_equal. lia.
  - assert (IH' : forall i, i = idx \/ True -> (if (i <? i + length (escape_value s))%nat then sub_loop (escape_value s ++ 34 :: 93 :: t) i (i + length (escape_value s))
        else match escape_value s ++ 34 :: 93 :: t with a :: b :: _ => if (a =? 34) && (b =? 93) then Ok ([], (i + 2)%nat) else Err (-1) | _ => Err (-1) end) = Ok (s, (i + length (escape_value s) + 2)%nat)).
    { intros i _. destruct (Nat.ltb_spec i (i + length (escape_value s))); [apply IH; intros I; [apply N1|apply N2|apply N3]; now right|].
      destruct s as [|d s]; [cbn; f_equal; f_equal; lia|]. pose proof (escape_nonnil (d :: s) ltac:(discriminate)) as X. destruct (escape_value (d :: s)); [congruence|cbn in *; lia]. }
    unfold escape1, escapes. cbn [find snd fst option_map].
    destruct (Z.eqb_spec 10 c) as [<-|]; [exfalso; apply N1; now left|]. destruct (Z.eqb_spec 9 c) as [<-|]; [exfalso; apply N2; now left|]. destruct (Z.eqb_spec 8 c) as [<-|]; [exfalso; apply N3; now left|].
    destruct (Z.eqb_spec 34 c) as [<-|N34]; [|destruct (Z.eqb_spec 92 c) as [<-|N92]].
    + cbn [option_map fst app sub_loop length]. change (92 =? 34) with false. change (92 =? 92) with true. cbv iota.
      replace (idx + Datatypes.S (Datatypes.S (length (escape_value s))))%nat with ((idx + 2) + length (escape_value s))%nat by lia. rewrite (IH' (idx + 2)%nat (or_intror I)). cbn [bindr]. reflexivity.
    + cbn [option_map fst app sub_loop length]. change (92 =? 34) with false. change (92 =? 92) with true. cbv iota.
      replace (idx + Datatypes.S (Datatypes.S (length (escape_value s))))%nat with ((idx + 2) + length (escape_value s))%nat by lia. rewrite (IH' (idx + 2)%nat (or_intror I)). cbn [bindr]. reflexivity.
    + cbn [option_map fst app sub_loop length]. rewrite (proj2 (Z.eqb_neq c 34)), (proj2 (Z.eqb_neq c 92)) by lia.
      replace (idx + Datatypes.S (length (escape_value s)))%nat with ((idx + 1) + length (escape_value s))%nat by lia. rewrite (IH' (idx + 1)%nat (or_intror I)). cbn [bindr]. reflexivity. Qed.

Lemma header_loop_name a : forall nm t, Forall (fun c => keychar c = true) a -> a <> [] ->
  header_loop (a ++ 93 :: t) nm = Ok (nm ++ map tolower a, Datatypes.S (length a)) .
Proof.
  induction a as [|c a IH]; intros nm t F N; [congruence|]. inversion F as [|? ? Kc F']; subst. cbn [app header_loop]. rewrite (keychar_nospace _ Kc), Kc. cbn [negb andb].
  destruct a as [|d a]; [cbn [app]; rewrite Z.eqb_refl; reflexivity|]. cbn [app]. pose proof (Forall_inv F') as Kd. apply keychar_range in Kd. rewrite (proj2 (Z.eqb_neq d 93)) by lia.
  change (d :: a ++ 93 :: t) with ((d :: a) ++ 93 :: t). rewrite IH by (first [exact F'|discriminate]). cbn [bindr]. rewrite <- app_assoc. reflexivity. Qed.
Lemma header_loop_space a : forall nm u, Forall (fun c => keychar c = true) a -> a <> [] ->
  header_loop (a ++ 32 :: u) nm = do (s, n) <- parse_subsection (nm ++ map tolower a) u ;; Ok (s, (length a + Datatypes.S n)%nat).
Proof.
  induction a as [|c a IH]; intros nm u F N; [congruence|]. inversion F as [|? ? Kc F']; subst. cbn [app header_loop]. rewrite (keychar_nospace _ Kc), Kc. cbn [negb andb].
  destruct a as [|d a].
  - cbn [app]. change (32 =? 93) with false. cbv iota. cbn [header_loop]. change (isspace 32) with true. cbv iota. cbn [map length Nat.add]. destruct (parse_subsection (nm ++ [tolower c]) u) as [[s n]| | |]; reflexivity.
  - cbn [app]. pose proof (Forall_inv F') as Kd. apply keychar_range in Kd. rewrite (proj2 (Z.eqb_neq d 93)) by lia.
    change (d :: a ++ 32 :: u) with ((d :: a) ++ 32 :: u). rewrite IH by (first [exact F'|discriminate]). rewrite <- app_assoc. cbn [map app]. destruct (parse_subsection _ u) as [[s n]| | |]; reflexivity. Qed.

Lemma header_ok a middle : varname a -> (middle = [] \/ exists sub, middle = 46 :: sub) -> ~ In 0 middle -> ~ In 10 middle -> ~ In 9 middle -> ~ In 8 middle ->
  line1 (write_section (a ++ middle)) /\ exists rest, parse_section_header (write_section (a ++ middle)) = Ok (map tolower a ++ middle, rest) /\ peek_ws rest = None.
Proof.
  intros [Na F] D M0 M10 M9 M8.
  assert (KA : forall c, In c a -> keychar c = true) by (rewrite Forall_forall in F; exact F).
  assert (ND : ~ In 46 a) by (intros I; apply KA, keychar_range in I; lia).
  assert (A0 : forall x, In x a -> x <> 0 /\ x <> 10) by (intros x I; apply KA, keychar_range in I; lia).
  unfold write_section. destruct D as [->|(sub & ->)].
  - rewrite !app_nil_r. pose proof (strchr_split_spec 46 a) as X. destruct (strchr_split 46 a) as [[p q]|]; [exfalso; apply ND; destruct X as [-> _]; apply in_or_app; right; now left|]. clear X.
    split.
    + exists (91 :: a ++ [93]). split; [cbn; now rewrite <- app_assoc|]. intros [I|I]; [lia|]. apply in_app_or in I. destruct I as [I|[I|[]]]; [apply A0 in I; tauto|lia].
    + exists [10]. split; [|reflexivity]. unfold parse_section_header. cbn [advance_ws]. change (negb (91 =? 10) && isspace 91) with false. cbv iota.
      rewrite strz_id. 2:{ intros [I|I]; [lia|]. apply in_app_or in I. destruct I as [I|[I|[I|[]]]]; [apply A0 in I; tauto|lia|lia]. }
      change (91 :: a ++ [93; 10]) with ((91 :: a) ++ 93 :: [10]) at 1. rewrite last_index_app by (cbn; intuition lia). change (91 =? 91) with true. cbv iota.
      rewrite header_loop_name by assumption. cbn [bindr app]. f_equal. f_equal. change (skipn (Datatypes.S (length a)) (a ++ [93; 10]) = [10]). rewrite skipn_app. rewrite skipn_all2 by lia. replace (Datatypes.S (length a) - length a)%nat with 1%nat by lia. reflexivity.
  - assert (X : strchr_split 46 (a ++ 46 :: sub) = Some (a, sub)).
    { clear -ND. induction a as [|x a IH]; cbn [app strchr_split]; [reflexivity|]. destruct (Z.eqb_spec x 46) as [->|]; [exfalso; apply ND; now left|]. rewrite IH; [reflexivity|]. intros I. apply ND. now right. }
    rewrite X. clear X. set (e := escape_value sub).
    assert (E0 : ~ In 0 e /\ ~ In 10 e) by (split; intros I; apply escape_chars in I; cbn in I, M0, M10; intuition lia). destruct E0 as [E0 E10].
    assert (SH : (a ++ [32; 34] ++ e ++ [34]) ++ [93; 10] = a ++ 32 :: 34 :: e ++ 34 :: 93 :: [10]) by (repeat (rewrite <- ?app_assoc; cbn [app]); reflexivity).
    rewrite SH. split.
    + exists (91 :: a ++ 32 :: 34 :: e ++ [34; 93]). split; [cbn [app]; repeat (rewrite <- app_assoc; cbn [app]); reflexivity|].
      intros [I|I]; [lia|]. apply in_app_or in I. destruct I as [I|[I|[I|I]]]; [apply A0 in I; tauto|lia|lia|]. apply in_app_or in I. destruct I as [I|I]; [tauto|cbn in I; intuition lia].
    + exists [10]. split; [|reflexivity]. unfold parse_section_header. cbn [advance_ws]. change (negb (91 =? 10) && isspace 91) with false. cbv iota.
      rewrite strz_id. 2:{ intros [I|I]; [lia|]. apply in_app_or in I. destruct I as [I|[I|[I|I]]]; [apply A0 in I; tauto|lia|lia|]. apply in_app_or in I. destruct I as [I|I]; [tauto|cbn in I; intuition lia]. }
      assert (LI : last_index 93 (91 :: a ++ 32 :: 34 :: e ++ 34 :: 93 :: [10]) = Some (length (91 :: a ++ 32 :: 34 :: e ++ [34]))).
      { replace (91 :: a ++ 32 :: 34 :: e ++ 34 :: 93 :: [10]) with ((91 :: a ++ 32 :: 34 :: e ++ [34]) ++ 93 :: [10]) by (cbn [app]; repeat (rewrite <- app_assoc; cbn [app]); reflexivity). apply last_index_app. cbn; intuition lia. }
      rewrite LI. change (91 =? 91) with true. cbv iota. rewrite header_loop_space by assumption. cbn [app].
      unfold parse_subsection. cbn [span]. change (isspace 34) with false. cbv iota. change (34 =? 34) with true. cbv iota.
      rewrite last_index_app by (cbn; intuition lia). pose proof (sub_loop_escape sub 0 [10] ltac:(cbn in M10; tauto) ltac:(cbn in M9; tauto) ltac:(cbn in M8; tauto)) as SL.
      cbn [Nat.add] in SL. fold e in SL. rewrite SL. cbn [bindr]. f_equal. f_equal.
      change (skipn (length a + Datatypes.S (Datatypes.S (length e + 2))) (a ++ 32 :: 34 :: e ++ 34 :: 93 :: [10]) = [10]).
      rewrite skipn_app. rewrite skipn_all2 by lia. cbn [app].
      replace (length a + Datatypes.S (Datatypes.S (length e + 2)) - length a)%nat with (Datatypes.S (Datatypes.S (length e + 2))) by lia. cbn [skipn].
      rewrite skipn_app. rewrite skipn_all2 by lia. replace (length e + 2 - length e)%nat with 2%nat by lia. reflexivity. Qed.

Lemma key_ok name key preg : normalize_name name = Some key -> writable_key name ->
  exists os s on n, split_last key = Some (s, n) /\ split_last name = Some (os, on) /\ kok {| k_osection := os; k_section := s; k_oname := on; k_name := n; k_preg := preg |} key.
Proof.
  intros N (C & W9 & W8). destruct (normalize_spec _ _ N) as (a & m & b & En & Ek & Va & Vb & D & N10 & S1 & S2).
  exists (a ++ m), (map tolower a ++ m), b, (map tolower b). split; [exact S2|]. split; [exact S1|].
  assert (MI : forall c, In c m -> In c name) by (intros c I; rewrite En; apply in_or_app; right; apply in_or_app; now left).
  constructor; cbn; [exact Vb|reflexivity|rewrite Ek; now rewrite <- app_assoc|]. apply header_ok; auto. intros I. apply (cstr_nz _ C). auto. Qed.

(** *** config_file_write as a whole *)
Theorem write_spec data name key preg value r v es out :
  normalize_name name = Some key -> writable_key name -> tidy data -> reads_as r v -> (value = None \/ value = Some r) ->
  config_read data = Ok es -> config_file_write data name key preg value = Ok out ->
  exists cur val' rep' B', asteps {| k_osection := match split_last name with Some (a, _) => a | None => [] end; k_section := match split_last key with Some (a, _) => a | None => [] end;
      k_oname := match split_last name with Some (_, a) => a | None => [] end; k_name := match split_last key with Some (_, a) => a | None => [] end; k_preg := preg |} key v None cur es
      (match value with Some _ => true | None => false end) false [] val' rep' B' /\
    config_read out = Ok (if val' && ((match preg with None => true | _ => false end) || negb rep') then B' ++ [(key, Some v)] else B') /\ tidy out.
Proof.
  intros N W T R Hv Hr Hw. destruct (key_ok name key preg N W) as (os & s & on & n & S1 & S2 & K).
  unfold config_file_write in Hw. rewrite S1, S2 in *.
  destruct (config_parse data) as [[evs e]| | |] eqn:Ep; cbn [bindr] in Hw; try discriminate.
  set (k := {| k_osection := os; k_section := s; k_oname := on; k_name := n; k_preg := preg |}) in *.
  destruct (write_events k _ evs) as [w| | |] eqn:Ew; cbn [bindr] in Hw; try discriminate. injection Hw as <-.
  assert (P : parses None (lines (skip_bom data)) evs e).
  { destruct T as (evs1 & e1 & T1 & T). rewrite Ep in T1. injection T1 as <- <-. unfold config_parse in Ep. pose proof (okl_nonnil _ (okl_lines (skip_bom data))) as NN. eapply (ploop_sound (Datatypes.S (Datatypes.S (length data))) (Datatypes.S (length data))); [lia| |exact NN|exact T].
    unfold ploop. exact Ep. }
  assert (Ees : flat_map entry_of evs = es).
  { unfold config_read in Hr. destruct data as [|c d].
    - cbn in Ep. injection Ep as <- <-. now injection Hr as <-.
    - destruct (Z.eqb_spec c 0) as [->|Nz]; [|rewrite Ep in Hr; cbn [bindr] in Hr; now injection Hr as <-].
      injection Hr as <-. exfalso. assert (SB : skip_bom (0 :: d) = 0 :: d) by (unfold skip_bom; destruct d as [|? [|? ?]]; reflexivity). rewrite SB in P.
      destruct (lines (0 :: d)) as [|l ls] eqn:El; [apply (f_equal (@concat Z)) in El; rewrite lines_concat in El; discriminate|].
      destruct (parses_inv _ _ _ _ P) as [(X & _)|(g & e1 & c1 & ls' & G & E1)]; [discriminate X|]. destruct (group_first _ _ _ _ G) as (c & t & E & Nc & _). apply (f_equal (@concat Z)) in El. rewrite lines_concat, E1, concat_app, E in El. injection El as <- _. congruence. }
  assert (S0 : S k {| w_buf := []; w_com := []; w_in := false; w_val := value; w_rep := false |} None []).
  { exists [], [], []. repeat split; constructor. }
  destruct (parses_steps k key r v K R _ _ _ _ P (okl_lines _) _ [] (match value with Some _ => true | None => false end) w S0) as (val' & B' & St & V & A); [unfold isval; destruct Hv as [->| ->]; reflexivity|exact Ew|].
  rewrite Ees in A. cbn [w_rep] in A. exists e, val', (w_rep w), B'. split; [exact A|].
  destruct (write_eof_spec k key r v w e B' val' K R St V) as (evs' & X & e' & Y & T'). split; [exact X|exists evs', e'; auto]. Qed.
