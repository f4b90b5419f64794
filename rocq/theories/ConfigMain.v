From Verif Require Import Base Str WildModel ConfigModel ConfigSpec ConfigProofs.

(** *** The parser, group of lines by group of lines *)
Definition lead (l : list Z) : option Z := match peek_ws l with Some c => Some c | None => peek l end.
Definition blankish : list Z := [10; 13; 32; 9; 59; 35].

Inductive group : option (list Z) -> list (list Z) -> list event -> option (list Z) -> Prop :=
| G_comment cur l c : lead l = Some c -> In c blankish -> group cur [l] [EComment false l] cur
| G_section cur l name rest : lead l = Some 91 -> parse_section_header l = Ok (name, rest) -> peek_ws rest = None ->
    group cur [l] [ESection false name l] (Some name)
| G_section_c cur l name rest c : lead l = Some 91 -> parse_section_header l = Ok (name, rest) -> peek_ws rest = Some c -> c = 59 \/ c = 35 ->
    group cur [l] [ESection false name l; EComment true rest] (Some name)
| G_var cur l c used name value : lead l = Some c -> c <> 91 -> ~ In c blankish ->
    (forall more, parse_variable l (used ++ more) = Ok (name, value, false, (used, more))) ->
    group cur (l :: used) [EVar false cur name value false (l ++ concat used)] cur.

Inductive parses : option (list Z) -> list (list Z) -> list event -> option (list Z) -> Prop :=
| P_nil cur : parses cur [] [] cur
| P_group c0 g e1 c1 ls e2 c2 : group c0 g e1 c1 -> parses c1 ls e2 c2 -> parses c0 (g ++ ls) (e1 ++ e2) c2.

Lemma parses_app c0 l1 e1 c1 l2 e2 c2 : parses c0 l1 e1 c1 -> parses c1 l2 e2 c2 -> parses c0 (l1 ++ l2) (e1 ++ e2) c2.
Proof. induction 1; [auto|]. intros. rewrite <- !app_assoc. econstructor; eauto. Qed.
Lemma parses_one c0 g e1 c1 : group c0 g e1 c1 -> parses c0 g e1 c1.
Proof. intros G. rewrite <- (app_nil_r g), <- (app_nil_r e1). econstructor; [exact G|constructor]. Qed.

Lemma parse_multi_local more : forall q v used rest, parse_multi q more = Ok (v, false, (used, rest)) ->
  more = used ++ rest /\ used <> [] /\ forall rest', parse_multi q (used ++ rest') = Ok (v, false, (used, rest')).
Proof.
  induction more as [|l ls IH]; intros q v used rest H; cbn [parse_multi] in H; [discriminate|].
  destruct (strz l) as [|z0 zs] eqn:Ez.
  { apply (f_equal (fun r => match r with Ok x => x | _ => ([], true, ([], [])) end)) in H. injection H as <- <- <-. split; [reflexivity|]. split; [discriminate|]. intros. cbn [app parse_multi]. now rewrite Ez. }
  destruct (strip_comments (z0 :: zs) q) as [s q1] eqn:Es.
  destruct s as [|s0 ss].
  { destruct (parse_multi q1 ls) as [[[v' eof] [u r]]| | |] eqn:Em; cbn [bindr] in H; try discriminate.
    injection H as -> -> <- <-. destruct (IH _ _ _ _ Em) as (-> & N & K). split; [reflexivity|]. split; [discriminate|].
    intros. cbn [app parse_multi]. rewrite Ez, Es, K. reflexivity. }
  destruct (unescape (s0 :: ss)) as [[v1 m]| | |] eqn:Eu; cbn [bindr] in H; try discriminate. destruct m.
  - destruct (parse_multi q1 ls) as [[[v' eof] [u r]]| | |] eqn:Em; cbn [bindr] in H; try discriminate.
    injection H as <- -> <- <-. destruct (IH _ _ _ _ Em) as (-> & N & K). split; [reflexivity|]. split; [discriminate|].
    intros. cbn [app parse_multi]. rewrite Ez, Es, Eu. cbn [bindr]. rewrite K. reflexivity.
  - injection H as <- <- <-. split; [reflexivity|]. split; [discriminate|]. intros. cbn [app parse_multi]. rewrite Ez, Es, Eu. reflexivity. Qed.

Lemma parse_variable_local l more name value used rest : parse_variable l more = Ok (name, value, false, (used, rest)) ->
  more = used ++ rest /\ forall rest', parse_variable l (used ++ rest') = Ok (name, value, false, (used, rest')).
Proof.
  unfold parse_variable. intros H. destruct (strip_comments (strz (advance_ws l)) 0) as [s q].
  destruct (parse_name s) as [[nm vs]| | |]; cbn [bindr] in *; try discriminate.
  destruct vs as [t|]; [|injection H as <- <- <- <-; split; [reflexivity|]; intros; reflexivity].
  destruct (unescape (snd (span isspace t))) as [[v m]| | |]; cbn [bindr] in *; try discriminate.
  destruct m; [|injection H as <- <- <- <-; split; [reflexivity|]; intros; reflexivity].
  destruct (parse_multi _ more) as [[[v' eof] [u r]]| | |] eqn:Em; cbn [bindr] in H; try discriminate.
  injection H as <- <- -> <- <-. destruct (parse_multi_local _ _ _ _ _ Em) as (-> & _ & K). split; [reflexivity|]. intros. now rewrite K. Qed.

Lemma peek_ws_nospace l c : peek_ws l = Some c -> isspace c = false.
Proof. induction l as [|x r IH]; cbn; [discriminate|]. destruct (isspace x) eqn:E; [exact IH|]. now intros [= <-]. Qed.
Lemma lead_none l : lead l = None -> l = [].
Proof. unfold lead. destruct (peek_ws l) eqn:E; [discriminate|]. destruct l; [reflexivity|discriminate]. Qed.
Lemma blank_test c : ((c =? 10) || (c =? 13) || (c =? 32) || (c =? 9) || (c =? 59) || (c =? 35)) = true <-> In c blankish.
Proof. rewrite !orb_true_iff, !Z.eqb_eq. cbn. intuition lia. Qed.

Definition ploop (f : nat) (cur : option (list Z)) (ls : list (list Z)) : res (list event * option (list Z)) :=
  match ls with [] => Ok ([], cur) | l :: r => parse_loop f false cur l r end.

Lemma parse_loop_eq f same cur line more : parse_loop (S f) same cur line more =
  match lead line with
  | None => ploop f cur more
  | Some c =>
      if c =? 91 then
        do (name, rest) <- parse_section_header line ;;
        do (evs, e) <- (match peek_ws rest with
                        | Some _ => parse_loop f true (Some name) rest more
                        | None => ploop f (Some name) more
                        end) ;;
        Ok (ESection same name line :: evs, e)
      else if (c =? 10) || (c =? 13) || (c =? 32) || (c =? 9) || (c =? 59) || (c =? 35) then
        do (evs, e) <- ploop f cur more ;; Ok (EComment same line :: evs, e)
      else
        do (name, value, eof, (used, rest)) <- parse_variable line more ;;
        do (evs, e) <- ploop f cur rest ;;
        Ok (EVar same cur name value eof (line ++ concat used) :: evs, e)
  end.
Proof. reflexivity. Qed.

Lemma ploop_sound n : forall f cur ls evs e, (f < n)%nat -> ploop f cur ls = Ok (evs, e) ->
  Forall (fun l => l <> []) ls -> Forall tidy_event evs -> parses cur ls evs e.
Proof.
  induction n as [|n IH]; intros f cur ls evs e Hf H NE TD; [lia|].
  destruct ls as [|l ls]; [injection H as <- <-; constructor|]. unfold ploop in H. inversion NE as [|? ? Nl NE']; subst.
  destruct f as [|f]; [discriminate|]. rewrite parse_loop_eq in H.
  destruct (lead l) as [c|] eqn:L; [|apply lead_none in L; congruence].
  destruct (Z.eqb_spec c 91) as [->|N91].
  - destruct (parse_section_header l) as [[name rest]| | |] eqn:Ph; cbn [bindr] in H; try discriminate.
    destruct (peek_ws rest) as [c|] eqn:Pr.
    + destruct f as [|f]; [discriminate|]. rewrite parse_loop_eq in H. assert (L' : lead rest = Some c) by (unfold lead; now rewrite Pr). rewrite L' in H.
      destruct (Z.eqb_spec c 91) as [->|N91'].
      { destruct (parse_section_header rest) as [[n2 r2]| | |]; cbn [bindr] in H; try discriminate.
        destruct (match peek_ws r2 with Some _ => parse_loop f true (Some n2) r2 ls | None => ploop f (Some n2) ls end) as [[ev2 e2]| | |]; cbn [bindr] in H; try discriminate.
        injection H as <- <-. inversion TD as [|? ? _ T2]; subst. inversion T2 as [|? ? T3 _]; subst. discriminate T3. }
      destruct ((c =? 10) || (c =? 13) || (c =? 32) || (c =? 9) || (c =? 59) || (c =? 35)) eqn:B.
      * destruct (ploop f (Some name) ls) as [[ev2 e2]| | |] eqn:Ep; cbn [bindr] in H; try discriminate. injection H as <- <-.
        inversion TD as [|? ? _ T2]; subst. inversion T2 as [|? ? _ T3]; subst.
        change (l :: ls) with ([l] ++ ls). change (ESection false name l :: EComment true rest :: ev2) with ([ESection false name l; EComment true rest] ++ ev2).
        econstructor; [|eapply IH; [|exact Ep|exact NE'|exact T3]; lia]. eapply G_section_c; eauto.
        apply blank_test in B. apply peek_ws_nospace in Pr. cbn in B. destruct B as [<-|[<-|[<-|[<-|[<-|[<-|[]]]]]]]; try discriminate Pr; auto.
      * destruct (parse_variable rest ls) as [[[[nm vl] eo] [us rs]]| | |]; cbn [bindr] in H; try discriminate.
        destruct (ploop f (Some name) rs) as [[ev2 e2]| | |]; cbn [bindr] in H; try discriminate. injection H as <- <-.
        inversion TD as [|? ? _ T2]; subst. inversion T2 as [|? ? T3 _]; subst. destruct T3; discriminate.
    + destruct (ploop f (Some name) ls) as [[ev2 e2]| | |] eqn:Ep; cbn [bindr] in H; try discriminate. injection H as <- <-.
      inversion TD as [|? ? _ T2]; subst. change (l :: ls) with ([l] ++ ls). change (ESection false name l :: ev2) with ([ESection false name l] ++ ev2).
      econstructor; [|eapply IH; [|exact Ep|exact NE'|exact T2]; lia]. eapply G_section; eauto.
  - destruct ((c =? 10) || (c =? 13) || (c =? 32) || (c =? 9) || (c =? 59) || (c =? 35)) eqn:B.
    + destruct (ploop f cur ls) as [[ev2 e2]| | |] eqn:Ep; cbn [bindr] in H; try discriminate. injection H as <- <-.
      inversion TD as [|? ? _ T2]; subst. change (l :: ls) with ([l] ++ ls). change (EComment false l :: ev2) with ([EComment false l] ++ ev2).
      econstructor; [|eapply IH; [|exact Ep|exact NE'|exact T2]; lia]. eapply G_comment; [exact L|now apply blank_test].
    + destruct (parse_variable l ls) as [[[[nm vl] eo] [us rs]]| | |] eqn:Ev; cbn [bindr] in H; try discriminate.
      destruct (ploop f cur rs) as [[ev2 e2]| | |] eqn:Ep; cbn [bindr] in H; try discriminate. injection H as <- <-.
      inversion TD as [|? ? T1 T2]; subst. destruct T1 as [_ ->]. apply parse_variable_local in Ev. destruct Ev as [-> K].
      apply Forall_app in NE'. destruct NE' as [_ NE2].
      change (l :: us ++ rs) with ((l :: us) ++ rs). match goal with |- parses _ _ (?x :: ev2) _ => change (x :: ev2) with ([x] ++ ev2) end.
      econstructor; [|eapply IH; [|exact Ep|exact NE2|exact T2]; lia]. eapply G_var; eauto. rewrite <- blank_test, B. discriminate. Qed.

Lemma header_rest l name rest : parse_section_header l = Ok (name, rest) -> exists p, l = p ++ rest /\ p <> [].
Proof.
  unfold parse_section_header. destruct (last_index 93 (strz (advance_ws l))); [|discriminate].
  destruct (strz (advance_ws l)) as [|o t] eqn:Ez; [discriminate|]. destruct (o =? 91); [|discriminate].
  destruct (header_loop t []) as [[s k]| | |]; cbn [bindr]; [|discriminate..]. intros [= <- <-].
  assert (A : exists p, l = p ++ advance_ws l).
  { clear. induction l as [|c r (p & E)]; [now exists []|]. cbn [advance_ws]. destruct (negb (c =? 10) && isspace c); [exists (c :: p); cbn; now rewrite <- E|now exists []]. }
  destruct A as (p & E). destruct (advance_ws l) as [|x xs] eqn:Ea; [discriminate Ez|].
  exists (p ++ x :: firstn k xs). split; [|destruct p; discriminate].
  rewrite E. cbn [skipn Nat.add]. rewrite <- app_assoc. cbn [app]. now rewrite firstn_skipn. Qed.

Lemma ploop_complete cur ls evs e : parses cur ls evs e -> forall f, (length (concat ls) < f)%nat -> ploop f cur ls = Ok (evs, e).
Proof.
  induction 1 as [cur|c0 g e1 c1 ls e2 c2 G P IH]; intros f Hf; [reflexivity|].
  rewrite concat_app, app_length in Hf. destruct f as [|f]; [lia|].
  destruct G as [cur l c L B|cur l name rest L Ph Pr|cur l name rest c L Ph Pr C|cur l c used name value L N B K]; cbn [app ploop];
    assert (Ll : (length l > 0)%nat) by (destruct l; [discriminate L|cbn; lia]).
  - cbn [concat] in Hf. rewrite app_nil_r in Hf. rewrite parse_loop_eq, L. assert (N91 : c <> 91) by (cbn in B; intuition lia).
    rewrite (proj2 (Z.eqb_neq c 91) N91), (proj2 (blank_test c) B). cbn [concat] in *. rewrite IH by lia. reflexivity.
  - cbn [concat] in Hf. rewrite app_nil_r in Hf. rewrite parse_loop_eq, L, Z.eqb_refl, Ph. cbn [bindr]. rewrite Pr, IH by lia. reflexivity.
  - cbn [concat] in Hf. rewrite app_nil_r in Hf. rewrite parse_loop_eq, L, Z.eqb_refl, Ph. cbn [bindr]. rewrite Pr.
    destruct (header_rest _ _ _ Ph) as (p & E & Np). assert (Lr : (length rest > 0)%nat) by (destruct rest; [discriminate Pr|cbn; lia]).
    rewrite E, app_length in Hf. destruct p as [|x p]; [congruence|]. cbn [length] in Hf.
    destruct f as [|f]; [lia|]. rewrite parse_loop_eq. assert (L' : lead rest = Some c) by (unfold lead; now rewrite Pr). rewrite L'.
    rewrite (proj2 (Z.eqb_neq c 91)) by lia. rewrite (proj2 (blank_test c)) by (cbn; intuition lia). rewrite IH by lia. reflexivity.
  - cbn [concat] in Hf. rewrite app_length in Hf. rewrite parse_loop_eq, L, (proj2 (Z.eqb_neq c 91) N).
    destruct ((c =? 10) || (c =? 13) || (c =? 32) || (c =? 9) || (c =? 59) || (c =? 35)) eqn:Bt; [apply blank_test in Bt; tauto|].
    rewrite K. cbn [bindr]. rewrite IH by lia. reflexivity. Qed.

(** *** A newline added at the end of the text *)
Lemma peek_ws_nl l : peek_ws (l ++ [10]) = peek_ws l.
Proof. induction l as [|c r IH]; cbn [app peek_ws]; [reflexivity|]. now rewrite IH. Qed.
Lemma lead_nl l : l <> [] -> lead (l ++ [10]) = lead l.
Proof. intros N. unfold lead. rewrite peek_ws_nl. destruct (peek_ws l); [reflexivity|]. destruct l; [congruence|reflexivity]. Qed.
Lemma advance_ws_nl l : advance_ws (l ++ [10]) = advance_ws l ++ [10].
Proof. induction l as [|c r IH]; cbn [app advance_ws]; [reflexivity|]. destruct (negb (c =? 10) && isspace c); [exact IH|reflexivity]. Qed.
Lemma last_index_nl c l : c <> 10 -> last_index c (l ++ [10]) = last_index c l.
Proof. intros N. induction l as [|x r IH]; cbn [app last_index]; [now rewrite (proj2 (Z.eqb_neq 10 c)) by lia|]. now rewrite IH. Qed.

Lemma sub_loop_more : forall n u idx lst b k x, (length u < n)%nat -> sub_loop u idx lst = Ok (b, k) -> sub_loop (u ++ x) idx lst = Ok (b, k) /\ (k <= idx + length u)%nat.
Proof.
  assert (FIN : forall (w : list Z) (idx : nat) (b : list Z) (k : nat) (x : list Z), (match w with a :: b0 :: _ => if (a =? 34) && (b0 =? 93) then Ok ([], (idx + 2)%nat) else Err (-1) | _ => Err (-1) end) = Ok (b, k) ->
    (match w ++ x with a :: b0 :: _ => if (a =? 34) && (b0 =? 93) then Ok ([], (idx + 2)%nat) else Err (-1) | _ => Err (-1) end) = Ok (b, k) /\ (k <= idx + length w)%nat).
  { intros w idx b k x H. destruct w as [|a [|b0 w]]; [discriminate..|]. cbn [app]. rewrite H. split; [reflexivity|]. destruct ((a =? 34) && (b0 =? 93)); [|discriminate]. injection H as _ <-. cbn [length]. lia. }
  induction n as [|n IH]; intros u idx lst b k x Hn H; [lia|]. destruct u as [|c r]; [discriminate|]. cbn [app sub_loop] in *. cbn [length] in *.
  destruct (c =? 34) eqn:C34; [pose proof (FIN (c :: r) idx b k x) as F1; cbn [app length] in F1; rewrite C34 in F1; exact (F1 H)|].
  destruct (c =? 92).
  - destruct r as [|d r]; [discriminate|]. cbn [app length] in *. destruct (idx + 2 <? lst)%nat.
    + destruct (sub_loop r (idx + 2) lst) as [[b' k']| | |] eqn:E; cbn [bindr] in H; try discriminate. destruct (IH r (idx + 2)%nat lst b' k' x ltac:(lia) E) as [K1 K2]. rewrite K1. cbn [bindr]. split; [exact H|]. injection H as _ <-. lia.
    + match type of H with (bindr ?m _ = _) => destruct m as [[b' k']| | |] eqn:E end; cbn [bindr] in H; try discriminate. destruct (FIN r (idx + 2)%nat _ _ x E) as [K1 K2]. rewrite K1. cbn [bindr]. split; [exact H|]. injection H as _ <-. lia.
  - destruct (idx + 1 <? lst)%nat.
    + destruct (sub_loop r (idx + 1) lst) as [[b' k']| | |] eqn:E; cbn [bindr] in H; try discriminate. destruct (IH r (idx + 1)%nat lst b' k' x ltac:(lia) E) as [K1 K2]. rewrite K1. cbn [bindr]. split; [exact H|]. injection H as _ <-. lia.
    + match type of H with (bindr ?m _ = _) => destruct m as [[b' k']| | |] eqn:E end; cbn [bindr] in H; try discriminate. destruct (FIN r (idx + 1)%nat _ _ x E) as [K1 K2]. rewrite K1. cbn [bindr]. split; [exact H|]. injection H as _ <-. lia. Qed.

Lemma span_nl f l a b : span f l = (a, b) -> b <> [] -> span f (l ++ [10]) = (a, b ++ [10]).
Proof. revert a b. induction l as [|c r IH]; intros a b; cbn [app span]; [intros [= <- <-]; congruence|].
  destruct (f c); [|intros [= <- <-] _; reflexivity]. destruct (span f r) as [a' b'] eqn:E. intros [= <- <-] N. now rewrite (IH a' b' eq_refl N). Qed.
Lemma span_length f l a b : span f l = (a, b) -> l = a ++ b.
Proof. revert a b. induction l as [|c r IH]; intros a b; cbn [span]; [now intros [= <- <-]|]. destruct (f c); [|now intros [= <- <-]].
  destruct (span f r) as [a' b'] eqn:E. intros [= <- <-]. cbn. now rewrite (IH a' b' eq_refl). Qed.

Lemma parse_subsection_nl base t s n : parse_subsection base t = Ok (s, n) -> parse_subsection base (t ++ [10]) = Ok (s, n) /\ (n <= length t)%nat.
Proof.
  unfold parse_subsection. destruct (span isspace t) as [ws u] eqn:E. destruct u as [|q u]; [discriminate|].
  rewrite (span_nl _ _ _ _ E) by discriminate. cbn [app]. destruct (q =? 34); [|discriminate]. rewrite last_index_nl by lia.
  destruct (last_index 34 u); [|discriminate]. destruct (sub_loop u 0 n0) as [[b k]| | |] eqn:S1; cbn [bindr]; try discriminate.
  destruct (sub_loop_more (S (length u)) u 0 n0 b k [10] ltac:(lia) S1) as [K1 K2]. rewrite K1. cbn [bindr]. intros [= <- <-]. split; [reflexivity|].
  apply span_length in E. rewrite E, app_length. cbn [length]. lia. Qed.

Lemma header_loop_nl t : forall nm s n, header_loop t nm = Ok (s, n) -> header_loop (t ++ [10]) nm = Ok (s, n) /\ (n <= length t)%nat.
Proof.
  induction t as [|c r IH]; intros nm s n H; [discriminate|]. cbn [app header_loop length] in *.
  destruct (isspace c).
  - destruct (parse_subsection nm r) as [[s' k]| | |] eqn:E; cbn [bindr] in H; try discriminate. destruct (parse_subsection_nl _ _ _ _ E) as [K1 K2]. rewrite K1. cbn [bindr]. split; [exact H|]. injection H as _ <-. lia.
  - destruct (negb (keychar c) && negb (c =? 46)); [discriminate|]. destruct r as [|x r]; [discriminate|]. cbn [app].
    destruct (x =? 93); [split; [exact H|]; injection H as _ <-; cbn; lia|].
    destruct (header_loop (x :: r) (nm ++ [tolower c])) as [[s' k]| | |] eqn:E; cbn [bindr] in H; try discriminate.
    destruct (IH _ _ _ E) as [K1 K2]. change (x :: r ++ [10]) with ((x :: r) ++ [10]). rewrite K1. cbn [bindr]. split; [exact H|]. injection H as _ <-. cbn [length] in *. lia. Qed.

Lemma strz_length l : (length (strz l) <= length l)%nat.
Proof. induction l as [|c r IH]; cbn; [lia|]. destruct (c =? 0); cbn; lia. Qed.

Lemma parse_header_nl l name rest : parse_section_header l = Ok (name, rest) -> parse_section_header (l ++ [10]) = Ok (name, rest ++ [10]).
Proof.
  unfold parse_section_header. rewrite advance_ws_nl. pose proof (strz_length (advance_ws l)) as SL.
  intros H. destruct (last_index 93 (strz (advance_ws l))) eqn:Li; [|discriminate].
  destruct (strz (advance_ws l)) as [|o t] eqn:Ez; [discriminate|]. cbn [length] in SL.
  destruct (o =? 91) eqn:Eo; [|discriminate]. destruct (header_loop t []) as [[s k]| | |] eqn:Eh; cbn [bindr] in H; try discriminate. injection H as <- <-.
  destruct (header_loop_nl _ _ _ _ Eh) as [K1 K2].
  assert (SK : skipn (1 + k) (advance_ws l ++ [10]) = skipn (1 + k) (advance_ws l) ++ [10]).
  { rewrite skipn_app. replace (1 + k - length (advance_ws l))%nat with 0%nat by lia. reflexivity. }
  destruct (strz_nl (advance_ws l)) as [->| ->]; rewrite Ez.
  - rewrite Li, Eo, Eh. cbn [bindr]. change (S k) with (1 + k)%nat. now rewrite SK.
  - rewrite last_index_nl, Li by lia. cbn [app]. rewrite Eo, K1. cbn [bindr]. change (S k) with (1 + k)%nat. now rewrite SK. Qed.

Lemma parse_variable_nl l used name value : (forall more, parse_variable l (used ++ more) = Ok (name, value, false, (used, more))) ->
  forall more, parse_variable (l ++ [10]) (used ++ more) = Ok (name, value, false, (used, more)).
Proof. intros H more. rewrite <- H. unfold parse_variable. now rewrite advance_ws_nl, strip_strz_nl. Qed.

Lemma parse_multi_nl u0 : forall q u v, u <> [] -> (forall more, parse_multi q ((u0 ++ [u]) ++ more) = Ok (v, false, (u0 ++ [u], more))) ->
  forall more, parse_multi q ((u0 ++ [u ++ [10]]) ++ more) = Ok (v, false, (u0 ++ [u ++ [10]], more)).
Proof.
  induction u0 as [|a u0 IH]; intros q u v Nu H more; cbn [app parse_multi] in *.
  - specialize (H more). assert (N10 : match strz (u ++ [10]) with [] => strz u = [] | _ => strz u <> [] end).
    { destruct u as [|c r]; [congruence|]. cbn. destruct (c =? 0); [reflexivity|discriminate]. }
    pose proof (strip_strz_nl u q) as SN.
    destruct (strz (u ++ [10])) as [|a1 b1] eqn:E1.
    + rewrite N10 in H. injection H as <-. reflexivity.
    + rewrite SN. destruct (strz u) as [|a2 b2]; [congruence|]. destruct (strip_comments (a2 :: b2) q) as [s q1]. destruct s as [|s0 ss].
      * destruct (parse_multi q1 more) as [[[v' eof] [us r]]| | |] eqn:Em; cbn [bindr] in H; try discriminate. exfalso. injection H as -> -> -> ->. destruct (parse_multi_local _ _ _ _ _ Em) as (_ & X & _). congruence.
      * destruct (unescape (s0 :: ss)) as [[v1 m]| | |]; cbn [bindr] in *; try discriminate. destruct m.
        -- destruct (parse_multi q1 more) as [[[v' eof] [us r]]| | |] eqn:Em; cbn [bindr] in H; try discriminate. exfalso. injection H as _ -> -> ->. destruct (parse_multi_local _ _ _ _ _ Em) as (_ & X & _). congruence.
        -- injection H as <-. reflexivity.
  - destruct (strz a) as [|a1 b1]; [specialize (H more); exfalso; injection H as _ X _; destruct u0; discriminate X|].
    destruct (strip_comments (a1 :: b1) q) as [s q1]. destruct s as [|s0 ss].
    + rewrite (IH q1 u v Nu); [reflexivity|]. intros mr. specialize (H mr). destruct (parse_multi q1 ((u0 ++ [u]) ++ mr)) as [[[v' eof] [us r]]| | |]; cbn [bindr] in H; try discriminate. injection H as -> -> -> ->. reflexivity.
    + destruct (unescape (s0 :: ss)) as [[v1 m]| | |]; cbn [bindr] in *; try (specialize (H []); discriminate). destruct m.
      * assert (X : exists v', v = v1 ++ v' /\ forall mr, parse_multi q1 ((u0 ++ [u]) ++ mr) = Ok (v', false, (u0 ++ [u], mr))).
        { pose proof (H []) as H0. destruct (parse_multi q1 ((u0 ++ [u]) ++ [])) as [[[v' eof] [us r]]| | |] eqn:E0; cbn [bindr] in H0; try discriminate. injection H0 as <- -> -> ->.
          exists v'. split; [reflexivity|]. apply parse_multi_local in E0. destruct E0 as (_ & _ & K). exact K. }
        destruct X as (v' & -> & K). rewrite (IH q1 u v' Nu K). reflexivity.
      * exfalso. specialize (H more). injection H as _ X _. destruct u0; discriminate X. Qed.

Lemma parse_variable_nl2 l u0 u name value : u <> [] -> (forall more, parse_variable l ((u0 ++ [u]) ++ more) = Ok (name, value, false, (u0 ++ [u], more))) ->
  forall more, parse_variable l ((u0 ++ [u ++ [10]]) ++ more) = Ok (name, value, false, (u0 ++ [u ++ [10]], more)).
Proof.
  unfold parse_variable. intros Nu H. destruct (strip_comments (strz (advance_ws l)) 0) as [s q].
  destruct (parse_name s) as [[nm vs]| | |]; cbn [bindr] in *; try (specialize (H []); discriminate).
  destruct vs as [t|]; [|exfalso; specialize (H []); injection H as _ _ X _; destruct u0; discriminate X].
  destruct (unescape (snd (span isspace t))) as [[v m]| | |]; cbn [bindr] in *; try (specialize (H []); discriminate).
  destruct m; [|exfalso; specialize (H []); injection H as _ _ X _; destruct u0; discriminate X].
  set (q0 := if Nat.even q then 0%nat else 1%nat) in *. clearbody q0. intros more.
  pose proof (H []) as H0. destruct (parse_multi q0 ((u0 ++ [u]) ++ [])) as [[[v' eof] [us r]]| | |] eqn:E0; cbn [bindr] in H0; try discriminate. injection H0 as <- <- -> -> ->.
  apply parse_multi_local in E0. destruct E0 as (_ & _ & K). rewrite (parse_multi_nl u0 q0 u v' Nu K). reflexivity. Qed.

Lemma destruct_last {A} (l : list A) : l = [] \/ exists a x, l = a ++ [x].
Proof. destruct l as [|y l] using rev_ind; [now left|right; eauto]. Qed.

Fixpoint okl (ls : list (list Z)) : Prop :=
  match ls with
  | [] => True
  | l :: r => match r with [] => line1 l \/ (l <> [] /\ ~ In 10 l) | _ => line1 l /\ okl r end
  end.
Lemma okl_app a b : okl (a ++ b) -> okl a /\ okl b.
Proof.
  induction a as [|x a IH]; [intros H; split; [exact I|exact H]|]. cbn [app okl]. destruct (a ++ b) as [|y r] eqn:E.
  - apply app_eq_nil in E. destruct E as [-> ->]. intros H. split; [exact H|exact I].
  - intros [H1 H2]. destruct (IH H2) as [A B]. split; [|exact B]. destruct a; [now left|]. split; assumption. Qed.
Lemma okl_lines s : okl (lines s).
Proof.
  destruct (lines_split s) as (ls & tl & F & N & ->). clear s. induction F as [|l ls H F IH].
  - destruct tl as [|a t]; [exact I|]. cbn. right. split; [discriminate|exact N].
  - cbn [app okl]. destruct (ls ++ _) eqn:E; [now left|]. split; [exact H|exact IH]. Qed.
Lemma okl_nonnil ls : okl ls -> Forall (fun l => l <> []) ls.
Proof. induction ls as [|l ls IH]; [constructor|]. intros H. constructor.
  - cbn [okl] in H. destruct ls; [destruct H as [(t & -> & _)|[H _]]; [destruct t; discriminate|exact H]|]. destruct H as [(t & -> & _) _]. destruct t; discriminate.
  - apply IH. cbn [okl] in H. destruct ls; [exact I|]. apply H. Qed.

Definition nl_text (t : list Z) : list Z := t ++ (match t with [] => [] | _ => if last t 0 =? 10 then [] else [10] end).
Lemma write_line_nl b t : write_line_to b t = b ++ nl_text t. Proof. reflexivity. Qed.
Lemma line1_last l : line1 l -> nl_text l = l.
Proof. intros (t & -> & _). unfold nl_text. rewrite last_last. destruct (t ++ [10]) eqn:E; [destruct t; discriminate|]. rewrite Z.eqb_refl. now rewrite app_nil_r. Qed.
Lemma open_last l : l <> [] -> ~ In 10 l -> nl_text l = l ++ [10].
Proof. intros N I. unfold nl_text. destruct l as [|c r]; [congruence|]. destruct (Z.eqb_spec (last (c :: r) 0) 10) as [E|]; [|reflexivity].
  exfalso. apply I. rewrite <- E. rewrite (app_removelast_last 0 N) at 2. apply in_or_app. right. now left. Qed.
Lemma line1_open l : ~ In 10 l -> line1 (l ++ [10]). Proof. intros N. now exists l. Qed.
Lemma nl_text_app a b : b <> [] -> nl_text (a ++ b) = a ++ nl_text b.
Proof. intros N. unfold nl_text. rewrite (last_app_ne a b 0 N), <- app_assoc. destruct a; [reflexivity|]. destruct b; [congruence|]. reflexivity. Qed.

Lemma line1_nl_text l : line1 l \/ (l <> [] /\ ~ In 10 l) -> line1 (nl_text l).
Proof. intros [L|[N I]]; [now rewrite line1_last|]. rewrite open_last by assumption. now apply line1_open. Qed.

Lemma group_fix cur g evs cur' : group cur g evs cur' -> okl g ->
  exists g' evs', Forall line1 g' /\ concat g' = nl_text (concat g) /\ group cur g' evs' cur' /\ flat_map entry_of evs' = flat_map entry_of evs.
Proof.
  intros G K.
  assert (wrap : forall A (B C : Prop) (P Q : A -> Prop), B -> C -> (exists x, P x /\ Q x) -> exists x, B /\ C /\ P x /\ Q x) by (intros A B C P Q b c (x & p & q); eauto).
  destruct G as [cur l c L B|cur l name rest L Ph Pr|cur l name rest c L Ph Pr C|cur l c used name value L N B V].
  - cbn [okl concat] in *. rewrite app_nil_r. exists [nl_text l]. apply wrap; [repeat constructor; now apply line1_nl_text|cbn; now rewrite app_nil_r|].
    eexists; split; [eapply (G_comment cur _ c); [|exact B]|reflexivity]. destruct K as [K|[K1 K2]]; [rewrite line1_last; assumption|rewrite open_last, lead_nl; assumption].
  - cbn [okl concat] in *. rewrite app_nil_r. exists [nl_text l]. apply wrap; [repeat constructor; now apply line1_nl_text|cbn; now rewrite app_nil_r|].
    destruct K as [K|[K1 K2]].
    + rewrite line1_last by assumption. eexists; split; [eapply G_section; eauto|reflexivity].
    + rewrite open_last by assumption. eexists; split; [eapply G_section; [now rewrite lead_nl|eapply parse_header_nl; eassumption|now rewrite peek_ws_nl]|reflexivity].
  - cbn [okl concat] in *. rewrite app_nil_r. exists [nl_text l]. apply wrap; [repeat constructor; now apply line1_nl_text|cbn; now rewrite app_nil_r|].
    destruct K as [K|[K1 K2]].
    + rewrite line1_last by assumption. eexists; split; [eapply G_section_c; eauto|reflexivity].
    + rewrite open_last by assumption. eexists; split; [eapply G_section_c; [now rewrite lead_nl|eapply parse_header_nl; eassumption|rewrite peek_ws_nl; eassumption|exact C]|reflexivity].
  - destruct (destruct_last used) as [->|(u0 & u & ->)].
    + cbn [okl concat] in *. rewrite app_nil_r. exists [nl_text l]. apply wrap; [repeat constructor; now apply line1_nl_text|cbn; now rewrite app_nil_r|].
      destruct K as [K|[K1 K2]].
      * rewrite line1_last by assumption. eexists; split; [eapply (G_var cur l c []); eauto|reflexivity].
      * rewrite open_last by assumption. eexists; split; [eapply (G_var cur _ c []); [now rewrite lead_nl|exact N|exact B|apply parse_variable_nl; exact V]|reflexivity].
    + assert (K0 : Forall line1 (l :: u0) /\ (line1 u \/ (u <> [] /\ ~ In 10 u))).
      { clear -K. change (l :: u0 ++ [u]) with ((l :: u0) ++ [u]) in K. set (a := l :: u0) in *. clearbody a. induction a as [|x a IH]; [split; [constructor|exact K]|].
        cbn [app okl] in K. destruct (a ++ [u]) eqn:E; [destruct a; discriminate|]. rewrite <- E in *. destruct K as [K1 K2]. destruct (IH K2) as [A B]. split; [constructor; assumption|exact B]. }
      destruct K0 as [F U]. assert (Nu : u <> []) by (destruct U as [(t & -> & _)|[U _]]; [destruct t; discriminate|exact U]).
      exists (l :: u0 ++ [nl_text u]). eexists. split; [|split; [|split]].
      * change (l :: u0 ++ [nl_text u]) with ((l :: u0) ++ [nl_text u]). apply Forall_app. split; [exact F|]. repeat constructor. now apply line1_nl_text.
      * cbn [concat]. rewrite !concat_app. cbn [concat]. rewrite !app_nil_r. rewrite app_assoc. rewrite <- (nl_text_app (l ++ concat u0) u Nu). now rewrite <- app_assoc.
      * apply (G_var cur l c (u0 ++ [nl_text u]) name value L N B). destruct U as [U|[U1 U2]]; [rewrite line1_last by assumption; exact V|rewrite open_last by assumption; apply parse_variable_nl2; assumption].
      * reflexivity. Qed.
