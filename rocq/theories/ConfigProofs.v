From Verif Require Import Base Str WildModel ConfigModel ConfigSpec.

(** *** Character classes *)
Ltac cls := unfold keychar, isalnum, isalpha, isupper, islower, isdigit, isspace in *;
  repeat match goal with
  | H : context [?a =? ?b] |- _ => destruct (Z.eqb_spec a b); cbn in H
  | H : context [?a <=? ?b] |- _ => destruct (Z.leb_spec a b); cbn in H
  | |- context [?a =? ?b] => destruct (Z.eqb_spec a b); cbn
  | |- context [?a <=? ?b] => destruct (Z.leb_spec a b); cbn
  end; try congruence; try lia.

Lemma keychar_range c : keychar c = true -> 45 <= c <= 122 /\ c <> 46 /\ c <> 61 /\ c <> 59 /\ c <> 91 /\ c <> 93 /\ c <> 92.
Proof. intros H. unfold keychar, isalnum, isalpha, isupper, islower, isdigit in H. repeat (apply orb_prop in H; destruct H as [H|H]); try (apply andb_prop in H; destruct H as [A B]; apply Z.leb_le in A, B; lia). apply Z.eqb_eq in H. lia. Qed.
Lemma keychar_nospace c : keychar c = true -> isspace c = false.
Proof. intros H. apply keychar_range in H. unfold isspace. destruct (Z.eqb_spec c 32), (Z.leb_spec 9 c), (Z.leb_spec c 13); cbn; try reflexivity; lia. Qed.
Lemma isspace_range c : isspace c = true <-> c = 32 \/ 9 <= c <= 13.
Proof. unfold isspace. destruct (Z.eqb_spec c 32), (Z.leb_spec 9 c), (Z.leb_spec c 13); cbn; split; intros; try lia; try reflexivity; discriminate. Qed.
Lemma isspace_10 : isspace 10 = true. Proof. reflexivity. Qed.

(** *** Lines *)
Definition ends_nl (s : list Z) : Prop := s = [] \/ exists t, s = t ++ [10].

Lemma lines_concat s : concat (lines s) = s.
Proof. induction s as [|c r IH]; [reflexivity|]. cbn [lines]. destruct (Z.eqb_spec c 10) as [->|N]; [cbn [concat app]; now rewrite IH|]. destruct (lines r) eqn:E; cbn [concat app] in *; [now subst|now rewrite IH]. Qed.

Definition line1 (l : list Z) : Prop := exists t, l = t ++ [10] /\ ~ In 10 t.
Lemma lines_line1 l s : line1 l -> lines (l ++ s) = l :: lines s.
Proof.
  intros (t & -> & N). rewrite <- app_assoc. cbn [app]. induction t as [|c t IH]; cbn [app lines]; [now rewrite Z.eqb_refl|].
  destruct (Z.eqb_spec c 10) as [->|E]; [exfalso; apply N; now left|]. rewrite IH by (intros I; apply N; now right). reflexivity. Qed.
Lemma lines_end t : t <> [] -> ~ In 10 t -> lines t = [t].
Proof. induction t as [|c t IH]; [congruence|]. intros _ N. cbn [lines]. destruct (Z.eqb_spec c 10) as [->|E]; [exfalso; apply N; now left|].
  destruct t as [|d t]; [reflexivity|]. rewrite IH; [reflexivity|discriminate|]. intros I. apply N. now right. Qed.
(** All lines of a text are terminated except perhaps the last. *)
Lemma lines_split s : exists ls tail, Forall line1 ls /\ ~ In 10 tail /\ lines s = ls ++ (match tail with [] => [] | _ => [tail] end) .
Proof.
  induction s as [|c r (ls & tl & F & N & E)]; [exists [], []; repeat split; [constructor|intros []]|].
  cbn [lines]. destruct (Z.eqb_spec c 10) as [->|D].
  - exists ([10] :: ls), tl. split; [constructor; [exists []; split; [reflexivity|intros []]|exact F]|]. split; [exact N|]. rewrite E. reflexivity.
  - rewrite E. destruct ls as [|l ls].
    + exists [], (c :: tl). split; [constructor|]. split; [intros [I|I]; [lia|auto]|]. destruct tl; reflexivity.
    + inversion F as [|? ? (t & -> & Nt) F']; subst. exists ((c :: t ++ [10]) :: ls), tl. split; [constructor; [|exact F']|].
      * exists (c :: t). split; [reflexivity|]. intros [I|I]; [lia|auto].
      * split; [exact N|reflexivity]. Qed.
Lemma lines_app_all ls s : Forall line1 ls -> lines (concat ls ++ s) = ls ++ lines s.
Proof. induction 1 as [|l ls H F IH]; [reflexivity|]. cbn [concat app]. rewrite <- app_assoc, lines_line1 by exact H. now rewrite IH. Qed.

(** *** strz, trim, strip *)
Lemma strz_id s : ~ In 0 s -> strz s = s.
Proof. induction s as [|c r IH]; [reflexivity|]. cbn. intros N. destruct (Z.eqb_spec c 0) as [->|]; [exfalso; apply N; now left|]. rewrite IH; [reflexivity|auto]. Qed.
Lemma strz_nl s : strz (s ++ [10]) = strz s \/ strz (s ++ [10]) = strz s ++ [10].
Proof. induction s as [|c r [IH|IH]]; [now right| |]; cbn [app strz]; destruct (c =? 0); [left; reflexivity|left; now rewrite IH|left; reflexivity|right; now rewrite IH]. Qed.

Lemma rtrim_space s c : isspace c = true -> rtrim (s ++ [c]) = rtrim s.
Proof. intros H. induction s as [|x r IH]; cbn [app rtrim]; [now rewrite H|]. now rewrite IH. Qed.
Lemma rtrim_id s : s = [] \/ isspace (last s 0) = false -> rtrim s = s.
Proof.
  induction s as [|c r IH]; [reflexivity|]. intros [?|H]; [discriminate|]. cbn [rtrim].
  destruct r as [|d r]; [cbn [rtrim] in *; cbn [last] in H; now rewrite H|]. rewrite IH; [reflexivity|right; exact H]. Qed.

(** Outside a comment nothing is dropped. *)
Lemma strip_loop_app a : forall prev qc bc b,
  (forall c, In c a -> c <> 59 /\ c <> 35) -> (forall c, In c a -> c <> 34) ->
  exists p bc', strip_loop prev qc bc (a ++ b) = (let (k, q) := strip_loop p qc bc' b in (a ++ k, q)) /\ p = match a with [] => prev | _ => Some (last a 0) end.
Proof.
  induction a as [|c a IH]; intros prev qc bc b H1 H2.
  - exists prev, bc. cbn [app]. destruct (strip_loop prev qc bc b). split; reflexivity.
  - cbn [app strip_loop]. destruct (H1 c (or_introl eq_refl)) as [N1 N2]. rewrite (proj2 (Z.eqb_neq c 34)) by (apply H2; now left). cbn [andb].
    rewrite (proj2 (Z.eqb_neq c 59)), (proj2 (Z.eqb_neq c 35)) by assumption. cbn [orb andb].
    destruct (IH (Some c) qc (if c =? 92 then S bc else 0%nat) b) as (p & bc' & E & P); [intros; apply H1; now right|intros; apply H2; now right|].
    rewrite E. exists p, bc'. destruct (strip_loop p qc bc' b). split; [reflexivity|]. rewrite P. destruct a; reflexivity. Qed.

Lemma strip_loop_nl l : forall prev qc bc,
  strip_loop prev qc bc (l ++ [10]) = strip_loop prev qc bc l \/
  exists k q, strip_loop prev qc bc l = (k, q) /\ strip_loop prev qc bc (l ++ [10]) = (k ++ [10], q).
Proof.
  induction l as [|c r IH]; intros prev qc bc.
  - right. exists [], qc. cbn [app strip_loop]. rewrite andb_false_l. cbn. split; reflexivity.
  - cbn [app strip_loop]. match goal with |- context [if ?b then S qc else qc] => set (qc' := if b then S qc else qc) end. destruct (((c =? 59) || (c =? 35)) && Nat.even qc' && Nat.even bc); [now left|].
    destruct (IH (Some c) qc' (if c =? 92 then S bc else 0%nat)) as [E|(k & q & E1 & E2)].
    + left. now rewrite E.
    + right. rewrite E1, E2. exists (c :: k), q. split; reflexivity. Qed.
Lemma strip_nl l q : strip_comments (l ++ [10]) q = strip_comments l q.
Proof. unfold strip_comments. destruct (strip_loop_nl l None q 0) as [->|(k & q' & E1 & E2)]; [reflexivity|]. rewrite E1, E2, rtrim_space by reflexivity. reflexivity. Qed.
Lemma strip_strz_nl l q : strip_comments (strz (l ++ [10])) q = strip_comments (strz l) q.
Proof. destruct (strz_nl l) as [->| ->]; [reflexivity|apply strip_nl]. Qed.

(** *** Escaping *)
Lemma unescape_quote l : unescape (34 :: l) = unescape l. Proof. reflexivity. Qed.
Lemma escape1_spec c : (exists e, escape1 c = Some e /\ unescape1 e = Some c /\ e <> 34 /\ e <> 0 /\ In c [10; 9; 8; 34; 92] /\ isspace e = false /\ e <> 59 /\ e <> 35 /\ e <> 10 /\ 0 < e < 256) \/
  (escape1 c = Some 34 /\ c = 34) \/ (escape1 c = None /\ ~ In c [10; 9; 8; 34; 92]).
Proof.
  unfold escape1, escapes. cbn [find snd fst option_map].
  destruct (Z.eqb_spec 10 c) as [<-|]; [left; eexists; split; [reflexivity|]; cbn; intuition lia|].
  destruct (Z.eqb_spec 9 c) as [<-|]; [left; eexists; split; [reflexivity|]; cbn; intuition lia|].
  destruct (Z.eqb_spec 8 c) as [<-|]; [left; eexists; split; [reflexivity|]; cbn; intuition lia|].
  destruct (Z.eqb_spec 34 c) as [<-|]; [right; left; split; reflexivity|].
  destruct (Z.eqb_spec 92 c) as [<-|]; [left; eexists; split; [reflexivity|]; cbn; intuition lia|].
  right; right. split; [reflexivity|]. cbn. intuition lia. Qed.

Lemma unescape_escape v : forall t, unescape (escape_value v ++ t) = do (w, m) <- unescape t ;; Ok (v ++ w, m).
Proof.
  induction v as [|c v IH]; intros t; cbn [escape_value app].
  - destruct (unescape t) as [[w m]| | |]; reflexivity.
  - destruct (escape1_spec c) as [(e & E & U & _)|[[E ->]|[E N]]]; rewrite E; cbn [app unescape].
    + rewrite (proj2 (Z.eqb_neq 92 34)), Z.eqb_refl by lia. cbn [negb]. rewrite U, IH. destruct (unescape t) as [[w m]| | |]; reflexivity.
    + rewrite (proj2 (Z.eqb_neq 92 34)), Z.eqb_refl by lia. cbn [negb]. change (unescape1 34) with (Some 34). cbv iota. rewrite IH. destruct (unescape t) as [[w m]| | |]; reflexivity.
    + rewrite (proj2 (Z.eqb_neq c 34)), (proj2 (Z.eqb_neq c 92)) by (cbn in N; intuition lia). cbn [negb]. rewrite IH. destruct (unescape t) as [[w m]| | |]; reflexivity. Qed.

(** An escaped text holds a quote only after a backslash. *)
Fixpoint guarded (prev : Z) (s : list Z) : Prop :=
  match s with [] => True | c :: r => (c = 34 -> prev = 92) /\ guarded c r end.
Lemma escape_guarded v : forall p, guarded p (escape_value v).
Proof.
  induction v as [|c v IH]; intros p; cbn [escape_value]; [exact I|].
  destruct (escape1_spec c) as [(e & E & U & N & _)|[[E ->]|[E N]]]; rewrite E; cbn [guarded].
  - repeat split; try lia. apply IH.
  - repeat split; try lia. apply IH.
  - split; [|apply IH]. intros ->. exfalso. apply N. cbn. tauto. Qed.

Lemma escape_chars v c : In c (escape_value v) -> c = 92 \/ (In c v /\ ~ In c [10; 9; 8]) \/ c = 110 \/ c = 116 \/ c = 98 \/ c = 34.
Proof.
  induction v as [|x v IH]; cbn [escape_value]; [intros []|].
  assert (D : In c (escape_value v) -> c = 92 \/ In c (x :: v) /\ ~ In c [10; 9; 8] \/ c = 110 \/ c = 116 \/ c = 98 \/ c = 34) by (intros I; destruct (IH I) as [|[[A B]|?]]; [tauto| |tauto]; right; left; split; [now right|exact B]).
  unfold escape1, escapes. cbn [find snd fst option_map].
  destruct (Z.eqb_spec 10 x) as [<-|]; [intros [<-|[<-|I]]; auto; tauto|].
  destruct (Z.eqb_spec 9 x) as [<-|]; [intros [<-|[<-|I]]; auto; tauto|].
  destruct (Z.eqb_spec 8 x) as [<-|]; [intros [<-|[<-|I]]; auto; tauto|].
  destruct (Z.eqb_spec 34 x) as [<-|]; [intros [<-|[<-|I]]; auto; tauto|].
  destruct (Z.eqb_spec 92 x) as [<-|]; [intros [<-|[<-|I]]; auto; tauto|].
  intros [<-|I]; [|auto]. right; left. split; [now left|]. cbn. intuition lia. Qed.
Lemma escape_in v c : In c v -> ~ In c [10; 9; 8; 34; 92] -> In c (escape_value v).
Proof. induction v as [|x v IH]; [intros []|]. intros [->|I] N; cbn [escape_value].
  - destruct (escape1_spec c) as [(e & E & U & _ & _ & K & _)|[[E ->]|[E _]]]; [tauto|exfalso; apply N; cbn; tauto|]. rewrite E. now left.
  - destruct (escape1 x); [right; right|right]; auto. Qed.
Lemma escape_plain v : plain v -> escape_value v = v.
Proof. induction v as [|c v IH]; [reflexivity|]. intros P. cbn [escape_value]. destruct (escape1_spec c) as [(e & E & U & _ & _ & K & _)|[[E ->]|[E _]]].
  - exfalso. apply (P c); [now left|exact K].
  - exfalso. apply (P 34); [now left|cbn; tauto].
  - rewrite E, IH; [reflexivity|]. intros x I. apply P. now right. Qed.

Lemma hd_escape v : hd 0 (escape_value v) = hd 0 v \/ (hd 0 (escape_value v) = 92 /\ (isspace (hd 0 v) = false \/ hd 0 v = 9 \/ hd 0 v = 10)).
Proof. destruct v as [|c v]; [now left|]. cbn [escape_value hd]. destruct (escape1_spec c) as [(e & E & U & _ & _ & K & _)|[[E ->]|[E _]]]; rewrite E; cbn [hd].
  - right. split; [reflexivity|]. cbn in K. destruct K as [<-|[<-|[<-|[<-|[<-|[]]]]]]; auto.
  - right. split; [reflexivity|now left].
  - now left. Qed.
Lemma escape_nonnil v : v <> [] -> escape_value v <> [].
Proof. destruct v as [|c v]; [congruence|]. intros _. cbn. destruct (escape1 c); discriminate. Qed.
Lemma last_cons (c d : Z) r : r <> [] -> last (c :: r) d = last r d. Proof. destruct r; [congruence|reflexivity]. Qed.
Lemma last_app_ne (a b : list Z) d : b <> [] -> last (a ++ b) d = last b d.
Proof. intros N. induction a as [|x a IH]; [reflexivity|]. cbn [app]. rewrite last_cons; [exact IH|]. destruct a; [exact N|discriminate]. Qed.
Lemma last_escape v : v <> [] -> last (escape_value v) 0 = last v 0 \/ In (last v 0) [10; 9; 8; 34; 92] /\ In (last (escape_value v) 0) [110; 116; 98; 34; 92].
Proof.
  induction v as [|c v IH]; [congruence|]. intros _. destruct v as [|d v].
  - cbn [escape_value last]. unfold escape1, escapes. cbn [find snd fst option_map].
    destruct (Z.eqb_spec 10 c) as [<-|]; [right; cbn; tauto|]. destruct (Z.eqb_spec 9 c) as [<-|]; [right; cbn; tauto|].
    destruct (Z.eqb_spec 8 c) as [<-|]; [right; cbn; tauto|]. destruct (Z.eqb_spec 34 c) as [<-|]; [right; cbn; tauto|].
    destruct (Z.eqb_spec 92 c) as [<-|]; [right; cbn; tauto|]. now left.
  - rewrite last_cons by discriminate. assert (N : escape_value (d :: v) <> []) by (apply escape_nonnil; discriminate).
    cbn [escape_value] in *. change (match escape1 d with Some e => 92 :: e :: escape_value v | None => d :: escape_value v end) with (escape_value (d :: v)) in *.
    destruct (escape1 c); rewrite ?last_cons by (first [exact N | discriminate]); apply IH; discriminate. Qed.

(** *** C22: a written line reads back *)
Lemma strip_guarded s : forall prev bc t, Nat.even 1 = false ->
  (forall p, prev = Some p -> guarded p s) -> prev <> None ->
  exists p bc', strip_loop prev 1 bc (s ++ t) = (let (k, q) := strip_loop (Some p) 1 bc' t in (s ++ k, q)).
Proof.
  induction s as [|c s IH]; intros prev bc t E G P; destruct prev as [p|]; try congruence.
  - exists p, bc. cbn [app]. destruct (strip_loop (Some p) 1 bc t). reflexivity.
  - cbn [app strip_loop]. destruct (G p eq_refl) as [G1 G2].
    replace ((c =? 34) && negb (p =? 92)) with false by (destruct (Z.eqb_spec c 34) as [->|]; [rewrite (G1 eq_refl)|]; reflexivity).
    rewrite E, andb_false_r, andb_false_l.
    destruct (IH (Some c) (if c =? 92 then S bc else 0%nat) t E) as (p' & bc' & K); [intros ? [= <-]; exact G2|discriminate|].
    rewrite K. exists p', bc'. destruct (strip_loop (Some p') 1 bc' t). reflexivity. Qed.

Lemma strip_unquoted s : forall prev bc qc t,
  (forall p, prev = Some p -> guarded p s) -> prev <> None -> (forall c, In c s -> c <> 59 /\ c <> 35) ->
  exists p bc', strip_loop prev qc bc (s ++ t) = (let (k, q) := strip_loop (Some p) qc bc' t in (s ++ k, q)).
Proof.
  induction s as [|c s IH]; intros prev bc qc t G P N; destruct prev as [p|]; try congruence.
  - exists p, bc. cbn [app]. destruct (strip_loop (Some p) qc bc t). reflexivity.
  - cbn [app strip_loop]. destruct (G p eq_refl) as [G1 G2].
    replace ((c =? 34) && negb (p =? 92)) with false by (destruct (Z.eqb_spec c 34) as [->|]; [rewrite (G1 eq_refl)|]; reflexivity).
    destruct (N c (or_introl eq_refl)) as [N1 N2]. rewrite (proj2 (Z.eqb_neq c 59)), (proj2 (Z.eqb_neq c 35)) by assumption. cbn [orb andb].
    destruct (IH (Some c) (if c =? 92 then S bc else 0%nat) qc t) as (p' & bc' & K); [intros ? [= <-]; exact G2|discriminate|intros; apply N; now right|].
    rewrite K. exists p', bc'. destruct (strip_loop (Some p') qc bc' t). reflexivity. Qed.

Lemma span_app f a b : Forall (fun c => f c = true) a -> (b = [] \/ f (hd 0 b) = false) -> span f (a ++ b) = (a, b).
Proof. induction 1 as [|c a H F IH]; intros B; cbn [app span].
  - destruct b as [|x b]; [reflexivity|]. destruct B as [?|B]; [discriminate|]. cbn [hd] in B. cbn [span]. now rewrite B.
  - rewrite H, IH by exact B. reflexivity. Qed.

Definition value_line (name v : list Z) : list Z :=
  let q := quotes_for_value v in 9 :: name ++ [32; 61; 32] ++ q ++ v ++ q ++ [10].

Lemma quotes_cases v : quotes_for_value v = [34] \/ quotes_for_value v = [].
Proof. unfold quotes_for_value. destruct v as [|c r]; [now left|]. destruct (c =? 32); [now left|]. destruct (existsb _ _); [now left|]. destruct (_ =? 32); [now left|now right]. Qed.
Lemma quotes_none v : quotes_for_value v = [] -> v <> [] /\ hd 0 v <> 32 /\ last v 0 <> 32 /\ (forall c, In c v -> c <> 59 /\ c <> 35).
Proof.
  unfold quotes_for_value. destruct v as [|c r]; [discriminate|]. destruct (Z.eqb_spec c 32); [discriminate|].
  destruct (existsb _ _) eqn:E; [discriminate|]. destruct (Z.eqb_spec (last (c :: r) 0) 32); [discriminate|]. intros _.
  split; [discriminate|]. split; [exact n|]. split; [assumption|]. intros x I. destruct (Z.eqb_spec x 59); [|destruct (Z.eqb_spec x 35); [|tauto]];
    (assert (T : existsb (fun x => (x =? 59) || (x =? 35)) (c :: r) = true) by (apply existsb_exists; exists x; split; [exact I|subst; reflexivity]); congruence). Qed.

Lemma storable_edges v : storable v -> quotes_for_value (escape_value v) = [] ->
  isspace (hd 0 (escape_value v)) = false /\ isspace (last (escape_value v) 0) = false.
Proof.
  intros [C S] Q. destruct (quotes_none _ Q) as (N & H & L & K).
  assert (Nv : v <> []) by (intros ->; apply N; reflexivity).
  assert (Hv : hd 0 v <> 32) by (intros E; destruct (hd_escape v) as [X|[X Y]]; [congruence|]; rewrite E in Y; destruct Y as [Y|[Y|Y]]; [discriminate|lia|lia]).
  assert (Lv : last v 0 <> 32) by (intros E; destruct (last_escape v Nv) as [X|[X Y]]; [congruence|]; rewrite E in X; cbn in X; intuition lia).
  assert (NC : ~ In 59 v /\ ~ In 35 v) by (split; intros I; apply escape_in in I; [apply K in I; tauto|cbn; lia|apply K in I; tauto|cbn; lia]).
  destruct S as [[S|[S|[S|S]]]|[S1 S2]]; try tauto. unfold odd_space in *. split.
  - destruct (hd_escape v) as [X|[X Y]]; rewrite X; [|reflexivity]. destruct (isspace (hd 0 v)) eqn:E; [|reflexivity]. exfalso. apply isspace_range in E.
    destruct E as [E|E]; [tauto|]. assert (E' : hd 0 v = 9 \/ hd 0 v = 10) by lia.
    destruct v as [|c v]; [congruence|]. cbn [hd] in *. cbn [escape_value] in X. destruct E' as [->| ->]; cbn in X; lia.
  - destruct (last_escape v Nv) as [X|[X Y]].
    + rewrite X. destruct (isspace (last v 0)) eqn:E; [|reflexivity]. exfalso. apply isspace_range in E. destruct E as [E|E]; [tauto|].
      assert (E' : last v 0 = 9 \/ last v 0 = 10) by lia.
      assert (I : In (last (escape_value v) 0) (escape_value v)).
      { rewrite (app_removelast_last 0 (escape_nonnil v Nv)) at 2. apply in_or_app. right. now left. }
      rewrite X in I. apply escape_chars in I. cbn in I. intuition lia.
    + cbn in Y. destruct Y as [Y|[Y|[Y|[Y|[Y|[]]]]]]; rewrite <- Y; reflexivity. Qed.

(** Raw text [r] between the quotes libgit2 chooses reads back as [v]. *)
Definition reads_as (r v : list Z) : Prop :=
  ~ In 0 r /\ ~ In 10 r /\
  forall name more, varname name -> parse_variable (value_line name r) more = Ok (name, Some v, false, ([], more)).

Lemma cstr_nz s : cstr s -> ~ In 0 s.
Proof. intros C I. unfold cstr in C. rewrite Forall_forall in C. apply C in I. lia. Qed.
Lemma varname_chars n c : varname n -> In c n -> keychar c = true.
Proof. intros [_ F] I. rewrite Forall_forall in F. auto. Qed.

Lemma escape_reads v : storable v -> reads_as (escape_value v) v.
Proof.
  intros S. pose proof (storable_edges v S) as ED. destruct S as [C _]. apply cstr_nz in C.
  assert (Z0 : ~ In 0 (escape_value v)) by (intros I; apply escape_chars in I; intuition lia).
  assert (Z10 : ~ In 10 (escape_value v)) by (intros I; apply escape_chars in I; cbn in I; intuition lia).
  split; [exact Z0|]. split; [exact Z10|].
  intros name more V. set (e := escape_value v) in *.
  assert (NK : forall c, In c (name ++ [32; 61; 32]) -> c <> 34 /\ c <> 59 /\ c <> 35 /\ c <> 0 /\ c <> 10).
  { intros c I. apply in_app_or in I. destruct I as [I|I]; [apply (varname_chars _ _ V) in I; apply keychar_range in I; lia|cbn in I; intuition lia]. }
  assert (NE : exists c n, name = c :: n /\ keychar c = true).
  { destruct V as [N F]. destruct name as [|c n]; [congruence|]. inversion F; subst. eauto. }
  destruct NE as (c0 & n0 & En & Kc).
  assert (QC : quotes_for_value e = [34] \/ quotes_for_value e = []) by apply quotes_cases.
  unfold parse_variable, value_line.
  assert (A : advance_ws (9 :: name ++ [32; 61; 32] ++ quotes_for_value e ++ e ++ quotes_for_value e ++ [10]) = name ++ [32; 61; 32] ++ quotes_for_value e ++ e ++ quotes_for_value e ++ [10]).
  { cbn [advance_ws]. change (negb (9 =? 10) && isspace 9) with true. cbv iota. rewrite En. cbn [app advance_ws]. now rewrite (keychar_nospace _ Kc), andb_false_r. }
  rewrite A. clear A.
  assert (B : strz (name ++ [32; 61; 32] ++ quotes_for_value e ++ e ++ quotes_for_value e ++ [10]) = (name ++ [32; 61; 32]) ++ quotes_for_value e ++ e ++ quotes_for_value e ++ [10]).
  { rewrite strz_id, <- app_assoc; [reflexivity|]. rewrite app_assoc. intros I. apply in_app_or in I. destruct I as [I|I]; [apply NK in I; lia|].
    repeat (apply in_app_or in I; destruct I as [I|I]); try (destruct QC as [Q|Q]; rewrite Q in I; cbn in I; intuition lia); try tauto. cbn in I; intuition lia. }
  rewrite B. clear B.
  assert (ST : exists q, strip_comments ((name ++ [32; 61; 32]) ++ quotes_for_value e ++ e ++ quotes_for_value e ++ [10]) 0 = ((name ++ [32; 61; 32]) ++ quotes_for_value e ++ e ++ quotes_for_value e, q)).
  { rewrite !app_assoc, strip_nl, <- !app_assoc. unfold strip_comments.
    destruct (strip_loop_app (name ++ [32; 61; 32]) None 0 0 (quotes_for_value e ++ e ++ quotes_for_value e)) as (p & bc & E & P).
    { intros c I. apply NK in I. lia. } { intros c I. apply NK in I. lia. }
    rewrite <- app_assoc in E. rewrite E. clear E. replace p with (Some 32) in *.
    2:{ rewrite P. rewrite last_last || (change [32; 61; 32] with ([32; 61] ++ [32]); rewrite app_assoc, last_last). rewrite En. reflexivity. }
    destruct QC as [Q|Q]; rewrite Q.
    - cbn [app strip_loop]. change ((34 =? 34) && negb (32 =? 92)) with true. cbv iota. change (((34 =? 59) || (34 =? 35)) && Nat.even 1 && Nat.even bc) with false. cbv iota.
      destruct (strip_guarded e (Some 34) (if 34 =? 92 then S bc else 0%nat) [34] eq_refl) as (p' & bc' & E); [intros ? [= <-]; apply escape_guarded|discriminate|].
      rewrite E. cbn [strip_loop]. change ((34 =? 59) || (34 =? 35)) with false. cbn [andb].
      eexists. f_equal. rewrite rtrim_id; [rewrite <- ?app_assoc; reflexivity|]. right.
      rewrite <- ?app_assoc. cbn [app]. change (32 :: 61 :: 32 :: 34 :: e ++ [34]) with ((32 :: 61 :: 32 :: 34 :: e) ++ [34]). now rewrite app_assoc, last_last.
    - cbn [app]. rewrite app_nil_r. destruct (quotes_none _ Q) as (Ne & _ & _ & Kc').
      destruct (strip_unquoted e (Some 32) bc 0 []) as (p' & bc' & E); [intros ? [= <-]; apply escape_guarded|discriminate|exact Kc'|].
      rewrite app_nil_r in E. rewrite E. cbn [strip_loop]. rewrite app_nil_r. eexists. f_equal.
      rewrite <- ?app_assoc. apply rtrim_id. right. destruct (ED Q) as [_ L].
      cbn [app]. rewrite last_app_ne by discriminate. rewrite !last_cons by (first [exact Ne|discriminate]). exact L. }
  destruct ST as (q & ->).
  unfold parse_name. rewrite <- app_assoc. rewrite (span_app keychar name); [|destruct V; assumption|right; reflexivity].
  rewrite En at 1. cbv iota. cbn [app]. change (32 :: 61 :: 32 :: quotes_for_value e ++ e ++ quotes_for_value e) with ([32] ++ 61 :: 32 :: quotes_for_value e ++ e ++ quotes_for_value e).
  rewrite (span_app isspace [32]); [|repeat constructor|right; reflexivity]. cbn [snd]. rewrite Z.eqb_refl. cbn [bindr].
  change (32 :: quotes_for_value e ++ e ++ quotes_for_value e) with ([32] ++ quotes_for_value e ++ e ++ quotes_for_value e).
  rewrite (span_app isspace [32]); [|repeat constructor|].
  2:{ right. destruct QC as [Q|Q]; rewrite Q; [reflexivity|]. cbn [app]. rewrite app_nil_r. apply (ED Q). }
  cbn [snd].
  assert (UE : unescape (quotes_for_value e ++ e ++ quotes_for_value e) = Ok (v, false)).
  { destruct QC as [Q|Q]; rewrite Q; cbn [app]; rewrite ?unescape_quote; unfold e; rewrite unescape_escape; cbn; now rewrite app_nil_r. }
  rewrite UE. cbn [bindr]. reflexivity. Qed.

Lemma plain_reads v : storable v -> plain v -> reads_as v v.
Proof. intros S P. pose proof (escape_reads v S) as R. now rewrite (escape_plain v P) in R. Qed.
