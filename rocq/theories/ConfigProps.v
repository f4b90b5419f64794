(** Theorems of C22 and C43. *)
From Verif Require Import Base Str WildModel ConfigModel ConfigSpec ConfigProofs ConfigMain ConfigWrite.

(** *** What the steps do to the entries *)
Lemma others_app key a b : others key (a ++ b) = others key a ++ others key b. Proof. apply filter_app. Qed.
Lemma lookup_app key a b : lookup key (a ++ b) = lookup key a ++ lookup key b. Proof. unfold lookup. now rewrite filter_app, map_app. Qed.
Lemma others_key key x : others key [(key, x)] = []. Proof. cbn. now rewrite leqb_refl. Qed.
Lemma lookup_key key x : lookup key [(key, x)] = [x]. Proof. unfold lookup. cbn. now rewrite leqb_refl. Qed.

Lemma one_steps k key v done : k_preg k = None -> forall c c' es val rep B val' rep' B',
  asteps k key v c c' es val rep B val' rep' B' -> (val = true -> done = [Some v]) ->
  lookup key B = (if val then [] else done) ->
  (val' = true -> done = [Some v]) /\ lookup key B' = (if val' then [] else done) /\ others key B' = others key B ++ others key es.
Proof.
  intros Hp c c' es val rep B val' rep' B' A. induction A as [cur val rep B|c0 c1 c2 P1 P2 v0 r0 B0 v1 r1 B1 v2 r2 B2 A1 A2 IH]; intros HD HL.
  - split; [exact HD|]. split; [exact HL|]. cbn. now rewrite app_nil_r.
  - assert (ONE : (v1 = true -> done = [Some v]) /\ lookup key B1 = (if v1 then [] else done) /\ others key B1 = others key B0 ++ others key P1).
    { destruct A1 as [B val rep|name B val rep C|name B rep C1 C2|en B val rep M|en B rep M|en B rep M].
      - split; [exact HD|]. split; [exact HL|]. cbn. now rewrite app_nil_r.
      - split; [exact HD|]. split; [exact HL|]. cbn. now rewrite app_nil_r.
      - split; [discriminate|]. rewrite lookup_app, lookup_key, HL, (HD eq_refl), others_app, others_key. split; reflexivity.
      - split; [exact HD|]. rewrite lookup_app, others_app, HL. split; [|reflexivity]. unfold matched in M. rewrite Hp, andb_true_r in M. unfold lookup. cbn [filter]. rewrite M. cbn. now rewrite app_nil_r.
      - split; [exact HD|]. split; [exact HL|]. unfold matched in M. rewrite Hp, andb_true_r in M. unfold others. cbn [filter]. rewrite M. cbn. now rewrite app_nil_r.
      - rewrite Hp. split; [discriminate|]. rewrite lookup_app, lookup_key, HL, (HD eq_refl), others_app, others_key. split; [reflexivity|].
        unfold matched in M. rewrite Hp, andb_true_r in M. unfold others at 3. cbn [filter]. rewrite M. reflexivity. }
    destruct ONE as (D1 & L1 & O1). destruct (IH D1 L1) as (D2 & L2 & O2). split; [exact D2|]. split; [exact L2|]. rewrite O2, O1, others_app. now rewrite app_assoc. Qed.

Definition replace_matching (key : list Z) (f : list Z -> bool) (v : list Z) (e : entry) : entry :=
  if matched key (Some f) e then (key, Some v) else e.

Lemma multi_set_steps k key v f : k_preg k = Some f -> forall c c' es val rep B val' rep' B',
  asteps k key v c c' es val rep B val' rep' B' -> val = true ->
  val' = true /\ rep' = rep || existsb (matched key (Some f)) es /\ B' = B ++ map (replace_matching key f v) es.
Proof.
  intros Hp c c' es val rep B val' rep' B' A. induction A as [cur val rep B|c0 c1 c2 P1 P2 v0 r0 B0 v1 r1 B1 v2 r2 B2 A1 A2 IH]; intros HV.
  - split; [exact HV|]. cbn. rewrite orb_false_r, app_nil_r. auto.
  - assert (ONE : v1 = true /\ r1 = r0 || existsb (matched key (Some f)) P1 /\ B1 = B0 ++ map (replace_matching key f v) P1).
    { destruct A1 as [B val rep|name B val rep C|name B rep C1 C2|en B val rep M|en B rep M|en B rep M]; cbn [existsb map]; rewrite ?orb_false_r, ?app_nil_r; auto; try congruence.
      - rewrite Hp in M. unfold replace_matching. rewrite M, orb_false_r. auto.
      - rewrite Hp in *. unfold replace_matching. rewrite M, orb_true_r. auto. }
    destruct ONE as (-> & -> & ->). destruct (IH eq_refl) as (-> & -> & ->). split; [reflexivity|]. rewrite existsb_app, map_app, !app_assoc, orb_assoc. auto. Qed.

Lemma multi_del_steps k key v f : k_preg k = Some f -> forall c c' es val rep B val' rep' B',
  asteps k key v c c' es val rep B val' rep' B' -> val = false ->
  val' = false /\ B' = B ++ filter (fun e => negb (matched key (Some f) e)) es.
Proof.
  intros Hp c c' es val rep B val' rep' B' A. induction A as [cur val rep B|c0 c1 c2 P1 P2 v0 r0 B0 v1 r1 B1 v2 r2 B2 A1 A2 IH]; intros HV.
  - split; [exact HV|]. cbn. now rewrite app_nil_r.
  - assert (ONE : v1 = false /\ B1 = B0 ++ filter (fun e => negb (matched key (Some f) e)) P1).
    { destruct A1 as [B val rep|name B val rep C|name B rep C1 C2|en B val rep M|en B rep M|en B rep M]; cbn [filter]; rewrite ?app_nil_r; auto; try congruence; rewrite Hp in M; rewrite M; cbn [negb]; rewrite ?app_nil_r; auto. }
    destruct ONE as (-> & ->). destruct (IH eq_refl) as (-> & ->). split; [reflexivity|]. now rewrite filter_app, app_assoc. Qed.

(** The writer never fails on a plain set or delete. *)
Lemma write_events_total k : k_preg k = None -> forall evs w, exists w', write_events k w evs = Ok w'.
Proof.
  intros Hp. induction evs as [|e evs IH]; intros w; [exists w; reflexivity|]. cbn [write_events].
  assert (X : exists w1, write_event k w e = Ok w1).
  { destruct e as [sm nm tx|sm tx|sm cu nm vl eo tx]; cbn [write_event]; [eauto|eauto|]. rewrite Hp.
    destruct (w_in (flush w) && case_eq (k_name k) nm); cbn [bindr]; [|eauto]. cbn [w_val]. destruct (w_val (flush w)); eauto. }
  destruct X as (w1 & ->). cbn [bindr]. apply IH. Qed.
Lemma file_write_total data name key value : normalize_name name = Some key -> (exists evs e, config_parse data = Ok (evs, e)) ->
  exists out, config_file_write data name key None value = Ok out.
Proof.
  intros N (evs & e & P). destruct (normalize_spec _ _ N) as (a & m & b & _ & _ & _ & _ & _ & _ & S1 & S2). unfold config_file_write. rewrite S1, S2, P. cbn [bindr].
  match goal with |- context [write_events ?k ?w evs] => destruct (write_events_total k eq_refl evs w) as (w' & ->) end. cbn [bindr]. eauto. Qed.

Lemma tidy_parse data : tidy data -> exists evs e, config_parse data = Ok (evs, e).
Proof. intros (evs & e & P & _). eauto. Qed.

(** *** C22 *)

(** A written line gives its value back, whatever the line is followed by. *)
Theorem C22_line_round_trip_partial : forall name v more, varname name -> storable v ->
  let e := escape_value v in let q := quotes_for_value e in
  parse_variable (9 :: name ++ [32; 61; 32] ++ q ++ e ++ q ++ [10]) more = Ok (name, Some v, false, ([], more)).
Proof. intros name v more V S. apply (escape_reads v S). exact V. Qed.

(** The reader gives a value text its meaning in git's format, and rejects (or
    continues on the next line) every other text. *)
Theorem C22_value_text_exact : forall s v, unescape s = Ok (v, false) <-> denotes s v.
Proof.
  intros s v. split.
  - assert (G : forall n s v, (length s < n)%nat -> unescape s = Ok (v, false) -> denotes s v).
    { clear s v. induction n as [|n IH]; intros s v L H; [lia|]. destruct s as [|c r]; [injection H as <-; constructor|]. cbn [unescape length] in *.
      destruct (Z.eqb_spec c 34) as [->|N1]; [apply D_quote, IH; [lia|exact H]|].
      destruct (Z.eqb_spec c 92) as [->|N2]; cbn [negb] in H.
      - destruct r as [|e r]; [discriminate|]. cbn [length] in L. unfold unescape1, escapes in H. cbn [find fst snd] in H.
        destruct (Z.eqb_spec 110 e) as [<-|]; [cbn [option_map snd] in H; destruct (unescape r) as [[v' m]| | |] eqn:E; cbn [bindr] in H; try discriminate; injection H as <- ->; apply D_newline, IH; [lia|exact E]|].
        destruct (Z.eqb_spec 116 e) as [<-|]; [cbn [option_map snd] in H; destruct (unescape r) as [[v' m]| | |] eqn:E; cbn [bindr] in H; try discriminate; injection H as <- ->; apply D_tab, IH; [lia|exact E]|].
        destruct (Z.eqb_spec 98 e) as [<-|]; [cbn [option_map snd] in H; destruct (unescape r) as [[v' m]| | |] eqn:E; cbn [bindr] in H; try discriminate; injection H as <- ->; apply D_bs, IH; [lia|exact E]|].
        destruct (Z.eqb_spec 34 e) as [<-|]; [cbn [option_map snd] in H; destruct (unescape r) as [[v' m]| | |] eqn:E; cbn [bindr] in H; try discriminate; injection H as <- ->; apply D_dquote, IH; [lia|exact E]|].
        destruct (Z.eqb_spec 92 e) as [<-|]; [cbn [option_map snd] in H; destruct (unescape r) as [[v' m]| | |] eqn:E; cbn [bindr] in H; try discriminate; injection H as <- ->; apply D_backslash, IH; [lia|exact E]|].
        discriminate H.
      - destruct (unescape r) as [[v' m]| | |] eqn:E; cbn [bindr] in H; try discriminate. injection H as <- ->. apply D_char; [exact N1|exact N2|]. apply IH; [lia|exact E]. }
    apply (G (Datatypes.S (length s))). lia.
  - induction 1 as [|s v D IH|c s v N1 N2 D IH|s v D IH|s v D IH|s v D IH|s v D IH|s v D IH]; [reflexivity|exact IH| |..];
      try (cbn [unescape]; match goal with |- context [unescape1 ?c] => let x := eval vm_compute in (unescape1 c) in change (unescape1 c) with x end; cbn; now rewrite IH).
    cbn [unescape]. rewrite (proj2 (Z.eqb_neq c 34) N1), (proj2 (Z.eqb_neq c 92) N2). cbn [negb]. now rewrite IH. Qed.

(** Setting then getting gives the value back. *)
Theorem C22_set_get_partial : forall data name key v, normalize_name name = Some key -> writable_key name -> storable v -> tidy data ->
  (forall es, config_read data = Ok es -> (length (lookup key es) <= 1)%nat) ->
  exists out es, config_set data name v = Ok out /\ config_read out = Ok es /\ lookup key es = [Some v].
Proof.
  intros data name key v N W S T M.
  assert (RD : exists es, config_read data = Ok es).
  { destruct T as (evs & e & P & _). unfold config_read. destruct data as [|c d]; [eauto|]. destruct (c =? 0); [eauto|]. rewrite P. cbn. eauto. }
  destruct RD as (es & Er). specialize (M _ Er).
  assert (SET : exists out es', config_file_write data name key None (Some (escape_value v)) = Ok out /\ config_read out = Ok es' /\ lookup key es' = [Some v]).
  { destruct (file_write_total data name key (Some (escape_value v)) N (tidy_parse _ T)) as (out & Ew). exists out.
    destruct (write_spec data name key None (Some (escape_value v)) (escape_value v) v es out N W T (escape_reads v S) (or_intror eq_refl) Er Ew) as (cur & val' & rep' & B' & A & R & _).
    apply (one_steps _ key v [Some v]) in A; [|reflexivity|reflexivity|reflexivity]. destruct A as (_ & L & _). eexists. split; [exact Ew|]. split; [exact R|].
    destruct val'; cbn [andb orb]; [|exact L]. rewrite lookup_app, lookup_key, L. reflexivity. }
  unfold config_set. rewrite N, Er. cbn [bindr]. destruct (lookup key es) as [|o [|o2 l]] eqn:L; [| |cbn in M; lia].
  - exact SET.
  - destruct o as [x|]; [|exact SET]. destruct (leqb x v) eqn:E; [|exact SET]. apply leqb_spec in E. subst x. exists data, es. auto. Qed.

Example C22_nonvacuous :
  normalize_name (bs "Sec.s x.Key") = Some (bs "sec.s x.key") /\ writable_key (bs "Sec.s x.Key") /\
  storable (bs " a" ++ [9; 10; 34; 92; 13; 59]) /\ tidy (bs "[core] # c" ++ [10; 9] ++ bs "bare = true" ++ [10]) /\
  (do out <- config_set (bs "[core] # c" ++ [10; 9] ++ bs "bare = true" ++ [10]) (bs "Sec.s x.Key") (bs " a" ++ [9; 10; 34; 92; 13; 59]) ;; config_read out) =
    Ok [(bs "core.bare", Some (bs "true")); (bs "sec.s x.key", Some (bs " a" ++ [9; 10; 34; 92; 13; 59]))].
Proof.
  split; [vm_compute; reflexivity|]. split; [split; [repeat constructor|split; vm_compute; intuition lia]|]. split; [split; [repeat constructor|left; right; left; reflexivity]|].
  split; [|vm_compute; reflexivity]. eexists. eexists. split; [vm_compute; reflexivity|]. repeat constructor. Qed.

(** Without the hypothesis on \v, \f and \r at the ends the value changes. *)
Theorem C22_set_get_refuted : exists data name key v es,
  normalize_name name = Some key /\ writable_key name /\ cstr v /\ tidy data /\
  (do out <- config_set data name v ;; config_read out) = Ok es /\ lookup key es <> [Some v].
Proof.
  exists (bs "[core]" ++ [10]), (bs "core.x"), (bs "core.x"), (bs "a" ++ [13]). eexists. split; [vm_compute; reflexivity|]. split; [split; [repeat constructor|split; vm_compute; intuition lia]|].
  split; [repeat constructor|]. split; [eexists; eexists; split; [vm_compute; reflexivity|repeat constructor]|]. split; [vm_compute; reflexivity|]. vm_compute. discriminate. Qed.

(** *** C43 *)

Theorem C43_set_one_key_partial : forall data name key v es, normalize_name name = Some key -> writable_key name -> storable v -> tidy data ->
  config_read data = Ok es -> (length (lookup key es) <= 1)%nat ->
  exists out es', config_set data name v = Ok out /\ tidy out /\ config_read out = Ok es' /\ lookup key es' = [Some v] /\ others key es' = others key es.
Proof.
  intros data name key v es N W S T Er M.
  assert (SET : exists out es', config_file_write data name key None (Some (escape_value v)) = Ok out /\ tidy out /\ config_read out = Ok es' /\ lookup key es' = [Some v] /\ others key es' = others key es).
  { destruct (file_write_total data name key (Some (escape_value v)) N (tidy_parse _ T)) as (out & Ew). exists out.
    destruct (write_spec data name key None (Some (escape_value v)) (escape_value v) v es out N W T (escape_reads v S) (or_intror eq_refl) Er Ew) as (cur & val' & rep' & B' & A & R & T').
    apply (one_steps _ key v [Some v]) in A; [|reflexivity|reflexivity|reflexivity]. destruct A as (_ & L & O1). eexists. split; [exact Ew|]. split; [exact T'|]. split; [exact R|].
    destruct val'; cbn [andb orb]; [|split; [exact L|exact O1]]. rewrite lookup_app, lookup_key, L, others_app, others_key, app_nil_r. split; [reflexivity|exact O1]. }
  unfold config_set. rewrite N, Er. cbn [bindr]. destruct (lookup key es) as [|o [|o2 l]] eqn:L; [| |cbn in M; lia].
  - exact SET.
  - destruct o as [x|]; [|exact SET]. destruct (leqb x v) eqn:E; [|exact SET]. apply leqb_spec in E. subst x. exists data, es. auto. Qed.

Theorem C43_delete_one_key_partial : forall data name key es x, normalize_name name = Some key -> writable_key name -> tidy data ->
  config_read data = Ok es -> lookup key es = [x] ->
  exists out es', config_delete data name = Ok out /\ tidy out /\ config_read out = Ok es' /\ lookup key es' = [] /\ others key es' = others key es.
Proof.
  intros data name key es x N W T Er L. unfold config_delete. rewrite N, Er. cbn [bindr]. rewrite L.
  destruct (file_write_total data name key None N (tidy_parse _ T)) as (out & Ew). exists out.
  assert (R0 : reads_as (escape_value (bs "x")) (bs "x")) by (apply escape_reads; split; [repeat constructor|right; unfold odd_space; cbn; lia]).
  destruct (write_spec data name key None None _ _ es out N W T R0 (or_introl eq_refl) Er Ew) as (cur & val' & rep' & B' & A & R & T').
  apply (one_steps _ key _ []) in A; [|reflexivity|discriminate|reflexivity]. destruct A as (D & L' & O1). destruct val'; [discriminate (D eq_refl)|]. cbn [andb] in R.
  exists B'. auto. Qed.

Theorem C43_set_multivar_partial : forall data name key f v es out, normalize_name name = Some key -> writable_key name -> storable v -> plain v -> tidy data ->
  config_read data = Ok es -> config_set_multivar data name f v = Ok out -> tidy out /\
  config_read out = Ok (if existsb (matched key (Some f)) es then map (replace_matching key f v) es else es ++ [(key, Some v)]).
Proof.
  intros data name key f v es out N W S P T Er H. unfold config_set_multivar in H. rewrite N in H.
  destruct (write_spec data name key (Some f) (Some v) v v es out N W T (plain_reads v S P) (or_intror eq_refl) Er H) as (cur & val' & rep' & B' & A & R & T').
  apply (multi_set_steps _ key v f) in A; [|reflexivity|reflexivity]. destruct A as (-> & -> & ->). split; [exact T'|]. rewrite R. cbn [andb orb app]. f_equal.
  destruct (existsb (matched key (Some f)) es) eqn:E; cbn [negb]; [reflexivity|]. f_equal.
  clear -E. induction es as [|e es IH]; [reflexivity|]. cbn in *. apply orb_false_iff in E. destruct E as [E1 E2]. unfold replace_matching at 1. rewrite E1, (IH E2). reflexivity. Qed.

Theorem C43_delete_multivar_partial : forall data name key f es out, normalize_name name = Some key -> writable_key name -> tidy data ->
  config_read data = Ok es -> config_delete_multivar data name f = Ok out -> tidy out /\
  config_read out = Ok (filter (fun e => negb (matched key (Some f) e)) es).
Proof.
  intros data name key f es out N W T Er H. unfold config_delete_multivar in H. rewrite N, Er in H. cbn [bindr] in H. destruct (lookup key es); [discriminate|].
  assert (R0 : reads_as (escape_value (bs "x")) (bs "x")) by (apply escape_reads; split; [repeat constructor|right; unfold odd_space; cbn; lia]).
  destruct (write_spec data name key (Some f) None _ _ es out N W T R0 (or_introl eq_refl) Er H) as (cur & val' & rep' & B' & A & R & T').
  apply (multi_del_steps _ key _ f) in A; [|reflexivity|reflexivity]. destruct A as (-> & ->). split; [exact T'|]. exact R. Qed.

Example C43_nonvacuous : exists data es, data = bs "[a]" ++ [10] ++ bs "x=1" ++ [10] ++ bs "y = \" ++ [10] ++ bs "2 ; c" ++ [10] ++ bs "x=3" ++ [10] ++ bs "[b ""s.t""] # c" ++ [10] ++ bs "x" /\
  tidy data /\ config_read data = Ok es /\ es = [(bs "a.x", Some (bs "1")); (bs "a.y", Some (bs "2")); (bs "a.x", Some (bs "3")); (bs "b.s.t.x", None)] /\
  (do out <- config_set_multivar data (bs "a.x") (fun v => leqb v (bs "3")) (bs "new") ;; config_read out) =
    Ok [(bs "a.x", Some (bs "1")); (bs "a.y", Some (bs "2")); (bs "a.x", Some (bs "new")); (bs "b.s.t.x", None)] /\
  (do out <- config_delete data (bs "A.Y") ;; config_read out) = Ok [(bs "a.x", Some (bs "1")); (bs "a.x", Some (bs "3")); (bs "b.s.t.x", None)].
Proof. eexists. eexists. split; [reflexivity|]. split; [eexists; eexists; split; [vm_compute; reflexivity|repeat constructor]|]. split; [vm_compute; reflexivity|]. split; [vm_compute; reflexivity|]. split; vm_compute; reflexivity. Qed.

(** A variable on the header's line is written twice, so setting one key adds an
    entry to another. *)
Theorem C43_set_one_key_refuted : exists data name key v es es',
  normalize_name name = Some key /\ writable_key name /\ storable v /\ config_read data = Ok es /\
  (do out <- config_set data name v ;; config_read out) = Ok es' /\ others key es' <> others key es.
Proof.
  exists (bs "[a] x = 1" ++ [10]), (bs "a.y"), (bs "a.y"), (bs "2"). eexists. eexists. split; [vm_compute; reflexivity|]. split; [split; [repeat constructor|split; vm_compute; intuition lia]|].
  split; [split; [repeat constructor|right; unfold odd_space; cbn; lia]|]. split; [vm_compute; reflexivity|]. split; [vm_compute; reflexivity|]. vm_compute. discriminate. Qed.

(** A value waiting for a continuation line swallows what is written next. *)
Theorem C43_set_continuation_refuted : exists data name key v es es',
  normalize_name name = Some key /\ writable_key name /\ storable v /\ config_read data = Ok es /\
  (do out <- config_set data name v ;; config_read out) = Ok es' /\ lookup key es' = [].
Proof.
  exists (bs "[a]" ++ [10] ++ bs "x = 1\"), (bs "a.y"), (bs "a.y"), (bs "2"). eexists. eexists. split; [vm_compute; reflexivity|]. split; [split; [repeat constructor|split; vm_compute; intuition lia]|].
  split; [split; [repeat constructor|right; unfold odd_space; cbn; lia]|]. split; [vm_compute; reflexivity|]. split; vm_compute; reflexivity. Qed.

(** The value of a multivar is not escaped: it can write other keys. *)
Theorem C43_set_multivar_refuted : exists data name key v es es',
  normalize_name name = Some key /\ writable_key name /\ storable v /\ tidy data /\ config_read data = Ok es /\
  (do out <- config_set_multivar data name (fun _ => true) v ;; config_read out) = Ok es' /\ others key es' <> others key es.
Proof.
  exists (bs "[a]" ++ [10]), (bs "a.y"), (bs "a.y"), (bs "2" ++ [10] ++ bs "x = 3"). eexists. eexists. split; [vm_compute; reflexivity|]. split; [split; [repeat constructor|split; vm_compute; intuition lia]|].
  split; [split; [repeat constructor|right; unfold odd_space; cbn; lia]|]. split; [eexists; eexists; split; [vm_compute; reflexivity|repeat constructor]|]. split; [vm_compute; reflexivity|]. split; [vm_compute; reflexivity|]. vm_compute. discriminate. Qed.

(** A tab in the subsection comes back as the letter t. *)
Theorem C43_subsection_tab_refuted : exists name key v es',
  normalize_name name = Some key /\ cstr name /\ storable v /\
  (do out <- config_set [] name v ;; config_read out) = Ok es' /\ lookup key es' = [].
Proof.
  exists (bs "a." ++ [9] ++ bs ".y"), (bs "a." ++ [9] ++ bs ".y"), (bs "2"). eexists. split; [vm_compute; reflexivity|]. split; [repeat constructor|].
  split; [split; [repeat constructor|right; unfold odd_space; cbn; lia]|]. split; vm_compute; reflexivity. Qed.

(** A valueless variable beside a multivar operation is read through NULL. *)
Theorem C43_multivar_null_refuted : exists data name f v, tidy data /\ normalize_name name <> None /\ config_set_multivar data name f v = UB.
Proof. exists (bs "[a]" ++ [10] ++ bs "x" ++ [10]), (bs "a.x"), (fun _ => true), (bs "1"). split; [eexists; eexists; split; [vm_compute; reflexivity|repeat constructor]|]. split; [vm_compute; discriminate|vm_compute; reflexivity]. Qed.

Print Assumptions C43_set_one_key_partial.
Print Assumptions C43_set_multivar_partial.
