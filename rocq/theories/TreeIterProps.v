(** C44, C45: what iterating over a tree yields. *)
From Verif Require Import Base CStr Str TreeIterModel TreeIterSpec TreeIterProofs TreeIterMain.
Local Open Scope Z_scope.

Lemma bare_split p : (bare_len p = length p /\ nth (bare_len p) p 0 = 0) \/ exists q, p = q ++ [47] /\ bare_len p = length q.
Proof.
  unfold bare_len. destruct (Z.eqb_spec (nth (length p - 1) p 0) 47) as [E|E].
  - right. destruct p as [|c r] using rev_ind; [discriminate|]. exists r. rewrite app_length in *. cbn [length] in *. replace (length r + 1 - 1)%nat with (length r) in * by lia. rewrite app_nth2, Nat.sub_diag in E by lia. cbn in E. subst. auto.
  - left. split; auto. apply nth_overflow. lia.
Qed.
Lemma nth_hd (a r : list Z) : nth (length a) (a ++ r) 0 = nth 0 r 0.
Proof. rewrite app_nth2 by lia. now rewrite Nat.sub_diag. Qed.
Lemma firstn_pre (a r : list Z) : firstn (length a) (a ++ r) = a.
Proof. rewrite firstn_app, Nat.sub_diag, firstn_all, firstn_O, app_nil_r. reflexivity. Qed.

(** [leads p v]: [v] is a directory on the way to the listed path [p]. *)
Definition leads (p v : list Z) : Prop := exists q r, v = q ++ bs "/" /\ p = v ++ r.
Lemma hit_iff p v : nonul p -> nonul v -> hit p v = true <-> selects p v \/ leads p v.
Proof.
  intros Np Nv. change (bs "/") with [47] in *. unfold selects, leads. change (bs "/") with [47]. split.
  - unfold hit. set (n := Nat.min _ _). destruct (lex (firstn n p) (firstn n v)) eqn:E; try discriminate. apply lex_eq in E.
    pose proof (bare_le p) as Bp. pose proof (bare_le v) as Bv. assert (Ln : (n <= length p /\ n <= length v)%nat) by (unfold n; lia).
    pose proof (firstn_skipn n p) as Ep. pose proof (firstn_skipn n v) as Ev. rewrite <- E in Ev.
    assert (Lf : length (firstn n p) = n) by (apply firstn_length_le; lia).
    assert (Hp : nth n p 0 = nth 0 (skipn n p) 0) by (rewrite <- Ep at 1; rewrite <- Lf at 1; apply nth_hd).
    assert (Hv : nth n v 0 = nth 0 (skipn n v) 0) by (rewrite <- Ev at 1; rewrite <- Lf at 1; apply nth_hd).
    rewrite Hp, Hv. revert Ep Ev Lf. generalize (firstn n p) (skipn n p) (skipn n v). clear E Hp Hv. intros c a b Ep Ev Lf H.
    assert (Za : nth 0 a 0 = 0 -> a = []). { destruct a as [|x a]; auto. cbn. intros ->. exfalso. apply Np. rewrite <- Ep. apply in_or_app. right; left; auto. }
    assert (Zb : nth 0 b 0 = 0 -> b = []). { destruct b as [|x b]; auto. cbn. intros ->. exfalso. apply Nv. rewrite <- Ev. apply in_or_app. right; left; auto. }
    apply orb_true_iff in H as [H|H]; apply andb_true_iff in H as [H1 H2]; apply Z.eqb_eq in H1.
    + rewrite (Za H1), app_nil_r in Ep. subst c. left. apply orb_true_iff in H2 as [H2|H2]; apply Z.eqb_eq in H2.
      * rewrite (Zb H2), app_nil_r in Ev. auto.
      * destruct b as [|x b]; [discriminate|]. cbn in H2. subst x. right. right. exists b. auto.
    + apply Z.eqb_eq in H2. destruct a as [|x a]; [discriminate|]. destruct b as [|y b]; [discriminate|]. cbn in H1, H2. subst x y.
      (* n is the bare length of one of the two *)
      assert (Q : n = length c -> (a = [] \/ b = [])).
      { intros Lc. unfold n in Lc. destruct (Nat.min_spec (bare_len v) (bare_len p)) as [[_ M]|[_ M]]; rewrite M in Lc.
        - right. assert (nth (bare_len v) v 0 = 47) as B by (rewrite Lc, <- Ev; apply nth_hd). apply bare_slash in B. rewrite <- Ev, app_length in B at 1. cbn in B. destruct b; auto. cbn in B. lia.
        - left. assert (nth (bare_len p) p 0 = 47) as B by (rewrite Lc, <- Ep; apply nth_hd). apply bare_slash in B. rewrite <- Ep, app_length in B at 1. cbn in B. destruct a; auto. cbn in B. lia. }
      destruct (Q (eq_sym Lf)) as [->| ->].
      * left. right. left. exists b. split; [rewrite <- Ep, <- Ev, <- app_assoc; reflexivity|]. exists c. auto.
      * right. exists c, a. split; auto. rewrite <- Ep, <- Ev, <- app_assoc. reflexivity.
  - assert (Bs : forall q, bare_len (q ++ [47]) = length q).
    { intros q. unfold bare_len. rewrite app_length. cbn [length]. replace (length q + 1 - 1)%nat with (length q) by lia. rewrite nth_hd. reflexivity. }
    assert (Bg : forall u, (length u - 1 <= bare_len u)%nat) by (intros u; unfold bare_len; destruct (_ =? 47); lia).
    assert (Sl : forall q a b, v = q ++ 47 :: a -> p = q ++ 47 :: b -> Nat.min (bare_len v) (bare_len p) = length q -> hit p v = true).
    { intros q a b Ev Ep M. unfold hit. rewrite M. rewrite Ev, Ep, !firstn_pre, lex_refl, !nth_hd. reflexivity. }
    intros [[->|[(r & -> & q & ->)|(r & ->)]]|(q & r & -> & ->)].
    + unfold hit. rewrite Nat.min_id, lex_refl. destruct (bare_split p) as [[B Z0]|(q & E & B)]; [rewrite Z0; reflexivity|]. assert (nth (bare_len p) p 0 = 47) as -> by (rewrite B; rewrite E at 1; apply nth_hd). reflexivity.
    + apply (Sl q r []); auto; [now rewrite <- app_assoc|]. rewrite Bs. pose proof (Bg ((q ++ [47]) ++ r)) as B. rewrite !app_length in B. cbn in B. lia.
    + destruct (bare_split p) as [[B Z0]|(q & E & B)].
      * unfold hit. pose proof (Bg (p ++ [47] ++ r)) as G. rewrite !app_length in G. cbn [length] in G. rewrite Nat.min_r by lia. rewrite B. rewrite firstn_all, firstn_pre, lex_refl. rewrite <- B at 1. rewrite Z0, nth_hd. reflexivity.
      * apply (Sl q (47 :: r) []); [rewrite E, <- app_assoc; reflexivity|auto|]. rewrite B. pose proof (Bg (p ++ [47] ++ r)) as G. rewrite !app_length in G. cbn [length] in G. pose proof (bare_le p). lia.
    + apply (Sl q [] r); auto; [now rewrite <- app_assoc|]. rewrite Bs. pose proof (Bg ((q ++ [47]) ++ r)) as B. rewrite !app_length in B. cbn in B. lia.
Qed.
Lemma hit_dir p q r : nonul p -> nonul (q ++ [47] ++ r) -> hit p (q ++ [47] ++ r) = true -> hit p (q ++ [47]) = true.
Proof.
  intros Np Nv H. assert (Nq : nonul (q ++ [47])) by (intros X; apply Nv; rewrite app_assoc; apply in_or_app; auto).
  apply hit_iff in H; auto. apply hit_iff; auto. unfold selects, leads in *. change (bs "/") with [47] in *. rewrite app_assoc in H.
  destruct H as [[E|[(s & E & u & Eu)|(s & E)]]|(u & s & _ & E)].
  - right. exists q, r. auto.
  - apply app_eq_app in E as (l & [[E1 E2]|[E1 E2]]); [left; right; left; exists l; split; [auto|exists u; auto]|right; exists q, l; auto].
  - apply app_eq_app in E as (l & [[E1 E2]|[E1 E2]]); [|right; exists q, l; auto]. destruct l as [|x l]; [rewrite app_nil_r in E1; left; left; auto|]. cbn in E2. injection E2 as <- E2. left. right. right. exists l. auto.
  - right. exists q, (r ++ s). split; auto. now rewrite E, <- app_assoc.
Qed.

Lemma contains_ne st es ns e : contains st es ns e -> ns <> []. Proof. intros H; inversion H; discriminate. Qed.
Lemma full_path_1 e : full_path [t_name e] e = key e.
Proof. unfold full_path, key. cbn. destruct (is_tree e); auto. now rewrite app_nil_r. Qed.
Lemma full_path_cons d ns e : is_tree d = true -> ns <> [] -> full_path (t_name d :: ns) e = key d ++ full_path ns e.
Proof. intros T N. unfold full_path, key. rewrite T. destruct ns; [congruence|]. cbn [slashed]. now rewrite <- !app_assoc. Qed.
Lemma nonul_key e : good_name (t_name e) -> nonul (key e).
Proof. intros (_ & N & _). unfold key, nonul. destruct (is_tree e); auto. intros H. apply in_app_iff in H as [H|[H|[]]]; auto; discriminate. Qed.
Lemma nonul_app a b : nonul a -> nonul b -> nonul (a ++ b). Proof. intros A B H. apply in_app_iff in H as [H|H]; auto. Qed.

Section Listing.
Variables (st : store) (fl : flags) (pl : list (list Z)).
Hypothesis (Npl : Forall nonul pl) (Can : forall id es, st id = Some es -> canonical es).
Lemma contains_nonul es ns e : contains st es ns e -> canonical es -> nonul (full_path ns e).
Proof.
  intros H. induction H as [es e I|es d sub ns e I T Sd H IH]; intros [G _].
  - rewrite full_path_1. apply nonul_key; auto.
  - rewrite full_path_cons by (auto; eapply contains_ne; eauto). apply nonul_app; [apply nonul_key; auto|]. apply IH. eapply Can; eauto.
Qed.
Definition listed_at (pre : list Z) (es : list tentry) (y : yielded) : Prop :=
  exists ns e, contains st es ns e /\ y = mkyield (pre ++ full_path ns e) (t_mode e) (t_id e) /\ passes pl (pre ++ full_path ns e) /\
    (is_tree e = true -> include_trees fl = true) /\ (autoexpand fl = true \/ length ns = 1%nat).
Lemma seen_listed pre es y : seen st fl pl pre es y -> listed_at pre es y.
Proof.
  intros H. induction H as [pre es e I P T|pre es d sub y I T P A Sd H IH].
  - exists [t_name e], e. rewrite full_path_1. split; [now constructor|]. auto.
  - destruct IH as (ns & e & C & -> & Pe & Te & _). exists (t_name d :: ns), e. split; [eapply below; eauto|].
    rewrite full_path_cons by (auto; eapply contains_ne; eauto). rewrite app_assoc. auto.
Qed.
Lemma listed_seen es ns e : contains st es ns e -> canonical es -> forall pre, nonul pre -> passes pl (pre ++ full_path ns e) ->
  (is_tree e = true -> include_trees fl = true) -> (autoexpand fl = true \/ length ns = 1%nat) -> seen st fl pl pre es (mkyield (pre ++ full_path ns e) (t_mode e) (t_id e)).
Proof.
  intros H. induction H as [es e I|es d sub ns e I T Sd H IH]; intros Hc pre Np P Te A.
  - rewrite full_path_1 in *. apply s_here; auto.
  - pose proof (contains_ne _ _ _ _ H) as Ne. rewrite full_path_cons in P |- * by auto. rewrite app_assoc in P |- *.
    assert (Gd : nonul (key d)) by (apply nonul_key, Hc, I).
    assert (Ax : autoexpand fl = true) by (destruct A as [A|A]; auto; cbn in A; destruct ns; [congruence|discriminate]).
    eapply s_below; eauto.
    + destruct P as [->|(p & Ip & Hp)]; [left; auto|]. right. exists p. split; auto.
      assert (Npp : nonul p) by (rewrite Forall_forall in Npl; auto).
      assert (Kd : pre ++ key d = (pre ++ t_name d) ++ [47]) by (unfold key; rewrite T, app_assoc; reflexivity).
      rewrite Kd. eapply hit_dir with (r := full_path ns e); auto; rewrite app_assoc, <- Kd; auto.
      apply nonul_app; [now apply nonul_app|]. eapply contains_nonul; eauto.
    + apply IH; auto; [eapply Can; eauto|now apply nonul_app].
Qed.
End Listing.

(** The entries a caller wants: with no list of paths, all; with one, those selected and the directories leading to them. *)
Definition wanted (pl : list (list Z)) (v : list Z) : Prop := pl = [] \/ exists p, In p pl /\ (selects p v \/ leads p v).
Lemma passes_wanted pl v : Forall nonul pl -> nonul v -> passes pl v <-> wanted pl v.
Proof.
  intros Np Nv. unfold passes, wanted. rewrite Forall_forall in Np. split; intros [E|(p & I & H)]; auto; right; exists p; split; auto; apply (hit_iff p v (Np p I) Nv); auto.
Qed.
Definition asked (st : store) (fl : flags) (root : list tentry) (y : yielded) : Prop :=
  exists ns e, contains st root ns e /\ y = entry_at ns e /\ (is_tree e = true -> include_trees fl = true) /\ (autoexpand fl = true \/ length ns = 1%nat).

Lemma iterate_main st fl pl root : Forall nonul pl -> sorted_pl pl -> complete st root -> all_canonical st root ->
  exists L N, (forall fuel, (N <= fuel)%nat -> iterate fuel st fl pl root = Ok L) /\ in_order L /\
    (forall y, In y L -> asked st fl root y /\ wanted pl (y_path y)) /\
    (prefix_free pl -> forall y, asked st fl root y -> wanted pl (y_path y) -> In y L).
Proof.
  intros Np Sp C [Cr Cs]. destruct (run_frame st fl pl Np Sp Cs root C Cr [] (or_introl eq_refl) [] O []) as (n & idx & L & E & (R1 & R2 & R3)).
  exists L, (S n). split; [|split; [exact R2|split]].
  - intros fuel Lf. unfold iterate. replace fuel with (n + S (fuel - S n))%nat by lia. rewrite E. cbn. now rewrite app_nil_r, rev_involutive.
  - intros y Hy. apply R1, seen_listed in Hy as (ns & e & Cn & -> & P & Te & A). cbn [app] in *. split; [exists ns, e; auto|].
    cbn [y_path]. apply passes_wanted; auto. eapply contains_nonul; eauto.
  - intros PF y (ns & e & Cn & -> & Te & A) W. cbn [y_path entry_at] in W.
    destruct (R3 PF [] ltac:(intros k p Hk; lia)) as [R4 _]; [intros d Id; destruct (key d); discriminate|].
    apply R4. apply (listed_seen st fl pl Np Cs root ns e Cn Cr [] ltac:(intros []))  ; auto. cbn [app]. apply passes_wanted; auto. eapply contains_nonul; eauto.
Qed.

(** C44: iterating over a tree yields each entry below it once, with its full path, mode and id, in order of the paths. *)
Theorem C44_every_entry_in_order : forall st fl root, complete st root -> all_canonical st root ->
  exists L N, (forall fuel, (N <= fuel)%nat -> iterate fuel st fl [] root = Ok L) /\ in_order L /\
    forall y, In y L <-> exists ns e, contains st root ns e /\ y = entry_at ns e /\
      (is_tree e = true -> include_trees fl = true) /\ (autoexpand fl = true \/ length ns = 1%nat).
Proof.
  intros st fl root C A. destruct (iterate_main st fl [] root ltac:(constructor) ltac:(intros [|i] j a b _ H; discriminate) C A) as (L & N & E & Or & Sn & Cm).
  exists L, N. split; auto. split; auto. intros y. split; [intros H; apply Sn in H as [H _]; exact H|]. intros H. apply Cm; auto; [intros a b []|now left].
Qed.
Lemma collect_mono st fl pl fuel : forall i acc L k, collect fuel st fl pl i acc = Ok L -> collect (fuel + k) st fl pl i acc = Ok L.
Proof. induction fuel as [|n IH]; intros i acc L k H; [discriminate|]. cbn in *. destruct (advance_round st fl pl i); auto. Qed.
Lemma iterate_det st fl pl root fuel L N L0 : iterate fuel st fl pl root = Ok L -> (forall f, (N <= f)%nat -> iterate f st fl pl root = Ok L0) -> L = L0.
Proof. intros H H0. specialize (H0 (fuel + N)%nat ltac:(lia)). unfold iterate in *. rewrite (collect_mono _ _ _ _ _ _ _ N H) in H0. congruence. Qed.
(** No entry is yielded twice: not even the same path. *)
Theorem C44_no_path_twice : forall st fl root L fuel, complete st root -> all_canonical st root -> iterate fuel st fl [] root = Ok L -> NoDup (map y_path L).
Proof.
  intros st fl root L fuel C A H. destruct (C44_every_entry_in_order st fl root C A) as (L0 & N & E & Or & _). rewrite (iterate_det _ _ _ _ _ _ _ _ H E). clear - Or.
  induction L0 as [|y l IH]; [constructor|]. cbn. constructor.
  - intros I. apply in_map_iff in I as (z & Ez & Iz). apply In_nth_error in Iz as (j & Hj). specialize (Or O (S j) y z ltac:(lia) eq_refl Hj). rewrite Ez, lex_refl in Or. discriminate.
  - apply IH. intros i j a b Lij Ha Hb. apply (Or (S i) (S j)); auto. lia.
Qed.
(** A tree object that is not there is never passed over in silence. *)
Theorem C44_missing_tree_is_an_error : forall st fl root ns e, autoexpand fl = true -> contains st root ns e -> is_tree e = true -> st (t_id e) = None ->
  forall fuel L, iterate fuel st fl [] root <> Ok L.
Proof.
  intros st fl root ns e Ax C T M fuel. unfold iterate.
  assert (G : forall fuel i acc L, (exists f ns, In f (it_frames i) /\ contains st (f_rest f) ns e) -> collect fuel st fl [] i acc <> Ok L).
  { clear ns C. induction fuel0 as [|n IH]; intros i acc L (f & ns & If & C); [discriminate|]. cbn [collect]. unfold advance_round. destruct i as [[|[fp [|x es]] up] idx]; cbn [it_frames f_rest f_path it_idx] in *; [contradiction| |].
    - destruct If as [<-|If]; [inversion C; contradiction|]. apply IH. exists f, ns. auto.
    - cbn [next_is negb].
      assert (D : (exists f ns, In f (mkframe fp es :: up) /\ contains st (f_rest f) ns e) \/ (x = e) \/ (is_tree x = true /\ exists sub ns, st (t_id x) = Some sub /\ contains st sub ns e)).
      { destruct If as [<-|If]; [|left; exists f, ns; split; [right; auto|auto]]. cbn [f_rest] in C. inversion C; subst.
        - destruct H as [->|I]; [auto|]. left. exists (mkframe fp es), [t_name e]. split; [left; auto|]. constructor. auto.
        - destruct H as [->|I]; [right; right; split; eauto|]. left. exists (mkframe fp es), (t_name d :: ns0). split; [left; auto|]. eapply below; eauto. }
      destruct D as [D|[->|(Tx & sub & ns' & Hs & Cs)]].
      + assert (forall t p, exists f ns, In f (mkframe p t :: mkframe fp es :: up) /\ contains st (f_rest f) ns e) as D2 by (intros t p; destruct D as (f' & n' & A' & B'); exists f', n'; split; [right; auto|auto]).
        rewrite Ax, andb_true_r. destruct (is_tree x && negb (include_trees fl)); [destruct (st (t_id x)); [|discriminate]; apply IH, D2|].
        destruct (is_tree x); [destruct (st (t_id x)); [|discriminate]; apply IH, D2|]. apply IH, D.
      + rewrite T, Ax, M. cbn [andb]. destruct (include_trees fl); discriminate.
      + rewrite Tx, Ax, Hs. cbn [andb]. assert (D2 : exists f ns, In f (mkframe (compute_path fp x) sub :: mkframe fp es :: up) /\ contains st (f_rest f) ns e) by (exists (mkframe (compute_path fp x) sub), ns'; split; [left; auto|auto]).
        destruct (include_trees fl); cbn [negb]; apply IH, D2. }
  intros L. apply G. exists (mkframe [] root), ns. split; [left; auto|auto].
Qed.

(** C45: with a list of paths, only what a listed path selects, and the directories leading there. *)
Theorem C45_pathlist_sound : forall st fl pl root fuel L, Forall nonul pl -> pl <> [] -> sorted_pl pl -> complete st root -> all_canonical st root -> iterate fuel st fl pl root = Ok L ->
  in_order L /\ forall y, In y L -> asked st fl root y /\ exists p, In p pl /\ (selects p (y_path y) \/ exists q r, y_path y = q ++ bs "/" /\ p = y_path y ++ r).
Proof.
  intros st fl pl root fuel L Np Ne Sp C A H. destruct (iterate_main st fl pl root Np Sp C A) as (L0 & N & E & Or & Sn & _). rewrite (iterate_det _ _ _ _ _ _ _ _ H E).
  split; auto. intros y Hy. destruct (Sn y Hy) as [As [W|W]]; [congruence|]. split; auto.
Qed.
(** All of it, when no listed path is the beginning of another one. *)
Theorem C45_pathlist_complete_partial : forall st fl pl root, Forall nonul pl -> pl <> [] -> sorted_pl pl -> prefix_free pl -> complete st root -> all_canonical st root ->
  exists L N, (forall fuel, (N <= fuel)%nat -> iterate fuel st fl pl root = Ok L) /\
    forall y, In y L <-> asked st fl root y /\ exists p, In p pl /\ (selects p (y_path y) \/ exists q r, y_path y = q ++ bs "/" /\ p = y_path y ++ r).
Proof.
  intros st fl pl root Np Ne Sp PF C A. destruct (iterate_main st fl pl root Np Sp C A) as (L & N & E & Or & Sn & Cm). exists L, N. split; auto. intros y. split.
  - intros Hy. destruct (Sn y Hy) as [As [W|W]]; [congruence|]. split; auto.
  - intros [As W]. apply Cm; auto. right. exact W.
Qed.

(** ** Concrete trees *)
Definition blob (n : string) (k : Z) : tentry := mktentry (bs n) 33188 (repeat k 20).
Definition dir (n : string) (k : Z) : tentry := mktentry (bs n) 16384 (repeat k 20).
Definition the_store (l : list (Z * list tentry)) : store := fun id => match find (fun x => leqb (repeat (fst x) 20) id) l with Some x => Some (snd x) | None => None end.
Definition ex_store : store := the_store [(8, [blob "x" 4])].
Definition ex_root : list tentry := [blob "foo.a" 1; blob "foo.d" 2; dir "foo" 8].
Fixpoint chain (es : list tentry) : bool := match es with a :: ((b :: _) as r) => (match lex (key a) (key b) with Lt => true | _ => false end) && chain r | _ => true end.
Lemma chain_canonical es : chain es = true -> forallb (fun e => negb (leqb (t_name e) []) && forallb (fun c => negb (c =? 0) && negb (c =? 47)) (t_name e)) es = true -> canonical es.
Proof.
  intros C G. split.
  - intros e I. rewrite forallb_forall in G. specialize (G e I). apply andb_true_iff in G as [G1 G2]. rewrite forallb_forall in G2. split; [intros E; rewrite E in G1; discriminate|].
    split; intros H; apply G2 in H; discriminate.
  - clear G. assert (Q : forall es a, chain (a :: es) = true -> forall b, In b es -> lex (key a) (key b) = Lt).
    { clear. induction es as [|c es IH]; intros a H b I; [contradiction|]. cbn [chain] in H. apply andb_true_iff in H as [H1 H2]. destruct (lex (key a) (key c)) eqn:E; try discriminate.
      destruct I as [<-|I]; auto. eapply lex_lt_trans; [exact E|]. apply IH; auto. }
    induction es as [|x es IH]; intros [|i] [|j] a b L Ha Hb; try lia; try discriminate.
    + injection Ha as <-. apply (Q es x C). eapply nth_error_In; eauto.
    + apply (IH ltac:(destruct es; [reflexivity|]; cbn [chain] in C; apply andb_true_iff in C as [_ C]; exact C) i j a b ltac:(lia) Ha Hb).
Qed.
Lemma the_store_some l id es : the_store l id = Some es -> exists k, In (k, es) l.
Proof. unfold the_store. destruct (find _ l) as [[k es']|] eqn:F; [|discriminate]. intros H. injection H as <-. apply find_some in F as [F _]. exists k. auto. Qed.
Lemma ex_all : all_canonical ex_store ex_root.
Proof.
  split; [apply chain_canonical; vm_compute; reflexivity|]. intros id es H. apply the_store_some in H as (k & [H|[]]). injection H as <- <-. apply chain_canonical; vm_compute; reflexivity.
Qed.
Lemma ex_complete : complete ex_store ex_root.
Proof.
  constructor. intros d [<-|[<-|[<-|[]]]] T; try (vm_compute in T; discriminate). exists [blob "x" 4]. split; [vm_compute; reflexivity|].
  constructor. intros d [<-|[]] T'. vm_compute in T'. discriminate.
Qed.
Example ex_listing : iterate 10 ex_store (mkflags true true) [] ex_root =
  Ok [mkyield (bs "foo.a") 33188 (repeat 1 20); mkyield (bs "foo.d") 33188 (repeat 2 20); mkyield (bs "foo/") 16384 (repeat 8 20); mkyield (bs "foo/x") 33188 (repeat 4 20)].
Proof. vm_compute. reflexivity. Qed.
Example ex_pathlist : iterate 10 ex_store (mkflags false true) [bs "foo"] ex_root = Ok [mkyield (bs "foo/x") 33188 (repeat 4 20)] /\ prefix_free [bs "foo"].
Proof. split; [vm_compute; reflexivity|]. intros a b [<-|[]] [<-|[]] _. reflexivity. Qed.
Example ex_missing : iterate 10 (fun _ => None) (mkflags false true) [] ex_root = Err (-3).
Proof. vm_compute. reflexivity. Qed.

(** Without that condition a listed directory can be passed over: [foo] is listed and [foo/x] is
    there, and is not yielded. *)
Theorem C45_pathlist_complete_refuted : exists st root pl L N p y,
  complete st root /\ all_canonical st root /\ sorted_pl pl /\ Forall nonul pl /\ (forall fuel, (N <= fuel)%nat -> iterate fuel st (mkflags false true) pl root = Ok L) /\
  In p pl /\ asked st (mkflags false true) root y /\ selects p (y_path y) /\ ~ In y L.
Proof.
  exists ex_store, ex_root, [bs "foo"; bs "foo.a"], [mkyield (bs "foo.a") 33188 (repeat 1 20)], 10%nat, (bs "foo"), (mkyield (bs "foo/x") 33188 (repeat 4 20)).
  split; [exact ex_complete|]. split; [exact ex_all|]. split.
  { intros [|[|[|i]]] [|[|[|j]]] a b L Ha Hb; try lia; try discriminate. injection Ha as <-. injection Hb as <-. vm_compute. discriminate. }
  split. { repeat (constructor; [vm_compute; intuition discriminate|]). constructor. }
  split. { intros fuel Lf. replace fuel with (10 + (fuel - 10))%nat by lia. apply collect_mono. vm_compute. reflexivity. }
  split; [left; auto|]. split.
  { exists [bs "foo"; bs "x"], (blob "x" 4). split; [|split; [reflexivity|split; [intros H; vm_compute in H; discriminate|left; reflexivity]]].
    apply (below ex_store ex_root (dir "foo" 8) [blob "x" 4] [bs "x"] (blob "x" 4)); [right; right; left; reflexivity|reflexivity|vm_compute; reflexivity|]. apply (here ex_store [blob "x" 4] (blob "x" 4)). left; auto. }
  split. { right. right. exists (bs "x"). reflexivity. }
  intros [H|[]]. vm_compute in H. discriminate.
Qed.

(** What counts as a tree in the statements above: the file type 0040000; submodules (0160000) do not. *)
Theorem C44_directories : forall e, is_tree e = true <-> Z.land (t_mode e) 61440 = 16384.
Proof. intros e. unfold is_tree. destruct (Z.eqb_spec (Z.land (t_mode e) 61440) 16384) as [->|N]; split; intros H; auto; try discriminate; congruence. Qed.
