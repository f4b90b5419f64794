(** The writer: sorting, parents, generations; and the whole round trip. *)
From Verif Require Import Base Arr CStr Str TsortModel TsortSpec TsortTop OidModel OidSpec OidProofs IdxFileModel IdxFileProofs PackIdxModel PackIdxSpec PackIdxProofs PackIdxMain VectorModel VectorSpec VectorProofs CgModel CgSpec CgGen CgFind CgWrite CgSafe CgMain ReflogProofs.
From Coq Require Import Permutation.

Lemma pc_cmp_ok : cmp_ok pc_cmp.
Proof.
  unfold pc_cmp. split.
  - intros a b. rewrite (lex_antisym (k_id a)). destruct (lex (k_id a) (k_id b)); reflexivity.
  - intros a b c. destruct (lex (k_id a) (k_id b)) eqn:E1; try lia; destruct (lex (k_id b) (k_id c)) eqn:E2; try lia; intros _ _.
    + apply lex_eq in E1, E2. rewrite E1, E2, lex_refl. lia.
    + apply lex_eq in E1. rewrite E1, E2. lia.
    + apply lex_eq in E2. rewrite <- E2, E1. lia.
    + rewrite (lex_lt_trans _ _ _ E1 E2). lia.
Qed.
Lemma pc_cmp_0 a b : pc_cmp a b = 0 <-> k_id a = k_id b.
Proof. unfold pc_cmp. rewrite <- lex_eq. destruct (lex (k_id a) (k_id b)); split; congruence. Qed.

Lemma inserted : forall (commits : list pcommit) (v : vec pcommit), flag v = (length (items v) <=? 1)%nat -> items (fold_left vinsert commits v) = items v ++ commits /\ flag (fold_left vinsert commits v) = (length (items v ++ commits) <=? 1)%nat.
Proof.
  induction commits as [|c r IH]; intros v Hv; cbn [fold_left].
  - rewrite app_nil_r. auto.
  - destruct (IH (vinsert v c) eq_refl) as [E1 E2]. cbn [vinsert items] in E1, E2. rewrite <- app_assoc in E1, E2. auto.
Qed.

Lemma uniq_increasing : forall l, sorted pc_cmp l -> (forall x, In x l -> exists e, filter (fun y => pc_cmp x y =? 0) l = [e]) -> increasing (map k_id l).
Proof.
  induction l as [|a l IH]; intros Hs Hu; [exact I|]. destruct Hs as [Ha Hs].
  assert (Hi : increasing (map k_id l)).
  { apply IH; [exact Hs|]. intros x Hx. destruct (Hu x (or_intror Hx)) as (e & E). cbn [filter] in E.
    destruct (pc_cmp x a =? 0); [|exists e; exact E]. injection E as _ E. exfalso.
    assert (In x (filter (fun y => pc_cmp x y =? 0) l)) as K by (apply filter_In; split; [exact Hx|]; apply Z.eqb_eq; apply pc_cmp_0; reflexivity). rewrite E in K. destruct K. }
  destruct l as [|b r]; [exact I|]. cbn [map]. split; [|exact Hi].
  destruct (Hu a (or_introl eq_refl)) as (e & E). cbn [filter] in E. assert (Eaa : pc_cmp a a = 0) by (apply pc_cmp_0; reflexivity). rewrite Eaa in E. cbn [Z.eqb] in E.
  specialize (Ha b (or_introl eq_refl)). destruct (Z.eqb_spec (pc_cmp a b) 0); [discriminate|]. unfold pc_cmp in *. destruct (lex (k_id a) (k_id b)); [congruence|reflexivity|lia].
Qed.

Lemma prepared commits :
  (exists v1 v2, vsort pc_cmp (fold_left vinsert commits vinit) = Ok v1 /\ vuniq pc_cmp v1 = Ok v2 /\ increasing (map k_id (items v2)) /\ incl (items v2) commits /\
     (forall c, In c commits -> exists d, In d (items v2) /\ k_id d = k_id c)) \/
  (vsort pc_cmp (fold_left vinsert commits vinit) = UB /\ 8589934592 <= Z.of_nat (length commits)).
Proof.
  destruct (inserted commits vinit eq_refl) as [E1 E2]. change (items (@vinit pcommit)) with (@nil pcommit) in *. cbn [app] in *. set (v := fold_left vinsert commits vinit) in *.
  assert (Hi : vinv pc_cmp v). { intros Hf. apply short_sorted. rewrite E1. rewrite E2 in Hf. apply Nat.leb_le in Hf. exact Hf. }
  assert (Hs : (exists v1, vsort pc_cmp v = Ok v1) \/ (vsort pc_cmp v = UB /\ 8589934592 <= Z.of_nat (length commits))).
  { unfold vsort. destruct (flag v); [left; eauto|]. rewrite E1. destruct (1 <? length commits)%nat; [|left; eauto].
    destruct (tsort_spec pc_cmp pc_cmp_ok commits) as [(d & Ed & _)|[Eu Hl]]; [rewrite Ed; cbn [bindr]; left; eauto|rewrite Eu; right; auto]. }
  destruct Hs as [(v1 & Hs)|Hs]; [|right; exact Hs]. left. destruct (vsort_spec pc_cmp pc_cmp_ok v v1 Hi Hs) as (Hso & Hf & _ & Hp & _). rewrite E1 in Hp.
  assert (Hu : exists v2, vuniq pc_cmp v1 = Ok v2).
  { unfold vuniq. destruct (Nat.leb_spec (length (items v1)) 1) as [El|El]; [eauto|]. unfold vsort. rewrite Hf. cbn [bindr].
    destruct (items v1) as [|x r] eqn:Ex; [cbn in El; lia|]. destruct (uniq_loop_spec pc_cmp r [] x []) as (junk & Hu). cbn [app length Nat.add] in Hu.
    replace (length (x :: r) - 1)%nat with (length r) by (cbn; lia). rewrite Hu. cbn [bindr]. eauto. }
  destruct Hu as (v2 & Hu). exists v1, v2. split; [exact Hs|]. split; [exact Hu|].
  assert (Hi1 : vinv pc_cmp v1) by (intros _; exact Hso). destruct (vuniq_spec pc_cmp pc_cmp_ok v1 v2 Hi1 Hu) as [_ Hsp]. cbn [step_spec] in Hsp.
  destruct Hsp as [[Hl Ev]|[[Hs2 Hall] Hincl]].
  - rewrite Ev. split; [|split].
    + destruct (items v1) as [|x [|y r]]; [exact I|exact I|cbn in Hl; lia].
    + intros x Hx. apply (Permutation_in _ (Permutation_sym Hp)). exact Hx.
    + intros c Hc. exists c. split; [|reflexivity]. apply (Permutation_in _ Hp). exact Hc.
  - split; [|split].
    + apply uniq_increasing; [exact Hs2|]. intros x Hx. destruct (Hall x (Hincl x Hx)) as (e & E & _). exists e. exact E.
    + intros x Hx. apply (Permutation_in _ (Permutation_sym Hp)). apply Hincl. exact Hx.
    + intros c Hc. destruct (Hall c (Permutation_in _ Hp Hc)) as (e & E & _). exists e. assert (K : In e [e]) by (left; reflexivity). rewrite <- E in K. apply filter_In in K as [K1 K2].
      split; [exact K1|]. symmetry. apply pc_cmp_0. apply Z.eqb_eq. exact K2.
Qed.

Lemma increasing_hsorted l : Forall (fun c => oid_ok 20 (k_id c)) l -> increasing (map k_id l) -> hsorted l.
Proof.
  assert (Hh : forall a b, oid_ok 20 (k_id a) -> oid_ok 20 (k_id b) -> lex (k_id a) (k_id b) = Lt -> hd 0 (k_id a) <= hd 0 (k_id b)).
  { intros a b [La _] [Lb _] E. destruct (k_id a) as [|x p], (k_id b) as [|y q]; try discriminate. cbn [hd lex] in *. destruct (Z.compare_spec x y); [lia|lia|discriminate]. }
  induction 1 as [|a l Ha Hl IH]; intros Hi; [exact I|]. cbn [hsorted]. split.
  - rewrite Forall_forall. intros c Hc. apply In_nth_error in Hc as (j & Hj). apply Hh; [exact Ha|rewrite Forall_forall in Hl; apply Hl; apply nth_error_In in Hj; exact Hj|].
    apply (increasing_nth _ Hi 0 (S j)); [lia|reflexivity|]. cbn [map nth_error]. apply map_nth_error. exact Hj.
  - apply IH. cbn [map] in Hi. destruct (map k_id l) as [|b r]; [exact I|]. apply Hi.
Qed.

(** *** Parents *)
Definition at_index (cs : list pcommit) (p : list Z) (j : nat) : Prop := exists d, nth_error cs j = Some d /\ k_id d = p.
Lemma idx_of_spec id : forall cs k, match idx_of id cs k with Some j => (k <= j)%nat /\ at_index cs id (j - k) | None => forall d, In d cs -> k_id d <> id end.
Proof.
  induction cs as [|c r IH]; intros k; cbn [idx_of]; [intros d []|]. destruct (leqb (k_id c) id) eqn:E.
  - apply leqb_spec in E. split; [lia|]. exists c. rewrite Nat.sub_diag. split; [reflexivity|exact E].
  - specialize (IH (S k)). destruct (idx_of id r (S k)) as [j|].
    + destruct IH as [L (d & Hd & Ed)]. split; [lia|]. exists d. replace (j - k)%nat with (S (j - S k)) by lia. split; [exact Hd|exact Ed].
    + intros d [<-|Hd]; [|apply IH; exact Hd]. intros Ec. apply leqb_spec in Ec. congruence.
Qed.
Lemma parents_of_spec cs : forall ps, match parents_of cs ps with
  | Ok l => Forall2 (at_index cs) ps l
  | Err e => e = -3 /\ exists p, In p ps /\ forall d, In d cs -> k_id d <> p
  | _ => False end.
Proof.
  induction ps as [|p r IH]; cbn [parents_of]; [constructor|]. pose proof (idx_of_spec p cs 0) as Hx. destruct (idx_of p cs 0) as [j|].
  - destruct (parents_of cs r) as [l|e| |]; cbn [bindr]; [|destruct IH as (-> & q & Hq & H); split; [reflexivity|]; exists q; split; [right; exact Hq|exact H]|exact IH|exact IH].
    constructor; [|exact IH]. destruct Hx as [_ Hx]. rewrite Nat.sub_0_r in Hx. exact Hx.
  - split; [reflexivity|]. exists p. split; [left; reflexivity|exact Hx].
Qed.
Lemma parent_indices_spec cs : forall todo, match parent_indices cs todo with
  | Ok ls => Forall2 (fun c l => Forall2 (at_index cs) (k_parents c) l) todo ls
  | Err e => e = -3 /\ exists c p, In c todo /\ In p (k_parents c) /\ forall d, In d cs -> k_id d <> p
  | _ => False end.
Proof.
  induction todo as [|c r IH]; cbn [parent_indices]; [constructor|]. pose proof (parents_of_spec cs (k_parents c)) as Hc.
  destruct (parents_of cs (k_parents c)) as [l|e| |]; cbn [bindr]; [|destruct Hc as (-> & p & Hp & H); split; [reflexivity|]; exists c, p; split; [left; reflexivity|auto]|exact Hc|exact Hc].
  destruct (parent_indices cs r) as [ls|e| |]; cbn [bindr]; [constructor; assumption| |exact IH|exact IH].
  destruct IH as (-> & c' & p & H1 & H2 & H3). split; [reflexivity|]. exists c', p. split; [right; exact H1|auto].
Qed.
Lemma F2_nth {A B} (R : A -> B -> Prop) l l' : Forall2 R l l' -> forall i x, nth_error l i = Some x -> exists y, nth_error l' i = Some y /\ R x y.
Proof. induction 1 as [|a b l l' Hab _ IH]; intros [|i] x Hx; try discriminate; cbn in *; [injection Hx as <-; eauto|apply IH; exact Hx]. Qed.
Lemma F2_nth' {A B} (R : A -> B -> Prop) l l' : Forall2 R l l' -> forall i y, nth_error l' i = Some y -> exists x, nth_error l i = Some x /\ R x y.
Proof. induction 1 as [|a b l l' Hab _ IH]; intros [|i] x Hx; try discriminate; cbn in *; [injection Hx as <-; eauto|apply IH; exact Hx]. Qed.
Lemma F2_len {A B} (R : A -> B -> Prop) l l' : Forall2 R l l' -> length l = length l'.
Proof. induction 1; cbn; congruence. Qed.

(** *** The number of extra edges *)
Definition extra1 (c : pcommit) : Z := if (2 <? length (k_parents c))%nat then Z.of_nat (length (k_parents c)) - 1 else 0.
Lemma extra1_nonneg c : 0 <= extra1 c.
Proof. unfold extra1. destruct (Nat.ltb_spec 2 (length (k_parents c))); lia. Qed.
Lemma extra_cons c l : extra_edges (c :: l) = extra1 c + extra_edges l. Proof. reflexivity. Qed.
Lemma extra_nonneg l : 0 <= extra_edges l.
Proof. induction l as [|c l IH]; [cbn; lia|]. rewrite extra_cons. pose proof (extra1_nonneg c). lia. Qed.
Lemma extra_app a b : extra_edges (a ++ b) = extra_edges a + extra_edges b.
Proof. induction a as [|c a IH]; [reflexivity|]. cbn [app]. rewrite !extra_cons, IH. lia. Qed.
Lemma extra_le : forall cs l, NoDup cs -> incl cs l -> extra_edges cs <= extra_edges l.
Proof.
  induction cs as [|c cs IH]; intros l Hnd Hin; [apply extra_nonneg|]. inversion_clear Hnd as [|? ? Hc Hnd'].
  destruct (in_split c l (Hin c (or_introl eq_refl))) as (a & b & ->). rewrite extra_cons, extra_app, extra_cons.
  assert (extra_edges cs <= extra_edges (a ++ b)); [|rewrite extra_app in *; lia]. apply IH; [exact Hnd'|]. intros x Hx. specialize (Hin x (or_intror Hx)).
  apply in_app_or in Hin. apply in_or_app. destruct Hin as [?|[->|?]]; auto. contradiction.
Qed.
Lemma all_ew_len cs : forall cs' pidx, Forall2 (fun c l => Forall2 (at_index cs) (k_parents c) l) cs' pidx -> Z.of_nat (length (all_ew pidx)) = extra_edges cs'.
Proof.
  induction 1 as [|c ps l l' Hc _ IH]; [reflexivity|]. rewrite extra_cons, <- IH. change (all_ew (ps :: l')) with ((if many ps then ew (tl ps) else []) ++ all_ew l').
  rewrite app_length. unfold extra1, many. rewrite (F2_len _ _ _ Hc). destruct (Nat.ltb_spec 2 (length ps)); [rewrite ew_length; destruct ps; cbn [tl length] in *; lia|cbn [length]; lia].
Qed.
Lemma increasing_nodup l : increasing (map k_id l) -> NoDup l /\ NoDup (map k_id l).
Proof.
  intros Hs. assert (ND : NoDup (map k_id l)).
  { apply NoDup_nth_error. intros i j Hi Eij. destruct (nth_error (map k_id l) i) as [x|] eqn:Ex; [|apply nth_error_Some in Hi; congruence].
    destruct (Nat.lt_trichotomy i j) as [L|[L|L]]; [|exact L|].
    - pose proof (increasing_nth _ Hs i j x x L Ex (eq_sym Eij)) as C. rewrite lex_refl in C. discriminate.
    - pose proof (increasing_nth _ Hs j i x x L (eq_sym Eij) Ex) as C. rewrite lex_refl in C. discriminate. }
  split; [apply NoDup_map_inv in ND; exact ND|exact ND].
Qed.

Lemma generations_total pidx : (forall i ps, nth_error pidx i = Some ps -> Forall (fun p => (p < length pidx)%nat) ps) ->
  exists gens, generations pidx = Ok gens /\ length gens = length pidx /\ Forall (fun g => 1 <= g <= GEN_MAX) gens.
Proof.
  intros Hwf. pose proof (gen_loop_bounds pidx Hwf (fun _ _ => True) (fun _ _ _ _ _ _ _ _ _ => I) (fun _ _ _ _ _ _ _ => I) _ _ _ _ (start_fuel pidx Hwf) (start_numbers pidx Hwf _)) as (r & E & L & H).
  exists r. split; [exact E|]. split; [exact L|]. rewrite Forall_forall. intros g Hg. apply In_nth_error in Hg as (i & Hi). apply (H i g Hi).
Qed.

(** *** The whole *)
Lemma generations_exact pidx G : is_generation pidx G -> forall gens, generations pidx = Ok gens ->
  forall i g, nth_error gens i = Some g -> 1 <= g <= GEN_MAX /\ g <= G i /\
    ((forall i, (i < length pidx)%nat -> G i <= GEN_MAX) -> (forall i ps, nth_error pidx i = Some ps -> (length ps <= 1)%nat) -> g = G i).
Proof.
  intros HG gens Eg. assert (Hwf : forall i ps, nth_error pidx i = Some ps -> Forall (fun p => (p < length pidx)%nat) ps) by (intros i ps Hi; apply (HG i ps Hi)).
  assert (Gpos : forall p, (p < length pidx)%nat -> 0 < G p). { intros p Hp. destruct (aget_ok pidx p Hp) as (ps & _ & Hps). apply (HG p ps Hps). }
  assert (Mono : forall i ps gs, nth_error pidx i = Some ps -> length gs = length pidx -> (forall p x, nth_error gs p = Some x -> x = 0 \/ x <= G p) -> 1 + max_of (map (fun p => nth p gs 0) ps) <= G i).
  { intros i ps gs Hi Lg Hx. destruct (HG i ps Hi) as (F & -> & _). assert (max_of (map (fun p => nth p gs 0) ps) <= max_of (map G ps)); [|lia]. apply max_of_mono.
    intros p Hp. rewrite Forall_forall in F. specialize (F p Hp). destruct (aget_ok gs p ltac:(lia)) as (x & _ & Ex). rewrite (nth_error_nth _ _ _ Ex). specialize (Gpos p F). destruct (Hx p x Ex); lia. }
  destruct (gen_loop_bounds pidx Hwf (fun i g => g <= G i)) with (fuel := (3 * length pidx)%nat) (stack := rev (seq 0 (length pidx))) (st := repeat 0 (length pidx)) (gens := repeat 0 (length pidx)) as (r & E & L & Hr).
  - intros i ps gs g Hi Lg Hx -> _. apply (Mono i ps gs); assumption.
  - intros i ps gs Hi Lg Hx Em. pose proof (Mono i ps gs Hi Lg Hx). lia.
  - apply (start_fuel pidx Hwf).
  - apply (start_numbers pidx Hwf).
  - unfold generations in Eg. rewrite E in Eg. apply Ok_inj in Eg. subst r. intros i g Hg. destruct (Hr i g Hg) as [H1 H2]. split; [exact H1|]. split; [exact H2|].
    intros Hmax Hone. destruct (gen_loop_linear pidx Hwf G HG Hmax Hone (3 * length pidx) (repeat 0 (length pidx)) (repeat 0 (length pidx)) (rev (seq 0 (length pidx))) [] [] (rev (seq 0 (length pidx))) gens) with (i := i) (g := g) as [->|]; auto; [|lia].
    pose proof (repeat_length 0 (length pidx)) as Lr. split; [exact Lr|]. split; [exact Lr|]. split; [reflexivity|]. split; [rewrite Forall_forall; intros j Hj; apply in_rev, in_seq in Hj; lia|].
    split; [cbn; lia|]. split; [exact I|]. split; [intros _ e rr p Hbad; discriminate|]. split; [intros e []|].
    intros j s gj Hs Hgj. apply nth_error_In, repeat_spec in Hs. apply nth_error_In, repeat_spec in Hgj. subst s gj. cbn [In]. split; [lia|]. split; [split; [discriminate|intros []]|]. split; [split; [discriminate|intros []]|]. split; [discriminate|reflexivity].
Qed.

Lemma round_trip H commits : (forall b, length (H b) = 20%nat /\ bytes (H b)) -> commits_ok commits -> closed commits -> commits <> [] ->
  Z.of_nat (length commits) < MISSING_PARENT -> extra_edges commits < 2147483648 ->
  (exists data f, cg_write H commits = Ok data /\ cg_parse 20 data = Ok f /\ cg_validate H f = Ok tt /\ answers f commits /\ gen_sound f commits) \/
  (cg_write H commits = UB /\ 8589934592 <= Z.of_nat (length commits)).
Proof.
  intros HH [Hok Huq] Hcl Hne Hlen Hext. destruct (prepared commits) as [(v1 & v2 & Es & Eu & Hinc & Hincl & Hcov)|[Es Hl]].
  2:{ right. split; [|exact Hl]. unfold cg_write. rewrite Es. reflexivity. }
  left. set (cs := items v2) in *.
  assert (Hok' : Forall (fun c => oid_ok 20 (k_id c) /\ oid_ok 20 (k_tree c) /\ k_id c <> repeat 0 20 /\ 0 <= k_time c < 17179869184) cs).
  { rewrite Forall_forall in *. intros c Hc. apply Hok. apply Hincl. exact Hc. }
  assert (Hin : forall c, In c commits -> In c cs).
  { intros c Hc. destruct (Hcov c Hc) as (d & Hd & Ed). rewrite <- (Huq d c (Hincl d Hd) Hc Ed). exact Hd. }
  destruct (increasing_nodup cs Hinc) as [Hnd Hndk].
  assert (Hobj : objs_ok 20 (objs_of cs)).
  { split; [|rewrite objs_fst; exact Hinc]. rewrite Forall_forall. intros o Ho. apply In_nth_error in Ho as (i & Hi). apply objs_inv in Hi as (c & Hc & ->). cbn [fst].
    rewrite Forall_forall in Hok'. apply nth_error_In in Hc. apply (Hok' c Hc). }
  assert (Hlc : (length cs <= length commits)%nat) by (apply NoDup_incl_length; assumption).
  assert (Hc0 : cs <> []). { destruct commits as [|c r]; [congruence|]. intros E. specialize (Hin c (or_introl eq_refl)). rewrite E in Hin. destruct Hin. }
  assert (Hn : 1 <= Z.of_nat (length cs) < MISSING_PARENT) by (destruct cs; [congruence|cbn [length] in *; lia]).
  pose proof (parent_indices_spec cs cs) as Hpi. destruct (parent_indices cs cs) as [pidx|e| |] eqn:Ep; [| |contradiction|contradiction].
  2:{ exfalso. destruct Hpi as (_ & c & p & H1 & H2 & H3). destruct (Hcl c p (Hincl c H1) H2) as (d & Hd & Ed). apply (H3 d (Hin d Hd) Ed). }
  pose proof (F2_len _ _ _ Hpi) as Lp. symmetry in Lp.
  assert (Hpw : forall ps, In ps pidx -> Forall (fun p => (p < length cs)%nat) ps).
  { intros ps Hps. apply In_nth_error in Hps as (i & Hi). destruct (F2_nth' _ _ _ Hpi i ps Hi) as (c & _ & Hc). rewrite Forall_forall. intros p Hp. apply In_nth_error in Hp as (k & Hk).
    destruct (F2_nth' _ _ _ Hc k p Hk) as (x & _ & d & Hd & _). apply nth_error_Some. congruence. }
  destruct (generations_total pidx) as (gens & Eg & Lg & Hg). { intros i ps Hi. rewrite Lp. apply Hpw. apply nth_error_In in Hi. exact Hi. }
  assert (HM : Z.of_nat (length (all_ew pidx)) < 2147483648) by (rewrite (all_ew_len cs cs pidx Hpi); pose proof (extra_le cs commits Hnd Hincl); lia).
  assert (Hg' : Forall (fun g => 0 <= g <= GEN_MAX) gens) by (eapply Forall_impl; [|exact Hg]; cbv beta; intros; lia).
  assert (Htree : Forall (fun c => oid_ok 20 (k_tree c)) cs) by (eapply Forall_impl; [|exact Hok']; cbv beta; intros a Ha; apply Ha).
  assert (Hnz : Forall (fun c => k_id c <> repeat 0 20) cs) by (eapply Forall_impl; [|exact Hok']; cbv beta; intros a Ha; apply Ha).
  assert (Htime : Forall (fun c => 0 <= k_time c < 17179869184) cs) by (eapply Forall_impl; [|exact Hok']; cbv beta; intros a Ha; apply Ha).
  assert (Hids : Forall (fun c => oid_ok 20 (k_id c)) cs) by (eapply Forall_impl; [|exact Hok']; cbv beta; intros a Ha; apply Ha).
  rewrite Lp in Lg.
  set (body := cg_body (fan_table (objs_of cs)) (concat (map k_id cs)) (fst (tables cs pidx gens 0)) (concat (map (be 4) (all_ew pidx)))).
  destruct (HH body) as [Ls Bs]. set (sum := H body) in *.
  exists (body ++ sum), (wfile cs pidx gens sum). split; [|split; [|split]].
  - unfold cg_write. rewrite Es. cbn [bindr]. rewrite Eu. cbn [bindr]. fold cs. rewrite Ep. cbn [bindr]. rewrite Eg. cbn [bindr].
    assert (T : snd (tables cs pidx gens 0) = concat (map (be 4) (all_ew pidx))) by (apply (T_tables cs pidx gens sum); assumption).
    unfold sum, body. clear sum body Ls Bs. destruct (tables cs pidx gens 0) as [cd ed] eqn:Et. cbn [snd] in T. subst ed.
    rewrite (fan_fill_table cs (increasing_hsorted cs Hids Hinc)). reflexivity.
  - apply written_parse; assumption.
  - apply written_validate; try assumption. rewrite (body_o4 cs pidx gens sum) by assumption. fold body. rewrite firstn_app, firstn_all, Nat.sub_diag. cbn [firstn]. rewrite app_nil_r. reflexivity.
  - assert (Get : forall i c, nth_error cs i = Some c -> exists ps g, nth_error pidx i = Some ps /\ nth_error gens i = Some g /\ Forall2 (at_index cs) (k_parents c) ps).
    { intros i c Hi. destruct (F2_nth _ _ _ Hpi i c Hi) as (ps & Hps & Hc). destruct (nth_error gens i) as [g|] eqn:Egi; [exists ps, g; auto|].
      apply nth_error_None in Egi. assert (i < length cs)%nat by (apply nth_error_Some; congruence). lia. }
    assert (GetE : forall i c, nth_error cs i = Some c -> exists e, get_byindex (wfile cs pidx gens sum) (Z.of_nat i) = Ok e /\ e_id e = k_id c).
    { intros i c Hi. destruct (Get i c Hi) as (ps & g & Hps & Hgi & _). rewrite (written_get cs pidx gens sum) with (c := c) (ps := ps) (g := g) by assumption. eexists. split; [reflexivity|reflexivity]. }
    split; [split|].
    + intros c Hc. apply Hin in Hc. apply In_nth_error in Hc as (i & Hi). destruct (Get i c Hi) as (ps & g & Hps & Hgi & Hpp).
      rewrite (written_full cs pidx gens sum) with (i := i) by assumption. destruct (get_byindex (wfile cs pidx gens sum) (Z.of_nat i)) as [e| | |] eqn:Ee;
        [|rewrite (written_get cs pidx gens sum) with (c := c) (ps := ps) (g := g) in Ee by assumption; discriminate..].
      exists e. split; [reflexivity|]. pose proof Ee as Ee'. rewrite (written_get cs pidx gens sum) with (c := c) (ps := ps) (g := g) in Ee' by assumption. apply Ok_inj in Ee'. 
      pose proof (F2_len _ _ _ Hpp) as Lpp.
      assert (C : e_count e = Z.of_nat (length (k_parents c))) by (rewrite <- Ee', Lpp; reflexivity).
      split; [rewrite <- Ee'; reflexivity|]. split; [rewrite <- Ee'; reflexivity|]. split; [rewrite <- Ee'; reflexivity|]. split; [exact C|]. split.
      * intros k p Hk. destruct (F2_nth _ _ _ Hpp k p Hk) as (j & Hj & d & Hd & Ed).
        rewrite (written_parent cs pidx gens sum) with (i := i) (c := c) (ps := ps) (g := g) (p := j) by assumption. destruct (GetE j d Hd) as (e' & E1 & E2).
        exists e'. split; [exact E1|]. split; [congruence|]. rewrite <- Ed. rewrite (written_full cs pidx gens sum) with (i := j) by assumption. exact E1.
      * intros k Hk. unfold cg_parent. rewrite C. destruct (Z.leb_spec (Z.of_nat (length (k_parents c))) k); [reflexivity|lia].
    + intros vs q Hq. rewrite (written_find cs pidx gens sum) by assumption. unfold lookup_spec.
      assert (Ho : forall o, In o (filter (starts_with vs) (objs_of cs)) -> exists i c, nth_error cs i = Some c /\ o = (k_id c, Z.of_nat i) /\ begins vs (k_id c)).
      { intros o Ho. apply filter_In in Ho as [Ho Hs]. apply In_nth_error in Ho as (i & Hi). apply objs_inv in Hi as (c & Hc & ->). exists i, c. split; [exact Hc|]. split; [reflexivity|]. apply starts_spec in Hs. exact Hs. }
      assert (Ho' : forall d, In d commits -> begins vs (k_id d) -> exists j, nth_error cs j = Some d /\ In (k_id d, Z.of_nat j) (filter (starts_with vs) (objs_of cs))).
      { intros d Hd Hb. apply Hin in Hd. apply In_nth_error in Hd as (j & Hj). exists j. split; [exact Hj|]. apply filter_In. split; [|apply starts_spec; exact Hb]. apply (nth_error_In _ j). apply objs_nth. exact Hj. }
      assert (NDf : NoDup (map fst (filter (starts_with vs) (objs_of cs)))).
      { rewrite <- objs_fst in Hndk. revert Hndk. generalize (objs_of cs). clear. induction l as [|o l IH]; cbn [map filter]; intros Hnd; [constructor|]. inversion_clear Hnd as [|? ? Hx Hnd'].
        destruct (starts_with vs o); [|apply IH; exact Hnd']. cbn [map]. constructor; [|apply IH; exact Hnd']. intros Hi. apply Hx. apply in_map_iff in Hi as (y & Ey & Hy). apply filter_In in Hy as [Hy _]. rewrite <- Ey. apply in_map. exact Hy. }
      destruct (filter (starts_with vs) (objs_of cs)) as [|o [|o2 r]].
      * left. split; [reflexivity|]. intros c Hc Hb. destruct (Ho' c Hc Hb) as (j & _ & []).
      * destruct (Ho o (or_introl eq_refl)) as (i & c & Hi & -> & Hb). cbn [snd]. destruct (GetE i c Hi) as (e & E1 & E2). rewrite E1. exists c.
        split; [apply Hincl; apply nth_error_In in Hi; exact Hi|]. split; [exact Hb|]. split; [exact E2|]. intros d Hd Hbd. destruct (Ho' d Hd Hbd) as (j & Hj & [Ej|[]]).
        apply Huq; [exact Hd|apply Hincl; apply nth_error_In in Hi; exact Hi|]. injection Ej as Ej _. symmetry. exact Ej.
      * right. split; [reflexivity|]. destruct (Ho o (or_introl eq_refl)) as (i & c & Hi & -> & Hb). destruct (Ho o2 (or_intror (or_introl eq_refl))) as (j & d & Hj & -> & Hb2).
        exists c, d. split; [apply Hincl; apply nth_error_In in Hi; exact Hi|]. split; [apply Hincl; apply nth_error_In in Hj; exact Hj|]. split; [|auto].
        cbn [map fst] in NDf. inversion_clear NDf as [|? ? Hx _]. intros Ecd. apply Hx. left. symmetry. exact Ecd.
    + intros G HG c Hc. apply Hin in Hc. apply In_nth_error in Hc as (i & Hi). destruct (Get i c Hi) as (ps & g & Hps & Hgi & Hpp).
      rewrite (written_full cs pidx gens sum) with (i := i) by assumption. rewrite (written_get cs pidx gens sum) with (c := c) (ps := ps) (g := g) by assumption.
      eexists. split; [reflexivity|]. cbn [e_gen].
      set (G' := fun j => match nth_error cs j with Some d => G (k_id d) | None => 0 end).
      assert (HG' : is_generation pidx G').
      { intros j qs Hj. destruct (F2_nth' _ _ _ Hpi j qs Hj) as (d & Hd & Hdq). split; [rewrite Lp; apply Hpw; apply nth_error_In in Hj; exact Hj|].
        assert (Ej : G' j = G (k_id d)) by (unfold G'; rewrite Hd; reflexivity). rewrite Ej.
        destruct (HG d (Hincl d (nth_error_In _ _ Hd))) as [P E]. split; [|exact P]. rewrite E at 1. f_equal. f_equal.
        clear - Hdq. induction Hdq as [|p k l l' (x & Hx & Ex) _ IH]; [reflexivity|]. cbn [map]. rewrite IH. f_equal. unfold G'. rewrite Hx, Ex. reflexivity. }
      destruct (generations_exact pidx G' HG' gens Eg i g Hgi) as (B & LeG & Lin). assert (Ei : G' i = G (k_id c)) by (unfold G'; rewrite Hi; reflexivity). rewrite Ei in *.
      split; [exact B|]. split; [exact LeG|]. intros Hm1 Hm2. apply Lin.
      * intros j Hj. destruct (nth_error cs j) as [d|] eqn:Ed; [|apply nth_error_None in Ed; lia]. replace (G' j) with (G (k_id d)) by (unfold G'; rewrite Ed; reflexivity). apply Hm1. apply Hincl. apply nth_error_In in Ed. exact Ed.
      * intros j qs Hj. destruct (F2_nth' _ _ _ Hpi j qs Hj) as (d & Hd & Hdq). rewrite <- (F2_len _ _ _ Hdq). apply Hm2. apply Hincl. apply nth_error_In in Hd. exact Hd.
Qed.

Lemma missing_parent H commits : commits_ok commits -> ~ closed commits -> cg_write H commits = Err (-3) \/ (cg_write H commits = UB /\ 8589934592 <= Z.of_nat (length commits)).
Proof.
  intros [Hok Huq] Hncl. destruct (prepared commits) as [(v1 & v2 & Es & Eu & Hinc & Hincl & Hcov)|[Es Hl]].
  2:{ right. split; [|exact Hl]. unfold cg_write. rewrite Es. reflexivity. }
  left. unfold cg_write. rewrite Es. cbn [bindr]. rewrite Eu. cbn [bindr]. pose proof (parent_indices_spec (items v2) (items v2)) as Hpi.
  destruct (parent_indices (items v2) (items v2)) as [pidx|e| |]; cbn [bindr]; [|destruct Hpi as [-> _]; reflexivity|contradiction|contradiction].
  exfalso. apply Hncl. intros c p Hc Hp. destruct (Hcov c Hc) as (d & Hd & Ed). assert (d = c) by (apply Huq; auto). subst d. apply In_nth_error in Hd as (i & Hi).
  destruct (F2_nth _ _ _ Hpi i c Hi) as (ps & _ & Hps). apply In_nth_error in Hp as (k & Hk). destruct (F2_nth _ _ _ Hps k p Hk) as (j & _ & d & Hd & Edp).
  exists d. split; [apply Hincl; apply nth_error_In in Hd; exact Hd|exact Edp].
Qed.
