(** C16: what a revision walk lists. *)
From Verif Require Import Base GraphModel GraphSpec RevModel RevSpec RevPrep RevMain.

(** Pushed and hidden commits of the caller's input sequence. *)
Definition pushes_of (ins : list (bool * nat)) : list nat := map snd (filter (fun i => negb (fst i)) ins).
Definition hides_of (ins : list (bool * nat)) : list nat := map snd (filter (fun i => fst i) ins).

Lemma in_pushes ins x : In x (pushes_of ins) <-> In (false, x) ins.
Proof.
  unfold pushes_of. rewrite in_map_iff. split.
  - intros ([h y] & E & H). apply filter_In in H. cbn in *. subst. destruct h; [destruct H; discriminate|]. apply H.
  - intros H. exists (false, x). split; auto. apply filter_In. auto.
Qed.
Lemma in_hides ins x : In x (hides_of ins) <-> In (true, x) ins.
Proof.
  unfold hides_of. rewrite in_map_iff. split.
  - intros ([h y] & E & H). apply filter_In in H. cbn in *. subst. destruct h; [|destruct H; discriminate]. apply H.
  - intros H. exists (true, x). split; auto. apply filter_In. auto.
Qed.

(** Without hides, for every commit graph, all timestamps, any pushes, any sorting
    mode, with or without first-parent simplification and a hide callback: the walk
    terminates and lists each commit that can be reached from a pushed one by
    following the parents the options allow exactly once; with topological sorting
    no commit comes before one of its children; with time sorting alone the newest
    comes first; GIT_SORT_REVERSE reverses.  [w0] is a new walker or one whose last
    walk has ended; it is again in that state at the end.  Topological sorting needs
    every commit to be named as a parent fewer than 65535 times. *)
Theorem revwalk_exact : forall g w0 first cb topo time reverse ins V,
  fresh w0 -> NoDup V -> history (g_parents g) V (map snd ins) -> acyclic (g_parents g) ->
  (forall x, In x V -> g_ok g x = true) ->
  (topo = true -> forall x, In x V -> child_edges (g_parents g) V x < 65535) ->
  (forall i, In i ins -> fst i = false) ->
  let hide := fun x => match cb with Some h => h x | None => false end in
  exists w, rev_setup g w0 first cb topo time reverse ins = Ok w /\
  exists N, forall n fuel, (N <= n)%nat -> (N <= fuel)%nat ->
  exists l w', rev_all g n fuel w = Ok (l, w') /\ NoDup l /\
    (forall x, In x l <-> hide x = false /\ exists p, In p (pushes_of ins) /\ reach (followed (g_parents g) first hide) p x) /\
    (topo = true -> children_first (g_parents g) (if reverse then rev l else l)) /\
    (time = true -> topo = false -> newest_first (g_time g) (if reverse then rev l else l)) /\
    (l <> [] -> cb = None -> fresh w').
Proof.
  intros g w0 first cb topo time reverse ins V F NV HV AC OK DEG HI hide.
  assert (H0 : forall h, ~ In (true, h) ins). { intros h Hh. apply HI in Hh. discriminate. }
  destruct (main g V NV AC OK first cb topo time reverse ins HV DEG (or_introl H0) w0 F) as (w & E & H).
  exists w. split; [exact E|]. exists (RevMain.bound g V). intros n fuel Hn Hf. destruct (H n fuel Hn Hf) as (l & w' & A & B & C & D).
  exists l, w'. split; [exact A|]. split; [exact B|]. split; [|exact D]. intros x. rewrite C. unfold shown. fold hide. split.
  - intros ((p & Hp & Hr) & K & _). split; auto. exists p. rewrite in_pushes. auto.
  - intros (K & p & Hp & Hr). rewrite in_pushes in Hp. split; [eauto|]. split; auto. intros (h & Hh & _). eapply H0; eauto.
Qed.

(** With hides: each visible commit exactly once, provided either
    - timestamps never increase from child to parent and the pushes and hides are
      given oldest first, or
    - timestamps strictly decrease from child to parent and only one commit is pushed.
    Missing from the full property: other push orders and skewed clocks, for which it
    is false (below). *)
Theorem revwalk_hides_partial : forall g w0 topo time reverse ins V,
  fresh w0 -> NoDup V -> history (g_parents g) V (map snd ins) -> acyclic (g_parents g) ->
  (forall x, In x V -> g_ok g x = true) ->
  (topo = true -> forall x, In x V -> child_edges (g_parents g) V x < 65535) ->
  (dates_ordered (g_parents g) (g_time g) /\ newest_first (g_time g) (rev (map snd ins)) \/
   dates_strict (g_parents g) (g_time g) /\ (exists q, forall p, In p (pushes_of ins) -> p = q)) ->
  exists w, rev_setup g w0 false None topo time reverse ins = Ok w /\
  exists N, forall n fuel, (N <= n)%nat -> (N <= fuel)%nat ->
  exists l w', rev_all g n fuel w = Ok (l, w') /\ NoDup l /\
    (forall x, In x l <-> visible (g_parents g) (pushes_of ins) (hides_of ins) x) /\
    (topo = true -> children_first (g_parents g) (if reverse then rev l else l)) /\
    (time = true -> topo = false -> newest_first (g_time g) (if reverse then rev l else l)) /\
    (l <> [] -> fresh w').
Proof.
  intros g w0 topo time reverse ins V F NV HV AC OK DEG HD.
  assert (HOK : hides_ok g false None ins).
  { right. split; [reflexivity|]. split; [reflexivity|]. destruct HD as [HD|(HD & q & Hq)]; [left; exact HD|right]. split; auto.
    exists q. intros p Hp. apply Hq, in_pushes, Hp. }
  destruct (main g V NV AC OK false None topo time reverse ins HV DEG HOK w0 F) as (w & E & H).
  exists w. split; [exact E|]. exists (RevMain.bound g V). intros n fuel Hn Hf. destruct (H n fuel Hn Hf) as (l & w' & A & B & C & D1 & D2 & D3).
  exists l, w'. split; [exact A|]. split; [exact B|]. split; [|split; [exact D1|split; [exact D2|auto]]]. intros x. rewrite C. unfold shown, visible.
  assert (EF : forall a b, reach (followed (g_parents g) false (fun _ => false)) a b <-> reach (g_parents g) a b).
  { assert (EQ : forall c, followed (g_parents g) false (fun _ => false) c = g_parents g c).
    { intros c. unfold followed. cbn. induction (g_parents g c) as [|y l' IH]; cbn; [reflexivity|f_equal; exact IH]. }
    intros a b. split; induction 1; try constructor; (eapply reach_step; [|eassumption]); rewrite ?EQ in *; auto. }
  split.
  - intros ((p & Hp & Hr) & _ & K). split; [exists p; rewrite in_pushes; split; auto; apply EF; auto|].
    intros (h & Hh & Hhr). apply K. exists h. rewrite <- in_hides. auto.
  - intros ((p & Hp & Hr) & K). split; [exists p; rewrite <- in_pushes; split; auto; apply EF; auto|]. split; [reflexivity|].
    intros (h & Hh & Hhr). apply K. exists h. rewrite in_hides. auto.
Qed.

Definition chain9 : graph :=
  mkG (fun n => match n with 0 => [] | 9 => [] | S m => if (n <? 9)%nat then [m] else [] end%nat)
      (fun n => if (n =? 9)%nat then 100 else Z.of_nat n) (fun _ => 0) (fun n => (n <? 10)%nat).
(** A chain 8 -> 7 -> ... -> 0 and a newer unrelated commit 9, dates strictly
    decreasing towards the parents.  Hiding 8, then pushing 9, then pushing 0 lists 0,
    which the hidden 8 reaches: the list of pushed commits is not sorted by date
    before revwalk.c:472-505, so the last date seen (that of 9) is no lower bound. *)
Theorem revwalk_hidden_refuted :
  dates_strict (g_parents chain9) (g_time chain9) /\
  reach (g_parents chain9) 8 0 /\
  exists w w', rev_setup chain9 rwalk0 false None false false false [(true, 8%nat); (false, 9%nat); (false, 0%nat)] = Ok w /\
    rev_all chain9 20 200 w = Ok ([0%nat; 9%nat], w').
Proof.
  split; [|split].
  - intros c p. do 10 (destruct c as [|c]; [cbn; intros H; repeat (destruct H as [<- |H]; [cbn; lia|]); tauto|]). cbn. tauto.
  - apply reach_step with 7%nat; [cbn; auto|]. apply reach_step with 6%nat; [cbn; auto|]. apply reach_step with 5%nat; [cbn; auto|].
    apply reach_step with 4%nat; [cbn; auto|]. apply reach_step with 3%nat; [cbn; auto|]. apply reach_step with 2%nat; [cbn; auto|].
    apply reach_step with 1%nat; [cbn; auto|]. apply reach_step with 0%nat; [cbn; auto|]. constructor.
  - eexists. eexists. split; [reflexivity|]. vm_compute. reflexivity.
Qed.

(** Clock skew: one push, one hide, but commit 8 claims to be older than its ancestor
    0; the walk shows 0 although the hidden 8 reaches it (revwalk.c:441 SLOP). *)
Definition skew : graph :=
  mkG (fun n => match n with 0 => [] | S m => if (n <? 9)%nat then [m] else if (n =? 9)%nat then [0] else [] end%nat)
      (fun n => match n with 0%nat => 50 | 9%nat => 60 | _ => Z.of_nat n end) (fun _ => 0) (fun n => (n <? 10)%nat).
Theorem revwalk_skew_refuted :
  reach (g_parents skew) 8 0 /\
  exists w w', rev_setup skew rwalk0 false None false false false [(false, 9%nat); (true, 8%nat)] = Ok w /\
    rev_all skew 20 200 w = Ok ([9%nat; 0%nat], w').
Proof.
  split.
  - apply reach_step with 7%nat; [cbn; auto|]. apply reach_step with 6%nat; [cbn; auto|]. apply reach_step with 5%nat; [cbn; auto|].
    apply reach_step with 4%nat; [cbn; auto|]. apply reach_step with 3%nat; [cbn; auto|]. apply reach_step with 2%nat; [cbn; auto|].
    apply reach_step with 1%nat; [cbn; auto|]. apply reach_step with 0%nat; [cbn; auto|]. constructor.
  - eexists. eexists. split; [reflexivity|]. vm_compute. reflexivity.
Qed.

(** The 16-bit in-degree: a commit named 65535 times as a parent is dropped by a
    topological walk (here by one commit naming it 65535 times; 65535 children do the same). *)
Definition wide : graph :=
  mkG (fun n => if (n =? 1)%nat then repeat 0%nat (Z.to_nat 65535) else []) (fun _ => 0) (fun _ => 0) (fun n => (n <? 2)%nat).
Theorem revwalk_indegree_refuted :
  reach (g_parents wide) 1 0 /\
  exists w w', rev_setup wide rwalk0 false None true false false [(false, 1%nat)] = Ok w /\ rev_all wide 10 10 w = Ok ([1%nat], w').
Proof.
  split.
  - apply reach_step with 0%nat; [|constructor]. change (In 0%nat (repeat 0%nat (Z.to_nat 65535))).
    replace (Z.to_nat 65535) with (S (Z.to_nat 65534)) by lia. left. reflexivity.
  - eexists. eexists. split; [reflexivity|]. vm_compute. reflexivity.
Qed.

(** The hide callback is documented (include/git2/revwalk.h) to hide a commit and its
    parents; for a pushed commit it hides the commit but its parents are shown. *)
Definition pair_g : graph :=
  mkG (fun n => if (n =? 1)%nat then [0%nat] else []) (fun n => Z.of_nat n) (fun _ => 0) (fun n => (n <? 2)%nat).
Theorem revwalk_hide_cb_refuted :
  exists w w', rev_setup pair_g rwalk0 false (Some (fun n => (n =? 1)%nat)) false false false [(false, 1%nat)] = Ok w /\
    rev_all pair_g 10 20 w = Ok ([0%nat], w').
Proof. eexists. eexists. split; [reflexivity|]. vm_compute. reflexivity. Qed.

(** The hypotheses hold of real walks: a merge 4 of 2 and 3, both children of 1, on
    root 0; 1 hidden. *)
Definition diamond : graph :=
  mkG (fun n => match n with 4 => [2;3] | 3 => [1] | 2 => [1] | 1 => [0] | _ => [] end%nat) (fun n => Z.of_nat n) (fun _ => 0) (fun n => (n <? 5)%nat).
Lemma diamond_dates : dates_strict (g_parents diamond) (g_time diamond).
Proof. intros c p. do 5 (destruct c as [|c]; [cbn; intros H; repeat (destruct H as [<- |H]; [lia|]); tauto|]). cbn. tauto. Qed.
Lemma diamond_acyclic : acyclic (g_parents diamond).
Proof.
  assert (K : forall a b, reach (g_parents diamond) a b -> (b <= a)%nat).
  { induction 1; [lia|]. apply diamond_dates in H. cbn in H. lia. }
  intros c p H R. apply K in R. apply diamond_dates in H. cbn in H. lia.
Qed.
Example diamond_hyps :
  fresh rwalk0 /\ NoDup [0;1;2;3;4]%nat /\ history (g_parents diamond) [0;1;2;3;4]%nat (map snd [(true, 1%nat); (false, 4%nat)]) /\
  (forall x, In x [0;1;2;3;4]%nat -> g_ok diamond x = true) /\
  (forall x, In x [0;1;2;3;4]%nat -> child_edges (g_parents diamond) [0;1;2;3;4]%nat x < 65535).
Proof.
  split; [repeat split; reflexivity|]. split; [repeat constructor; cbn; intuition discriminate|]. split.
  - split; [cbn; intuition|]. intros x p H. cbn in H. repeat (destruct H as [<- |H]; [cbn; intuition|]). tauto.
  - split; intros x H; cbn in H; repeat (destruct H as [<- |H]; [vm_compute; reflexivity|]); tauto.
Qed.
Example diamond_walk :
  exists w w', rev_setup diamond rwalk0 false None true false false [(true, 1%nat); (false, 4%nat)] = Ok w /\
    rev_all diamond 10 50 w = Ok ([4;3;2]%nat, w').
Proof. eexists. eexists. split; [reflexivity|]. vm_compute. reflexivity. Qed.

Print Assumptions revwalk_exact.
Print Assumptions revwalk_hides_partial.
