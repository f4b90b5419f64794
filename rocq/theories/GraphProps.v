(** C14: merge bases; part of C15: ancestry queries. *)
From Coq Require Import Permutation.
From Verif Require Import Base Arr PQueueModel GraphModel GraphSpec GraphProofs GraphBases GraphTotal.

Lemma clean0 : clean walk0. Proof. intros x. reflexivity. Qed.

Lemma nodup_history P V tips : history P V tips -> history P (nodup Nat.eq_dec V) tips.
Proof.
  intros (H1 & H2). split.
  - intros x Hx. apply nodup_In. auto.
  - intros x p Hx Hp. apply nodup_In. apply nodup_In in Hx. eauto.
Qed.

Lemma bases_terminates g V one twos : (forall n, 0 <= g_gen g n) -> acyclic (g_parents g) ->
  history (g_parents g) V (one :: twos) -> (forall x, In x V -> g_ok g x = true) ->
  exists fuel0, forall fuel, (fuel0 <= fuel)%nat -> exists r, bases_many g fuel walk0 one twos 0 = Ok r.
Proof.
  intros Hg AC HV OK. apply nodup_history in HV. exists (bound g (nodup Nat.eq_dec V) twos). intros fuel Hf.
  eapply (bases_total g Hg AC (nodup Nat.eq_dec V)); eauto using clean0.
  - apply NoDup_nodup.
  - destruct HV as (_ & H). exact H.
  - intros x Hx. apply OK. apply nodup_In in Hx. exact Hx.
  - apply HV. left. reflexivity.
  - intros t Ht. apply HV. right. exact Ht.
Qed.

Lemma bases_nil g V one twos fuel : (forall n, 0 <= g_gen g n) -> acyclic (g_parents g) ->
  history (g_parents g) V (one :: twos) -> bases_many g fuel walk0 one twos 0 = Ok [] ->
  forall x, ~ common (g_parents g) one twos x.
Proof.
  intros Hg AC HV H x Hx. destruct (bases_many_spec g Hg AC fuel V one twos walk0 [] clean0 HV H) as (_ & _ & Hb).
  refine (nn_maximal g AC (common (g_parents g) one twos) V _ x Hx _).
  - intros c (Hc & _). eapply history_reach; [exact HV|left; reflexivity|exact Hc].
  - intros (m & H1 & _ & H3). apply (Hb m). split; auto.
Qed.

(** Whatever the timestamps and generation numbers: when the history is readable the
    computation ends, reports "not found" exactly when the commits share no ancestor,
    and otherwise lists, without repetition and newest first, exactly the common
    ancestors that are no ancestors of another common ancestor. *)
Theorem merge_bases_exact : forall g one two V,
  (forall n, 0 <= g_gen g n) -> acyclic (g_parents g) ->
  history (g_parents g) V [one; two] -> (forall x, In x V -> g_ok g x = true) ->
  exists fuel0, forall fuel, (fuel0 <= fuel)%nat ->
    match git_merge_bases g fuel one two with
    | Ok r => r <> [] /\ NoDup r /\ newest_first (g_time g) r /\
        forall m, In m r <-> (reach (g_parents g) one m /\ reach (g_parents g) two m /\
          forall c, reach (g_parents g) one c -> reach (g_parents g) two c -> reach (g_parents g) c m -> c = m)
    | Err e => e = GIT_ENOTFOUND /\ forall x, ~ (reach (g_parents g) one x /\ reach (g_parents g) two x)
    | _ => False
    end.
Proof.
  intros g one two V Hg AC HV OK. destruct (bases_terminates g V one [two] Hg AC HV OK) as (f0 & Hf).
  exists f0. intros fuel Hle. destruct (Hf fuel Hle) as (r & E). unfold git_merge_bases. rewrite E. cbn [bindr].
  destruct r as [|a r].
  - split; [reflexivity|]. intros x (H1 & H2). apply (bases_nil g V one [two] fuel Hg AC HV E x). split; [exact H1|].
    exists two. split; [left; reflexivity|exact H2].
  - destruct (bases_many_spec g Hg AC fuel V one [two] walk0 (a :: r) clean0 HV E) as (ND & NF & Hb).
    split; [discriminate|]. split; [exact ND|]. split; [exact NF|]. intros m. rewrite Hb. unfold best_common, common.
    split.
    + intros ((H1 & t & [<-|[]] & H2) & H3). split; [exact H1|]. split; [exact H2|]. intros c Hc1 Hc2. apply H3. split; [exact Hc1|].
      exists two. split; [left; reflexivity|exact Hc2].
    + intros (H1 & H2 & H3). split; [split; [exact H1|exists two; split; [left; reflexivity|exact H2]]|].
      intros c (Hc1 & t & [<-|[]] & Hc2). apply H3; auto.
Qed.
Print Assumptions merge_bases_exact.

(** An answer that is given although parts of the history cannot be read is right too. *)
Theorem merge_bases_sound : forall g one two V fuel r,
  (forall n, 0 <= g_gen g n) -> acyclic (g_parents g) -> history (g_parents g) V [one; two] ->
  git_merge_bases g fuel one two = Ok r ->
  forall m, In m r <-> best_common (g_parents g) one [two] m.
Proof.
  intros g one two V fuel r Hg AC HV H. unfold git_merge_bases in H.
  destruct (bases_many g fuel walk0 one [two] 0) as [r'| | |] eqn:E; try discriminate. cbn [bindr] in H.
  assert (r' = r) by (destruct r'; [discriminate|congruence]). subst r'.
  apply (bases_many_spec g Hg AC fuel V one [two] walk0 r clean0 HV E).
Qed.
Print Assumptions merge_bases_sound.

(** The single merge base is a newest one of them. *)
Theorem merge_base_newest : forall g one two V fuel b,
  (forall n, 0 <= g_gen g n) -> acyclic (g_parents g) -> history (g_parents g) V [one; two] ->
  git_merge_base g fuel one two = Ok b ->
  best_common (g_parents g) one [two] b /\
  forall m, best_common (g_parents g) one [two] m -> g_time g m <= g_time g b.
Proof.
  intros g one two V fuel b Hg AC HV H. unfold git_merge_base, git_merge_bases in H.
  destruct (bases_many g fuel walk0 one [two] 0) as [r| | |] eqn:E; try discriminate. cbn [bindr] in H.
  destruct r as [|a r]; [discriminate|]. cbn [bindr] in H. injection H as ->.
  destruct (bases_many_spec g Hg AC fuel V one [two] walk0 (b :: r) clean0 HV E) as (_ & (NF & _) & Hb).
  split; [apply Hb; left; reflexivity|]. intros m Hm. apply Hb in Hm. destruct Hm as [->|Hm]; [lia|auto].
Qed.
Print Assumptions merge_base_newest.

(** Several commits: the merge bases of the first and the (hypothetical) merge of the others. *)
Theorem merge_bases_many_exact : forall g one two twos V,
  (forall n, 0 <= g_gen g n) -> acyclic (g_parents g) ->
  history (g_parents g) V (one :: two :: twos) -> (forall x, In x V -> g_ok g x = true) ->
  exists fuel0, forall fuel, (fuel0 <= fuel)%nat ->
    match git_merge_bases_many g fuel (one :: two :: twos) with
    | Ok r => r <> [] /\ NoDup r /\ newest_first (g_time g) r /\
        forall m, In m r <-> best_common (g_parents g) one (two :: twos) m
    | Err e => e = GIT_ENOTFOUND /\ forall x, ~ common (g_parents g) one (two :: twos) x
    | _ => False
    end.
Proof.
  intros g one two twos V Hg AC HV OK. destruct (bases_terminates g V one (two :: twos) Hg AC HV OK) as (f0 & Hf).
  exists f0. intros fuel Hle. destruct (Hf fuel Hle) as (r & E). unfold git_merge_bases_many. cbn [tl]. rewrite E. cbn [bindr].
  destruct r as [|a r].
  - split; [reflexivity|]. apply (bases_nil g V one (two :: twos) fuel Hg AC HV E).
  - destruct (bases_many_spec g Hg AC fuel V one (two :: twos) walk0 (a :: r) clean0 HV E) as (ND & NF & Hb).
    split; [discriminate|]. auto.
Qed.
Print Assumptions merge_bases_many_exact.

(** The octopus merge base is an ancestor of every input. *)
Theorem octopus_common : forall g V input b fuel,
  (forall n, 0 <= g_gen g n) -> acyclic (g_parents g) -> history (g_parents g) V input ->
  git_merge_base_octopus g fuel input = Ok b ->
  forall c, In c input -> reach (g_parents g) c b.
Proof.
  intros g V input b fuel Hg AC HV H. unfold git_merge_base_octopus in H.
  destruct input as [|one [|c2 rest]]; try discriminate.
  assert (G : forall rest seen r, (forall c, In c seen -> reach (g_parents g) c r) -> In r V -> (forall c, In c rest -> In c V) ->
    octopus_loop g fuel r rest = Ok b -> forall c, In c (seen ++ rest) -> reach (g_parents g) c b).
  { induction rest0 as [|x rest0 IH]; intros seen r Hs Hr HR Ho c Hc; cbn [octopus_loop] in Ho.
    - injection Ho as <-. rewrite app_nil_r in Hc. auto.
    - destruct (git_merge_base g fuel r x) as [r'| | |] eqn:E; try discriminate. cbn [bindr] in Ho.
      assert (HVx : history (g_parents g) V [r; x]).
      { destruct HV as (H1 & H2). split; [|exact H2]. intros y [<-|[<-|[]]]; [exact Hr|apply HR; left; reflexivity]. }
      destruct (merge_base_newest g r x V fuel r' Hg AC HVx E) as (((B1 & t & [<-|[]] & B2) & _) & _).
      apply (IH (x :: seen) r'); auto.
      + intros y [<-|Hy]; [exact B2|]. eapply reach_trans; eauto.
      + eapply history_reach; [exact HVx|left; reflexivity|exact B1].
      + intros y Hy. apply HR. right. exact Hy.
      + cbn. apply in_app_or in Hc. destruct Hc as [Hc|[Hc|Hc]]; [right; apply in_or_app; auto|auto|right; apply in_or_app; auto]. }
  intros c Hc. apply (G (c2 :: rest) [one] one); auto.
  - intros y [<-|[]]. constructor.
  - apply HV. left. reflexivity.
  - intros y Hy. apply HV. right. exact Hy.
Qed.
Print Assumptions octopus_common.

(** Reachability queries agree with ancestry. *)
Theorem reachable_from_any_exact : forall g commit ds V,
  (forall n, 0 <= g_gen g n) -> acyclic (g_parents g) ->
  history (g_parents g) V (commit :: ds) -> (forall x, In x V -> g_ok g x = true) ->
  exists fuel0, forall fuel, (fuel0 <= fuel)%nat ->
    exists b, git_graph_reachable_from_any g fuel commit ds = Ok b /\
      (b = true <-> exists d, In d ds /\ reach (g_parents g) d commit).
Proof.
  intros g commit ds V Hg AC HV OK. destruct (bases_terminates g V commit ds Hg AC HV OK) as (f0 & Hf).
  exists f0. intros fuel Hle. destruct (Hf fuel Hle) as (r & E). unfold git_graph_reachable_from_any.
  destruct ds as [|d0 ds0] eqn:Eds.
  { exists false. split; [reflexivity|]. split; [discriminate|]. intros (d & [] & _). }
  rewrite <- Eds in *. destruct (existsb _ ds) eqn:Ex.
  { exists true. split; [reflexivity|]. split; [|reflexivity]. intros _. apply existsb_exists in Ex.
    destruct Ex as (d & Hd & Ed). apply Nat.eqb_eq in Ed. subst d. exists commit. split; [exact Hd|constructor]. }
  assert (Hmin : forall l m, fold_left (fun m n => if generation g walk0 n <? m then generation g walk0 n else m) l m = (match l with [] => m | _ => Z.min m 0 end)).
  { induction l as [|x l IH]; intros m; [reflexivity|]. cbn [fold_left]. rewrite IH. unfold generation. cbn [w_parsed walk0].
    destruct (Z.ltb_spec 0 m); destruct l; lia. }
  cbv zeta. rewrite Hmin. replace (match ds with [] => 4294967295 | _ :: _ => Z.min 4294967295 0 end) with 0 by (rewrite Eds; reflexivity).
  unfold generation at 1. cbn [w_parsed walk0]. replace (0 <? 0) with false by reflexivity. rewrite E. cbn [bindr].
  destruct (bases_many_spec g Hg AC fuel V commit ds walk0 r clean0 HV E) as (ND & _ & Hb).
  assert (Hself : (exists d, In d ds /\ reach (g_parents g) d commit) -> best_common (g_parents g) commit ds commit).
  { intros (d & Hd & Hr). split; [split; [constructor|eauto]|]. intros c (Hc & _) Hr'. eapply reach_antisym; eauto. }
  destruct r as [|a r].
  - exists false. split; [reflexivity|]. split; [discriminate|]. intros Hd. exfalso. apply (Hb commit). auto.
  - exists (commit =? a)%nat. split; [reflexivity|]. rewrite Nat.eqb_eq. split.
    + intros <-. destruct (proj1 (Hb commit) (or_introl eq_refl)) as ((_ & d & Hd & Hr) & _). eauto.
    + intros Hd. destruct (proj1 (Hb a) (or_introl eq_refl)) as ((Ha & t & Ht & Hta) & Hmax).
      apply Hmax; [|exact Ha]. destruct (Hself Hd). assumption.
Qed.
Print Assumptions reachable_from_any_exact.

Theorem descendant_of_exact : forall g commit ancestor V,
  (forall n, 0 <= g_gen g n) -> acyclic (g_parents g) ->
  history (g_parents g) V [commit; ancestor] -> (forall x, In x V -> g_ok g x = true) ->
  exists fuel0, forall fuel, (fuel0 <= fuel)%nat ->
    exists b, git_graph_descendant_of g fuel commit ancestor = Ok b /\
      (b = true <-> commit <> ancestor /\ reach (g_parents g) commit ancestor).
Proof.
  intros g c a V Hg AC HV OK.
  assert (HV' : history (g_parents g) V [a; c]) by (destruct HV as (H1 & H2); split; [intros x Hx; apply H1; cbn in *; tauto|exact H2]).
  destruct (reachable_from_any_exact g a [c] V Hg AC HV' OK) as (f0 & Hf). exists f0. intros fuel Hle.
  unfold git_graph_descendant_of. destruct (Nat.eqb_spec c a) as [->|N].
  - exists false. split; [reflexivity|]. split; [discriminate|]. tauto.
  - destruct (Hf fuel Hle) as (b & -> & Hb). exists b. split; [reflexivity|]. rewrite Hb. split.
    + intros (d & [<-|[]] & Hr). auto.
    + intros (_ & Hr). exists c. split; [left; reflexivity|exact Hr].
Qed.
Print Assumptions descendant_of_exact.

(** ** Non-vacuity: a criss-cross with skewed clocks.
    0 root; 1, 2 children of 0; 3 and 4 both merge 1 and 2; 5 on top of 1. *)
Definition cc_parents (n : nat) : list nat :=
  match n with 1 => [0] | 2 => [0] | 3 => [1; 2] | 4 => [2; 1] | 5 => [1] | _ => [] end%nat.
Definition cc : graph := mkG cc_parents (fun n => match n with 0%nat => 500 | 1%nat => 3 | 2%nat => 9 | _ => 5 end) (fun _ => 0) (fun _ => true).
Example cc_acyclic : acyclic (g_parents cc).
Proof.
  assert (M : forall a b, reach cc_parents a b -> (b <= a)%nat).
  { induction 1 as [|c p a Hp Hr IH]; [lia|]. unfold cc_parents in Hp.
    do 6 (destruct c as [|c]; [cbn in Hp; lia|]). destruct Hp. }
  intros c p Hp Hr. apply M in Hr. cbn in Hp. unfold cc_parents in Hp.
  do 6 (destruct c as [|c]; [cbn in Hp; lia|]). destruct Hp.
Qed.
Example cc_history : history (g_parents cc) [0;1;2;3;4;5]%nat [3;4;5]%nat.
Proof.
  split.
  - intros x [<-|[<-|[<-|[]]]]; cbn; tauto.
  - intros x p Hx Hp. cbn in Hp. unfold cc_parents in Hp. do 6 (destruct x as [|x]; [cbn in *; intuition|]). destruct Hp.
Qed.
Example cc_bases : git_merge_bases cc 100 3 4 = Ok [2; 1]%nat. Proof. vm_compute. reflexivity. Qed.
Example cc_bases_35 : git_merge_bases cc 100 3 5 = Ok [1]%nat. Proof. vm_compute. reflexivity. Qed.
Example cc_octopus : git_merge_base_octopus cc 100 [3; 4; 5]%nat = Ok 0%nat. Proof. vm_compute. reflexivity. Qed.
Example cc_reach : git_graph_reachable_from_any cc 100 0 [3; 5]%nat = Ok true. Proof. vm_compute. reflexivity. Qed.
Example cc_desc : git_graph_descendant_of cc 100 5 2 = Ok false. Proof. vm_compute. reflexivity. Qed.

(** The octopus base need not be a best common ancestor (1 is a descendant of the 0
    that is reported and an ancestor of all three), and "not found" may be reported
    although a common ancestor exists. *)
Theorem octopus_best_refuted :
  ~ (forall g V input b fuel, (forall n, 0 <= g_gen g n) -> acyclic (g_parents g) -> history (g_parents g) V input ->
     git_merge_base_octopus g fuel input = Ok b ->
     forall c, (forall i, In i input -> reach (g_parents g) i c) -> reach (g_parents g) c b -> c = b).
Proof.
  intros H. assert (1 = 0)%nat; [|discriminate].
  apply (H cc _ [3;4;5]%nat 0%nat 100%nat (fun _ => Z.le_refl 0) cc_acyclic cc_history cc_octopus).
  - intros i [<-|[<-|[<-|[]]]]; (eapply reach_step; [|apply reach_refl]); cbn; auto.
  - eapply reach_step; [|apply reach_refl]. cbn. auto.
Qed.
Print Assumptions octopus_best_refuted.

Definition cc2_parents (n : nat) : list nat :=
  match n with 3 => [1; 2] | 4 => [2; 1] | 5 => [1] | _ => [] end%nat.
Definition cc2 : graph := mkG cc2_parents (g_time cc) (fun _ => 0) (fun _ => true).
Theorem octopus_not_found_refuted :
  ~ (forall g input fuel, (forall n, 0 <= g_gen g n) -> acyclic (g_parents g) -> (forall n, g_ok g n = true) ->
     git_merge_base_octopus g fuel input = Err GIT_ENOTFOUND ->
     ~ exists c, forall i, In i input -> reach (g_parents g) i c).
Proof.
  intros H. refine (H cc2 [3;4;5]%nat 100%nat (fun _ => Z.le_refl 0) _ (fun _ => eq_refl) _ _).
  - intros c p Hp Hr.
    assert (M : forall a b, reach cc2_parents a b -> (b <= a)%nat).
    { induction 1 as [|c' p' a Hp' Hr' IH]; [lia|]. unfold cc2_parents in Hp'.
      do 6 (destruct c' as [|c']; [cbn in Hp'; lia|]). destruct Hp'. }
    apply M in Hr. cbn in Hp. unfold cc2_parents in Hp. do 6 (destruct c as [|c]; [cbn in Hp; lia|]). destruct Hp.
  - vm_compute. reflexivity.
  - exists 1%nat. intros i [<-|[<-|[<-|[]]]]; (eapply reach_step; [|apply reach_refl]); cbn; auto.
Qed.
Print Assumptions octopus_not_found_refuted.
