(** Termination and absence of errors for the merge-base computation. *)
From Coq Require Import Permutation.
From Verif Require Import Base Arr PQueueModel GraphModel GraphSpec GraphProofs GraphBases.

Fixpoint sumf (f : nat -> nat) (l : list nat) : nat := match l with [] => 0%nat | x :: r => (f x + sumf f r)%nat end.
Lemma sumf_ext f h l : (forall x, In x l -> f x = h x) -> sumf f l = sumf h l.
Proof. induction l as [|a l IH]; intros H; cbn; [reflexivity|]. rewrite IH, (H a) by (cbn in *; auto). reflexivity. Qed.
Lemma sumf_le f h l : (forall x, In x l -> (f x <= h x)%nat) -> (sumf f l <= sumf h l)%nat.
Proof. induction l as [|a l IH]; intros H; cbn; [lia|]. pose proof (H a (or_introl eq_refl)). assert (sumf f l <= sumf h l)%nat by (apply IH; intros; apply H; cbn; auto). lia. Qed.
Lemma sumf_drop f h p k l : NoDup l -> In p l -> (forall x, In x l -> x <> p -> h x = f x) -> (h p + k <= f p)%nat ->
  (sumf h l + k <= sumf f l)%nat.
Proof.
  induction l as [|a l IH]; intros N Hp He Hk; [destruct Hp|]. inversion N as [|? ? Ha Hl]; subst. cbn.
  destruct Hp as [->|Hp].
  - assert (E : sumf h l = sumf f l).
    { apply sumf_ext. intros x Hx. apply He; [right; exact Hx|]. intros ->. contradiction. }
    rewrite E. lia.
  - assert (h a = f a). { apply He; [left; reflexivity|]. intros ->. contradiction. }
    assert (sumf h l + k <= sumf f l)%nat by (apply IH; auto; intros; apply He; cbn; auto). lia.
Qed.

Definition fmiss (f : flags) : nat := ((if fP1 f then 0 else 1) + (if fP2 f then 0 else 1) + (if fSTALE f then 0 else 1))%nat.
Lemma fmiss_or a fl : fRES fl = false -> ~ fle fl a -> (fmiss (f_or a fl) + 1 <= fmiss a)%nat.
Proof.
  intros Hr N. destruct a as [[] [] [] []], fl as [[] [] [] []]; cbn in *; try discriminate; try lia;
  exfalso; apply N; repeat split; cbn; congruence.
Qed.
Lemma fmiss_3 f : (fmiss f <= 3)%nat.
Proof. destruct f as [[] [] [] []]; cbn; lia. Qed.

Section Total.
  Context (g : graph) (Hgen : forall n, 0 <= g_gen g n).
  Notation P := (g_parents g).
  Context (AC : acyclic P).
  Context (V : list nat) (NV : NoDup V) (CV : forall x p, In x V -> In p (P x) -> In p V)
    (OK : forall x, In x V -> g_ok g x = true).

  Definition miss (w : walk) : nat := sumf (fun x => fmiss (w_fl w x)) V.
  Definition degs (w : walk) : nat := sumf (fun x => if f_eqb (w_fl w x) f0 then 0%nat else length (P x)) V.
  Definition alldegs : nat := sumf (fun x => length (P x)) V.

  Lemma miss_le w : (miss w <= 3 * length V)%nat.
  Proof.
    unfold miss. clear. induction V as [|a l IH]; cbn; [lia|]. pose proof (fmiss_3 (w_fl w a)). lia.
  Qed.

  Lemma paint_parents_total fl : fRES fl = false -> forall ps w q, (forall p, In p ps -> In p V) -> (forall x, In x q -> In x V) ->
    exists w' q', paint_parents g 0 fl ps w q = Ok (w', q') /\ (length q' + miss w' <= length q + miss w)%nat /\ (forall x, In x q' -> In x V).
  Proof.
    intros Hr. induction ps as [|p ps IH]; intros w q Hps Hq; cbn [paint_parents].
    - exists w, q. auto.
    - destruct (f_eqb (f_and (w_fl w p) fl) fl) eqn:E; [apply IH; cbn in *; auto|].
      replace (generation g w p <? 0) with false
        by (unfold generation; destruct (w_parsed w p); [specialize (Hgen p)|]; lia).
      assert (Hp : In p V) by (apply Hps; left; reflexivity).
      destruct (parse_ok g w p (OK p Hp)) as (w1 & -> & EF). cbn [bindr].
      destruct (insert_any (generation_cmp g) q p) as (q1 & -> & HP). cbn [bindr].
      destruct (IH (w_or w1 p fl) q1) as (w' & q' & -> & Hm & Hq'); [cbn in *; auto| |].
      { intros x Hx. apply (Permutation_in _ HP) in Hx. destruct Hx as [<-|Hx]; auto. }
      exists w', q'. split; [reflexivity|]. split; [|exact Hq'].
      apply Permutation_length in HP. cbn in HP.
      assert (miss (w_or w1 p fl) + 1 <= miss w)%nat; [|lia].
      unfold miss. apply sumf_drop with (p := p); auto.
      + intros x Hx Nx. unfold w_or. rewrite w_set_neq by exact Nx. rewrite EF. reflexivity.
      + unfold w_or. rewrite w_set_eq, EF. apply fmiss_or; [exact Hr|]. intros F. apply f_sub_spec in F. congruence.
  Qed.

  Lemma expand_total c w q : In c V -> (forall x, In x q -> In x V) ->
    exists w' q' b, expand g 0 c w q = Ok (w', q', b) /\ (length q' + miss w' <= length q + miss w)%nat /\ (forall x, In x q' -> In x V).
  Proof.
    intros Hc Hq. unfold expand. cbv zeta.
    set (fl := f_and (w_fl w c) (f_or PARENT1 (f_or PARENT2 STALE))).
    set (both := f_eqb fl (f_or PARENT1 PARENT2)).
    set (fr := both && negb (fRES (w_fl w c))).
    set (w1 := if fr then w_or w c RESULT else w).
    set (fl1 := if both then f_or fl STALE else fl).
    assert (Hr : fRES fl1 = false) by (unfold fl1; destruct both; unfold fl; cbn; rewrite ?andb_false_r; reflexivity).
    destruct (paint_parents_total fl1 Hr (P c) w1 q) as (w' & q' & -> & Hm & Hq'); [eauto|exact Hq|]. cbn [bindr].
    exists w', q', fr. split; [reflexivity|]. split; [|exact Hq'].
    assert (miss w1 = miss w); [|lia]. unfold w1. destruct fr; [|reflexivity]. unfold miss. apply sumf_ext. intros x _.
    unfold w_or. destruct (Nat.eq_dec x c) as [->|N]; [rewrite w_set_eq|rewrite w_set_neq by exact N; reflexivity].
    destruct (w_fl w c) as [[] [] [] []]; reflexivity.
  Qed.

  Lemma paint_loop_total fuel : forall w q r, (forall x, In x q -> In x V) -> (length q + miss w <= fuel)%nat ->
    exists w' r', paint_loop g fuel 0 w q r = Ok (w', r').
  Proof.
    induction fuel as [|fuel IH]; intros w q r Hq Hf; cbn [paint_loop].
    - assert (q = []) by (destruct q; cbn in *; [reflexivity|lia]). subst. cbn. eauto.
    - destruct (interesting w q) eqn:E; [|eauto].
      pose proof (pop_any (generation_cmp g) q) as Hp. destruct q as [|a q]; [discriminate E|].
      destruct Hp as (m & q1 & -> & HP). cbn [bindr].
      assert (Hm : In m V) by (apply Hq; eapply Permutation_in; [apply Permutation_sym; exact HP|left; reflexivity]).
      destruct (expand_total m w q1 Hm) as (w' & q' & b & -> & Hms & Hq').
      { intros x Hx. apply Hq. eapply Permutation_in; [apply Permutation_sym; exact HP|right; exact Hx]. }
      cbn [bindr fst snd]. apply IH; [exact Hq'|]. apply Permutation_length in HP. cbn in HP, Hf. lia.
  Qed.

  Lemma seed_total ts : forall w q, (forall t, In t ts -> In t V) ->
    exists w' q', paint_seed g ts w q = Ok (w', q').
  Proof.
    induction ts as [|t ts IH]; intros w q Ht; cbn [paint_seed]; [eauto|].
    destruct (parse_ok g w t (OK t (Ht t (or_introl eq_refl)))) as (w1 & -> & EF). cbn [bindr].
    destruct (insert_any (generation_cmp g) q t) as (q1 & -> & HP). cbn [bindr]. apply IH. cbn in *; auto.
  Qed.

  Lemma paint_total fuel w one twos : In one V -> (forall t, In t twos -> In t V) ->
    (1 + length twos + 3 * length V <= fuel)%nat ->
    exists w' r, paint_down_to_common g fuel 0 w one twos = Ok (w', r).
  Proof.
    intros Ho Ht Hf. unfold paint_down_to_common. cbv zeta.
    destruct (insert_any (generation_cmp g) [] one) as (q & -> & HP). cbn [bindr].
    destruct (seed_total twos (w_or w one PARENT1) q Ht) as (w2 & q2 & Es). rewrite Es. cbn [bindr].
    destruct (seed_inv g _ _ _ _ _ Es) as (_ & B).
    apply paint_loop_total.
    - intros x Hx. apply (Permutation_in _ B) in Hx. apply in_app_or in Hx. destruct Hx as [Hx|Hx]; [auto|].
      apply (Permutation_in _ HP) in Hx. destruct Hx as [<-|[]]. exact Ho.
    - apply Permutation_length in B, HP. rewrite app_length in B. cbn in HP. pose proof (miss_le w2). lia.
  Qed.

  Lemma clear_total fuel : forall w stack, (forall x, In x stack -> In x V) -> (length stack + degs w <= fuel)%nat ->
    exists w', clear_marks g fuel w stack = Ok w'.
  Proof.
    induction fuel as [|fuel IH]; intros w stack Hs Hf; destruct stack as [|c rest]; cbn [clear_marks]; eauto; cbn [length] in Hf; [lia|].
    assert (Hc : In c V) by (apply Hs; left; reflexivity).
    destruct (f_eqb_spec (w_fl w c) f0) as [E|N]; [apply IH; [cbn in *; auto|lia]|].
    assert (D : (degs (w_set w c f0) + length (P c) <= degs w)%nat).
    { unfold degs. apply sumf_drop with (p := c); auto.
      - intros x _ Nx. rewrite w_set_neq by exact Nx. reflexivity.
      - rewrite w_set_eq. destruct (f_eqb_spec f0 f0); [|congruence]. destruct (f_eqb_spec (w_fl w c) f0); [contradiction|lia]. }
    destruct (P c) as [|p0 ps] eqn:Ep.
    - apply IH; [cbn in *; auto|]. cbn in D. lia.
    - apply IH.
      + intros x [<-|Hx]; [apply (CV c); [exact Hc|rewrite Ep; left; reflexivity]|].
        apply in_app_or in Hx. destruct Hx as [Hx|Hx]; [|apply Hs; right; exact Hx].
        rewrite <- in_rev in Hx. apply (CV c); [exact Hc|rewrite Ep; right; exact Hx].
      + cbn [length] in D |- *. rewrite app_length, rev_length. lia.
  Qed.
  Lemma degs_le w : (degs w <= alldegs)%nat.
  Proof. unfold degs, alldegs. apply sumf_le. intros x _. destruct (f_eqb _ _); lia. Qed.

  Definition bound (twos : list nat) : nat := (1 + length twos + 4 * length V + alldegs)%nat.

  Lemma NoDup_le l : NoDup l -> (forall x, In x l -> In x V) -> (length l <= length V)%nat.
  Proof. intros N H. apply NoDup_incl_length; auto. Qed.

  Lemma redundant_total fuel commits : (forall x, In x commits -> In x V) -> NoDup commits ->
    (1 + 4 * length V + alldegs <= fuel)%nat ->
    forall is w red, (forall i, In i is -> (i < length commits)%nat) ->
    exists w' red', redundant_loop g fuel 0 commits is w red = Ok (w', red').
  Proof.
    intros HC ND Hf. induction is as [|i is IH]; intros w red His; cbn [redundant_loop]; [eauto|].
    assert (Hi : (i < length commits)%nat) by (apply His; left; reflexivity).
    assert (exists w1 red1, redundant_round g fuel 0 commits i w red = Ok (w1, red1)) as (w1 & red1 & ->).
    { unfold redundant_round. destruct (nth i red false); [eauto|]. cbv zeta.
      set (filled := filter (fun j => negb ((i =? j)%nat || nth j red false)) (seq 0 (length commits))).
      set (work := map (fun j => nth j commits 0%nat) filled).
      assert (Hw : forall t, In t work -> In t V).
      { intros t Ht. unfold work in Ht. apply in_map_iff in Ht. destruct Ht as (j & <- & Hj). apply filter_In in Hj.
        rewrite in_seq in Hj. apply HC, nth_In. lia. }
      assert (Lw : (length work <= length V)%nat).
      { unfold work. rewrite map_length. apply Nat.le_trans with (length commits); [|apply NoDup_le; auto].
        unfold filled. rewrite <- (seq_length (length commits) 0) at 2. clear. induction (seq 0 (length commits)) as [|a l IH]; cbn; [lia|].
        destruct (negb _); cbn; lia. }
      assert (Hci : In (nth i commits 0%nat) V) by (apply HC, nth_In; exact Hi).
      destruct (paint_total fuel w (nth i commits 0%nat) work Hci Hw) as (w1 & r & ->); [lia|]. cbn [bindr].
      destruct (clear_total fuel w1 [nth i commits 0%nat]) as (w2 & ->); [intros x [<-|[]]; exact Hci|pose proof (degs_le w1); cbn [length]; lia|]. cbn [bindr].
      destruct (clear_total fuel w2 (rev work)) as (w3 & ->); [intros x Hx; rewrite <- in_rev in Hx; auto|pose proof (degs_le w2); rewrite rev_length; lia|]. cbn [bindr].
      eauto. }
    cbn [bindr]. apply IH. intros; apply His; right; assumption.
  Qed.

  Lemma parse_all_total cs : (forall x, In x cs -> In x V) -> forall w, exists w', parse_all g cs w = Ok w'.
  Proof.
    induction cs as [|c cs IH]; intros H w; cbn; [eauto|]. destruct (parse_ok g w c (OK c (H c (or_introl eq_refl)))) as (w1 & -> & _).
    cbn [bindr]. apply IH. intros; apply H; right; assumption.
  Qed.

  Lemma bases_total fuel w one twos : clean w -> In one V -> (forall t, In t twos -> In t V) -> (bound twos <= fuel)%nat ->
    exists r, bases_many g fuel w one twos 0 = Ok r.
  Proof.
    intros CL Ho Ht Hf. unfold bound in Hf. unfold bases_many. destruct twos as [|t0 ts] eqn:Et; [eauto|]. rewrite <- Et in *. clear Et t0 ts.
    destruct (existsb _ twos); [eauto|].
    destruct (parse_ok g w one (OK one Ho)) as (w1 & -> & EF). cbn [bindr].
    destruct (paint_total fuel w1 one twos Ho Ht) as (w2 & rr & Ep); [lia|]. rewrite Ep. cbn [bindr]. cbv zeta.
    set (live := fold_left (fun acc c => if fSTALE (w_fl w2 c) then acc else insert_by_date g c acc) rr []).
    destruct (1 <? length live)%nat; [|eauto].
    destruct (clear_total fuel w2 [one]) as (w3 & ->); [intros x [<-|[]]; exact Ho|pose proof (degs_le w2); cbn [length]; lia|]. cbn [bindr].
    destruct (clear_total fuel w3 (rev twos)) as (w4 & ->); [intros x Hx; rewrite <- in_rev in Hx; auto|pose proof (degs_le w3); rewrite rev_length; lia|]. cbn [bindr].
    assert (CL1 : clean w1) by (intros x; rewrite EF; apply CL).
    destruct (paint_inv g Hgen AC one twos fuel w1 w2 rr CL1 Ep) as (q & IV & Q).
    destruct (fold_insert g Hgen (fun c => fSTALE (w_fl w2 c)) rr []) as (HP & _); [exact I|]. cbv zeta in HP. rewrite app_nil_r in HP. fold live in HP.
    assert (HL : forall x, In x live -> In x V).
    { intros x Hx. apply (Permutation_in _ HP) in Hx. apply filter_In in Hx. destruct Hx as (Hx & _).
      apply (i_r _ _ _ _ _ _ IV) in Hx. apply (i_res _ _ _ _ _ _ IV) in Hx. destruct Hx as (Hx & _). apply (i_P1 _ _ _ _ _ _ IV) in Hx.
      clear - Hx Ho CV. induction Hx; eauto. }
    assert (ND : NoDup live) by (eapply Permutation_NoDup; [apply Permutation_sym; exact HP|apply NoDup_filter, (i_nd _ _ _ _ _ _ IV)]).
    unfold remove_redundant. destruct (parse_all_total live HL w4) as (w5 & ->). cbn [bindr].
    destruct (redundant_total fuel live HL ND ltac:(lia) (seq 0 (length live)) w5 (repeat false (length live))) as (w6 & red & ->).
    { intros i Hi. apply in_seq in Hi. lia. }
    cbn [bindr]. eauto.
  Qed.
End Total.
