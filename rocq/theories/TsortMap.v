(** Sorting commutes with renaming the elements; hence a comparison function need only be
    a total preorder on the elements that are actually in the array. *)
From Verif Require Import Base Arr TsortModel TsortSpec TsortProofs TsortTop TsortProps.

Definition rmap {A B} (f : A -> B) (x : res A) : res B :=
  match x with Ok a => Ok (f a) | Err c => Err c | UB => UB | NoFuel => NoFuel end.

Section N.
  Context {A B : Type} (g : A -> B) (cb : B -> B -> Z).
  Definition pull : A -> A -> Z := fun x y => cb (g x) (g y).
  Notation ca := pull.

  Lemma aget_map l i : aget (map g l) i = rmap g (aget l i).
  Proof. unfold aget. rewrite nth_error_map. destruct (nth_error l i); reflexivity. Qed.
  Lemma upd_map l i x : upd (map g l) i (g x) = map g (upd l i x).
  Proof. revert i. induction l as [|a l IH]; intros [|i]; cbn; congruence. Qed.
  Lemma aset_map l i x : aset (map g l) i (g x) = rmap (map g) (aset l i x).
  Proof. unfold aset. rewrite map_length, upd_map. destruct (_ <? _)%nat; reflexivity. Qed.

  Ltac step :=
    match goal with
    | |- context [aget (map g ?l) ?i] => rewrite (aget_map l i); destruct (aget l i); cbn [rmap bindr]; try reflexivity
    | |- context [aset (map g ?l) ?i (g ?x)] => rewrite (aset_map l i x); destruct (aset l i x); cbn [rmap bindr]; try reflexivity
    | |- context [cb (g ?x) (g ?y)] => change (cb (g x) (g y)) with (ca x y)
    | |- context [if ?b then _ else _] => destruct b eqn:?
    end.
  Ltac steps := repeat step; try reflexivity; auto.

  Lemma eq_scan_map f : forall dst b x i, eq_scan cb f (map g dst) b (g x) i = eq_scan ca f dst b x i.
  Proof. induction f as [|f IH]; intros; cbn [eq_scan]; steps. Qed.
  Lemma bs_loop_map f : forall dst b x l c r, bs_loop cb f (map g dst) b (g x) l c r = bs_loop ca f dst b x l c r.
  Proof. induction f as [|f IH]; intros; cbn [bs_loop]; [reflexivity|]. cbv zeta. rewrite map_length. steps. apply eq_scan_map. Qed.
  Lemma binsearch_map dst b x s : binsearch cb (map g dst) b (g x) s = binsearch ca dst b x s.
  Proof. unfold binsearch. rewrite map_length. steps; [apply eq_scan_map|apply bs_loop_map]. Qed.
  Lemma shift_loop_map n : forall dst b hi, shift_loop n (map g dst) b hi = rmap (map g) (shift_loop n dst b hi).
  Proof. induction n as [|n IH]; intros; cbn [shift_loop]; steps. Qed.
  Lemma bisort_loop_map n : forall dst b i, bisort_loop cb n (map g dst) b i = rmap (map g) (bisort_loop ca n dst b i).
  Proof.
    induction n as [|n IH]; intros; cbn [bisort_loop]; [reflexivity|].
    step. step. step. step; [apply IH|]. rewrite binsearch_map. destruct (binsearch _ _ _ _ _); cbn [bindr]; try reflexivity.
    rewrite shift_loop_map. destruct (shift_loop _ _ _ _); cbn [rmap bindr]; try reflexivity. steps.
  Qed.
  Lemma bisort_map dst b s z : bisort cb (map g dst) b s z = rmap (map g) (bisort ca dst b s z).
  Proof. apply bisort_loop_map. Qed.
  Lemma reverse_loop_map f : forall dst s e, reverse_loop f (map g dst) s e = rmap (map g) (reverse_loop f dst s e).
  Proof. induction f as [|f IH]; intros; cbn [reverse_loop]; steps. Qed.
  Lemma run_scan_map f d : forall dst c z, run_scan cb f d (map g dst) c z = run_scan ca f d dst c z.
  Proof. induction f as [|f IH]; intros; cbn [run_scan]; destruct d; steps. Qed.
  Definition gp (p : nat * list A) : nat * list B := (fst p, map g (snd p)).
  Lemma count_run_map dst s z : count_run cb (map g dst) s z = rmap gp (count_run ca dst s z).
  Proof.
    unfold count_run. destruct (z - s =? 1)%nat; [reflexivity|]. destruct (z - 2 <=? s)%nat; [steps|]. step. step. step. step.
    - rewrite run_scan_map. destruct (run_scan _ _ _ _ _ _); reflexivity.
    - rewrite run_scan_map. destruct (run_scan _ _ _ _ _ _); cbn [bindr]; try reflexivity.
      rewrite reverse_loop_map. destruct (reverse_loop _ _ _ _); reflexivity.
  Qed.
  Lemma merge_left_map n : forall dst st i j k a last, merge_left cb n (map g dst) (map g st) i j k a last = rmap (map g) (merge_left ca n dst st i j k a last).
  Proof. induction n as [|n IH]; intros; cbn [merge_left]; steps. Qed.
  Lemma merge_right_map n : forall dst st i j k, merge_right cb n (map g dst) (map g st) i j k = rmap (map g) (merge_right ca n dst st i j k).
  Proof. induction n as [|n IH]; intros; cbn [merge_right]; steps. Qed.
  Lemma slice_map dst o n : slice (map g dst) o n = rmap (map g) (slice dst o n).
  Proof. unfold slice, sub. rewrite map_length, skipn_map, firstn_map. destruct (_ <=? _)%nat; reflexivity. Qed.
  Lemma merge_map dst ra rb : merge cb (map g dst) ra rb = rmap (map g) (merge ca dst ra rb).
  Proof.
    unfold merge. destruct (_ <? _)%nat; rewrite slice_map; destruct (slice _ _ _); cbn [rmap bindr]; try reflexivity; [apply merge_left_map|apply merge_right_map].
  Qed.
  Definition gq (p : list A * list run) : list B * list run := (map g (fst p), snd p).
  Lemma collapse_map f : forall dst st z, collapse cb f (map g dst) st z = rmap gq (collapse ca f dst st z).
  Proof.
    induction f as [|f IH]; intros; cbn [collapse]; [reflexivity|].
    destruct st as [|rc [|rb [|ra rest]]]; try reflexivity; repeat match goal with |- context [if ?b then _ else _] => destruct b end;
      try reflexivity; rewrite merge_map; destruct (merge _ _ _ _); cbn [rmap bindr]; try reflexivity; apply IH.
  Qed.
  Lemma finish_map f : forall dst st, finish cb f (map g dst) st = rmap (map g) (finish ca f dst st).
  Proof.
    induction f as [|f IH]; intros; cbn [finish]; destruct st as [|r1 [|r0 rest]]; try reflexivity.
    rewrite merge_map. destruct (merge _ _ _ _); cbn [rmap bindr]; try reflexivity. apply IH.
  Qed.
  Definition gs (s : list A + (list A * list run * nat)) : list B + (list B * list run * nat) :=
    match s with inl d => inl (map g d) | inr (d, s, c) => inr (map g d, s, c) end.
  Lemma push_next_map dst st c z m : push_next cb (map g dst) st c z m = rmap gs (push_next ca dst st c z m).
  Proof.
    unfold push_next. rewrite count_run_map. destruct (count_run _ _ _ _) as [[len d]| | |]; cbn [rmap bindr gp fst snd]; try reflexivity.
    destruct (len <? _)%nat; [rewrite bisort_map; destruct (bisort _ _ _ _ _); cbn [rmap bindr]; try reflexivity|cbn [bindr]];
      (destruct (STACK_MAX <=? length st)%nat; [reflexivity|]); (match goal with |- context [if ?b then _ else _] => destruct b end; [|reflexivity]);
      rewrite finish_map; match goal with |- context [rmap _ ?x] => destruct x end; reflexivity.
  Qed.
  Lemma main_loop_map f : forall dst st c z m, main_loop cb f (map g dst) st c z m = rmap (map g) (main_loop ca f dst st c z m).
  Proof.
    induction f as [|f IH]; intros; cbn [main_loop]; [reflexivity|]. destruct (check_invariant st).
    - rewrite push_next_map. destruct (push_next _ _ _ _ _ _) as [[d|[[d s] c']]| | |]; cbn [rmap bindr gs]; try reflexivity. apply IH.
    - rewrite collapse_map. destruct (collapse _ _ _ _ _) as [[d s]| | |]; cbn [rmap bindr gq fst snd]; try reflexivity. apply IH.
  Qed.
  Theorem tsort_map l : tsort cb (map g l) = rmap (map g) (tsort ca l).
  Proof.
    unfold tsort. rewrite map_length. destruct (_ <? 64)%nat; [apply bisort_map|].
    rewrite push_next_map. destruct (push_next _ _ _ _ _ _) as [[d|[[d s] c']]| | |]; cbn [rmap bindr gs]; try reflexivity.
    rewrite push_next_map. destruct (push_next _ _ _ _ _ _) as [[d1|[[d1 s1] c1]]| | |]; cbn [rmap bindr gs]; try reflexivity.
    rewrite push_next_map. destruct (push_next _ _ _ _ _ _) as [[d2|[[d2 s2] c2]]| | |]; cbn [rmap bindr gs]; try reflexivity.
    apply main_loop_map.
  Qed.
End N.

(** Restriction to the elements satisfying [P]. *)
Record cmp_ok_on {A} (P : A -> Prop) (cmp : A -> A -> Z) : Prop := {
  on_sym : forall a b, P a -> P b -> Z.sgn (cmp b a) = - Z.sgn (cmp a b);
  on_trans : forall a b c, P a -> P b -> P c -> cmp a b <= 0 -> cmp b c <= 0 -> cmp a c <= 0
}.
Lemma forall_sig {A} (P : A -> Prop) l : Forall P l -> exists k : list (sig P), map (@proj1_sig A P) k = l.
Proof.
  induction l as [|a l IH]; intros H; [exists []; reflexivity|]. inversion H as [|? ? Ha Hl]; subst. destruct (IH Hl) as [k <-].
  exists (exist P a Ha :: k). reflexivity.
Qed.
Lemma sorted_map {A B} (g : A -> B) cb k : sorted (pull g cb) k -> sorted cb (map g k).
Proof.
  induction k as [|a k IH]; cbn; [auto|]. intros [H1 H2]. split; [|auto]. intros y Hy. apply in_map_iff in Hy. destruct Hy as (x & <- & Hx). exact (H1 x Hx).
Qed.
Lemma filter_map_comm {A B} (g : A -> B) (p : B -> bool) k : filter p (map g k) = map g (filter (fun x => p (g x)) k).
Proof. induction k as [|a k IH]; cbn; [reflexivity|]. destruct (p (g a)); cbn; congruence. Qed.

Theorem tsort_on {A} (P : A -> Prop) cmp l : cmp_ok_on P cmp -> Forall P l ->
  (forall l', tsort cmp l = Ok l' -> sorted cmp l' /\ Permutation l l' /\ forall x, P x -> filter (fun y => cmp x y =? 0) l' = filter (fun y => cmp x y =? 0) l) /\
  (Z.of_nat (length l) < 8589934592 -> exists l', tsort cmp l = Ok l') /\ tsort cmp l <> NoFuel /\ (forall e, tsort cmp l <> Err e).
Proof.
  intros Hc Hl. destruct (forall_sig P l Hl) as [k <-]. rewrite tsort_map, map_length.
  assert (Hk : cmp_ok (pull (@proj1_sig A P) cmp)).
  { constructor; unfold pull.
    - intros [a Ha] [b Hb]. apply (on_sym P cmp Hc); assumption.
    - intros [a Ha] [b Hb] [c Hcc]. apply (on_trans P cmp Hc); assumption. }
  split; [|split].
  - intros l' E. destruct (tsort (pull _ cmp) k) as [k'| | |] eqn:Ek; try discriminate. injection E as <-.
    destruct (tsort_stable_sort _ _ _ _ Hk Ek) as (S1 & S2 & S3). split; [apply sorted_map; exact S1|]. split; [apply Permutation_map; exact S2|].
    intros x Hx. rewrite !filter_map_comm. f_equal. exact (S3 (exist P x Hx)).
  - intros H. destruct (proj1 (tsort_safe_partial _ _ k Hk) H) as [k' ->]. eexists. reflexivity.
  - destruct (tsort_safe_partial _ _ k Hk) as (_ & N1 & N2). split.
    + destruct (tsort _ k); cbn; congruence.
    + intros e. specialize (N2 e). destruct (tsort _ k); cbn; congruence.
Qed.
