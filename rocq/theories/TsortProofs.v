From Verif Require Import Base Arr TsortModel TsortSpec.

Section P.
  Context {A : Type} (cmp : A -> A -> Z) (Hc : cmp_ok cmp).
  Implicit Types (P L G S W X Y Z M l : list A).

  Definition steq l l' : Prop := Permutation l l' /\ stable cmp l l'.

  Lemma steq_refl l : steq l l.
  Proof. split; [apply Permutation_refl|]. intros x; reflexivity. Qed.
  Lemma steq_sym l l' : steq l l' -> steq l' l.
  Proof. intros [H1 H2]. split; [apply Permutation_sym; exact H1|]. intros x. rewrite H2. reflexivity. Qed.
  Lemma steq_trans l1 l2 l3 : steq l1 l2 -> steq l2 l3 -> steq l1 l3.
  Proof. intros [H1 H2] [H3 H4]. split; [eapply Permutation_trans; eassumption|]. intros x. rewrite H4. apply H2. Qed.
  Lemma steq_app l1 l2 m1 m2 : steq l1 l2 -> steq m1 m2 -> steq (l1 ++ m1) (l2 ++ m2).
  Proof.
    intros [H1 H2] [H3 H4]. split; [apply Permutation_app; assumption|]. intros x. rewrite !filter_app, H2, H4. reflexivity.
  Qed.
  Lemma steq_in l l' x : steq l l' -> In x l -> In x l'.
  Proof. intros [H _]. apply Permutation_in, H. Qed.
  Lemma steq_length l l' : steq l l' -> length l = length l'.
  Proof. intros [H _]. apply Permutation_length, H. Qed.
  Lemma steq_mid P l l' S : steq l l' -> steq (P ++ l ++ S) (P ++ l' ++ S).
  Proof. intros H. apply steq_app; [apply steq_refl|]. apply steq_app; [exact H|apply steq_refl]. Qed.

  Lemma filter_none (f : A -> bool) l : (forall y, In y l -> f y = false) -> filter f l = [].
  Proof. induction l as [|a l IH]; cbn; intros H; [reflexivity|]. rewrite (H a) by auto. apply IH. auto. Qed.

  Lemma steq_move x G : (forall g, In g G -> cmp x g <> 0) -> steq (x :: G) (G ++ [x]).
  Proof.
    intros H. split.
    - apply Permutation_cons_append.
    - intros z. rewrite filter_app. cbn. destruct (Z.eqb_spec (cmp z x) 0) as [E|E]; [|rewrite app_nil_r; reflexivity].
      rewrite (filter_none _ G); [reflexivity|]. intros g Hg. specialize (H g Hg).
      destruct (Z.eqb_spec (cmp z g) 0) as [E2|]; [|reflexivity]. exfalso. apply H.
      apply (cmp_eq_trans cmp Hc x z g); [apply (cmp_eq_sym cmp Hc); exact E|exact E2].
  Qed.

  Lemma nth_mid P x S : nth_error (P ++ x :: S) (length P) = Some x.
  Proof. rewrite nth_error_app2 by lia. rewrite Nat.sub_diag. reflexivity. Qed.
  Lemma upd_mid P x y S : upd (P ++ x :: S) (length P) y = P ++ y :: S.
  Proof. induction P as [|p P IH]; cbn; [reflexivity|]. rewrite IH. reflexivity. Qed.
  Lemma aget_mid P x S n : n = length P -> aget (P ++ x :: S) n = Ok x.
  Proof. intros ->. apply aget_some, nth_mid. Qed.
  Lemma aset_mid P x y S n : n = length P -> aset (P ++ x :: S) n y = Ok (P ++ y :: S).
  Proof. intros ->. rewrite aset_ok; [rewrite upd_mid; reflexivity|]. rewrite app_length. cbn. lia. Qed.

  (** *** insertion *)
  Lemma shift_spec : forall G P L x S hi b n, b = length P -> hi = (length L + length G)%nat -> n = length G ->
    exists d, shift_loop n (P ++ L ++ G ++ x :: S) b hi = Ok (P ++ L ++ d :: G ++ S).
  Proof.
    intros G. induction G as [|g G IH] using rev_ind; intros P L x S hi b n -> -> ->.
    - exists x. reflexivity.
    - rewrite app_length. cbn [length]. rewrite Nat.add_comm. cbn [Nat.add shift_loop].
      assert (E : aget (P ++ L ++ (G ++ [g]) ++ x :: S) (length P + (length L + (1 + length G) - 1)) = Ok g).
      { rewrite <- app_assoc. cbn. rewrite !app_assoc. rewrite <- (app_assoc P L G).
        apply aget_mid. rewrite !app_length. lia. }
      cbn [Nat.add] in E. rewrite E. cbn [bindr].
      assert (E2 : aset (P ++ L ++ (G ++ [g]) ++ x :: S) (length P + (length L + (1 + length G))) g = Ok (P ++ L ++ (G ++ [g]) ++ g :: S)).
      { rewrite !app_assoc. rewrite aset_mid; [reflexivity|]. rewrite !app_length. cbn. lia. }
      cbn [Nat.add] in E2. rewrite E2. cbn [bindr].
      destruct (IH P L g (g :: S) (length L + length G)%nat (length P) (length G) eq_refl eq_refl eq_refl) as (d & Hd).
      exists d. replace (length L + Datatypes.S (length G) - 1)%nat with (length L + length G)%nat by lia.
      rewrite <- app_assoc. cbn. rewrite Hd. rewrite <- app_assoc. reflexivity.
  Qed.

  Definition ub (W : list A) (x : A) (p : nat) : Prop :=
    (p <= length W)%nat /\ (forall i w, (i < p)%nat -> nth_error W i = Some w -> cmp w x <= 0) /\
    (forall i w, (p <= i)%nat -> nth_error W i = Some w -> cmp x w < 0).

  Lemma nth_win P W S i : (i < length W)%nat -> nth_error (P ++ W ++ S) (length P + i) = nth_error W i.
  Proof. intros H. rewrite nth_error_app2 by lia. replace (length P + i - length P)%nat with i by lia. apply nth_error_app1, H. Qed.

  Lemma aget_win P W S i : (i < length W)%nat -> exists w, nth_error W i = Some w /\ aget (P ++ W ++ S) (length P + i) = Ok w.
  Proof.
    intros H. destruct (nth_error W i) as [w|] eqn:E; [|apply nth_error_None in E; lia].
    exists w. split; [reflexivity|]. apply aget_some. rewrite nth_win by exact H. exact E.
  Qed.

  Lemma sorted_le W i j u v : sorted cmp W -> (i <= j)%nat -> nth_error W i = Some u -> nth_error W j = Some v -> cmp u v <= 0.
  Proof.
    intros Hs Hij Hi Hj. destruct (Nat.eq_dec i j) as [->|N].
    - assert (u = v) by congruence. subst. rewrite (cmp_refl cmp Hc). lia.
    - apply (proj1 (sorted_nth cmp W) Hs i j); auto. lia.
  Qed.

  Lemma ub_intro W x p : sorted cmp W -> (p <= length W)%nat ->
    (forall w, (0 < p)%nat -> nth_error W (p - 1) = Some w -> cmp w x <= 0) ->
    (forall w, nth_error W p = Some w -> cmp x w < 0) -> ub W x p.
  Proof.
    intros Hs Hp H1 H2. split; [exact Hp|]. split.
    - intros i w Hi Hw. destruct (nth_error W (p - 1)) as [v|] eqn:E; [|apply nth_error_None in E; lia].
      apply (cmp_trans cmp Hc w v x).
      + apply (sorted_le W i (p - 1)); auto. lia.
      + apply H1; auto. lia.
    - intros i w Hi Hw. destruct (nth_error W p) as [v|] eqn:E.
      + apply (cmp_lt_le_trans cmp Hc x v w); [apply H2; reflexivity|]. apply (sorted_le W p i); auto.
      + apply nth_error_None in E. assert (nth_error W i <> None) by congruence. apply nth_error_Some in H. lia.
  Qed.

  Lemma eq_scan_spec P W S x wl : sorted cmp W -> nth_error W (length W - 1) = Some wl -> cmp x wl < 0 ->
    forall fuel i, (i < length W)%nat -> (0 < i)%nat -> (length W - i <= fuel)%nat ->
    (forall w, nth_error W (i - 1) = Some w -> cmp x w = 0) ->
    exists p, eq_scan cmp fuel (P ++ W ++ S) (length P) x i = Ok p /\ ub W x p.
  Proof.
    intros Hs Hl Hlt. induction fuel as [|f IH]; intros i Hi H0 Hf Hp; [lia|].
    cbn [eq_scan]. destruct (aget_win P W S i Hi) as (w & Hw & ->). cbn [bindr].
    destruct (Z.eqb_spec (cmp x w) 0) as [E|E].
    - assert (i <> length W - 1)%nat by (intros ->; assert (w = wl) by congruence; subst; lia).
      apply IH; try lia. intros w' Hw'. replace (Datatypes.S i - 1)%nat with i in Hw' by lia. congruence.
    - exists i. split; [reflexivity|]. apply ub_intro; auto; try lia.
      + intros v _ Hv. rewrite (proj1 (cmp_eq_sym cmp Hc x v) (Hp v Hv)). lia.
      + intros w' Hw'. assert (w' = w) by congruence. subst.
        destruct (nth_error W (i - 1)) as [v|] eqn:Ev; [|apply nth_error_None in Ev; lia].
        specialize (Hp v eq_refl).
        assert (cmp v w <= 0) by (apply (sorted_le W (i-1) i); auto; lia).
        assert (cmp x w <= 0) by (apply (cmp_trans cmp Hc x v w); lia). lia.
  Qed.

  Lemma bs_spec P W S x wl : sorted cmp W -> nth_error W (length W - 1) = Some wl -> cmp x wl < 0 ->
    forall (fuel l r : nat), (l < r)%nat -> (r < length W)%nat -> (r - l < fuel)%nat ->
    (forall w, nth_error W l = Some w -> 0 < cmp x w) ->
    (forall w, nth_error W r = Some w -> cmp x w < 0) ->
    exists p, bs_loop cmp fuel (P ++ W ++ S) (length P) x l (l + (r - l) / 2) r = Ok p /\ ub W x p.
  Proof.
    intros Hs Hl Hlt. induction fuel as [|f IH]; intros l r Hlr Hr Hf H1 H2; [lia|].
    cbn [bs_loop]. set (c := (l + (r - l) / 2)%nat).
    assert (Hcl : (l <= c)%nat) by (unfold c; lia). assert (Hcr : (c < r)%nat) by (unfold c; lia).
    assert (Hcc : (r - l >= 2 -> l < c)%nat) by (unfold c; lia).
    destruct (aget_win P W S c) as (w & Hw & ->); [lia|]. cbn [bindr]. cbv zeta.
    destruct (Z.ltb_spec (cmp x w) 0) as [E|E].
    - assert (c <> l) by (intros ->; specialize (H1 w Hw); lia).
      destruct (Nat.leb_spec (c - l) 1).
      + exists c. split; [reflexivity|]. apply ub_intro; auto; try lia.
        * intros v _ Hv. replace (c - 1)%nat with l in Hv by lia. specialize (H1 v Hv). apply (cmp_lt_gt cmp Hc) in H1. lia.
        * intros v Hv. congruence.
      + apply IH; try lia; auto. intros v Hv. congruence.
    - destruct (Z.ltb_spec 0 (cmp x w)) as [E2|E2].
      + destruct (Nat.leb_spec (r - c) 1).
        * exists (c + 1)%nat. split; [reflexivity|]. apply ub_intro; auto; try lia.
          -- intros v _ Hv. replace (c + 1 - 1)%nat with c in Hv by lia. assert (v = w) by congruence. subst.
             apply (cmp_lt_gt cmp Hc) in E2. lia.
          -- intros v Hv. apply H2. replace r with (c + 1)%nat by lia. exact Hv.
        * apply IH; try lia; auto. intros v Hv. assert (v = w) by congruence. subst. exact E2.
      + apply (eq_scan_spec P W S x wl); auto; try lia.
        * rewrite !app_length. lia.
        * intros v Hv. replace (c + 1 - 1)%nat with c in Hv by lia. assert (v = w) by congruence. subst. lia.
  Qed.

  Lemma binsearch_spec P W S x wl n : sorted cmp W -> nth_error W (length W - 1) = Some wl -> cmp x wl < 0 ->
    Z.of_nat (length W) <= INT_MAX -> n = length W ->
    exists p, binsearch cmp (P ++ W ++ S) (length P) x n = Ok p /\ ub W x p.
  Proof.
    intros Hs Hl Hlt Hm ->.
    assert (Hn : (0 < length W)%nat) by (destruct W; [discriminate|cbn; lia]).
    unfold binsearch. destruct (Z.ltb_spec INT_MAX (Z.of_nat (length W))); [lia|].
    destruct (aget_win P W S 0 Hn) as (w & Hw & Ew). rewrite Nat.add_0_r in Ew. rewrite Ew. cbn [bindr].
    destruct (Z.ltb_spec (cmp x w) 0) as [E|E].
    { exists O. split; [reflexivity|]. apply ub_intro; auto; try lia. intros v Hv. assert (v = w) by congruence. subst. exact E. }
    assert (length W <> 1)%nat by (intros E1; rewrite E1 in Hl; cbn [Nat.sub] in Hl; assert (w = wl) by congruence; subst; lia).
    destruct (Z.eqb_spec (cmp x w) 0) as [E2|E2].
    - apply (eq_scan_spec P W S x wl); auto; try lia.
      + rewrite !app_length. lia.
      + intros v Hv. cbn [Nat.sub] in Hv. assert (v = w) by congruence. subst. exact E2.
    - replace ((length W - 1) / 2)%nat with (0 + (length W - 1 - 0) / 2)%nat by (rewrite Nat.sub_0_r; reflexivity).
      apply (bs_spec P W S x wl); auto; try lia.
      + intros v Hv. assert (v = w) by congruence. subst. lia.
      + intros v Hv. assert (v = wl) by congruence. subst. exact Hlt.
  Qed.

  Lemma ub_split W x p : ub W x p -> exists L G, W = L ++ G /\ length L = p /\
    (forall w, In w L -> cmp w x <= 0) /\ (forall w, In w G -> cmp x w < 0).
  Proof.
    intros (H1 & H2 & H3). exists (firstn p W), (skipn p W).
    assert (Hl : length (firstn p W) = p) by (rewrite firstn_length; lia).
    split; [symmetry; apply firstn_skipn|]. split; [exact Hl|]. split.
    - intros w Hw. apply In_nth_error in Hw. destruct Hw as (i & Hi).
      assert (i < length (firstn p W))%nat by (apply nth_error_Some; congruence).
      apply (H2 i); [lia|]. rewrite <- (firstn_skipn p W). rewrite nth_error_app1 by lia. exact Hi.
    - intros w Hw. apply In_nth_error in Hw. destruct Hw as (i & Hi).
      apply (H3 (p + i)%nat); [lia|]. rewrite <- (firstn_skipn p W). rewrite nth_error_app2 by lia.
      rewrite Hl. replace (p + i - p)%nat with i by lia. exact Hi.
  Qed.

  Lemma sorted_one x : sorted cmp [x].
  Proof. cbn. split; [intros y []|exact I]. Qed.

  Lemma sorted_insert L x G : sorted cmp (L ++ G) -> (forall w, In w L -> cmp w x <= 0) -> (forall w, In w G -> cmp x w < 0) ->
    sorted cmp (L ++ x :: G).
  Proof.
    intros H H1 H2. apply sorted_app in H. destruct H as (H3 & H4 & H5). apply sorted_app. split; [exact H3|]. split.
    - cbn. split; [|exact H4]. intros y Hy. specialize (H2 y Hy). lia.
    - intros u v Hu [<-|Hv]; auto.
  Qed.

  Lemma sorted_snoc W x wl : sorted cmp W -> nth_error W (length W - 1) = Some wl -> cmp wl x <= 0 -> sorted cmp (W ++ [x]).
  Proof.
    intros Hs Hl Hx. apply sorted_app. split; [exact Hs|]. split; [apply sorted_one|].
    intros u v Hu [<-|[]]. apply In_nth_error in Hu. destruct Hu as (i & Hi).
    assert (i < length W)%nat by (apply nth_error_Some; congruence).
    apply (cmp_trans cmp Hc u wl x); [|exact Hx]. apply (sorted_le W i (length W - 1)); auto. lia.
  Qed.

  Lemma bisort_spec : forall U P W S n i b, W <> [] -> sorted cmp W -> Z.of_nat (length W + length U) <= INT_MAX ->
    n = length U -> i = length W -> b = length P ->
    exists W', bisort_loop cmp n (P ++ W ++ U ++ S) b i = Ok (P ++ W' ++ S) /\ sorted cmp W' /\ steq (W ++ U) W'.
  Proof.
    intros U. induction U as [|x U IH]; intros P W S n i b Hne Hs Hm -> -> ->.
    - exists W. cbn. split; [reflexivity|]. split; [exact Hs|]. rewrite app_nil_r. apply steq_refl.
    - cbn [length bisort_loop].
      assert (Hn : (0 < length W)%nat) by (destruct W; [contradiction|cbn; lia]).
      cbn [app length] in *.
      destruct (aget_win P W (x :: U ++ S) (length W - 1)) as (wl & Hwl & ->); [lia|]. cbn [bindr].
      assert (Ex : aget (P ++ W ++ x :: U ++ S) (length P + length W) = Ok x).
      { rewrite app_assoc. apply aget_mid. rewrite app_length. reflexivity. }
      rewrite Ex. cbn [bindr].
      destruct (Z.leb_spec (cmp wl x) 0) as [E|E].
      + destruct (IH P (W ++ [x]) S (length U) (Datatypes.S (length W)) (length P)) as (W' & H1 & H2 & H3).
        * intros HH. apply app_eq_nil in HH. destruct HH as [HH _]. contradiction.
        * apply (sorted_snoc W x wl); auto.
        * rewrite app_length. cbn. lia.
        * reflexivity.
        * rewrite app_length. cbn. lia.
        * reflexivity.
        * rewrite <- app_assoc in H1, H3. cbn in H1, H3. exists W'. auto.
      + apply (cmp_lt_gt cmp Hc) in E.
        destruct (binsearch_spec P W (x :: U ++ S) x wl (length W) Hs Hwl E ltac:(lia) eq_refl) as (p & -> & Hub).
        cbn [bindr]. destruct (ub_split _ _ _ Hub) as (L & G & -> & <- & HL & HG).
        destruct (shift_spec G P L x (U ++ S) (length (L ++ G)) (length P) (length (L ++ G) - length L) eq_refl) as (d & Hd).
        { rewrite app_length. reflexivity. } { rewrite app_length. lia. }
        rewrite <- app_assoc, Hd. cbn [bindr].
        rewrite (app_assoc P L). rewrite aset_mid by (rewrite app_length; reflexivity). cbn [bindr].
        destruct (IH P (L ++ x :: G) S (length U) (Datatypes.S (length (L ++ G))) (length P)) as (W' & H1 & H2 & H3).
        * intros HH. apply app_eq_nil in HH. destruct HH as [_ HH]. discriminate.
        * apply sorted_insert; auto.
        * rewrite app_length in *. cbn. lia.
        * reflexivity.
        * rewrite !app_length. cbn. lia.
        * reflexivity.
        * replace ((P ++ L) ++ x :: G ++ U ++ S) with (P ++ (L ++ x :: G) ++ U ++ S) by (rewrite <- !app_assoc; reflexivity).
          exists W'. split; [exact H1|]. split; [exact H2|].
          apply steq_trans with ((L ++ x :: G) ++ U); [|exact H3].
          rewrite <- !app_assoc. apply steq_app; [apply steq_refl|].
          replace (G ++ x :: U) with ((G ++ [x]) ++ U) by (rewrite <- app_assoc; reflexivity).
          replace ((x :: G) ++ U) with ((x :: G) ++ U) by reflexivity.
          apply steq_app; [|apply steq_refl]. apply steq_sym, steq_move. intros g Hg. specialize (HG g Hg). lia.
  Qed.

  (** *** reversing *)
  Lemma reverse_spec : forall fuel M P S s e, (length M <= fuel)%nat -> M <> [] -> s = length P -> e = (length P + length M - 1)%nat ->
    reverse_loop fuel (P ++ M ++ S) s e = Ok (P ++ rev M ++ S).
  Proof.
    induction fuel as [|f IH]; intros M P S s e Hf Hne -> ->; [destruct M; [contradiction|cbn in Hf; lia]|].
    cbn [reverse_loop]. destruct M as [|x M]; [contradiction|]. destruct M as [|y M _] using rev_ind.
    { cbn [length]. destruct (Nat.ltb_spec (length P) (length P + 1 - 1)); [lia|]. reflexivity. }
    cbn [length] in *. rewrite app_length in *. cbn [length] in *.
    destruct (Nat.ltb_spec (length P) (length P + Datatypes.S (length M + 1) - 1)); [|lia].
    cbn [app]. rewrite aget_mid by reflexivity. cbn [bindr].
    assert (E : forall u v, P ++ u :: (M ++ [v]) ++ S = (P ++ u :: M) ++ v :: S) by (intros; rewrite <- !app_assoc; reflexivity).
    rewrite E. rewrite aget_mid by (rewrite app_length; cbn; lia). cbn [bindr].
    rewrite <- E. rewrite aset_mid by reflexivity. cbn [bindr]. rewrite E.
    rewrite aset_mid by (rewrite app_length; cbn; lia). cbn [bindr].
    destruct M as [|m M].
    - destruct f; cbn [reverse_loop length]; destruct (Nat.ltb_spec (Datatypes.S (length P)) (length P + Datatypes.S (0 + 1) - 1 - 1)); try lia;
      rewrite <- app_assoc; reflexivity.
    - replace ((P ++ y :: m :: M) ++ x :: S) with ((P ++ [y]) ++ (m :: M) ++ (x :: S)) by (rewrite <- !app_assoc; reflexivity).
      rewrite IH.
      + cbn [rev]. rewrite !rev_app_distr. cbn. rewrite <- !app_assoc. reflexivity.
      + cbn in *. lia.
      + discriminate.
      + rewrite app_length. cbn. lia.
      + rewrite app_length. cbn [length]. lia.
  Qed.

  Fixpoint sdesc (l : list A) : Prop :=
    match l with [] => True | x :: r => (forall y, In y r -> 0 < cmp x y) /\ sdesc r end.
  Lemma sdesc_rev l : sdesc l -> sorted cmp (rev l) /\ steq l (rev l).
  Proof.
    induction l as [|x l IH]; cbn; intros H; [split; [exact I|apply steq_refl]|].
    destruct H as [H1 H2]. destruct (IH H2) as [H3 H4]. split.
    - apply sorted_app. split; [exact H3|]. split; [apply sorted_one|]. intros u v Hu [<-|[]]. apply in_rev in Hu.
      specialize (H1 u Hu). apply (cmp_lt_gt cmp Hc) in H1. lia.
    - apply steq_trans with (l ++ [x]); [|apply steq_app; [exact H4|apply steq_refl]].
      apply steq_move. intros g Hg. specialize (H1 g Hg). lia.
  Qed.

  Definition inorder (desc : bool) u v : Prop := if desc then 0 < cmp u v else cmp u v <= 0.
  Lemma inorder_trans d u v w : inorder d u v -> inorder d v w -> inorder d u w.
  Proof.
    destruct d; cbn; intros H1 H2.
    - apply (cmp_lt_gt cmp Hc) in H1, H2. apply (cmp_lt_gt cmp Hc). apply (cmp_lt_le_trans cmp Hc w v u); lia.
    - apply (cmp_trans cmp Hc u v w); assumption.
  Qed.

  Lemma run_scan_spec : forall fuel d dst curr size, size = length dst -> (size - curr <= fuel)%nat -> (1 <= curr)%nat -> (curr <= size - 1)%nat ->
    exists c, run_scan cmp fuel d dst curr size = Ok c /\ (curr <= c <= size - 1)%nat /\
      forall i u v, (curr <= i < c)%nat -> nth_error dst (i - 1) = Some u -> nth_error dst i = Some v -> inorder d u v.
  Proof.
    induction fuel as [|f IH]; intros d dst curr size -> Hf H1 H2; cbn [run_scan].
    { destruct (Nat.ltb_spec curr (length dst - 1)); [lia|]. exists curr. split; [reflexivity|]. split; [lia|]. intros; lia. }
    destruct (Nat.ltb_spec curr (length dst - 1)); [|exists curr; split; [reflexivity|split; [lia|intros; lia]]].
    destruct (aget_ok dst (curr - 1)) as (p & -> & Hp); [lia|]. destruct (aget_ok dst curr) as (q & -> & Hq); [lia|].
    cbn [bindr].
    destruct (if d then 0 <? cmp p q else cmp p q <=? 0) eqn:E.
    - destruct (IH d dst (Datatypes.S curr) (length dst) eq_refl ltac:(lia) ltac:(lia) ltac:(lia)) as (c & -> & Hr & Hi).
      exists c. split; [reflexivity|]. split; [lia|]. intros i u v Hic Hu Hv. destruct (Nat.eq_dec i curr) as [->|N].
      + assert (u = p) by congruence. assert (v = q) by congruence. subst u v. destruct d; cbn; lia.
      + apply (Hi i); auto. lia.
    - exists curr. split; [reflexivity|]. split; [lia|]. intros; lia.
  Qed.

  Lemma chain_sorted d M : (forall i u v, (1 <= i < length M)%nat -> nth_error M (i - 1) = Some u -> nth_error M i = Some v -> inorder d u v) ->
    if d then sdesc M else sorted cmp M.
  Proof.
    induction M as [|x M IH]; intros H; [destruct d; exact I|].
    assert (IH' := IH ltac:(intros i u v Hi Hu Hv; apply (H (Datatypes.S i) u v); [cbn; lia| |exact Hv]; destruct i; [lia|]; cbn in *; rewrite Nat.sub_0_r in Hu; exact Hu)).
    assert (Hx : forall y, In y M -> inorder d x y).
    { destruct M as [|m M]; [contradiction|].
      assert (Hm : inorder d x m) by (apply (H 1%nat); cbn; auto; lia).
      intros y [<-|Hy]; [exact Hm|]. apply (inorder_trans d x m y Hm). destruct d; cbn in IH' |- *; apply IH'; exact Hy. }
    destruct d; cbn; (split; [exact Hx|exact IH']).
  Qed.

  Lemma count_run_spec P rest start size : rest <> [] -> start = length P -> size = length (P ++ rest) ->
    exists M R M', rest = M ++ R /\ M <> [] /\ count_run cmp (P ++ rest) start size = Ok (length M, P ++ M' ++ R) /\
      sorted cmp M' /\ steq M M'.
  Proof.
    intros Hne -> ->. unfold count_run. rewrite app_length.
    assert (Hr : (0 < length rest)%nat) by (destruct rest; [contradiction|cbn; lia]).
    destruct (Nat.eqb_spec (length P + length rest - length P) 1) as [E|E].
    { destruct rest as [|x [|y rest]]; [contradiction| |cbn in E; lia].
      exists [x], [], [x]. split; [reflexivity|]. split; [discriminate|]. split; [reflexivity|]. split; [apply sorted_one|apply steq_refl]. }
    destruct (Nat.leb_spec (length P + length rest - 2) (length P)) as [E2|E2].
    { destruct rest as [|x [|y [|z rest]]]; try (cbn in *; lia).
      cbn [length]. replace (length P + 2 - 2)%nat with (length P) by lia.
      rewrite aget_mid by reflexivity. cbn [bindr].
      replace (P ++ [x; y]) with ((P ++ [x]) ++ y :: []) by (rewrite <- app_assoc; reflexivity).
      rewrite aget_mid by (rewrite app_length; cbn; lia). cbn [bindr].
      destruct (Z.ltb_spec 0 (cmp x y)) as [E3|E3].
      - rewrite aset_mid by (rewrite app_length; cbn; lia). cbn [bindr]. rewrite <- app_assoc. cbn [app].
        rewrite aset_mid by reflexivity. cbn [bindr].
        exists [x; y], [], [y; x]. split; [reflexivity|]. split; [discriminate|]. split; [reflexivity|].
        apply (cmp_lt_gt cmp Hc) in E3. split.
        + split; [|apply sorted_one]. intros u [<-|[]]. lia.
        + apply (steq_move x [y]). intros g [<-|[]]. apply (cmp_lt_gt cmp Hc) in E3. lia.
      - exists [x; y], [], [x; y]. split; [reflexivity|]. split; [discriminate|]. split; [rewrite <- app_assoc; reflexivity|].
        split; [|apply steq_refl]. split; [|apply sorted_one]. intros u [<-|[]]. lia. }
    assert (Hfin : forall d p q c, aget (P ++ rest) (length P) = Ok p -> aget (P ++ rest) (length P + 1) = Ok q -> inorder d p q ->
      (length P + 2 <= c <= length P + length rest - 1)%nat ->
      (forall i u v, (length P + 2 <= i < c)%nat -> nth_error (P ++ rest) (i - 1) = Some u -> nth_error (P ++ rest) i = Some v -> inorder d u v) ->
      exists M R, rest = M ++ R /\ M <> [] /\ length M = (c - length P)%nat /\ (if d then sdesc M else sorted cmp M)).
    { intros d p q c Hp Hq Hpq Hcr Hi. exists (firstn (c - length P) rest), (skipn (c - length P) rest).
      split; [symmetry; apply firstn_skipn|].
      assert (Hl : length (firstn (c - length P) rest) = (c - length P)%nat) by (rewrite firstn_length; lia).
      split; [intros HH; rewrite HH in Hl; cbn in Hl; lia|]. split; [exact Hl|].
      apply chain_sorted. intros i u v Hil Hu Hv.
      assert (Hn : forall j w, nth_error (firstn (c - length P) rest) j = Some w -> nth_error (P ++ rest) (length P + j) = Some w).
      { intros j w Hw. rewrite nth_error_app2 by lia. replace (length P + j - length P)%nat with j by lia.
        rewrite <- (firstn_skipn (c - length P) rest). rewrite nth_error_app1; [exact Hw|]. apply nth_error_Some. congruence. }
      apply Hn in Hu, Hv. destruct (Nat.eq_dec i 1) as [->|N].
      - cbn in Hu. rewrite Nat.add_0_r in Hu. unfold aget in Hp, Hq. rewrite Hu in Hp. rewrite Hv in Hq. congruence.
      - apply (Hi (length P + i)%nat); auto; [lia|]. replace (length P + i - 1)%nat with (length P + (i - 1))%nat by lia. exact Hu. }
    destruct (aget_ok (P ++ rest) (length P)) as (p & Ep & _); [rewrite app_length; lia|].
    destruct (aget_ok (P ++ rest) (length P + 1)) as (q & Eq & _); [rewrite app_length; lia|].
    rewrite Ep, Eq. cbn [bindr].
    destruct (Z.leb_spec (cmp p q) 0) as [E3|E3].
    - destruct (run_scan_spec (length P + length rest) false (P ++ rest) (length P + 2) (length P + length rest)) as (c & -> & Hcr & Hi);
        try (rewrite ?app_length; lia).
      cbn [bindr]. destruct (Hfin false p q c Ep Eq E3 Hcr Hi) as (M & R & -> & HM & Hlen & Hs).
      exists M, R, M. rewrite Hlen. split; [reflexivity|]. split; [exact HM|]. split; [reflexivity|]. split; [exact Hs|apply steq_refl].
    - destruct (run_scan_spec (length P + length rest) true (P ++ rest) (length P + 2) (length P + length rest)) as (c & -> & Hcr & Hi);
        try (rewrite ?app_length; lia).
      cbn [bindr]. destruct (Hfin true p q c Ep Eq E3 Hcr Hi) as (M & R & -> & HM & Hlen & Hs).
      rewrite reverse_spec; [|rewrite app_length; lia|exact HM|reflexivity|lia]. cbn [bindr].
      destruct (sdesc_rev M Hs) as [Hs1 Hs2].
      exists M, R, (rev M). rewrite Hlen. split; [reflexivity|]. split; [exact HM|]. split; [reflexivity|]. split; assumption.
  Qed.

  (** *** merging *)
  Lemma sorted_cons x l : sorted cmp (x :: l) <-> (forall y, In y l -> cmp x y <= 0) /\ sorted cmp l.
  Proof. reflexivity. Qed.

  Lemma steq_cons x l l' : steq l l' -> steq (x :: l) (x :: l').
  Proof. intros H. apply (steq_app [x] [x]); [apply steq_refl|exact H]. Qed.

  Lemma merge_left_spec : forall n P Mg G Xd Xr Yr S i j k a last,
    n = (length Xr + length Yr)%nat -> length G = length Xr ->
    i = length Xd -> a = (length Xd + length Xr)%nat -> k = (length P + length Mg)%nat ->
    j = (k + length G)%nat -> last = (j + length Yr)%nat ->
    sorted cmp Xr -> sorted cmp Yr ->
    exists Z, merge_left cmp n (P ++ Mg ++ G ++ Yr ++ S) (Xd ++ Xr) i j k a last = Ok (P ++ Mg ++ Z ++ S) /\
      sorted cmp Z /\ steq (Xr ++ Yr) Z.
  Proof.
    induction n as [|n IH]; intros P Mg G Xd Xr Yr S i j k a last Hn HG Hi Ha Hk Hj Hlast HX HY.
    - destruct Xr; [|cbn in Hn; lia]. destruct Yr; [|cbn in Hn; lia]. destruct G; [|discriminate].
      exists []. cbn. split; [reflexivity|]. split; [exact I|apply steq_refl].
    - (* taking from Yr *)
      assert (HtakeY : forall y Yr', Yr = y :: Yr' -> (forall x, In x Xr -> cmp y x < 0) ->
        exists Z, (do d <- aset (P ++ Mg ++ G ++ Yr ++ S) k y ;; merge_left cmp n d (Xd ++ Xr) i (Datatypes.S j) (Datatypes.S k) a last)
                  = Ok (P ++ Mg ++ Z ++ S) /\ sorted cmp Z /\ steq (Xr ++ Yr) Z).
      { intros y Yr' -> Hlt.
        assert (exists G', length G' = length Xr /\ aset (P ++ Mg ++ G ++ (y :: Yr') ++ S) k y = Ok (P ++ (Mg ++ [y]) ++ G' ++ Yr' ++ S)) as (G' & HG' & ->).
        { destruct G as [|g G].
          - exists []. split; [exact HG|]. cbn. rewrite app_assoc. rewrite aset_mid by (rewrite app_length; lia).
            rewrite <- !app_assoc. reflexivity.
          - exists (G ++ [y]). split; [rewrite app_length in *; cbn in *; lia|].
            cbn [app]. rewrite app_assoc. rewrite aset_mid by (rewrite app_length; lia).
            rewrite <- !app_assoc. reflexivity. }
        cbn [bindr].
        destruct (IH P (Mg ++ [y]) G' Xd Xr Yr' S i (Datatypes.S j) (Datatypes.S k) a last) as (Z & HZ & HsZ & HeZ); auto; cbn in *; try lia.
        { rewrite app_length. cbn. lia. }
        { apply HY. }
        exists (y :: Z). split; [rewrite HZ; rewrite <- !app_assoc; reflexivity|].
        assert (Hst : steq (Xr ++ y :: Yr') (y :: Xr ++ Yr')).
        { replace (Xr ++ y :: Yr') with ((Xr ++ [y]) ++ Yr') by (rewrite <- app_assoc; reflexivity).
          apply (steq_app _ (y :: Xr)); [|apply steq_refl]. apply steq_sym, steq_move. intros g Hg. specialize (Hlt g Hg). lia. }
        split.
        - apply sorted_cons. split; [|exact HsZ]. intros u Hu. apply (steq_in _ _ u (steq_sym _ _ HeZ)) in Hu.
          apply in_app_or in Hu. destruct Hu as [Hu|Hu]; [specialize (Hlt u Hu); lia|]. apply HY. exact Hu.
        - apply steq_trans with (y :: Xr ++ Yr'); [exact Hst|]. apply steq_cons, HeZ. }
      assert (HtakeX : forall x Xr', Xr = x :: Xr' -> (forall y, In y Yr -> cmp x y <= 0) ->
        exists Z, (do d <- aset (P ++ Mg ++ G ++ Yr ++ S) k x ;; merge_left cmp n d (Xd ++ Xr) (Datatypes.S i) j (Datatypes.S k) a last)
                  = Ok (P ++ Mg ++ Z ++ S) /\ sorted cmp Z /\ steq (Xr ++ Yr) Z).
      { intros x Xr' -> Hle. destruct G as [|g G]; [discriminate|].
        cbn [app]. rewrite app_assoc. rewrite aset_mid by (rewrite app_length; lia). cbn [bindr].
        destruct (IH P (Mg ++ [x]) G (Xd ++ [x]) Xr' Yr S (Datatypes.S i) j (Datatypes.S k) a last) as (Z & HZ & HsZ & HeZ);
          auto; rewrite ?app_length; cbn in *; try lia.
        { apply HX. }
        exists (x :: Z). rewrite <- !app_assoc in *. cbn in *. split; [exact HZ|]. split.
        - split; [|exact HsZ]. intros u Hu. apply (steq_in _ _ u (steq_sym _ _ HeZ)) in Hu.
          apply in_app_or in Hu. destruct Hu as [Hu|Hu]; [apply HX; exact Hu|auto].
        - apply steq_cons, HeZ. }
      cbn [merge_left].
      assert (HgX : forall x Xr', Xr = x :: Xr' -> aget (Xd ++ Xr) i = Ok x) by (intros x Xr' ->; apply aget_mid; auto).
      assert (HgY : forall y Yr', Yr = y :: Yr' -> aget (P ++ Mg ++ G ++ Yr ++ S) j = Ok y).
      { intros y Yr' ->. cbn [app]. rewrite !app_assoc. apply aget_mid. rewrite !app_length. lia. }
      destruct Xr as [|x Xr]; destruct Yr as [|y Yr].
      + cbn in Hn. lia.
      + destruct (Nat.ltb_spec i a) as [E|E]; [cbn in *; lia|]. cbn [andb].
        rewrite (HgY y Yr eq_refl). cbn [bindr]. apply (HtakeY y Yr eq_refl). intros u [].
      + destruct (Nat.ltb_spec i a) as [E|E]; [|cbn in *; lia].
        destruct (Nat.ltb_spec j last) as [E'|E']; [cbn in *; lia|]. cbn [andb].
        rewrite (HgX x Xr eq_refl). cbn [bindr]. apply (HtakeX x Xr eq_refl). intros u [].
      + destruct (Nat.ltb_spec i a) as [E|E]; [|cbn in *; lia].
        destruct (Nat.ltb_spec j last) as [E'|E']; [|cbn in *; lia]. cbn [andb].
        rewrite (HgX x Xr eq_refl), (HgY y Yr eq_refl). cbn [bindr].
        destruct (Z.leb_spec (cmp x y) 0) as [Exy|Exy].
        * apply (HtakeX x Xr eq_refl). intros u [<-|Hu]; [exact Exy|]. apply (cmp_trans cmp Hc x y u); [exact Exy|]. apply HY; exact Hu.
        * apply (HtakeY y Yr eq_refl). apply (cmp_lt_gt cmp Hc) in Exy. intros u [<-|Hu]; [exact Exy|].
          apply (cmp_lt_le_trans cmp Hc y x u); [exact Exy|]. apply HX; exact Hu.
  Qed.

  Lemma sorted_snoc_iff l x : sorted cmp (l ++ [x]) <-> sorted cmp l /\ (forall y, In y l -> cmp y x <= 0).
  Proof.
    rewrite sorted_app. split.
    - intros (H1 & _ & H3). split; [exact H1|]. intros y Hy. apply H3; cbn; auto.
    - intros (H1 & H2). split; [exact H1|]. split; [apply sorted_one|]. intros u v Hu [<-|[]]. auto.
  Qed.

  Lemma snoc_cases l : l = [] \/ exists l' x, l = l' ++ [x].
  Proof. destruct l as [|x l _] using rev_ind; [left; reflexivity|right; eauto]. Qed.

  Lemma merge_right_spec : forall n P Mg G Yd Xr Yr S ri rj curr,
    n = (length Xr + length Yr)%nat -> length G = length Yr ->
    ri = length Yr -> rj = length Xr -> curr = length P ->
    sorted cmp Xr -> sorted cmp Yr ->
    exists Z, merge_right cmp n (P ++ Xr ++ G ++ Mg ++ S) (Yr ++ Yd) ri rj curr = Ok (P ++ Z ++ Mg ++ S) /\
      sorted cmp Z /\ steq (Xr ++ Yr) Z.
  Proof.
    induction n as [|n IH]; intros P Mg G Yd Xr Yr S ri rj curr Hn HG Hri Hrj Hcu HX HY.
    - destruct Xr; [|cbn in Hn; lia]. destruct Yr; [|cbn in Hn; lia]. destruct G; [|discriminate].
      exists []. cbn. split; [reflexivity|]. split; [exact I|apply steq_refl].
    - assert (HtakeX : forall x Xr', Xr = Xr' ++ [x] -> (forall y, In y Yr -> cmp y x < 0) ->
        exists Z, (do d <- aset (P ++ Xr ++ G ++ Mg ++ S) (curr + n) x ;; merge_right cmp n d (Yr ++ Yd) ri (rj - 1) curr)
                  = Ok (P ++ Z ++ Mg ++ S) /\ sorted cmp Z /\ steq (Xr ++ Yr) Z).
      { intros x Xr' -> Hlt. rewrite app_length in Hn, Hrj. cbn in Hn, Hrj.
        assert (exists G', length G' = length Yr /\ aset (P ++ (Xr' ++ [x]) ++ G ++ Mg ++ S) (curr + n) x = Ok (P ++ Xr' ++ G' ++ (x :: Mg) ++ S)) as (G' & HG' & ->).
        { destruct (snoc_cases G) as [->|(G0 & g & ->)].
          - exists []. split; [exact HG|]. rewrite <- app_assoc. cbn [app]. rewrite app_assoc.
            cbn in HG. rewrite aset_mid by (rewrite app_length; lia). rewrite <- !app_assoc. reflexivity.
          - exists (x :: G0). rewrite app_length in HG. cbn in HG. split; [cbn; lia|].
            replace (P ++ (Xr' ++ [x]) ++ (G0 ++ [g]) ++ Mg ++ S) with ((P ++ Xr' ++ x :: G0) ++ g :: Mg ++ S) by (repeat (rewrite <- app_assoc; cbn [app]); reflexivity).
            rewrite aset_mid by (rewrite !app_length; cbn; lia). rewrite <- !app_assoc. cbn. reflexivity. }
        cbn [bindr].
        apply sorted_snoc_iff in HX. destruct HX as [HX1 HX2].
        destruct (IH P (x :: Mg) G' Yd Xr' Yr S ri (rj - 1)%nat curr) as (Z & HZ & HsZ & HeZ); auto; try lia.
        exists (Z ++ [x]). rewrite <- !app_assoc in *. cbn in *. split; [exact HZ|].
        assert (Hst : steq (Xr' ++ x :: Yr) (Xr' ++ Yr ++ [x])).
        { apply steq_app; [apply steq_refl|]. apply steq_move. intros g Hg. specialize (Hlt g Hg). apply (cmp_lt_gt cmp Hc) in Hlt. lia. }
        split.
        - apply sorted_snoc_iff. split; [exact HsZ|]. intros u Hu. apply (steq_in _ _ u (steq_sym _ _ HeZ)) in Hu.
          apply in_app_or in Hu. destruct Hu as [Hu|Hu]; [auto|]. specialize (Hlt u Hu). lia.
        - apply steq_trans with (Xr' ++ Yr ++ [x]); [exact Hst|]. rewrite app_assoc. apply steq_app; [exact HeZ|apply steq_refl]. }
      assert (HtakeY : forall y Yr', Yr = Yr' ++ [y] -> (forall x, In x Xr -> cmp x y <= 0) ->
        exists Z, (do d <- aset (P ++ Xr ++ G ++ Mg ++ S) (curr + n) y ;; merge_right cmp n d (Yr ++ Yd) (ri - 1) rj curr)
                  = Ok (P ++ Z ++ Mg ++ S) /\ sorted cmp Z /\ steq (Xr ++ Yr) Z).
      { intros y Yr' -> Hle. rewrite app_length in Hn, Hri, HG. cbn in Hn, Hri, HG.
        destruct (snoc_cases G) as [->|(G0 & g & ->)]; [cbn in HG; lia|]. rewrite app_length in HG. cbn in HG.
        replace (P ++ Xr ++ (G0 ++ [g]) ++ Mg ++ S) with ((P ++ Xr ++ G0) ++ g :: Mg ++ S) by (rewrite <- !app_assoc; reflexivity).
        rewrite aset_mid by (rewrite !app_length; lia). cbn [bindr].
        apply sorted_snoc_iff in HY. destruct HY as [HY1 HY2].
        destruct (IH P (y :: Mg) G0 (y :: Yd) Xr Yr' S (ri - 1)%nat rj curr) as (Z & HZ & HsZ & HeZ); auto; try lia.
        exists (Z ++ [y]). rewrite <- !app_assoc in *. cbn in *. split; [exact HZ|]. split.
        - apply sorted_snoc_iff. split; [exact HsZ|]. intros u Hu. apply (steq_in _ _ u (steq_sym _ _ HeZ)) in Hu.
          apply in_app_or in Hu. destruct Hu as [Hu|Hu]; auto.
        - rewrite app_assoc. apply steq_app; [exact HeZ|apply steq_refl]. }
      assert (HgX : forall x Xr', Xr = Xr' ++ [x] -> aget (P ++ Xr ++ G ++ Mg ++ S) (curr + rj - 1) = Ok x).
      { intros x Xr' ->. rewrite <- app_assoc. cbn [app]. rewrite app_assoc. apply aget_mid. rewrite app_length in *. cbn in *. lia. }
      assert (HgY : forall y Yr', Yr = Yr' ++ [y] -> aget (Yr ++ Yd) (ri - 1) = Ok y).
      { intros y Yr' ->. rewrite <- app_assoc. apply aget_mid. rewrite app_length in *. cbn in *. lia. }
      cbn [merge_right].
      destruct (snoc_cases Xr) as [->|(Xr' & x & HXe)]; destruct (snoc_cases Yr) as [->|(Yr' & y & HYe)].
      + cbn in Hn. lia.
      + assert (0 < ri)%nat by (rewrite HYe, app_length in Hri; cbn in Hri; lia).
        destruct (Nat.ltb_spec 0 ri) as [E|E]; [|lia]. destruct (Nat.ltb_spec 0 rj) as [E'|E']; [cbn in *; lia|]. cbn [andb].
        rewrite (HgY y Yr' HYe). cbn [bindr]. apply (HtakeY y Yr' HYe). intros u [].
      + destruct (Nat.ltb_spec 0 ri) as [E|E]; [cbn in *; lia|]. cbn [andb].
        rewrite (HgX x Xr' HXe). cbn [bindr]. apply (HtakeX x Xr' HXe). intros u [].
      + assert (0 < ri)%nat by (rewrite HYe, app_length in Hri; cbn in Hri; lia).
        assert (0 < rj)%nat by (rewrite HXe, app_length in Hrj; cbn in Hrj; lia).
        destruct (Nat.ltb_spec 0 ri) as [E|E]; [|lia]. destruct (Nat.ltb_spec 0 rj) as [E'|E']; [|lia]. cbn [andb].
        rewrite (HgX x Xr' HXe), (HgY y Yr' HYe). cbn [bindr].
        assert (HX2 : forall u, In u Xr -> cmp u x <= 0).
        { rewrite HXe in HX |- *. apply sorted_snoc_iff in HX. intros u Hu. apply in_app_or in Hu. destruct Hu as [Hu|[<-|[]]]; [apply HX, Hu|].
          rewrite (cmp_refl cmp Hc). lia. }
        assert (HY2 : forall u, In u Yr -> cmp u y <= 0).
        { rewrite HYe in HY |- *. apply sorted_snoc_iff in HY. intros u Hu. apply in_app_or in Hu. destruct Hu as [Hu|[<-|[]]]; [apply HY, Hu|].
          rewrite (cmp_refl cmp Hc). lia. }
        destruct (Z.ltb_spec 0 (cmp x y)) as [Exy|Exy].
        * apply (HtakeX x Xr' HXe). apply (cmp_lt_gt cmp Hc) in Exy. intros u Hu. apply (cmp_le_lt_trans cmp Hc u y x); auto.
        * apply (HtakeY y Yr' HYe). intros u Hu. apply (cmp_trans cmp Hc u x y); auto.
  Qed.

  Lemma slice_mid P X S off n : off = length P -> n = length X -> slice (P ++ X ++ S) off n = Ok X.
  Proof.
    intros -> ->. unfold slice. destruct (Nat.leb_spec (length P + length X) (length (P ++ X ++ S))); [|rewrite !app_length in *; lia].
    f_equal. unfold sub. rewrite skipn_app, Nat.sub_diag, skipn_all. cbn. rewrite firstn_app, Nat.sub_diag, firstn_all. cbn. apply app_nil_r.
  Qed.

  Lemma merge_spec P X Y S ra rb : sorted cmp X -> sorted cmp Y -> ra = (length P, length X) -> snd rb = length Y ->
    exists Z, merge cmp (P ++ X ++ Y ++ S) ra rb = Ok (P ++ Z ++ S) /\ sorted cmp Z /\ steq (X ++ Y) Z.
  Proof.
    intros HX HY -> Hrb. unfold merge. cbn [fst snd]. rewrite Hrb.
    destruct (Nat.ltb_spec (length X) (length Y)).
    - rewrite slice_mid by reflexivity. cbn [bindr].
      destruct (merge_left_spec (length X + length Y) P [] X [] X Y S 0 (length P + length X) (length P) (length X) (length P + length X + length Y)) as (Z & HZ & H1 & H2);
        auto; cbn; try lia. exists Z. auto.
    - rewrite app_assoc. rewrite slice_mid by (rewrite ?app_length; reflexivity). cbn [bindr]. rewrite <- app_assoc.
      destruct (merge_right_spec (length X + length Y) P [] Y [] X Y S (length Y) (length X) (length P)) as (Z & HZ & H1 & H2); auto.
      rewrite app_nil_r in HZ. exists Z. auto.
  Qed.
End P.
